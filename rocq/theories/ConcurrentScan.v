(** * ConcurrentScan: a scan on the bus of the tests, everybody in a thread of their own *)
From Coq Require Import ZArith ZifyN ZifyNat ZifyBool Permutation.
From Verif Require Import Base Endian Error Checksum Bytestuff Packet Time Bus Data Client
  Instructions Device MockDevice Api Spec CallSpec StreamSpec DeviceSpec InstructionSpec Demo Lib ChecksumProofs
  CrcErrorProofs StuffProofs WriteProofs ReadProofs ApiProofs StreamProofs MessageProofs SendProofs
  SendTheorems ReadTheorems StatusProofs DeviceTheorems InstructionProofs DemoProofs TransferTheorems
  UnderstoodTheorems ScanTheorems RemoteSpec RemoteProofs RemoteTheorems EchoSpec EchoTheorems LateSpec LateTheorems
  FitTheorems ConformTheorems TestBus TestBusSpec TestBusTheorems ConcurrentSpec ConcurrentProofs ConcurrentTheorems ConcurrentResults
  ConcurrentExamples.
Ltac Zify.zify_post_hook ::= Z.div_mod_to_equations.

(** ** The client *)

(** Answers and timeouts. *)
Definition mark_items (k : option motor) : list item :=
  match k with Some m => map inl (sent_by OpScan m) | None => [inr (IoTimeout 0)] end.

Lemma scan_next_end : forall cap s, 16 <= cap -> hardy cap s -> pending s = [] -> fst (scan_next s) = Blocked.
Proof.
  intros cap s Hc H Pe. destruct (scan_next_hardy cap s H) as [t [o1 [s' [E [I _]]]]].
  rewrite Pe in I. pose proof (ha_rcap _ _ H) as Hr. unfold ideal in I.
  replace (length (b_rbuf s) <? 10) with false in I by lia. cbn in I. injection I as <- _. rewrite E. reflexivity.
Qed.

Lemma scan_items_end : forall cap ms s fuel, 16 <= cap -> hardy cap s ->
  pending s = map inl (concat (map (sent_by OpScan) ms)) -> fst (scan_items fuel s) = Blocked.
Proof.
  intros cap ms. induction ms as [|m ms IH]; intros s [|fuel] Hc H Pe; try reflexivity; cbn [map concat] in Pe; cbn [scan_items]; unfold bind at 1.
  - pose proof (scan_next_end cap s Hc H Pe) as K. destruct (scan_next s) as [o s1]. cbn in K. subst o. reflexivity.
  - rewrite map_app in Pe. destruct (scan_next_motor cap m s _ Hc H Pe) as [s1 [[W1 [W2 _]] P1]]. rewrite W1.
    unfold bind. pose proof (IH s1 fuel Hc W2 P1) as K. destruct (scan_items fuel s1) as [o s2]. cbn in K. subst o. reflexivity.
Qed.

Lemma scan_drop_ends : forall cap ks s fuel, 16 <= cap -> hardy cap s -> pending s = flat_map mark_items ks ->
  fst (scan_drop fuel s) = Blocked \/ exists b, fst (scan_drop fuel s) = Val b.
Proof.
  intros cap ks. induction ks as [|[m|] ks IH]; intros s [|fuel] Hc H Pe; try (right; eexists; reflexivity); cbn [flat_map mark_items] in Pe;
    cbn [scan_drop]; unfold bind.
  - left. pose proof (scan_next_end cap s Hc H Pe) as K. destruct (scan_next s) as [o s1]. cbn in K. subst o. reflexivity.
  - destruct (scan_next_motor cap m s _ Hc H Pe) as [s1 [[W1 [W2 _]] P1]]. rewrite W1. exact (IH s1 fuel Hc W2 P1).
  - destruct (scan_next_silence cap s _ _ Hc H Pe) as [s1 [[W1 [W2 _]] P1]]. rewrite W1. right. exists true. reflexivity.
Qed.

Lemma scan_started : forall cap s, 16 <= cap -> hardy cap s -> exists s1, hardy cap s1 /\ scan s = (Val (Ok tt), s1) /\
  pending s1 = incoming s /\ incoming s1 = incoming s /\ calls s s1 [LDiscard None; LWrite (wire (NReq OpScan)) None].
Proof.
  intros cap s Hc H.
  assert (Ps : passes comes_back cap [x01]) by (split; [cbn; lia|]; split; [reflexivity|exact I]).
  destruct (sends_works cap _ xfe x01 [] s (sends_instruction xfe x01 [] _ no_params_writes) H Ps) as [s1 [[W1 [W2 _]] [P1 [I1 Q]]]].
  exists s1. split; [exact W2|]. split; [exact W1|]. split; [exact P1|]. split; [exact I1|]. apply Q.
Qed.

Lemma scan_client_waits : forall cap ms s, 16 <= cap -> hardy cap s ->
  incoming s = map inl (concat (map (sent_by OpScan) ms)) -> exists s', perform_all [OpScan] s = ([], Blocked, s').
Proof.
  intros cap ms s Hc H Inc. destruct (scan_started cap s Hc H) as [s1 [H1 [E1 [P1 [I1 _]]]]]. rewrite Inc in P1.
  cbn [perform_all perform]. unfold scan_all, bind at 1. rewrite E1. unfold bind at 1, get. unfold bind.
  pose proof (scan_items_end cap ms s1 (S (script_size (p_script (b_port s1)))) Hc H1 P1) as K.
  destruct (scan_items (S (script_size (p_script (b_port s1)))) s1) as [o s2]. cbn [fst] in K. subst o. eauto.
Qed.

Lemma scan_client_ends : forall cap ms ks s, 16 <= cap -> hardy cap s ->
  incoming s = map inl (concat (map (sent_by OpScan) ms)) ++ inr (IoTimeout 0) :: flat_map mark_items ks ->
  exists rs x s', perform_all [OpScan] s = (rs, x, s') /\
    (rs = [] /\ x = Blocked \/ rs = [RepFound (Ok (map found ms))] /\ x = Val tt).
Proof.
  intros cap ms ks s Hc H Inc. destruct (scan_started cap s Hc H) as [s1 [H1 [E1 [P1 [I1 _]]]]]. rewrite Inc in P1, I1.
  destruct (scan_items_works cap ms s1 _ _ (S (script_size (p_script (b_port s1)))) Hc H1 P1) as [s2 [[W2 [H2 _]] P2]].
  { pose proof (items_size (p_script (b_port s1))) as L. unfold incoming in I1. rewrite I1, app_length, map_length in L.
    pose proof (sent_scan_length ms). lia. }
  cbn [perform_all perform]. unfold scan_all, bind at 1. rewrite E1. unfold bind at 1, get. unfold bind at 1. rewrite W2.
  unfold bind at 1. unfold bind.
  pose proof (scan_drop_ends cap ks s2 (S (b_rlen s2 + script_size (p_script (b_port s2)))) Hc H2 P2) as K.
  destruct (scan_drop (S (b_rlen s2 + script_size (p_script (b_port s2)))) s2) as [o s3]. cbn [fst] in K.
  destruct K as [->|[[|] ->]]; do 3 eexists; (split; [reflexivity|]); auto.
Qed.

(** It writes nothing but the request. *)
Definition speechless {A} (cap : nat) (m : M A) : Prop := forall s o s', hardy cap s -> m s = (o, s') ->
  hardy cap s' /\ exists evs, calls s s' evs /\ written evs = [].

Lemma speechless_lift : forall A cap (x : out A), speechless cap (lift x).
Proof. intros A cap x s o s' H E. injection E as _ <-. split; [exact H|]. exists []. split; [apply calls_same|reflexivity]. Qed.

Lemma speechless_bind : forall A B cap (m : M A) (k : A -> M B), speechless cap m -> (forall a, speechless cap (k a)) ->
  speechless cap (bind m k).
Proof.
  intros A B cap m k Hm Hk s o s' H E. unfold bind in E. destruct (m s) as [x s1] eqn:E1.
  destruct (Hm s x s1 H E1) as [H1 [e1 [C1 T1]]]. destruct x as [a|p|].
  - destruct (Hk a s1 o s' H1 E) as [H2 [e2 [C2 T2]]]. split; [exact H2|]. exists (e1 ++ e2).
    split; [eapply calls_app; eassumption|]. rewrite written_app, T1, T2. reflexivity.
  - injection E as _ <-. eauto.
  - injection E as _ <-. eauto.
Qed.

Lemma speechless_next : forall cap, speechless cap scan_next.
Proof.
  intros cap s o s' H E. destruct (scan_next_hardy cap s H) as [t [o1 [s2 [E2 [_ [T Iv]]]]]].
  rewrite E2 in E. injection E as _ <-. split; [apply (timed_hardy cap t s s2 T Iv H)|].
  destruct (timed_calls _ _ _ T) as [evs [C F]]. eexists. split; [exact C|]. cbn. apply written_reads, (reads_only _ _ F).
Qed.

Lemma speechless_items : forall cap n, speechless cap (scan_items n).
Proof.
  intros cap n. induction n as [|n IH]; cbn [scan_items]; [apply speechless_lift|].
  apply speechless_bind; [apply speechless_next|]. intros [x|]; [|apply (speechless_lift _ _ (Val _))].
  apply speechless_bind; [exact IH|]. intro l. apply (speechless_lift _ _ (Val _)).
Qed.

Lemma speechless_drop : forall cap n, speechless cap (scan_drop n).
Proof.
  intros cap n. induction n as [|n IH]; cbn [scan_drop]; [apply (speechless_lift _ _ (Val _))|].
  apply speechless_bind; [apply speechless_next|]. intros [x|]; [exact IH|apply (speechless_lift _ _ (Val _))].
Qed.

Lemma scan_client_written : forall cap c input evs, 16 <= cap -> hardy cap c -> client_program c [OpScan] input evs ->
  written evs = [wire (NReq OpScan)].
Proof.
  intros cap c input evs Hc H Cp. unfold client_program in Cp. set (s := set_script c input) in *.
  assert (Hs : hardy cap s) by apply hardy_script, H.
  destruct (scan_started cap s Hc Hs) as [s1 [H1 [E1 [_ [_ C1]]]]].
  cbn [perform_all perform] in Cp. unfold scan_all, bind at 1 in Cp. rewrite E1 in Cp.
  match type of Cp with context [match ?m s1 with _ => _ end] => assert (Q : speechless cap m); [|destruct (m s1) as [o s2] eqn:E2] end.
  { apply speechless_bind; [intros x o x' Hx E; injection E as _ <-; split; [exact Hx|]; exists []; split; [apply calls_same|reflexivity]|].
    intro x. apply speechless_bind; [apply speechless_items|]. intro l.
    apply speechless_bind; [intros y o y' Hy E; injection E as _ <-; split; [exact Hy|]; exists []; split; [apply calls_same|reflexivity]|].
    intro y. apply speechless_bind; [apply speechless_drop|]. intros [|]; [apply (speechless_lift _ _ (Val _))|apply speechless_lift]. }
  destruct (Q s1 o s2 H1 E2) as [_ [e2 [C2 W2]]].
  assert (K : calls s s2 evs) by (destruct o; exact Cp).
  rewrite (calls_inj _ _ _ _ K (calls_app _ _ _ _ _ C1 C2)), written_app, W2. reflexivity.
Qed.

(** ** What is on the bus *)

Record scanning (cap : nat) (ds : list node) (ms : list motor) (tr : list bus_event) (n : net) (T : list said_note) : Prop := mkScanning {
  sg_said : said tr = map on_wire T;
  sg_client : by_ 0 T = [] \/ by_ 0 T = [NReq OpScan];
  sg_motor : forall i m, nth_error ms i = Some m -> by_ (S i) T = [] \/ by_ (S i) T = [answer_note OpScan m];
  sg_from : forall x, In x T -> fst x <= length ms;
  sg_heard : exists gs cur, gathers (map m_id ms) T tr n 0 gs cur;
  sg_device : forall i m d, nth_error ms i = Some m -> nth_error ds i = Some d -> device_state cap (map m_id ms) T tr n i m d;
}.

Lemma scan_responds : forall m, responds OpScan m = true.
Proof. intro m. cbn [responds]. unfold packet_id_for. cbn [target]. apply addressed_all. Qed.

Lemma scan_sent : forall m, sent_by OpScan m = wire (answer_note OpScan m).
Proof. intro m. unfold sent_by. rewrite scan_responds. reflexivity. Qed.

Lemma scanning_labelled : forall cap ds ms tr n T, scanning cap ds ms tr n T -> Forall labelled T.
Proof.
  intros cap ds ms tr n T [S1 S2 S3 S4 S5 S6]. apply Forall_forall. intros [f v] Hx. pose proof (by_in _ _ Hx) as Hb. cbn [fst snd] in Hb.
  pose proof (S4 _ Hx) as Lf. cbn [fst] in Lf. unfold labelled. cbn [fst snd]. destruct f as [|i].
  - destruct S2 as [E|E]; rewrite E in Hb; [destruct Hb|destruct Hb as [<-|[]]]. reflexivity.
  - destruct (nth_error ms i) as [m|] eqn:Em; [|apply nth_error_None in Em; lia].
    destruct (S3 i m Em) as [E|E]; rewrite E in Hb; [destruct Hb|destruct Hb as [<-|[]]]. cbn. discriminate.
Qed.

Lemma scanning_ok : forall cap ds ms tr n T, 16 <= cap -> scanning cap ds ms tr n T -> forall x, In x T -> note_ok cap (snd x).
Proof.
  intros cap ds ms tr n T Hc [S1 S2 S3 S4 S5 S6] [f v] Hx. pose proof (by_in _ _ Hx) as Hb. cbn [fst snd] in Hb.
  pose proof (S4 _ Hx) as Lf. cbn [fst] in Lf. cbn [snd]. destruct f as [|i].
  - destruct S2 as [E|E]; rewrite E in Hb; [destruct Hb|destruct Hb as [<-|[]]]. pose proof (scan_possible cap ms Hc) as [A [B _]]. cbn. split; [exact B|eauto].
  - destruct (nth_error ms i) as [m|] eqn:Em; [|apply nth_error_None in Em; lia].
    destruct (S3 i m Em) as [E|E]; rewrite E in Hb; [destruct Hb|destruct Hb as [<-|[]]]. cbn. split; [cbn; lia|]. split; [reflexivity|exact I].
Qed.

(** A motor gets the request once. *)
Lemma scanning_reqs : forall cap ds ms tr n T e gs cur, scanning cap ds ms tr n T -> gathers (map m_id ms) T tr n e gs cur -> e <> 0 ->
  exists more, by_ 0 T = map NReq (reqs (map snd (all_of gs))) ++ map NReq (reqs (map snd cur)) ++ more.
Proof.
  intros cap ds ms tr n T e gs cur Sg G Ne. destruct (ga_by _ _ _ _ _ _ _ G 0 ltac:(lia) ltac:(lia)) as [rest [R1 _]].
  exists rest. rewrite R1, <- reqs_by, map_app, reqs_app, map_app, <- app_assoc; [reflexivity|].
  apply Forall_forall. intros x Hx. pose proof (scanning_labelled _ _ _ _ _ _ Sg) as F. rewrite Forall_forall in F.
  apply F, (gathers_in _ _ _ _ _ _ _ _ G Hx).
Qed.

Lemma one_scan : forall l more (T0 : list note), T0 = [] \/ T0 = [NReq OpScan] -> T0 = map NReq l ++ more -> l = [] \/ l = [OpScan].
Proof.
  intros l more T0 [->| ->] E; (destruct l as [|o l]; [auto|]); [discriminate E|]. cbn in E. injection E as <- E. destruct l; [auto|discriminate E].
Qed.

(** A motor writes its answer if it has got the request. *)
Lemma scanning_device : forall cap c ds ms tr n T i m d gs cur, connected cap c ds ms -> scanning cap ds ms tr n T ->
  nth_error ms i = Some m -> nth_error ds i = Some d -> gathers (map m_id ms) T tr n (S i) gs cur ->
  Forall (chunk_ok cap (length (b_rbuf (n_bus d)))) (map bare gs) -> Forall (calm_chunk m) (map bare gs) ->
  (exists evs, mock_run (n_id d) (state_of m) (set_script (n_bus d) (reads (S i) tr)) evs (state_of m) Blocked) /\
  forall evs, device_program d (reads (S i) tr) evs -> written evs = [] \/ written evs = [wire (answer_note OpScan m)].
Proof.
  intros cap c ds ms tr n T i m d gs cur Cn Sg Em Ed G Ok Ca.
  destruct (connected_device _ _ _ _ _ _ Cn Em) as [d' [Ed' [Rd [Pd Im]]]]. rewrite Ed in Ed'. injection Ed' as <-.
  destruct (scanning_reqs _ _ _ _ _ _ _ _ _ Sg G ltac:(lia)) as [more Eq].
  pose proof (one_scan _ _ _ (sg_client _ _ _ _ _ _ Sg) Eq) as K. set (k := reqs (map snd (all_of gs))) in *.
  assert (P : all_possible comes_back cap ms k).
  { destruct K as [->| ->]; [exact I|]. split; [apply scan_possible, Cn|exact I]. }
  destruct (device_acts cap tr i m d ms gs k (proj1 Cn) Rd Pd Im (nth_error_In _ _ Em) (ga_reads _ _ _ _ _ _ _ G) Ok Ca eq_refl P) as [Ru Wr].
  assert (A : after_ops k m = m) by (destruct K as [->| ->]; reflexivity). rewrite A in Ru. split; [exact Ru|].
  intros evs Dp. destruct (Wr evs Dp) as [-> _]. destruct K as [->| ->]; [left; reflexivity|right].
  cbn [replies]. unfold reply1. rewrite scan_responds, scan_sent. reflexivity.
Qed.

Lemma scanning_device_step : forall cap c ds ms tr n ev n' T T' i m d, connected cap c ds ms ->
  test_run c ds [OpScan] (tr ++ [ev]) -> acts (map m_id ms) tr n -> bus_step (map m_id ms) n ev n' -> scanning cap ds ms tr n T ->
  match ev with TWrite g data => exists x, T' = T ++ [(g, x)] /\ wire x = data | _ => T' = T end ->
  nth_error ms i = Some m -> nth_error ds i = Some d -> device_state cap (map m_id ms) T' (tr ++ [ev]) n' i m d.
Proof.
  intros cap c ds ms tr n ev n' T T' i m d Cn Tr A St Sg HT Em Ed.
  destruct (sg_device _ _ _ _ _ _ Sg i m d Em Ed) as [gs [cur [G [Ok Ca]]]].
  assert (Li : S i <= length (map m_id ms)) by (rewrite map_length; apply nth_error_Some; congruence).
  pose proof Cn as [Hc [_ [_ [_ [Nd _]]]]].
  destruct (gathers_step _ _ tr n ev n' (S i) gs cur T' Nd Li A G St HT) as [cur' G'].
  exists (gs ++ new_group (S i) ev cur), cur'. split; [exact G'|]. rewrite map_app.
  destruct ev as [g data|g t|g|g room bs|g|g|g]; cbn [new_group] in *; try (rewrite !app_nil_r; split; assumption).
  2:{ destruct (g =? S i); [|rewrite !app_nil_r; split; assumption]. split; apply Forall_app; (split; [assumption|repeat constructor]). }
  destruct (g =? S i) eqn:Eg; [|rewrite !app_nil_r; split; assumption]. apply Nat.eqb_eq in Eg. subst g. subst T'.
  destruct (connected_device _ _ _ _ _ _ Cn Em) as [d' [Ed' [Rd [Pd Im]]]]. rewrite Ed in Ed'. injection Ed' as <-.
  split; (apply Forall_app; split; [assumption|constructor; [|constructor]]); cbn [bare option_map].
  - split; [|split].
    + intro K. apply map_eq_nil in K. exact (ga_full _ _ _ _ _ _ _ G' cur ltac:(apply in_or_app; right; left; reflexivity) K).
    + apply Forall_forall. intros x H. apply in_map_iff in H. destruct H as [y [<- H]].
      apply (scanning_ok _ _ _ _ _ _ Hc Sg), (gathers_in _ _ _ _ _ _ _ _ G). apply in_or_app. right. exact H.
    + destruct (plays_written (S i) (device_program d) (tr ++ [TRead (S i) room bs]) []) as [evs [ahead [Dp [_ V]]]].
      { rewrite app_nil_r. exact (proj2 Tr i d Ed). }
      assert (Hin : In (TRead (S i) room bs) (flat_map (visible (S i)) evs)).
      { rewrite V, moves_snoc. unfold moves at 2. cbn [filter]. rewrite Nat.eqb_refl. apply in_or_app. left.
        apply in_or_app. right. left. reflexivity. }
      apply in_flat_map in Hin. destruct Hin as [ie [Hie Hv]].
      destruct Dp as [st [st' [o [_ Ru]]]].
      pose proof (run_rooms _ _ _ _ _ _ Ru (ha_inv _ _ (hardy_script cap _ _ (ready_hardy _ _ Rd)))) as F.
      rewrite Forall_forall in F. specialize (F ie Hie).
      assert (Hr : room <= length (b_rbuf (n_bus d))).
      { destruct ie as [|w [e|]| |dl k [b|e]| |]; cbn [visible] in Hv; try contradiction;
          destruct Hv as [Hv|[]]; try discriminate Hv. injection Hv as <- _. exact F. }
      rewrite <- (ga_waits _ _ _ _ _ _ _ G). inversion St; subst. unfold waiting. lia.
  - intros a r b E Re. destruct (scanning_reqs _ _ _ _ _ _ _ _ _ Sg G ltac:(lia)) as [more Eq].
    rewrite E, (reqs_app a) in Eq. cbn [reqs flat_map app] in Eq. fold (reqs b) in Eq.
    destruct (reqs b) as [|x b']; [reflexivity|exfalso].
    destruct (sg_client _ _ _ _ _ _ Sg) as [K|K]; rewrite K in Eq; apply (f_equal (@length _)) in Eq;
      rewrite !app_length, !map_length, app_length in Eq; cbn [length] in Eq; lia.
Qed.

Lemma scanning_step : forall cap c ds ms tr n ev n' T, connected cap c ds ms ->
  test_run c ds [OpScan] (tr ++ [ev]) -> acts (map m_id ms) tr n -> bus_step (map m_id ms) n ev n' -> scanning cap ds ms tr n T ->
  exists T', scanning cap ds ms (tr ++ [ev]) n' T'.
Proof.
  intros cap c ds ms tr n ev n' T Cn Tr A St Sg. pose proof Sg as [S1 S2 S3 S4 [gs [cur S5]] S6].
  pose proof Cn as [Hc [Rc [_ [_ [Nd _]]]]].
  assert (K : exists T', match ev with TWrite g data => exists x, T' = T ++ [(g, x)] /\ wire x = data | _ => T' = T end /\
    (by_ 0 T' = [] \/ by_ 0 T' = [NReq OpScan]) /\
    (forall i m, nth_error ms i = Some m -> by_ (S i) T' = [] \/ by_ (S i) T' = [answer_note OpScan m]) /\
    (forall x, In x T' -> fst x <= length ms)).
  { destruct ev as [g data|g t|g|g room bs|g|g|g]; try (exists T; auto; fail). destruct g as [|i].
    - destruct (plays_written 0 (client_program c [OpScan]) (tr ++ [TWrite 0 data]) []) as [evs [ahead [Cp [W _]]]].
      { rewrite app_nil_r. exact (proj1 Tr). }
      rewrite (scan_client_written cap c _ evs Hc (ready_hardy _ _ Rc) Cp) in W.
      rewrite said_snoc, of_sender_app, of_sender_one, S1, of_sender_wire in W. cbn [Nat.eqb] in W.
      destruct S2 as [E|E]; rewrite E in W; cbn [map app] in W; [|apply (f_equal (@length _)) in W; cbn [length] in W; lia].
      injection W as <- _. exists (T ++ [(0, NReq OpScan)]). split; [eauto|]. split; [|split].
      + right. rewrite by_app, E. reflexivity.
      + intros i m Em. rewrite by_app. cbn. rewrite app_nil_r. exact (S3 i m Em).
      + intros x Hx. apply in_app_or in Hx. destruct Hx as [Hx|[<-|[]]]; [exact (S4 x Hx)|cbn; lia].
    - assert (Li : i < length ms). { inversion St; subst. rewrite map_length in *. lia. }
      destruct (nth_error ms i) as [m|] eqn:Em; [|apply nth_error_None in Em; lia].
      destruct (connected_device _ _ _ _ _ _ Cn Em) as [d [Ed _]].
      destruct (S6 i m d Em Ed) as [gs0 [cur0 [G [Ok Ca]]]].
      destruct (plays_written (S i) (device_program d) (tr ++ [TWrite (S i) data]) []) as [evs [ahead [Dp [W _]]]].
      { rewrite app_nil_r. exact (proj2 Tr i d Ed). }
      rewrite reads_snoc, app_nil_r in Dp.
      destruct (scanning_device cap c ds ms tr n T i m d gs0 cur0 Cn Sg Em Ed G Ok Ca) as [_ Wr].
      rewrite said_snoc, of_sender_app, of_sender_one, Nat.eqb_refl, S1, of_sender_wire in W.
      destruct (Wr evs Dp) as [E0|E0]; rewrite E0 in W; [destruct (map wire (by_ (S i) T)); discriminate W|].
      destruct (S3 i m Em) as [E|E]; rewrite E in W; cbn [map app] in W; [|apply (f_equal (@length _)) in W; cbn [length] in W; lia].
      injection W as <- _. exists (T ++ [(S i, answer_note OpScan m)]). split; [eauto|]. split; [|split].
      + rewrite by_app. cbn. rewrite app_nil_r. exact S2.
      + intros k m' Em'. rewrite by_app, by_one. destruct (S i =? S k) eqn:Ek; [|rewrite app_nil_r; exact (S3 k m' Em')].
        apply Nat.eqb_eq in Ek. injection Ek as <-. rewrite Em in Em'. injection Em' as <-. rewrite E. auto.
      + intros x Hx. apply in_app_or in Hx. destruct Hx as [Hx|[<-|[]]]; [exact (S4 x Hx)|cbn; lia]. }
  destruct K as [T' [HT [K1 [K2 K3]]]]. exists T'. constructor; auto.
  - rewrite said_snoc. destruct ev; try (subst T'; rewrite app_nil_r; exact S1).
    destruct HT as [x [-> <-]]. rewrite map_app, S1. reflexivity.
  - destruct (gathers_step _ _ tr n ev n' 0 gs cur T' Nd ltac:(lia) A S5 St HT) as [cur' G']. eauto.
  - intros i m d Em Ed. exact (scanning_device_step cap c ds ms tr n ev n' T T' i m d Cn Tr A St Sg HT Em Ed).
Qed.

Lemma run_scanning : forall cap c ds ms tr n, connected cap c ds ms -> bus_run (map m_id ms) tr n -> test_run c ds [OpScan] tr ->
  exists T, scanning cap ds ms tr n T.
Proof.
  intros cap c ds ms tr n Cn R. induction R as [|tr n ev n' R IH St]; intro Tr.
  - exists []. constructor; [reflexivity|auto|auto|intros x []| |].
    + exists [], []. apply gathers_start.
    + intros i m d _ _. exists [], []. split; [apply gathers_start|]. split; constructor.
  - destruct IH as [T Sg].
    + destruct Tr as [T1 T2]. split; [exact (plays_prefix _ _ _ _ T1)|]. intros i d E. exact (plays_prefix _ _ _ _ (T2 i d E)).
    + exact (scanning_step cap c ds ms tr n ev n' T Cn Tr (run_acts _ _ _ R) St Sg).
Qed.

(** ** The result *)

Definition motors (ms : list motor) (l : list said_note) : list motor :=
  flat_map (fun x => match nth_error ms (pred (fst x)) with Some m => [m] | None => [] end) l.
Definition marks (ms : list motor) (gs : list group) : list (option motor) :=
  flat_map (fun g => match g with Some l => map Some (motors ms l) | None => [None] end) gs.

(** Answers of motors. *)
Definition pongs (ms : list motor) (l : list said_note) : Prop :=
  Forall (fun x => exists i m, fst x = S i /\ nth_error ms i = Some m /\ snd x = answer_note OpScan m) l.

Lemma pongs_heard : forall cap ds ms tr n T gs cur, scanning cap ds ms tr n T -> gathers (map m_id ms) T tr n 0 gs cur -> pongs ms (all_of gs).
Proof.
  intros cap ds ms tr n T gs cur Sg G. apply Forall_forall. intros [f v] Hx.
  assert (Hx' : In (f, v) (all_of gs ++ cur)) by (apply in_or_app; auto).
  destruct (ga_from _ _ _ _ _ _ _ G _ Hx') as [Lf Nf]. cbn [fst snd] in *. rewrite map_length in Lf.
  destruct f as [|i]; [contradiction|]. destruct (nth_error ms i) as [m|] eqn:Em; [|apply nth_error_None in Em; lia].
  exists i, m. split; [reflexivity|]. split; [exact Em|]. pose proof (by_in _ _ (gathers_in _ _ _ _ _ _ _ _ G Hx')) as Hb. cbn [fst snd] in Hb.
  destruct (sg_motor _ _ _ _ _ _ Sg i m Em) as [E|E]; rewrite E in Hb; [destruct Hb|destruct Hb as [<-|[]]]. reflexivity.
Qed.

Lemma pongs_wires : forall ms l, pongs ms l -> wires (map snd l) = concat (map (sent_by OpScan) (motors ms l)).
Proof.
  intros ms l F. induction F as [|[f v] l [i [m [E1 [E2 E3]]]] F IH]; [reflexivity|]. cbn [fst snd] in *. subst f v.
  cbn [map snd motors flat_map fst pred]. rewrite E2. unfold wires in *. cbn [map concat app]. rewrite scan_sent. f_equal. exact IH.
Qed.

Lemma sent_marks : forall ms, flat_map mark_items (map Some ms) = map inl (concat (map (sent_by OpScan) ms)).
Proof. induction ms as [|m ms IH]; [reflexivity|]. cbn [map flat_map concat mark_items]. rewrite map_app, IH. reflexivity. Qed.

Lemma pongs_items : forall ms gs, pongs ms (all_of gs) -> items (map (fun g => chunk (bare g)) gs) = flat_map mark_items (marks ms gs).
Proof.
  intros ms gs. induction gs as [|[l|] gs IH]; intro F; [reflexivity| |].
  - cbn [all_of flat_map] in F. apply Forall_app in F. destruct F as [F1 F2]. cbn [map bare option_map chunk items marks flat_map].
    rewrite flat_map_app, sent_marks, (IH F2), (pongs_wires ms l F1). reflexivity.
  - cbn [map bare option_map chunk items marks flat_map app mark_items]. rewrite (IH F). reflexivity.
Qed.

Lemma motors_app : forall ms a b, motors ms (a ++ b) = motors ms a ++ motors ms b.
Proof. intros. apply flat_map_app. Qed.

(** Reads without a timeout. *)
Lemma pongs_no_timeout : forall ms gs, pongs ms (all_of gs) -> ~ In None gs ->
  items (map (fun g => chunk (bare g)) gs) = map inl (concat (map (sent_by OpScan) (motors ms (all_of gs)))).
Proof.
  intros ms gs F N. rewrite (pongs_items ms gs F), <- sent_marks. f_equal. clear F. induction gs as [|[l|] gs IH].
  - reflexivity.
  - cbn [marks all_of flat_map]. rewrite motors_app, map_app. f_equal. apply IH. intro K. apply N. right. exact K.
  - exfalso. apply N. left. reflexivity.
Qed.

Lemma motors_in : forall ms l m, In m (motors ms l) -> In m ms.
Proof.
  intros ms l m H. apply in_flat_map in H. destruct H as [x [_ H]]. destruct (nth_error ms (pred (fst x))) eqn:E; [|destruct H].
  destruct H as [<-|[]]. exact (nth_error_In _ _ E).
Qed.

Lemma motors_once : forall ms l, NoDup (map m_id ms) -> pongs ms l -> (forall f, length (by_ f l) <= 1) -> NoDup (map m_id (motors ms l)).
Proof.
  intros ms l Nd F. induction F as [|[f v] l [i [m [E1 [E2 E3]]]] F IH]; intro L; [constructor|]. cbn [fst snd] in *. subst f v.
  cbn [motors flat_map fst pred]. rewrite E2. cbn [app map]. constructor.
  - intro K. apply in_map_iff in K. destruct K as [m' [Em Hin]]. apply in_flat_map in Hin. destruct Hin as [x [Hx Hm]].
    unfold pongs in F. rewrite Forall_forall in F. destruct (F x Hx) as [j [mj [J1 [J2 J3]]]]. rewrite J1 in Hm. cbn [pred] in Hm. rewrite J2 in Hm.
    destruct Hm as [<-|[]]. assert (j = i).
    { apply (proj1 (NoDup_nth_error (map m_id ms)) Nd); [rewrite map_length; apply nth_error_Some; congruence|].
      rewrite !nth_error_map, J2, E2. cbn. congruence. }
    subst j. specialize (L (S i)). rewrite by_cons in L. cbn [fst] in L. rewrite Nat.eqb_refl, app_length in L. cbn [length] in L.
    pose proof (by_in x l Hx) as Hb. rewrite J1 in Hb. destruct (by_ (S i) l); [destruct Hb|cbn [length] in L; lia].
  - apply IH. intro f. specialize (L f). rewrite by_cons, app_length in L. lia.
Qed.

Lemma reads_app : forall e a b, reads e (a ++ b) = reads e a ++ reads e b.
Proof. intros. apply flat_map_app. Qed.

Lemma reads_patient : forall gs tr, reads 0 tr = map (fun g => chunk (bare g)) gs -> ~ In (TTimedOut 0) tr -> ~ In None gs.
Proof.
  intros gs tr E N K. assert (K' : In (RdErr (IoTimeout 0)) (reads 0 tr)).
  { rewrite E. apply in_map_iff. exists None. auto. }
  apply in_flat_map in K'. destruct K' as [ev [He Hv]]. destruct ev as [f d|f t|f|f r bs|f|f|f]; try destruct Hv.
  - destruct (f =? 0); [destruct Hv as [Hv|[]]; discriminate Hv|destruct Hv].
  - destruct (f =? 0) eqn:Ef; [|destruct Hv]. apply Nat.eqb_eq in Ef. subst f. exact (N He).
Qed.

Lemma heard_reads : forall gs tr, reads 0 tr = map (fun g => chunk (bare g)) gs -> heard 0 tr = wires (map snd (all_of gs)).
Proof.
  intros gs tr E.
  assert (K : heard 0 tr = flat_map (fun r => match r with RdData bs => bs | RdErr _ => [] end) (reads 0 tr)).
  { clear E. induction tr as [|ev tr IH]; [reflexivity|]. unfold heard, reads in *. cbn [flat_map]. rewrite flat_map_app, <- IH. f_equal.
    destruct ev as [f d|f t|f|f r bs|f|f|f]; try reflexivity; destruct (f =? 0); cbn; rewrite ?app_nil_r; reflexivity. }
  rewrite K, E. clear. induction gs as [|[l|] gs IH]; [reflexivity| |exact IH].
  cbn [map bare option_map chunk flat_map all_of]. rewrite map_app, wires_app, IH. reflexivity.
Qed.

Lemma first_timeout : forall tr, ~ In (TTimedOut 0) tr \/ exists past future, tr = past ++ TTimedOut 0 :: future /\ ~ In (TTimedOut 0) past.
Proof.
  induction tr as [|ev tr [IH|[past [future [-> N]]]]].
  - left. intros [].
  - assert (D : ev = TTimedOut 0 \/ ev <> TTimedOut 0).
    { destruct ev as [f d|f t|f|f r bs|f|f|f]; try (right; discriminate). destruct f; [left; reflexivity|right; discriminate]. }
    destruct D as [->|D]; [right; exists [], tr; split; [reflexivity|intros []]|]. left. intros [K|K]; auto.
  - assert (D : ev = TTimedOut 0 \/ ev <> TTimedOut 0).
    { destruct ev as [f d|f t|f|f r bs|f|f|f]; try (right; discriminate). destruct f; [left; reflexivity|right; discriminate]. }
    right. destruct D as [->|D]; [exists [], (past ++ TTimedOut 0 :: future); split; [reflexivity|intros []]|].
    exists (ev :: past), future. split; [reflexivity|]. intros [K|K]; auto.
Qed.

Lemma pong_frames : forall ms, Forall2 (fun m w => is_frame (m_id m) [x55; x00; x0a; x14; x2e] w) ms (map (sent_by OpScan) ms).
Proof.
  induction ms as [|m ms IH]; [constructor|]. cbn [map]. constructor; [|exact IH]. rewrite scan_sent. cbn [wire answer_note status_for fst snd].
  apply (passes_frame 16). split; [cbn; lia|]. split; [reflexivity|]. vm_compute. exact I.
Qed.

Lemma step_fun : forall ids n ev n1, bus_step ids n ev n1 -> forall n2, bus_step ids n ev n2 -> n1 = n2.
Proof. intros ids n ev n1 S1 n2 S2. inversion S1; subst; inversion S2; subst; try reflexivity; congruence. Qed.

Lemma run_fun : forall ids tr n1, bus_run ids tr n1 -> forall n2, bus_run ids tr n2 -> n1 = n2.
Proof.
  intros ids tr n1 R. induction R as [|tr n ev n' R IH St]; intros n2 R2.
  - inversion R2 as [|tr' n ev n' R' St' E]; [reflexivity|]. destruct tr'; discriminate E.
  - inversion R2 as [E|tr' m ev' m' R' St' E]; [destruct tr; discriminate|]. apply app_inj_tail in E. destruct E as [-> ->].
    specialize (IH m R'). subst m. exact (step_fun _ _ _ _ St _ St').
Qed.

Lemma L_C78_scan : forall cap c ds ms tr n, connected cap c ds ms -> bus_run (map m_id ms) tr n -> test_run c ds [OpScan] tr ->
  exists rs x s, perform_all [OpScan] (set_script c (reads 0 tr)) = (rs, x, s) /\
    (rs = [] /\ x = Blocked \/
     x = Val tt /\ exists past future some ws, tr = past ++ TTimedOut 0 :: future /\ ~ In (TTimedOut 0) past /\
       heard 0 past = concat ws /\ Forall2 (fun m w => is_frame (m_id m) [x55; x00; x0a; x14; x2e] w) some ws /\
       rs = [RepFound (Ok (map found some))] /\
       NoDup (map m_id some) /\ incl some ms /\
       forall n1, bus_run (map m_id ms) past n1 -> waiting n1 0 = [] ->
         (forall i, i < length ms -> busy (S i) past = false /\ exists w, In (S i, w) (said past)) -> Permutation some ms) /\
    forall i m d, nth_error ms i = Some m -> nth_error ds i = Some d ->
      exists evs, mock_run (n_id d) (state_of m) (set_script (n_bus d) (reads (S i) tr)) evs (state_of m) Blocked.
Proof.
  intros cap c ds ms tr n Cn R Tr. pose proof Cn as [Hc [Rc [_ [_ [Nd _]]]]].
  destruct (run_scanning cap c ds ms tr n Cn R Tr) as [T Sg].
  assert (Dv : forall i m d, nth_error ms i = Some m -> nth_error ds i = Some d ->
      exists evs, mock_run (n_id d) (state_of m) (set_script (n_bus d) (reads (S i) tr)) evs (state_of m) Blocked).
  { intros i m d Em Ed. destruct (sg_device _ _ _ _ _ _ Sg i m d Em Ed) as [gs [cur [G [Ok Ca]]]].
    apply (scanning_device cap c ds ms tr n T i m d gs cur Cn Sg Em Ed G Ok Ca). }
  destruct (sg_heard _ _ _ _ _ _ Sg) as [gs [cur G]]. pose proof (pongs_heard _ _ _ _ _ _ _ _ Sg G) as Po.
  set (s := set_script c (reads 0 tr)). assert (Hs : hardy cap s) by apply hardy_script, ready_hardy, Rc.
  assert (Inc : incoming s = items (reads 0 tr)) by reflexivity.
  destruct (first_timeout tr) as [Nt|[past [future [Et Nt]]]].
  - rewrite (ga_reads _ _ _ _ _ _ _ G), (pongs_no_timeout ms gs Po) in Inc by (apply (reads_patient gs tr); [apply G|exact Nt]).
    destruct (scan_client_waits cap _ s Hc Hs Inc) as [s' E]. exists [], Blocked, s'. auto.
  - destruct (run_split (map m_id ms) (TTimedOut 0 :: future) past n) as [n1 [R1 _]]; [rewrite <- Et; exact R|].
    destruct (run_scanning cap c ds ms past n1 Cn R1) as [T1 Sg1].
    { rewrite Et in Tr. destruct Tr as [A B]. split; [exact (plays_prefix _ _ _ _ A)|]. intros i d E. exact (plays_prefix _ _ _ _ (B i d E)). }
    destruct (sg_heard _ _ _ _ _ _ Sg1) as [gs1 [cur1 G1]]. pose proof (pongs_heard _ _ _ _ _ _ _ _ Sg1 G1) as Po1.
    pose proof (ga_reads _ _ _ _ _ _ _ G) as Er. rewrite Et, reads_app in Er. symmetry in Er. apply map_eq_app in Er.
    destruct Er as [ga [gb [-> [Ea Eb]]]]. rewrite all_of_app in Po. apply Forall_app in Po. destruct Po as [_ Pb].
    change (reads 0 (TTimedOut 0 :: future)) with (RdErr (IoTimeout 0) :: reads 0 future) in Eb.
    destruct gb as [|[l|] gb]; try discriminate Eb. cbn [map bare option_map chunk] in Eb. injection Eb as Eb.
    set (some := motors ms (all_of gs1)).
    assert (Inc' : incoming s = map inl (concat (map (sent_by OpScan) some)) ++ inr (IoTimeout 0) :: flat_map mark_items (marks ms gb)).
    { rewrite Inc, Et, reads_app, items_app.
      rewrite (ga_reads _ _ _ _ _ _ _ G1), (pongs_no_timeout ms gs1 Po1) by (apply (reads_patient gs1 past); [apply G1|exact Nt]).
      f_equal. change (reads 0 (TTimedOut 0 :: future)) with (RdErr (IoTimeout 0) :: reads 0 future). cbn [items]. f_equal.
      rewrite <- Eb. apply pongs_items, Pb. }
    destruct (scan_client_ends cap some _ s Hc Hs Inc') as [rs [x [s' [E [[E1 E2]|[E1 E2]]]]]]; exists rs, x, s'; (split; [exact E|]);
      (split; [|exact Dv]); [left; auto|right]. split; [exact E2|]. exists past, future, some, (map (sent_by OpScan) some).
    assert (Once : forall f, length (by_ f (all_of gs1)) <= 1).
    { intro f. destruct (Nat.eq_dec f 0) as [->|Nf].
      - rewrite by_none; [cbn; lia|]. intros y Hy. unfold pongs in Po1. rewrite Forall_forall in Po1. destruct (Po1 y Hy) as [i [m [-> _]]]. discriminate.
      - destruct (Nat.le_gt_cases f (length ms)) as [Lf|Lf].
        + destruct (ga_by _ _ _ _ _ _ _ G1 f ltac:(rewrite map_length; exact Lf) Nf) as [rest [Rf _]].
          apply (f_equal (@length _)) in Rf. rewrite by_app, !app_length in Rf.
          destruct f as [|i]; [contradiction|]. destruct (nth_error ms i) as [m|] eqn:Em; [|apply nth_error_None in Em; lia].
          destruct (sg_motor _ _ _ _ _ _ Sg1 i m Em) as [K|K]; rewrite K in Rf; cbn [length] in Rf; lia.
        + rewrite by_none; [cbn; lia|]. intros y Hy Ey. destruct (ga_from _ _ _ _ _ _ _ G1 y) as [Ly _]; [apply in_or_app; auto|].
          rewrite map_length in Ly. lia. }
    split; [exact Et|]. split; [exact Nt|]. split; [|split; [apply pong_frames|split; [exact E1|split; [|split]]]].
    + rewrite (heard_reads gs1 past (ga_reads _ _ _ _ _ _ _ G1)). apply pongs_wires, Po1.
    + apply motors_once; auto.
    + intros m Hm. exact (motors_in _ _ _ Hm).
    + intros n2 R2 W0 Hall. pose proof (run_fun _ _ _ R1 _ R2) as <-.
      rewrite (ga_waits _ _ _ _ _ _ _ G1) in W0. apply wires_none, map_eq_nil in W0. subst cur1.
      apply NoDup_Permutation.
      * apply (NoDup_map_inv m_id). apply motors_once; auto.
      * exact (NoDup_map_inv m_id _ Nd).
      * intro m. split; [intro Hm; exact (motors_in _ _ _ Hm)|]. intro Hm. apply In_nth_error in Hm. destruct Hm as [i Em].
        assert (Li : i < length ms) by (apply nth_error_Some; congruence). destruct (Hall i Li) as [B [w Hw]].
        destruct (ga_by _ _ _ _ _ _ _ G1 (S i) ltac:(rewrite map_length; lia) ltac:(lia)) as [rest [Rf [_ [Rb _]]]].
        rewrite (Rb B), !app_nil_r in Rf. rewrite (sg_said _ _ _ _ _ _ Sg1) in Hw. apply in_map_iff in Hw. destruct Hw as [y [Ey Hy]].
        pose proof (by_in _ _ Hy) as Hb. assert (Fy : fst y = S i) by (unfold on_wire in Ey; congruence). rewrite Fy, Rf in Hb.
        apply in_by in Hb. apply in_flat_map. exists (S i, snd y). split; [exact Hb|]. cbn [fst pred]. rewrite Em. left. reflexivity.
Qed.

(** ** Two motors, the second one answers first *)

Definition scan_msg : list byte := Eval vm_compute in wire (NReq OpScan).
Definition pong1 : list byte := Eval vm_compute in wire (answer_note OpScan (mkMotor x01 (repeat x07 4) None)).
Definition pong2 : list byte := Eval vm_compute in wire (answer_note OpScan (mkMotor x02 (repeat x07 4) None)).

Definition scan_talk : list bus_event :=
  [TWrite 0 scan_msg; TDeliver 0 1; TDeliver 0 2; TWritten 0; TRead 1 48 scan_msg; TRead 2 48 scan_msg;
   TWrite 2 pong2; TWrite 1 pong1; TDeliver 2 0; TDeliver 1 0; TDeliver 1 2; TDeliver 2 1; TWritten 1; TWritten 2;
   TRead 0 48 (pong2 ++ pong1); TTimedOut 0; TTimedOut 0].

Definition scan_client_does : list (list io_event) := Eval vm_compute in
  map (fun k => p_log (b_port (snd (perform_all [OpScan] (fresh true (firstn k (reads 0 scan_talk)) 48 48))))) (seq 0 4).
Definition scan_motor1_does : list (list io_event) := Eval vm_compute in
  map (fun k => logs_of 9 (mkMotor x01 (repeat x07 4) None) 48 (firstn k (reads 1 scan_talk))) (seq 0 2).
Definition scan_motor2_does : list (list io_event) := Eval vm_compute in
  map (fun k => logs_of 9 (mkMotor x02 (repeat x07 4) None) 48 (firstn k (reads 2 scan_talk))) (seq 0 2).

Lemma scan_test : test_run (fresh true [] 48 48) (map (node_of 48) pair_of_motors) [OpScan] scan_talk.
Proof.
  split.
  - apply (plays_by _ _ _ scan_client_does); [|vm_compute; reflexivity]. change (length (reads 0 scan_talk)) with 3.
    reads_one_by_one; (eapply client_by; [vm_compute; reflexivity|reflexivity]).
  - intros [|[|i]] d E; cbn in E; [| |destruct i; discriminate E]; injection E as <-.
    + apply (plays_by _ _ _ scan_motor1_does); [|vm_compute; reflexivity]. change (length (reads 1 scan_talk)) with 1.
      reads_one_by_one; (eapply (device_by 9); [lia|vm_compute; reflexivity]).
    + apply (plays_by _ _ _ scan_motor2_does); [|vm_compute; reflexivity]. change (length (reads 2 scan_talk)) with 1.
      reads_one_by_one; (eapply (device_by 9); [lia|vm_compute; reflexivity]).
Qed.

Lemma L_C78_scan_example : exists n, let ms := pair_of_motors in let c := fresh true [] 48 48 in
  connected 48 c (map (node_of 48) ms) ms /\ bus_run (map m_id ms) scan_talk n /\
  test_run c (map (node_of 48) ms) [OpScan] scan_talk /\
  fst (perform_all [OpScan] (set_script c (reads 0 scan_talk))) =
    ([RepFound (Ok [Ok (mkResponse x02 false (mkPing 5130 x2e)); Ok (mkResponse x01 false (mkPing 5130 x2e))])], Val tt).
Proof.
  destruct (bus_execs (map m_id pair_of_motors) net_init scan_talk) as [[tr m]|] eqn:E; [|vm_compute in E; discriminate E].
  exists m. cbv zeta. split; [apply equal_connected; [lia|repeat constructor; cbn; intuition discriminate|cbn; intuition discriminate]|].
  pose proof (bus_execs_run _ _ [] _ _ _ (run_init _) E) as R. cbn [app] in R.
  assert (tr = scan_talk) as Et by (vm_compute in E; injection E as <- _; reflexivity).
  split; [rewrite <- Et; exact R|]. split; [exact scan_test|]. vm_compute. reflexivity.
Qed.
