(** * ConcurrentPatient: scans among other calls, a client that gives up only when nothing goes on *)
From Coq Require Import ZArith ZifyN ZifyNat ZifyBool Permutation.
From Verif Require Import Base Endian Error Checksum Bytestuff Packet Time Bus Data Client
  Instructions Device MockDevice Api Spec CallSpec StreamSpec DeviceSpec InstructionSpec Demo Lib ChecksumProofs
  CrcErrorProofs StuffProofs WriteProofs ReadProofs ApiProofs StreamProofs MessageProofs SendProofs
  SendTheorems ReadTheorems StatusProofs DeviceTheorems InstructionProofs DemoProofs TransferTheorems
  UnderstoodTheorems ScanTheorems RemoteSpec RemoteProofs RemoteTheorems EchoSpec EchoTheorems LateSpec LateTheorems
  FitTheorems ConformTheorems TestBus TestBusSpec TestBusTheorems ConcurrentSpec ConcurrentProofs ConcurrentTheorems ConcurrentResults
  ConcurrentExamples ConcurrentScan PatientSpec.
Ltac Zify.zify_post_hook ::= Z.div_mod_to_equations.

(** ** The client, read by read *)

Lemma scan_next_read : forall cap s, hardy cap s -> exists t,
  snd (scan_next s) = snd (read_packet_deadline (deadline_of t s) (after_deadline t s)).
Proof.
  intros cap s H. destruct (scan_timeout_val (b_dbg s) (b_baud s) (ha_baud _ _ H) (ha_baud_u32 _ _ H)) as [t T]. exists t.
  rewrite (scan_next_eq s t T). cbn [snd]. unfold read_status_response_timeout. unfold bind at 1. rewrite make_deadline_eq.
  unfold try_, bind at 1. destruct (read_packet_deadline (deadline_of t s) (after_deadline t s)) as [[[p|e]|x|] s1]; try reflexivity.
  unfold bind, lift, ret, tryr. destruct (as_status p) as [[st|]|pp|]; try reflexivity.
  all: repeat match goal with |- context [match ?x with _ => _ end] => destruct x; try reflexivity end.
Qed.

(** Answers to a scan. *)
Definition pw (l : list motor) : list byte := concat (map (sent_by OpScan) l).

Lemma pong_carries : forall cap K m, 16 <= cap -> cap <= K -> exists p, carries K (sent_by OpScan m) p.
Proof.
  intros cap K m Hc Hk. rewrite scan_sent.
  assert (N : note_ok cap (answer_note OpScan m)) by (cbn; split; [cbn; lia|]; split; [reflexivity|exact I]).
  destruct (note_carries cap K _ N Hk) as [p [C _]]. eauto.
Qed.

Lemma scan_next_note : forall cap K m us s sc, 16 <= cap -> cap <= K -> box cap K s (pw (m :: us)) sc ->
  exists s', scan_next s = (Val (Some (found m)), s') /\ box cap K s' (pw us) sc.
Proof.
  intros cap K m us s sc Hc Hk B. pose proof (bx_hardy _ _ _ _ _ B) as H.
  destruct (scan_next_motor cap m s (map inl (pw us) ++ items sc) Hc H) as [s' [[E _] _]].
  { rewrite pending_unread, (bx_unread _ _ _ _ _ B), (bx_script _ _ _ _ _ B). unfold pw. cbn [map concat].
    rewrite map_app, app_assoc. reflexivity. }
  exists s'. split; [exact E|]. destruct (scan_next_read cap s H) as [t T]. rewrite E in T. cbn [snd] in T.
  destruct (pong_carries cap K m Hc Hk) as [p C].
  destruct (box_held cap K (deadline_of t s) (after_deadline t s) _ (pw us) sc p ltac:(lia) (box_deadline _ _ t _ _ _ B) C) as [s1 [E1 [B1 _]]].
  rewrite E1 in T. cbn [snd] in T. subst s'. exact B1.
Qed.

Lemma scan_next_chunk : forall cap K m us s sc, 16 <= cap -> cap <= K -> length (pw (m :: us)) <= K ->
  box cap K s [] (RdData (pw (m :: us)) :: sc) ->
  exists s', scan_next s = (Val (Some (found m)), s') /\ box cap K s' (pw us) sc.
Proof.
  intros cap K m us s sc Hc Hk L B. pose proof (bx_hardy _ _ _ _ _ B) as H.
  destruct (scan_next_motor cap m s (map inl (pw us) ++ items sc) Hc H) as [s' [[E _] _]].
  { rewrite pending_unread, (bx_unread _ _ _ _ _ B), (bx_script _ _ _ _ _ B). unfold pw. cbn [map concat items app].
    rewrite map_app, app_assoc. reflexivity. }
  exists s'. split; [exact E|]. destruct (scan_next_read cap s H) as [t T]. rewrite E in T. cbn [snd] in T.
  destruct (pong_carries cap K m Hc Hk) as [p C].
  destruct (box_chunk cap K (deadline_of t s) (after_deadline t s) _ sc ltac:(lia) (box_deadline _ _ t _ _ _ B) L) as [E0 [B0 _]].
  destruct (box_held cap K (deadline_of t s) _ _ (pw us) sc p ltac:(lia) B0 C) as [s1 [E1 [B1 _]]].
  rewrite E0, E1 in T. cbn [snd] in T. subst s'. exact B1.
Qed.

Lemma scan_next_gives_up : forall cap K s sc, 16 <= cap -> cap <= K -> box cap K s [] (RdErr (IoTimeout 0) :: sc) ->
  exists s', scan_next s = (Val None, s') /\ box cap K s' [] sc.
Proof.
  intros cap K s sc Hc Hk B. pose proof (bx_hardy _ _ _ _ _ B) as H.
  destruct (scan_next_silence cap s 0%N (items sc) Hc H) as [s' [[E _] _]].
  { rewrite pending_unread, (bx_unread _ _ _ _ _ B), (bx_script _ _ _ _ _ B). reflexivity. }
  exists s'. split; [exact E|]. destruct (scan_next_read cap s H) as [t T]. rewrite E in T. cbn [snd] in T.
  destruct (box_error cap K (deadline_of t s) _ _ sc ltac:(lia) (box_deadline _ _ t _ _ _ B)) as [s1 [E1 [B1 _]]].
  rewrite E1 in T. cbn [snd] in T. subst s'. exact B1.
Qed.

Definition pong_chunks (ls : list (list motor)) : list rd_event := map (fun l => RdData (pw l)) ls.
Definition fit (K : nat) (ls : list (list motor)) : Prop := Forall (fun l => l <> [] /\ length (pw l) <= K) ls.

Lemma scan_items_read : forall cap K fuel ls us s sc, 16 <= cap -> cap <= K -> fit K ls ->
  box cap K s (pw us) (pong_chunks ls ++ RdErr (IoTimeout 0) :: sc) -> length us + length (concat ls) < fuel ->
  exists s', scan_items fuel s = (Val (map found (us ++ concat ls)), s') /\ box cap K s' [] sc.
Proof.
  intros cap K fuel. induction fuel as [|fuel IH]; intros ls us s sc Hc Hk F B L; [lia|]. cbn [scan_items]. unfold bind at 1.
  destruct us as [|m us].
  - destruct ls as [|l ls].
    + destruct (scan_next_gives_up cap K s sc Hc Hk B) as [s1 [E B1]]. rewrite E. exists s1. split; [reflexivity|exact B1].
    + inversion F as [|? ? [Nl Ll] F']; subst. destruct l as [|m l]; [contradiction|].
      destruct (scan_next_chunk cap K m l s _ Hc Hk Ll B) as [s1 [E B1]]. rewrite E. cbn [concat app length] in L.
      destruct (IH ls l s1 sc Hc Hk F' B1 ltac:(rewrite app_length in L; lia)) as [s2 [E2 B2]]. unfold bind. rewrite E2.
      exists s2. split; [reflexivity|exact B2].
  - destruct (scan_next_note cap K m us s _ Hc Hk B) as [s1 [E B1]]. rewrite E.
    destruct (IH ls us s1 sc Hc Hk F B1 ltac:(cbn [length] in L; lia)) as [s2 [E2 B2]]. unfold bind. rewrite E2.
    exists s2. split; [reflexivity|exact B2].
Qed.

Lemma pong_items : forall ls, items (pong_chunks ls) = map inl (concat (map (sent_by OpScan) (concat ls))).
Proof.
  induction ls as [|l ls IH]; [reflexivity|]. cbn [pong_chunks map items concat]. fold (pong_chunks ls).
  rewrite map_app, concat_app, map_app, IH. reflexivity.
Qed.

Lemma scan_boxed : forall cap s sc, 16 <= cap -> hardy cap s -> p_script (b_port s) = sc ->
  exists s1, scan s = (Val (Ok tt), s1) /\ box cap (length (b_rbuf s)) s1 [] sc /\
    calls s s1 [LDiscard None; LWrite (wire (NReq OpScan)) None].
Proof.
  intros cap s sc Hc H S.
  assert (Ps : passes comes_back cap [x01]) by (split; [cbn; lia|]; split; [reflexivity|exact I]).
  destruct (sends_works cap _ xfe x01 [] s (sends_instruction xfe x01 [] _ no_params_writes) H Ps) as [s1 [[W1 [W2 _]] [_ [_ [Q1 [Q2 [Q3 Q4]]]]]]].
  exists s1. split; [exact W1|]. split; [|exact Q4]. constructor; [exact W2|exact Q3|exact Q1|congruence].
Qed.

(** It writes nothing but the request. *)
Lemma scan_writes : forall cap s o s', 16 <= cap -> hardy cap s -> perform OpScan s = (o, s') ->
  hardy cap s' /\ exists evs, calls s s' evs /\ written evs = [wire (NReq OpScan)].
Proof.
  intros cap s o s' Hc H E. destruct (scan_started cap s Hc H) as [s1 [H1 [E1 [_ [_ C1]]]]].
  cbn [perform] in E. unfold scan_all, bind at 1 in E. rewrite E1 in E.
  match type of E with ?m s1 = _ => assert (Q : speechless cap m) end.
  { apply speechless_bind; [intros x y x' Hx K; injection K as _ <-; split; [exact Hx|]; exists []; split; [apply calls_same|reflexivity]|].
    intro x. apply speechless_bind; [apply speechless_items|]. intro l.
    apply speechless_bind; [intros y z y' Hy K; injection K as _ <-; split; [exact Hy|]; exists []; split; [apply calls_same|reflexivity]|].
    intro y. apply speechless_bind; [apply speechless_drop|]. intros [|]; [apply (speechless_lift _ _ (Val _))|apply speechless_lift]. }
  destruct (Q s1 o s' H1 E) as [H2 [e2 [C2 W2]]]. split; [exact H2|]. eexists. split; [exact (calls_app _ _ _ _ _ C1 C2)|].
  rewrite written_app, W2. reflexivity.
Qed.

Lemma scan_performed : forall cap ls s rest, 16 <= cap -> hardy cap s -> fit (length (b_rbuf s)) ls ->
  p_script (b_port s) = pong_chunks ls ++ RdErr (IoTimeout 0) :: RdErr (IoTimeout 0) :: rest ->
  exists s', perform OpScan s = (Val (RepFound (Ok (map found (concat ls)))), s') /\ p_script (b_port s') = rest.
Proof.
  intros cap ls s rest Hc H F S. pose proof (ha_rcap _ _ H) as Hk.
  destruct (scan_boxed cap s _ Hc H S) as [s1 [E1 [B1 _]]].
  destruct (scan_items_read cap _ (Datatypes.S (script_size (p_script (b_port s1)))) ls [] s1 _ Hc Hk F B1) as [s2 [E2 B2]].
  { rewrite (bx_script _ _ _ _ _ B1). cbn [length]. pose proof (items_size (pong_chunks ls ++ RdErr (IoTimeout 0) :: RdErr (IoTimeout 0) :: rest)) as L.
    rewrite items_app, app_length, pong_items, map_length in L. pose proof (sent_scan_length (concat ls)). lia. }
  destruct (scan_next_gives_up cap _ s2 rest Hc Hk B2) as [s3 [E3 B3]].
  exists s3. split; [|apply B3]. cbn [perform]. unfold scan_all, bind at 1. rewrite E1. unfold bind at 1, get. unfold bind at 1. rewrite E2.
  unfold bind at 1, get. unfold bind at 1. cbn [scan_drop]. unfold bind at 1. rewrite E3. reflexivity.
Qed.

Lemma scan_waiting : forall cap ls s, 16 <= cap -> hardy cap s ->
  p_script (b_port s) = pong_chunks ls -> fst (perform OpScan s) = Blocked.
Proof.
  intros cap ls s Hc H S. destruct (scan_boxed cap s _ Hc H S) as [s1 [E1 [B1 _]]].
  cbn [perform]. unfold scan_all, bind at 1. rewrite E1. unfold bind at 1, get. unfold bind at 1.
  pose proof (scan_items_end cap (concat ls) s1 (Datatypes.S (script_size (p_script (b_port s1)))) Hc (bx_hardy _ _ _ _ _ B1)) as K.
  rewrite pending_unread, (bx_unread _ _ _ _ _ B1), (bx_script _ _ _ _ _ B1) in K. cbn [map app] in K. specialize (K (pong_items ls)).
  rewrite (bx_script _ _ _ _ _ B1).
  destruct (scan_items (Datatypes.S (script_size (pong_chunks ls))) s1) as [x s2]. cbn [fst] in K. subst x. reflexivity.
Qed.

Lemma scan_dropping : forall cap ls s, 16 <= cap -> hardy cap s -> fit (length (b_rbuf s)) ls ->
  p_script (b_port s) = pong_chunks ls ++ [RdErr (IoTimeout 0)] -> fst (perform OpScan s) = Blocked.
Proof.
  intros cap ls s Hc H F S. pose proof (ha_rcap _ _ H) as Hk.
  destruct (scan_boxed cap s _ Hc H S) as [s1 [E1 [B1 _]]].
  destruct (scan_items_read cap _ (Datatypes.S (script_size (p_script (b_port s1)))) ls [] s1 _ Hc Hk F B1) as [s2 [E2 B2]].
  { rewrite (bx_script _ _ _ _ _ B1). cbn [length]. pose proof (items_size (pong_chunks ls ++ [RdErr (IoTimeout 0)])) as L.
    rewrite items_app, app_length, pong_items, map_length in L. pose proof (sent_scan_length (concat ls)). lia. }
  cbn [perform]. unfold scan_all, bind at 1. rewrite E1. unfold bind at 1, get. unfold bind at 1. rewrite E2.
  unfold bind at 1, get. unfold bind at 1. cbn [scan_drop]. unfold bind at 1.
  pose proof (scan_next_end cap s2 Hc (bx_hardy _ _ _ _ _ B2)) as K.
  rewrite pending_unread, (bx_unread _ _ _ _ _ B2), (bx_script _ _ _ _ _ B2) in K. specialize (K eq_refl).
  destruct (scan_next s2) as [x s3]. cbn [fst] in K. subst x. reflexivity.
Qed.

(** A call for a motor that is not there. *)
Lemma perform_missing : forall cap ms o id s rest, 16 <= cap -> possible comes_back cap ms o -> target o = Some id ->
  hardy cap s -> p_script (b_port s) = RdErr (IoTimeout 0) :: rest ->
  exists s' evs, perform o s = (Val (unanswered o 0), s') /\ hardy cap s' /\ p_script (b_port s') = rest /\
    calls s s' evs /\ written evs = [wire (NReq o)].
Proof.
  intros cap ms o id s rest Hc P Ht H S. pose proof P as [Pr [Pm _]].
  destruct (op_shaped ms o id Pr Ht) as [i [params [k [fin [Em [Sh [_ [_ A3]]]]]]]]. rewrite Em in Pm.
  destruct (shaped_written _ _ _ _ _ _ _ cap s Sh H Pm) as [x [s' [evs [E [H' [C W]]]]]].
  exists s', evs. split; [|split; [exact H'|split; [|split; [exact C|]]]].
  - rewrite E. f_equal. destruct (shaped_reads _ _ _ _ _ _ _ cap s Sh H Pm Hc) as [_ K].
    specialize (K (IoTimeout 0) (items rest)). rewrite E in K. cbn [fst] in K. rewrite K; [apply A3|].
    unfold incoming. rewrite S. reflexivity.
  - destruct (shaped_sent _ _ _ _ _ _ _ cap s Sh H Pm) as [s1 [H1 [[S1 [S2 [S3 S4]]] E1]]].
    destruct Sh as [enc [_ [Hk _]]]. destruct (read_status_response k s1) as [y s2] eqn:Er.
    unfold bind, lift in E1. rewrite E, Er in E1.
    assert (K : p_script (b_port s2) = rest).
    { destruct (status_read_script k s1 y s2 (ha_inv _ _ H1) (ha_baud _ _ H1) Hk Er) as [dl [s0 [o0 [R0 [Rb [U0 [S0 Rd]]]]]]].
      pose proof (ha_rcap _ _ H1) as Hr. apply (error_left dl s0 (IoTimeout 0) rest o0 s2 R0); try congruence. rewrite Rb. lia. }
    destruct y; injection E1 as _ ->; exact K.
  - rewrite W. cbn [wire]. rewrite (target_packet_id _ _ Ht), Em. reflexivity.
Qed.

(** ** Calls that are over, and the one that goes on *)

Definition in_parts (K : nat) (ms : list motor) (ls : list (list said_note)) : Prop :=
  pongs ms (concat ls) /\ Forall (fun l => l <> [] /\ length (wires (map snd l)) <= K) ls.
Definition complete (ms : list motor) (l : list said_note) : Prop :=
  forall i m, nth_error ms i = Some m -> by_ (S i) l = [answer_note OpScan m].

Inductive round (K : nat) (ms : list motor) : op -> list group -> reply -> Prop :=
| rd_served : forall o i m, target o = Some (m_id m) -> nth_error ms i = Some m ->
    round K ms o [Some [(S i, answer_note o m)]] (answered o m)
| rd_missing : forall o id, target o = Some id -> ~ In id (map m_id ms) -> round K ms o [None] (unanswered o 0)
| rd_sync : forall a n l, round K ms (OpSyncWrite a n l) [] (RepSent (Ok tt))
| rd_scan : forall ls, in_parts K ms ls -> complete ms (concat ls) ->
    round K ms OpScan (map Some ls ++ [None; None]) (RepFound (Ok (map found (motors ms (concat ls))))).

Inductive rounds (K : nat) : list motor -> list op -> list group -> list reply -> Prop :=
| rds_nil : forall ms, rounds K ms [] [] []
| rds_cons : forall ms o G r os Gs rs, round K ms o G r -> rounds K (map (touched o) ms) os Gs rs ->
    rounds K ms (o :: os) (G ++ Gs) (r :: rs).

Inductive going (K : nat) (ms : list motor) : list op -> list op -> list group -> Prop :=
| go_idle : forall tail, going K ms [] tail []
| go_over : forall k, going K ms [] [] (repeat None k)
| go_waits : forall o id tail, target o = Some id -> going K ms [o] tail []
| go_scans : forall ls tail, in_parts K ms ls -> going K ms [OpScan] tail (map Some ls)
| go_scanned : forall ls tail, in_parts K ms ls -> complete ms (concat ls) -> going K ms [OpScan] tail (map Some ls ++ [None]).

Lemma rounds_snoc : forall K ms os Gs rs, rounds K ms os Gs rs -> forall o G r, round K (all_after os ms) o G r ->
  rounds K ms (os ++ [o]) (Gs ++ G) (rs ++ [r]).
Proof.
  intros K ms os Gs rs H. induction H as [ms|ms o G r os Gs rs H1 H2 IH]; intros o' G' r' R; cbn [app all_after] in *.
  - rewrite <- (app_nil_r G'). constructor; [exact R|constructor].
  - rewrite <- app_assoc. constructor; [exact H1|apply IH, R].
Qed.

Lemma rounds_length : forall K ms os Gs rs, rounds K ms os Gs rs -> length rs = length os.
Proof. intros K ms os Gs rs H. induction H; cbn [length]; congruence. Qed.

Definition script_of (gs : list group) : list rd_event := map (fun g => chunk (bare g)) gs.

Lemma script_app : forall a b, script_of (a ++ b) = script_of a ++ script_of b.
Proof. intros. apply map_app. Qed.

Lemma motors_concat : forall ms ls, motors ms (concat ls) = concat (map (motors ms) ls).
Proof. intros ms ls. induction ls as [|l ls IH]; [reflexivity|]. cbn [concat map]. rewrite motors_app, IH. reflexivity. Qed.

Lemma motors_some : forall ms l, pongs ms l -> l <> [] -> motors ms l <> [].
Proof.
  intros ms l F N. destruct F as [|x l [i [m [E1 [E2 _]]]] F]; [contradiction|]. unfold motors. cbn [flat_map].
  rewrite E1. cbn [pred]. rewrite E2. discriminate.
Qed.

Lemma parts_script : forall K ms ls, in_parts K ms ls -> script_of (map Some ls) = pong_chunks (map (motors ms) ls) /\ fit K (map (motors ms) ls).
Proof.
  intros K ms ls [P F]. induction F as [|l ls [Nl Ll] F IH]; [split; [reflexivity|constructor]|].
  cbn [concat] in P. apply Forall_app in P. destruct P as [P1 P2]. destruct (IH P2) as [IH1 IH2]. pose proof (pongs_wires ms l P1) as W.
  split.
  - unfold script_of, pong_chunks in *. cbn [map bare option_map chunk]. f_equal; [|exact IH1]. unfold pw. rewrite W. reflexivity.
  - constructor; [|exact IH2]. split; [apply motors_some; assumption|]. unfold pw. rewrite <- W. exact Ll.
Qed.

Lemma modest_scan_items : forall n, modest (scan_items n).
Proof.
  induction n as [|n IH]; cbn [scan_items]; [apply modest_lift|]. apply modest_bind; [apply api_modest, api_scan_next|].
  intros [x|]; [|apply modest_ret]. apply modest_bind; [exact IH|]. intro. apply modest_ret.
Qed.

Lemma perform_modest : forall o, modest (perform o).
Proof.
  intros [id|id a n|id a d|id a d|id|a n l|]; cbn [perform].
  - apply modest_bind; [apply api_modest, api_ping|]. intro. apply modest_ret.
  - apply modest_bind; [apply api_modest, api_read_bytes|]. intro. apply modest_ret.
  - apply modest_bind; [apply api_modest, api_write_bytes|]. intro. apply modest_ret.
  - apply modest_bind; [apply api_modest, api_reg_write_bytes|]. intro. apply modest_ret.
  - apply modest_bind; [apply api_modest, api_action|]. intro. apply modest_ret.
  - apply modest_bind; [apply api_modest, api_sync_write_bytes|]. intro. apply modest_ret.
  - unfold scan_all. apply modest_bind; [apply api_modest, api_scan|]. intros [x|e]; [|apply modest_ret].
    apply modest_bind; [apply modest_get|]. intro. apply modest_bind; [apply modest_scan_items|]. intro.
    apply modest_bind; [apply modest_get|]. intro. apply modest_bind; [apply api_modest, api_scan_drop|].
    intros [|]; [apply modest_ret|apply modest_lift].
Qed.

Lemma perform_cap : forall o s x s', inv s -> perform o s = (x, s') -> length (b_rbuf s') = length (b_rbuf s).
Proof. intros o s x s' I E. exact (ev_rcap _ _ (proj1 (perform_modest o) _ _ _ I E)). Qed.

Lemma round_performed : forall cap ms o G r s rest, 16 <= cap -> possible comes_back cap ms o -> hardy cap s ->
  round (length (b_rbuf s)) ms o G r -> p_script (b_port s) = script_of G ++ rest ->
  exists s' evs, perform o s = (Val r, s') /\ hardy cap s' /\ length (b_rbuf s') = length (b_rbuf s) /\
    p_script (b_port s') = rest /\ calls s s' evs /\ written evs = [wire (NReq o)].
Proof.
  intros cap ms o G r s rest Hc P H R S.
  assert (K : exists s' evs, perform o s = (Val r, s') /\ hardy cap s' /\ p_script (b_port s') = rest /\ calls s s' evs /\ written evs = [wire (NReq o)]).
  { destruct R as [o i m Ht Em|o id Ht N|a n l|ls F Cm].
    - apply (perform_answered cap ms o m s rest Hc P Ht (nth_error_In _ _ Em) H). rewrite S.
      unfold script_of, single, wires. cbn [map bare option_map chunk snd app]. unfold wires. cbn [map concat]. rewrite app_nil_r. reflexivity.
    - exact (perform_missing cap ms o id s rest Hc P Ht H S).
    - destruct (perform_sync cap ms a n l s P H) as [s' [evs [E [H' [S' [C W]]]]]]. exists s', evs.
      split; [exact E|]. split; [exact H'|]. split; [rewrite S', S; reflexivity|]. auto.
    - destruct (parts_script _ _ _ F) as [E1 E2]. rewrite script_app, E1, <- app_assoc in S. rewrite motors_concat.
      destruct (scan_performed cap (map (motors ms) ls) s rest Hc H E2 S) as [s' [E S']].
      destruct (scan_writes cap s _ s' Hc H E) as [H' [evs [C W]]]. exists s', evs. auto. }
  destruct K as [s' [evs [E [H' [S' [C W]]]]]]. exists s', evs. split; [exact E|]. split; [exact H'|].
  split; [exact (perform_cap o s _ s' (ha_inv _ _ H) E)|]. auto.
Qed.

Lemma rounds_performed : forall cap K ms os Gs rs, 16 <= cap -> rounds K ms os Gs rs -> all_possible comes_back cap ms os ->
  forall s os2 rest, hardy cap s -> length (b_rbuf s) = K -> p_script (b_port s) = script_of Gs ++ rest ->
  exists s1 evs, (forall rs2 x s2, perform_all os2 s1 = (rs2, x, s2) -> perform_all (os ++ os2) s = (rs ++ rs2, x, s2)) /\
    hardy cap s1 /\ length (b_rbuf s1) = K /\ p_script (b_port s1) = rest /\ calls s s1 evs /\ written evs = map (fun o => wire (NReq o)) os.
Proof.
  intros cap K ms os Gs rs Hc R. induction R as [ms|ms o G r os Gs rs R1 R2 IH]; intros P s os2 rest H L S.
  - exists s, []. split; [auto|]. split; [exact H|]. split; [exact L|]. split; [exact S|]. split; [apply calls_same|reflexivity].
  - destruct P as [P1 P2]. rewrite script_app, <- app_assoc in S. rewrite <- L in R1.
    destruct (round_performed cap ms o G r s _ Hc P1 H R1 S) as [s1 [evs [E [H1 [L1 [S1 [C W]]]]]]].
    destruct (IH P2 s1 os2 rest H1 ltac:(congruence) S1) as [s2 [evs2 [E2 [H2 [L2 [S2 [C2 W2]]]]]]].
    exists s2, (evs ++ evs2). split.
    { intros rs2 x s3 E3. cbn [app perform_all]. rewrite E, (E2 _ _ _ E3). reflexivity. }
    split; [exact H2|]. split; [exact L2|]. split; [exact S2|]. split; [exact (calls_app _ _ _ _ _ C C2)|].
    rewrite written_app, W, W2. reflexivity.
Qed.

(** What has been heard of a motor in a round. *)
Lemma round_by : forall K ms o G r i m, round K ms o G r -> NoDup (map m_id ms) -> nth_error ms i = Some m ->
  by_ (S i) (all_of G) = if responds o m then [answer_note o m] else [].
Proof.
  intros K ms o G r i m R Nd Em. destruct R as [o j m' Ht Ej|o id Ht N|a n l|ls F Cm].
  - cbn [all_of flat_map app]. rewrite by_one, (responds_target o m _ Ht). destruct (S j =? S i) eqn:E.
    + apply Nat.eqb_eq in E. injection E as ->. rewrite Em in Ej. injection Ej as <-. rewrite beq_refl. reflexivity.
    + destruct (beq (m_id m') (m_id m)) eqn:B; [|reflexivity]. apply beq_true in B. exfalso. apply Nat.eqb_neq in E. apply E. f_equal.
      apply (proj1 (NoDup_nth_error (map m_id ms)) Nd); [rewrite map_length; apply nth_error_Some; congruence|].
      rewrite !nth_error_map, Em, Ej. cbn. congruence.
  - cbn. rewrite (responds_target o m _ Ht). destruct (beq id (m_id m)) eqn:B; [|reflexivity]. apply beq_true in B.
    exfalso. apply N. rewrite B. apply in_map, (nth_error_In _ _ Em).
  - reflexivity.
  - rewrite all_of_app, by_app, scan_responds. cbn [all_of flat_map app]. rewrite app_nil_r.
    replace (all_of (map Some ls)) with (concat ls); [exact (Cm i m Em)|]. clear. induction ls as [|l ls IH]; [reflexivity|]. cbn. f_equal. exact IH.
Qed.

Lemma all_some : forall ls : list (list said_note), all_of (map Some ls) = concat ls.
Proof. induction ls as [|l ls IH]; [reflexivity|]. cbn. f_equal. exact IH. Qed.

Lemma all_none : forall k, all_of (repeat None k) = [].
Proof. induction k as [|k IH]; [reflexivity|exact IH]. Qed.

Lemma rounds_by : forall K ms os Gs rs, rounds K ms os Gs rs -> NoDup (map m_id ms) -> forall i m, nth_error ms i = Some m ->
  by_ (S i) (all_of Gs) = notes m os.
Proof.
  intros K ms os Gs rs R. induction R as [ms|ms o G r os Gs rs R1 R2 IH]; intros Nd i m Em; [reflexivity|].
  rewrite all_of_app, by_app, (round_by _ _ _ _ _ _ _ R1 Nd Em). cbn [notes]. f_equal. apply IH; [rewrite touched_ids; exact Nd|].
  rewrite nth_error_map, Em. reflexivity.
Qed.

(** ** The replies *)

Lemma complete_permutation : forall ms l, NoDup (map m_id ms) -> pongs ms l -> complete ms l -> Permutation (motors ms l) ms.
Proof.
  intros ms l Nd Po Cm. assert (Once : NoDup (map m_id (motors ms l))).
  { apply motors_once; [exact Nd|exact Po|]. intro f. destruct f as [|i].
    - rewrite by_none; [cbn; lia|]. intros y Hy. unfold pongs in Po. rewrite Forall_forall in Po. destruct (Po y Hy) as [i [m [-> _]]]. discriminate.
    - destruct (nth_error ms i) as [m|] eqn:Em; [rewrite (Cm i m Em); cbn; lia|]. rewrite by_none; [cbn; lia|].
      intros y Hy E. unfold pongs in Po. rewrite Forall_forall in Po. destruct (Po y Hy) as [j [m [E1 [E2 _]]]]. congruence. }
  apply NoDup_Permutation; [exact (NoDup_map_inv m_id _ Once)|exact (NoDup_map_inv m_id _ Nd)|]. intro m.
  split; [intro Hm; exact (motors_in _ _ _ Hm)|]. intro Hm. apply In_nth_error in Hm. destruct Hm as [i Em].
  assert (Hb : In (answer_note OpScan m) (by_ (S i) l)) by (rewrite (Cm i m Em); left; reflexivity).
  apply in_by in Hb. apply in_flat_map. exists (S i, answer_note OpScan m). split; [exact Hb|]. cbn [fst pred]. rewrite Em. left. reflexivity.
Qed.

Lemma round_answers : forall K ms o G r, NoDup (map m_id ms) -> round K ms o G r -> exists ms1, Permutation ms1 ms /\ answers o ms1 r.
Proof.
  intros K ms o G r Nd R. destruct R as [o j m' Ht Ej|o id Ht N|a n l|ls [F _] Cm].
  - exists ms. split; [apply Permutation_refl|]. unfold answers. rewrite Ht. left. exists m'. split; [exact (nth_error_In _ _ Ej)|auto].
  - exists ms. split; [apply Permutation_refl|]. unfold answers. rewrite Ht. right. split; [exact N|eauto].
  - exists ms. split; [apply Permutation_refl|reflexivity].
  - exists (motors ms (concat ls)). split; [apply complete_permutation; assumption|reflexivity].
Qed.

Lemma rounds_remote : forall K ms os Gs rs, rounds K ms os Gs rs -> NoDup (map m_id ms) -> remote_in_any_order ms os rs (all_after os ms).
Proof.
  intros K ms os Gs rs R. induction R as [ms|ms o G r os Gs rs R1 R2 IH]; intro Nd; [constructor|].
  destruct (round_answers _ _ _ _ _ Nd R1) as [ms1 [P1 A]]. econstructor; [exact P1|exact A|]. apply IH. rewrite touched_ids. exact Nd.
Qed.

Lemma any_order_app : forall ms os rs ms1, remote_in_any_order ms os rs ms1 -> forall os2 rs2 ms2, remote_in_any_order ms1 os2 rs2 ms2 ->
  remote_in_any_order ms (os ++ os2) (rs ++ rs2) ms2.
Proof. intros ms os rs ms1 H. induction H; intros os2 rs2 ms2 H2; [exact H2|]. cbn [app]. econstructor; eauto. Qed.

(** ** What the client sends without getting anything *)

Definition awaited (o : op) : bool := match o with OpScan => true | _ => match target o with Some _ => true | None => false end end.

Lemma awaited_waits : forall o, ordinary o -> (awaited o = true /\ waits_for_answer o) \/ (awaited o = false /\ exists a n l, o = OpSyncWrite a n l).
Proof.
  intros o [[D|[a [n [l ->]]]]| ->].
  - left. split; [|left; exact D]. unfold awaited. destruct o; try reflexivity; destruct (target _); congruence.
  - right. split; [reflexivity|eauto].
  - left. split; [reflexivity|right; reflexivity].
Qed.

Fixpoint ahead_of (os : list op) : list op :=
  match os with [] => [] | o :: os' => if awaited o then [o] else o :: ahead_of os' end.

Lemma perform_awaits : forall cap ms o s, 16 <= cap -> possible comes_back cap ms o -> awaited o = true -> ordinary o -> hardy cap s ->
  p_script (b_port s) = [] -> exists s' evs, perform o s = (Blocked, s') /\ calls s s' evs /\ written evs = [wire (NReq o)].
Proof.
  intros cap ms o s Hc P A D H S. destruct (target o) as [id|] eqn:Ht; [exact (perform_waits cap ms o id s Hc P Ht H S)|].
  destruct D as [[D|[a [n [l ->]]]]| ->]; [contradiction|discriminate A|].
  pose proof (scan_waiting cap [] s Hc H S) as K. destruct (perform OpScan s) as [x s'] eqn:E. cbn [fst] in K. subst x.
  destruct (scan_writes cap s _ s' Hc H E) as [_ [evs [C W]]]. exists s', evs. auto.
Qed.

Lemma perform_all_ahead : forall cap os ms s, 16 <= cap -> all_possible comes_back cap ms os -> Forall ordinary os ->
  hardy cap s -> p_script (b_port s) = [] ->
  exists rs x s' evs, perform_all os s = (rs, x, s') /\ calls s s' evs /\
    written evs = map (fun o => wire (NReq o)) (ahead_of os) /\
    (x = Val tt /\ length rs = length os \/ x = Blocked /\ exists o, nth_error os (length rs) = Some o /\ waits_for_answer o) /\
    length rs <= length os /\ Forall (fun o => awaited o = false) (firstn (length rs) os) /\
    exists ms', remote_in_any_order ms (firstn (length rs) os) rs ms'.
Proof.
  intros cap os. induction os as [|o os IH]; intros ms s Hc P D H S.
  - exists [], (Val tt), s, []. split; [reflexivity|]. split; [apply calls_same|]. split; [reflexivity|]. split; [left; split; reflexivity|].
    split; [reflexivity|]. split; [constructor|]. exists ms. constructor.
  - destruct P as [P1 P2]. inversion D as [|? ? D1 D2]; subst. cbn [perform_all ahead_of].
    destruct (awaited_waits o D1) as [[A Wa]|[A [a [n [l Eo]]]]]; rewrite A.
    + destruct (perform_awaits cap ms o s Hc P1 A D1 H S) as [s1 [evs [E [C W]]]]. rewrite E.
      exists [], Blocked, s1, evs. split; [reflexivity|]. split; [exact C|]. split; [exact W|]. split; [right; split; [reflexivity|exists o; split; [reflexivity|exact Wa]]|].
      split; [cbn; lia|]. split; [constructor|]. exists ms. constructor.
    + subst o.
      destruct (perform_sync cap ms a n l s P1 H) as [s1 [evs [E [H1 [S1 [C W]]]]]]. rewrite S in S1. rewrite E.
      destruct (IH _ s1 Hc P2 D2 H1 S1) as [rs [x [s2 [evs2 [E2 [C2 [W2 [Hx [L2 [N2 [ms' R2]]]]]]]]]]]. rewrite E2.
      exists (RepSent (Ok tt) :: rs), x, s2, (evs ++ evs2). split; [reflexivity|]. split; [exact (calls_app _ _ _ _ _ C C2)|].
      split; [rewrite written_app, W, W2; reflexivity|]. split; [cbn [length]; destruct Hx as [[-> Hx]|Hx]; auto|]. split; [cbn; lia|].
      cbn [length firstn]. split; [constructor; assumption|]. exists ms'. econstructor; [apply Permutation_refl|reflexivity|exact R2].
Qed.

Lemma going_awaited : forall K ms pend tail Gc, going K ms pend tail Gc -> pend = [] \/ exists o, pend = [o] /\ awaited o = true.
Proof.
  intros K ms pend tail Gc G. destruct G as [tail|k|o id tail Ht|ls tail F|ls tail F Cm]; auto; right; [|eexists; split; reflexivity..].
  exists o. split; [reflexivity|]. unfold awaited. rewrite Ht. destruct o; reflexivity.
Qed.

(** The client with what it has read. *)
Lemma client_at : forall cap K ms Q Gs rs pend tail Gc s, 16 <= cap -> NoDup (map m_id ms) -> rounds K ms Q Gs rs ->
  going K (all_after Q ms) pend tail Gc -> all_possible comes_back cap ms (Q ++ pend ++ tail) -> Forall ordinary (Q ++ pend ++ tail) ->
  hardy cap s -> length (b_rbuf s) = K -> p_script (b_port s) = script_of (Gs ++ Gc) ->
  exists rs2 x s' evs ms', perform_all (Q ++ pend ++ tail) s = (rs ++ rs2, x, s') /\ calls s s' evs /\
    written evs = map (fun o => wire (NReq o)) (Q ++ ahead_of (pend ++ tail)) /\
    (x = Val tt /\ length (rs ++ rs2) = length (Q ++ pend ++ tail) \/
     x = Blocked /\ exists o, nth_error (Q ++ pend ++ tail) (length (rs ++ rs2)) = Some o /\ waits_for_answer o) /\
    length rs2 <= length (pend ++ tail) /\ Forall (fun o => awaited o = false) (firstn (length rs2) (pend ++ tail)) /\
    remote_in_any_order ms (firstn (length (rs ++ rs2)) (Q ++ pend ++ tail)) (rs ++ rs2) ms' /\ (pend <> [] -> rs2 = []).
Proof.
  intros cap K ms Q Gs rs pend tail Gc s Hc Nd R G P D H L S. destruct (possible_app _ _ _ _ P) as [P1 P2].
  apply Forall_app in D. destruct D as [D1 D2]. rewrite script_app in S.
  destruct (rounds_performed cap K ms Q Gs rs Hc R P1 s (pend ++ tail) _ H L S) as [s1 [evs [E [H1 [L1 [S1 [C W]]]]]]].
  pose proof (rounds_length _ _ _ _ _ R) as Lr.
  assert (Rest : exists rs2 x s' evs2 ms', perform_all (pend ++ tail) s1 = (rs2, x, s') /\ calls s1 s' evs2 /\
    written evs2 = map (fun o => wire (NReq o)) (ahead_of (pend ++ tail)) /\
    (x = Val tt /\ length rs2 = length (pend ++ tail) \/
     x = Blocked /\ exists o, nth_error (pend ++ tail) (length rs2) = Some o /\ waits_for_answer o) /\
    length rs2 <= length (pend ++ tail) /\ Forall (fun o => awaited o = false) (firstn (length rs2) (pend ++ tail)) /\
    remote_in_any_order (all_after Q ms) (firstn (length rs2) (pend ++ tail)) rs2 ms' /\ (pend <> [] -> rs2 = [])).
  { assert (Wait : forall o, pend = [o] -> awaited o = true -> fst (perform o s1) = Blocked ->
      (forall s' , perform o s1 = (Blocked, s') -> exists evs2, calls s1 s' evs2 /\ written evs2 = [wire (NReq o)]) ->
      exists rs2 x s' evs2 ms', perform_all (pend ++ tail) s1 = (rs2, x, s') /\ calls s1 s' evs2 /\
      written evs2 = map (fun o => wire (NReq o)) (ahead_of (pend ++ tail)) /\
      (x = Val tt /\ length rs2 = length (pend ++ tail) \/
       x = Blocked /\ exists o, nth_error (pend ++ tail) (length rs2) = Some o /\ waits_for_answer o) /\
      length rs2 <= length (pend ++ tail) /\ Forall (fun o => awaited o = false) (firstn (length rs2) (pend ++ tail)) /\
      remote_in_any_order (all_after Q ms) (firstn (length rs2) (pend ++ tail)) rs2 ms' /\ (pend <> [] -> rs2 = [])).
    { intros o -> A B Wr. destruct (perform o s1) as [x s'] eqn:Eo. cbn [fst] in B. subst x. destruct (Wr s' eq_refl) as [evs2 [C2 W2]].
      exists [], Blocked, s', evs2, (all_after Q ms). cbn [app perform_all ahead_of]. rewrite Eo, A.
      split; [reflexivity|]. split; [exact C2|]. split; [exact W2|]. split.
      { right. split; [reflexivity|]. exists o. split; [reflexivity|]. inversion D2 as [|? ? Do _]; subst.
        destruct (awaited_waits o Do) as [[_ Wa]|[A' _]]; [exact Wa|congruence]. }
      split; [cbn; lia|]. split; [constructor|]. split; [constructor|reflexivity]. }
    destruct G as [tail|k|o id tail Ht|ls tail F|ls tail F Cm].
    - destruct (perform_all_ahead cap tail (all_after Q ms) s1 Hc P2 D2 H1 S1) as [rs2 [x [s2 [evs2 [E2 [C2 [W2 [Hx [L2 [N2 [ms' R2]]]]]]]]]]].
      exists rs2, x, s2, evs2, ms'. repeat (split; [assumption|]). intro K0. contradiction.
    - exists [], (Val tt), s1, [], (all_after Q ms). split; [reflexivity|]. split; [apply calls_same|]. split; [reflexivity|].
      split; [left; split; reflexivity|]. split; [cbn; lia|]. split; [constructor|]. split; [constructor|reflexivity].
    - destruct P2 as [Po _]. destruct (perform_waits cap _ o id s1 Hc Po Ht H1 S1) as [s' [evs2 [E2 [C2 W2]]]].
      apply (Wait o eq_refl).
      + unfold awaited. rewrite Ht. destruct o; reflexivity.
      + rewrite E2. reflexivity.
      + intros s'' E3. rewrite E2 in E3. injection E3 as <-. eauto.
    - destruct (parts_script _ _ _ F) as [F1 _]. rewrite F1 in S1. apply (Wait OpScan eq_refl eq_refl).
      + exact (scan_waiting cap _ s1 Hc H1 S1).
      + intros s'' E3. destruct (scan_writes cap s1 _ s'' Hc H1 E3) as [_ K2]. exact K2.
    - destruct (parts_script _ _ _ F) as [F1 F2]. rewrite script_app, F1 in S1. rewrite <- L1 in F2. apply (Wait OpScan eq_refl eq_refl).
      + exact (scan_dropping cap _ s1 Hc H1 F2 S1).
      + intros s'' E3. destruct (scan_writes cap s1 _ s'' Hc H1 E3) as [_ K2]. exact K2. }
  destruct Rest as [rs2 [x [s2 [evs2 [ms' [E2 [C2 [W2 [Hx [L2 [N2 [R2 B2]]]]]]]]]]]].
  exists rs2, x, s2, (evs ++ evs2), ms'. split; [exact (E _ _ _ E2)|]. split; [exact (calls_app _ _ _ _ _ C C2)|].
  split; [rewrite written_app, W, W2, map_app; reflexivity|]. rewrite !app_length, Lr.
  split.
  { destruct Hx as [[-> Hx]|[-> [o [Hx Wo]]]]; [left; split; [reflexivity|rewrite Hx, app_length; reflexivity]|right]. split; [reflexivity|]. exists o.
    rewrite nth_error_app2 by lia. replace (length Q + length rs2 - length Q) with (length rs2) by lia. auto. }
  split; [rewrite <- app_length; exact L2|]. split; [exact N2|]. split; [|exact B2].
  rewrite firstn_app, firstn_all2 by lia. replace (length Q + length rs2 - length Q) with (length rs2) by lia.
  exact (any_order_app _ _ _ _ (rounds_remote _ _ _ _ _ R Nd) _ _ _ R2).
Qed.

(** ** The conversation *)

Record dialogue (cap K : nat) (ds : list node) (ms : list motor) (os : list op) (tr : list bus_event) (n : net)
    (Q pend tail : list op) (T : list said_note) (Gs Gc : list group) (rs : list reply) : Prop := mkDialogue {
  dg_split : os = Q ++ pend ++ tail;
  dg_said : said tr = map on_wire T;
  dg_from : forall x, In x T -> fst x <= length ms;
  dg_client : by_ 0 T = map NReq (Q ++ pend);
  dg_motor : forall i m, nth_error ms i = Some m -> exists ext, by_ (S i) T = notes m Q ++ ext /\
    (ext = [] \/ exists o, pend = [o] /\ responds o m = true /\ ext = [answer_note o (after_ops Q m)]);
  dg_rounds : rounds K ms Q Gs rs;
  dg_going : going K (all_after Q ms) pend tail Gc;
  dg_heard : exists cur, gathers (map m_id ms) T tr n 0 (Gs ++ Gc) cur;
  dg_device : forall i m d, nth_error ms i = Some m -> nth_error ds i = Some d -> device_state cap (map m_id ms) T tr n i m d;
}.

Lemma notes_sts : forall os m x, In x (notes m os) -> exists id e ps, x = NSts id e ps.
Proof.
  intros os. induction os as [|o os IH]; intros m x H; [destruct H|]. cbn [notes] in H. apply in_app_or in H. destruct H as [H|H]; [|exact (IH _ _ H)].
  destruct (responds o m); [|destruct H]. destruct H as [<-|[]]. unfold answer_note. eauto.
Qed.

Lemma answer_ok : forall cap ms o m, 16 <= cap -> possible comes_back cap ms o -> In m ms -> responds o m = true -> note_ok cap (answer_note o m).
Proof.
  intros cap ms o m Hc P Hin Re. cbn [note_ok answer_note]. apply (status_passes cap ms o m); auto. destruct (status_for o m); reflexivity.
Qed.

Lemma notes_ok : forall cap os ms m, 16 <= cap -> all_possible comes_back cap ms os -> In m ms -> forall x, In x (notes m os) -> note_ok cap x.
Proof.
  intros cap os. induction os as [|o os IH]; intros ms m Hc P Hin x H; [destruct H|]. destruct P as [P1 P2]. cbn [notes] in H.
  apply in_app_or in H. destruct H as [H|H]; [|exact (IH _ _ Hc P2 (in_map _ _ _ Hin) x H)].
  destruct (responds o m) eqn:Re; [|destruct H]. destruct H as [<-|[]]. exact (answer_ok cap ms o m Hc P1 Hin Re).
Qed.

Lemma reqs_ok : forall cap os ms, all_possible comes_back cap ms os -> forall o, In o os -> note_ok cap (NReq o).
Proof.
  intros cap os. induction os as [|o os IH]; intros ms P x H; [destruct H|]. destruct P as [[Pr [Pm _]] P2]. destruct H as [<-|H].
  - split; [exact Pm|eauto].
  - exact (IH _ P2 x H).
Qed.

Lemma after_in : forall os ms i m, nth_error ms i = Some m -> In (after_ops os m) (all_after os ms).
Proof. intros os ms i m E. apply (nth_error_In _ i). rewrite all_after_nth, E. reflexivity. Qed.

Section Dialogue.
Variables (cap K : nat) (c : bus) (ds : list node) (ms : list motor) (os : list op).
Hypothesis Cn : connected cap c ds ms.
Hypothesis P : all_possible comes_back cap ms os.
Hypothesis D : Forall ordinary os.

Lemma dialogue_notes : forall tr n Q pend tail T Gs Gc rs, dialogue cap K ds ms os tr n Q pend tail T Gs Gc rs ->
  forall x, In x T -> labelled x /\ note_ok cap (snd x).
Proof.
  intros tr n Q pend tail T Gs Gc rs Dg [f v] Hx. pose proof Cn as [Hc _]. pose proof P as Pq. rewrite (dg_split _ _ _ _ _ _ _ _ _ _ _ _ _ _ Dg), app_assoc in Pq.
  destruct (possible_app _ _ _ _ Pq) as [Pa _]. pose proof (by_in _ _ Hx) as Hb. cbn [fst snd] in Hb. pose proof (dg_from _ _ _ _ _ _ _ _ _ _ _ _ _ _ Dg _ Hx) as Lf.
  cbn [fst] in Lf. unfold labelled. cbn [fst snd]. destruct f as [|i].
  - rewrite (dg_client _ _ _ _ _ _ _ _ _ _ _ _ _ _ Dg) in Hb. apply in_map_iff in Hb. destruct Hb as [o [<- Ho]]. split; [reflexivity|].
    exact (reqs_ok cap _ ms Pa o Ho).
  - destruct (nth_error ms i) as [m|] eqn:Em; [|apply nth_error_None in Em; lia].
    destruct (dg_motor _ _ _ _ _ _ _ _ _ _ _ _ _ _ Dg i m Em) as [ext [E Hext]]. rewrite E in Hb. apply in_app_or in Hb.
    destruct (possible_app _ _ _ _ Pa) as [P1 P2]. destruct Hb as [Hb|Hb].
    + destruct (notes_sts _ _ _ Hb) as [id [e [ps ->]]]. split; [discriminate|]. exact (notes_ok cap Q ms m Hc P1 (nth_error_In _ _ Em) _ Hb).
    + destruct Hext as [->|[o [-> [Re ->]]]]; [destruct Hb|]. destruct Hb as [<-|[]]. split; [discriminate|].
      destruct P2 as [P2 _]. apply (answer_ok cap (all_after Q ms) o (after_ops Q m) Hc P2); [exact (after_in _ _ _ _ Em)|].
      rewrite responds_after. exact Re.
Qed.

Lemma dialogue_reqs : forall tr n Q pend tail T Gs Gc rs e gs cur, dialogue cap K ds ms os tr n Q pend tail T Gs Gc rs ->
  gathers (map m_id ms) T tr n e gs cur -> e <> 0 ->
  exists more, Q ++ pend = reqs (map snd (all_of gs)) ++ reqs (map snd cur) ++ more /\ (busy 0 tr = false -> more = []).
Proof.
  intros tr n Q pend tail T Gs Gc rs e gs cur Dg G Ne. destruct (ga_by _ _ _ _ _ _ _ G 0 ltac:(lia) ltac:(lia)) as [rest [R1 [_ [R3 _]]]].
  rewrite (dg_client _ _ _ _ _ _ _ _ _ _ _ _ _ _ Dg), <- reqs_by in R1.
  2:{ apply Forall_forall. intros x H. apply (dialogue_notes _ _ _ _ _ _ _ _ _ Dg), (gathers_in _ _ _ _ _ _ _ _ G H). }
  set (r := reqs (map snd (all_of gs ++ cur))) in *.
  assert (E : map NReq (skipn (length r) (Q ++ pend)) = rest).
  { rewrite <- skipn_map, R1, skipn_app, map_length, Nat.sub_diag. rewrite skipn_all2 by (rewrite map_length; lia). reflexivity. }
  exists (skipn (length r) (Q ++ pend)). split.
  - rewrite app_assoc, <- reqs_app, <- map_app. fold r. apply (map_inj _ _ NReq); [intros x y Kx; injection Kx; auto|].
    rewrite (map_app NReq r), E. exact R1.
  - intro B. rewrite (R3 B) in E. destruct (skipn (length r) (Q ++ pend)); [reflexivity|discriminate E].
Qed.

(** The writes of a motor so far are among the answers to what it has got. *)
Lemma motor_behind : forall tr future n Q pend tail T Gs Gc rs i m d gs cur, test_run c ds os (tr ++ future) ->
  dialogue cap K ds ms os tr n Q pend tail T Gs Gc rs -> nth_error ms i = Some m -> nth_error ds i = Some d ->
  gathers (map m_id ms) T tr n (S i) gs cur ->
  Forall (chunk_ok cap (length (b_rbuf (n_bus d)))) (map bare gs) -> Forall (calm_chunk m) (map bare gs) ->
  exists p more evs ahead, p = reqs (map snd (all_of gs)) /\ Q ++ pend = p ++ reqs (map snd cur) ++ more /\
    (busy 0 tr = false -> more = []) /\
    map wire (notes m p) = map wire (by_ (S i) T) ++ ahead /\
    flat_map (visible (S i)) evs = moves (S i) tr ++ map (TWrite (S i)) ahead /\
    mock_run (n_id d) (state_of m) (set_script (n_bus d) (reads (S i) tr)) evs (state_of (after_ops p m)) Blocked.
Proof.
  intros tr future n Q pend tail T Gs Gc rs i m d gs cur [_ Tr] Dg Em Ed G Ok Ca.
  destruct (connected_device _ _ _ _ _ _ Cn Em) as [d' [Ed' [Rd [Pd Im]]]]. rewrite Ed in Ed'. injection Ed' as <-.
  destruct (dialogue_reqs _ _ _ _ _ _ _ _ _ _ _ _ Dg G ltac:(lia)) as [more [Eq Bz]].
  set (p := reqs (map snd (all_of gs))) in *.
  assert (Pp : all_possible comes_back cap ms p).
  { pose proof P as P'. rewrite (dg_split _ _ _ _ _ _ _ _ _ _ _ _ _ _ Dg), app_assoc, Eq, <- !app_assoc in P'. apply (possible_app _ _ _ _ P'). }
  destruct (device_acts cap tr i m d ms gs p (proj1 Cn) Rd Pd Im (nth_error_In _ _ Em) (ga_reads _ _ _ _ _ _ _ G) Ok Ca eq_refl Pp) as [[evs0 Ru] Wr].
  destruct (plays_written _ _ _ _ (Tr i d Ed)) as [evs [ahead [Dp [W V]]]].
  destruct (Wr evs Dp) as [W1 _]. exists p, more, evs, ahead. split; [reflexivity|]. split; [exact Eq|]. split; [exact Bz|].
  split; [|split; [exact V|]].
  - rewrite wire_notes, <- W1, W, (dg_said _ _ _ _ _ _ _ _ _ _ _ _ _ _ Dg), of_sender_wire. reflexivity.
  - destruct Dp as [st [st' [o [E Ru2]]]]. destruct Im as [I1 I2].
    assert (st = state_of m) as -> by (rewrite I2 in E; injection E as <-; reflexivity).
    destruct (mock_run_fun _ _ _ _ _ _ Ru _ _ _ Ru2) as [-> _]. exact Ru.
Qed.

Lemma motor_step : forall tr n ev n' Q pend tail T Gs Gc rs T' i m d,
  test_run c ds os (tr ++ [ev]) -> acts (map m_id ms) tr n ->
  bus_step (map m_id ms) n ev n' -> dialogue cap K ds ms os tr n Q pend tail T Gs Gc rs ->
  match ev with TWrite g data => exists x, T' = T ++ [(g, x)] /\ wire x = data | _ => T' = T end ->
  nth_error ms i = Some m -> nth_error ds i = Some d -> device_state cap (map m_id ms) T' (tr ++ [ev]) n' i m d.
Proof.
  intros tr n ev n' Q pend tail T Gs Gc rs T' i m d Tr A St Dg HT Em Ed.
  destruct (dg_device _ _ _ _ _ _ _ _ _ _ _ _ _ _ Dg i m d Em Ed) as [gs [cur [G [Ok Ca]]]].
  assert (Li : S i <= length (map m_id ms)) by (rewrite map_length; apply nth_error_Some; congruence).
  pose proof Cn as [Hc [_ [_ [_ [Nd _]]]]].
  destruct (gathers_step _ _ tr n ev n' (S i) gs cur T' Nd Li A G St HT) as [cur' G'].
  exists (gs ++ new_group (S i) ev cur), cur'. split; [exact G'|]. rewrite map_app.
  destruct ev as [g data|g t|g|g room bs|g|g|g]; cbn [new_group] in *; try (rewrite !app_nil_r; split; assumption).
  2:{ destruct (g =? S i); [|rewrite !app_nil_r; split; assumption]. split; apply Forall_app; (split; [assumption|repeat constructor]). }
  destruct (g =? S i) eqn:Eg; [|rewrite !app_nil_r; split; assumption]. apply Nat.eqb_eq in Eg. subst g. subst T'.
  destruct (connected_device _ _ _ _ _ _ Cn Em) as [d' [Ed' [Rd [Pd Im]]]]. rewrite Ed in Ed'. injection Ed' as <-.
  split; (apply Forall_app; split; [assumption|constructor; [|constructor]]); cbn [bare option_map].
  - (* it fits *)
    split; [|split].
    + intro Kx. apply map_eq_nil in Kx. exact (ga_full _ _ _ _ _ _ _ G' cur ltac:(apply in_or_app; right; left; reflexivity) Kx).
    + apply Forall_forall. intros x H. apply in_map_iff in H. destruct H as [y [<- H]].
      apply (dialogue_notes _ _ _ _ _ _ _ _ _ Dg), (gathers_in _ _ _ _ _ _ _ _ G). apply in_or_app. right. exact H.
    + destruct (plays_written (S i) (device_program d) (tr ++ [TRead (S i) room bs]) []) as [evs [ahead [Dp [_ V]]]].
      { rewrite app_nil_r. exact (proj2 Tr i d Ed). }
      assert (Hin : In (TRead (S i) room bs) (flat_map (visible (S i)) evs)).
      { rewrite V, moves_snoc. unfold moves at 2. cbn [filter]. rewrite Nat.eqb_refl. apply in_or_app. left.
        apply in_or_app. right. left. reflexivity. }
      apply in_flat_map in Hin. destruct Hin as [ie [Hie Hv]].
      destruct Dp as [st [st' [o [_ Ru]]]].
      pose proof (run_rooms _ _ _ _ _ _ Ru (ha_inv _ _ (hardy_script cap _ _ (ready_hardy _ _ Rd)))) as F.
      rewrite Forall_forall in F. specialize (F ie Hie).
      assert (Hr : room <= length (b_rbuf (n_bus d))).
      { destruct ie as [|w [e|]| |dl k [b|e]| |]; cbn [visible] in Hv; try contradiction;
          destruct Hv as [Hv|[]]; try discriminate Hv. injection Hv as <- _. exact F. }
      rewrite <- (ga_waits _ _ _ _ _ _ _ G). inversion St; subst. unfold waiting. lia.
  - (* it is calm *)
    intros a r b E Re. destruct (reqs b) as [|x b'] eqn:Eb; [reflexivity|]. exfalso.
    destruct (motor_behind tr _ n Q pend tail T Gs Gc rs i m d gs cur Tr Dg Em Ed G Ok Ca)
      as [p [more [evs [ahead [-> [Eq [_ [W _]]]]]]]].
    set (p := reqs (map snd (all_of gs))) in *.
    rewrite E, reqs_app in Eq. cbn [reqs flat_map app] in Eq. fold (reqs b) in Eq. rewrite Eb in Eq.
    assert (Eq2 : Q ++ pend = ((p ++ reqs a) ++ [r]) ++ (x :: b') ++ more) by (rewrite Eq, <- !app_assoc; reflexivity).
    assert (Pl : length pend <= 1).
    { destruct (going_awaited _ _ _ _ _ (dg_going _ _ _ _ _ _ _ _ _ _ _ _ _ _ Dg)) as [->|[o [-> _]]]; cbn; lia. }
    destruct (app_prefix _ _ _ _ _ Eq2 ltac:(rewrite app_length; cbn [length]; lia)) as [q Hq].
    destruct (dg_motor _ _ _ _ _ _ _ _ _ _ _ _ _ _ Dg i m Em) as [ext [Eb2 _]].
    apply (f_equal (@length _)) in W. rewrite app_length, !map_length, Eb2, app_length, Hq in W.
    pose proof (notes_grow ((p ++ reqs a) ++ [r]) m q) as Kx. rewrite notes_app, app_length in Kx. cbn [notes] in Kx.
    rewrite responds_after, Re in Kx. cbn [app length] in Kx. pose proof (notes_grow p m (reqs a)). lia.
Qed.

End Dialogue.

Lemma perform_all_rooms : forall os s rs x s', inv s -> perform_all os s = (rs, x, s') ->
  exists evs, calls s s' evs /\ Forall (room_ok (length (b_rbuf s))) evs.
Proof.
  intro os. induction os as [|o os IH]; intros s rs x s' I E; cbn [perform_all] in E.
  - injection E as <- <- <-. exists []. split; [apply calls_same|constructor].
  - destruct (perform o s) as [y s1] eqn:Eo. destruct (perform_modest o) as [Kp Ro].
    destruct (Ro _ _ _ I Eo) as [evs [C F]]. pose proof (Kp _ _ _ I Eo) as Ev.
    destruct y as [r|p|]; [|injection E as <- <- <-; exists evs; split; assumption..].
    destruct (perform_all os s1) as [[rs2 x2] s2] eqn:E2. injection E as <- <- <-.
    destruct (IH s1 _ _ _ (ev_inv _ _ Ev) E2) as [evs2 [C2 F2]]. exists (evs ++ evs2).
    split; [exact (calls_app _ _ _ _ _ C C2)|]. apply Forall_app. split; [exact F|]. rewrite <- (ev_rcap _ _ Ev). exact F2.
Qed.

Section Steps.
Variables (cap : nat) (c : bus) (ds : list node) (ms : list motor) (os : list op).
Hypothesis Cn : connected cap c ds ms.
Hypothesis P : all_possible comes_back cap ms os.
Hypothesis D : Forall ordinary os.
Let K := length (b_rbuf c).

(** What of a motor's answer has come to the client. *)
Lemma heard_of : forall tr n Q pend tail T Gs Gc rs cur i m, dialogue cap K ds ms os tr n Q pend tail T Gs Gc rs ->
  gathers (map m_id ms) T tr n 0 (Gs ++ Gc) cur -> nth_error ms i = Some m ->
  exists ext rest, by_ (S i) T = notes m Q ++ ext /\ ext = by_ (S i) (all_of Gc ++ cur) ++ rest /\ (busy (S i) tr = false -> rest = []) /\
    (ext = [] \/ exists o, pend = [o] /\ responds o m = true /\ ext = [answer_note o (after_ops Q m)]).
Proof.
  intros tr n Q pend tail T Gs Gc rs cur i m Dg G Em. pose proof Cn as [_ [_ [_ [_ [Nd _]]]]].
  assert (Li : i < length ms) by (apply nth_error_Some; congruence).
  destruct (dg_motor _ _ _ _ _ _ _ _ _ _ _ _ _ _ Dg i m Em) as [ext [E He]].
  destruct (ga_by _ _ _ _ _ _ _ G (S i) ltac:(rewrite map_length; lia) ltac:(lia)) as [rest [R1 [_ [R3 _]]]].
  exists ext, rest. split; [exact E|]. split; [|split; [exact R3|exact He]].
  rewrite all_of_app, <- app_assoc, by_app, (rounds_by _ _ _ _ _ (dg_rounds _ _ _ _ _ _ _ _ _ _ _ _ _ _ Dg) Nd i m Em), E, <- app_assoc in R1.
  apply app_inv_head in R1. exact R1.
Qed.

Lemma client_now : forall tr future n Q pend tail T Gs Gc rs, test_run c ds os (tr ++ future) ->
  dialogue cap K ds ms os tr n Q pend tail T Gs Gc rs ->
  exists rs2 x s' ms' evs ahead, perform_all os (set_script c (reads 0 tr)) = (rs ++ rs2, x, s') /\
    client_program c os (reads 0 tr) evs /\ map (fun o => wire (NReq o)) (ahead_of (pend ++ tail)) = map (fun o => wire (NReq o)) pend ++ ahead /\
    flat_map (visible 0) evs = moves 0 tr ++ map (TWrite 0) ahead /\
    (x = Val tt /\ length (rs ++ rs2) = length os \/
     x = Blocked /\ exists o, nth_error os (length (rs ++ rs2)) = Some o /\ waits_for_answer o) /\
    length rs2 <= length (pend ++ tail) /\ Forall (fun o => awaited o = false) (firstn (length rs2) (pend ++ tail)) /\
    remote_in_any_order ms (firstn (length (rs ++ rs2)) os) (rs ++ rs2) ms' /\ (pend <> [] -> rs2 = []).
Proof.
  intros tr future n Q pend tail T Gs Gc rs [Tc _] Dg. pose proof Cn as [Hc [Rc [_ [_ [Nd _]]]]].
  destruct (dg_heard _ _ _ _ _ _ _ _ _ _ _ _ _ _ Dg) as [cur G].
  pose proof (dg_split _ _ _ _ _ _ _ _ _ _ _ _ _ _ Dg) as Sp.
  destruct (client_at cap K ms Q Gs rs pend tail Gc (set_script c (reads 0 tr)) Hc Nd (dg_rounds _ _ _ _ _ _ _ _ _ _ _ _ _ _ Dg)
    (dg_going _ _ _ _ _ _ _ _ _ _ _ _ _ _ Dg)) as [rs2 [x [s' [evs [ms' [E [C [W Q']]]]]]]].
  - rewrite <- Sp. exact P.
  - rewrite <- Sp. exact D.
  - apply hardy_script, ready_hardy, Rc.
  - reflexivity.
  - exact (ga_reads _ _ _ _ _ _ _ G).
  - rewrite <- Sp in *. destruct (plays_written _ _ _ _ Tc) as [evs' [ahead [Cp [W2 V]]]].
    assert (C0 : client_program c os (reads 0 tr) evs) by (unfold client_program; rewrite E; exact C).
    unfold client_program in Cp, C0. pose proof (calls_inj _ _ _ _ Cp C0) as ->.
    exists rs2, x, s', ms', evs, ahead. split; [exact E|]. split; [exact C0|]. split; [|split; [exact V|exact Q']].
    rewrite W, (dg_said _ _ _ _ _ _ _ _ _ _ _ _ _ _ Dg), of_sender_wire, (dg_client _ _ _ _ _ _ _ _ _ _ _ _ _ _ Dg) in W2.
    rewrite map_map, !map_app, <- app_assoc in W2. apply app_inv_head in W2. exact W2.
Qed.

Lemma ahead_none : forall l, ahead_of l = [] -> l = [].
Proof. intros [|o l] E; [reflexivity|]. cbn [ahead_of] in E. destruct (awaited o); discriminate E. Qed.

(** When nothing goes on any more. *)
Lemma stuck_idle : forall tr n Q tail T Gs Gc rs, test_run c ds os tr ->
  dialogue cap K ds ms os tr n Q [] tail T Gs Gc rs -> stuck c ds os tr n -> tail = [].
Proof.
  intros tr n Q tail T Gs Gc rs Tr Dg [_ [[evs2 [Cp2 V2]] _]]. apply ahead_none. rewrite <- (app_nil_r tr) in Tr.
  destruct (client_now tr [] n Q [] tail T Gs Gc rs Tr Dg) as [rs2 [x [s' [ms' [evs [ahead [_ [Cp [W [V _]]]]]]]]]].
  unfold client_program in Cp, Cp2. rewrite (calls_inj _ _ _ _ Cp2 Cp), V in V2.
  apply (f_equal (@length _)) in V2. rewrite app_length, map_length in V2. destruct ahead; [|cbn in V2; lia].
  cbn [app map] in W. destruct (ahead_of tail); [reflexivity|discriminate W].
Qed.

Lemma stuck_heard : forall tr n Q o tail T Gs Gc rs i m, test_run c ds os tr ->
  dialogue cap K ds ms os tr n Q [o] tail T Gs Gc rs -> stuck c ds os tr n -> nth_error ms i = Some m -> responds o m = true ->
  by_ (S i) (all_of Gc) = [answer_note o (after_ops Q m)].
Proof.
  intros tr n Q o tail T Gs Gc rs i m Tr Dg [Sq [_ Sd]] Em Re. rewrite <- (app_nil_r tr) in Tr.
  assert (Li : i < length ms) by (apply nth_error_Some; congruence).
  pose proof Cn as [_ [_ [_ [F2 _]]]]. assert (Ll : length ds = length ms) by (clear -F2; induction F2; cbn; congruence).
  destruct (connected_device _ _ _ _ _ _ Cn Em) as [d [Ed [_ [_ [I1 I2]]]]].
  destruct (dg_heard _ _ _ _ _ _ _ _ _ _ _ _ _ _ Dg) as [cur G].
  destruct (dg_device _ _ _ _ _ _ _ _ _ _ _ _ _ _ Dg i m d Em Ed) as [gs [cur' [G' [Ok Ca]]]].
  destruct (motor_behind cap K c ds ms os Cn P tr [] n Q [o] tail T Gs Gc rs i m d gs cur' Tr Dg Em Ed G' Ok Ca)
    as [p [more [evs' [ahead' [_ [Eq [Bz [W [V' Ru]]]]]]]]].
  rewrite (Bz (proj1 (Sq 0 ltac:(lia)))), app_nil_r in Eq.
  assert (cur' = []) as ->.
  { apply map_eq_nil with (f := snd), wires_none. rewrite <- (ga_waits _ _ _ _ _ _ _ G'). apply Sq. lia. }
  assert (cur = []) as ->.
  { apply map_eq_nil with (f := snd), wires_none. rewrite <- (ga_waits _ _ _ _ _ _ _ G). apply Sq. lia. }
  cbn [map reqs flat_map] in Eq. rewrite app_nil_r in Eq. subst p.
  assert (ahead' = []) as ->.
  { destruct (Sd i d Ed) as [evs2 [[st [st' [o0 [E2 Ru2]]]] V2]].
    assert (st = state_of m) as -> by (rewrite I2 in E2; injection E2 as <-; reflexivity).
    destruct (mock_run_fun _ _ _ _ _ _ Ru _ _ _ Ru2) as [-> _]. rewrite V' in V2.
    apply (f_equal (@length _)) in V2. rewrite app_length, map_length in V2. destruct ahead'; [reflexivity|cbn in V2; lia]. }
  destruct (heard_of _ _ _ _ _ _ _ _ _ _ i m Dg G Em) as [ext [rest [E1 [E2 [E3 E4]]]]].
  rewrite (E3 (proj1 (Sq (S i) ltac:(lia)))), !app_nil_r in E2. rewrite <- E2.
  destruct E4 as [->|[o' [Eo [_ ->]]]]; [|injection Eo as <-; reflexivity]. exfalso.
  apply (f_equal (@length _)) in W. rewrite app_nil_r, !map_length, E1, notes_app, !app_length in W. cbn [notes length] in W.
  rewrite responds_after, Re in W. cbn [app length] in W. lia.
Qed.

(** A call is over. *)
Lemma dialogue_round : forall tr n tr' n' Q o tail T Gs Gc G rs r cur', dialogue cap K ds ms os tr n Q [o] tail T Gs Gc rs ->
  said tr' = said tr -> gathers (map m_id ms) T tr' n' 0 (Gs ++ G) cur' ->
  (forall i m d, nth_error ms i = Some m -> nth_error ds i = Some d -> device_state cap (map m_id ms) T tr' n' i m d) ->
  round K (all_after Q ms) o G r -> dialogue cap K ds ms os tr' n' (Q ++ [o]) [] tail T (Gs ++ G) [] (rs ++ [r]).
Proof.
  intros tr n tr' n' Q o tail T Gs Gc G rs r cur' Dg Sd Ga DS R. pose proof Cn as [_ [_ [_ [_ [Nd _]]]]].
  pose proof Dg as [C1 C2 C3 C4 C5 C6 C7 C8 C9]. constructor.
  - rewrite C1, <- app_assoc. reflexivity.
  - rewrite Sd. exact C2.
  - exact C3.
  - rewrite C4, app_nil_r. reflexivity.
  - intros i m Em. exists []. split; [|left; reflexivity]. rewrite app_nil_r, notes_app. cbn [notes]. rewrite app_nil_r, responds_after.
    destruct (C5 i m Em) as [ext [E He]]. rewrite E. f_equal.
    assert (Li : i < length ms) by (apply nth_error_Some; congruence).
    destruct (ga_by _ _ _ _ _ _ _ Ga (S i) ltac:(rewrite map_length; lia) ltac:(lia)) as [rest [R1 _]].
    assert (Em' : nth_error (all_after Q ms) i = Some (after_ops Q m)) by (rewrite all_after_nth, Em; reflexivity).
    rewrite all_of_app, <- app_assoc, by_app, (rounds_by _ _ _ _ _ C6 Nd i m Em), E, <- app_assoc in R1. apply app_inv_head in R1.
    rewrite by_app, (round_by _ _ _ _ _ i _ R ltac:(rewrite all_after_ids; exact Nd) Em'), responds_after in R1.
    destruct He as [->|[o' [Eo [Re ->]]]].
    + destruct (responds o m); [discriminate R1|reflexivity].
    + injection Eo as <-. rewrite Re. reflexivity.
  - exact (rounds_snoc _ _ _ _ _ C6 _ _ _ R).
  - constructor.
  - exists cur'. rewrite app_nil_r. exact Ga.
  - exact DS.
Qed.

Lemma dialogue_step : forall tr n ev n' Q pend tail T Gs Gc rs, test_run c ds os (tr ++ [ev]) ->
  (ev = TTimedOut 0 -> stuck c ds os tr n) ->
  acts (map m_id ms) tr n -> bus_step (map m_id ms) n ev n' -> dialogue cap K ds ms os tr n Q pend tail T Gs Gc rs ->
  exists Q' pend' tail' T' Gs' Gc' rs', dialogue cap K ds ms os (tr ++ [ev]) n' Q' pend' tail' T' Gs' Gc' rs'.
Proof.
  intros tr n ev n' Q pend tail T Gs Gc rs Tr Pa A St Dg.
  pose proof Dg as [C1 C2 C3 C4 C5 C6 C7 [cur C8] C9]. pose proof Cn as [Hc [_ [_ [_ [Nd _]]]]].
  assert (Tr0 : test_run c ds os tr).
  { destruct Tr as [T1 T2]. split; [exact (plays_prefix _ _ _ _ T1)|]. intros i d E. exact (plays_prefix _ _ _ _ (T2 i d E)). }
  assert (DS : forall T', match ev with TWrite g data => exists x, T' = T ++ [(g, x)] /\ wire x = data | _ => T' = T end ->
    forall i m d, nth_error ms i = Some m -> nth_error ds i = Some d -> device_state cap (map m_id ms) T' (tr ++ [ev]) n' i m d).
  { intros T' HT i m d Em Ed. exact (motor_step cap K c ds ms os Cn P tr n ev n' Q pend tail T Gs Gc rs T' i m d Tr A St Dg HT Em Ed). }
  assert (CS : forall T', match ev with TWrite g data => exists x, T' = T ++ [(g, x)] /\ wire x = data | _ => T' = T end ->
    exists cur', gathers (map m_id ms) T' (tr ++ [ev]) n' 0 ((Gs ++ Gc) ++ new_group 0 ev cur) cur').
  { intros T' HT. exact (gathers_step _ _ tr n ev n' 0 _ cur T' Nd ltac:(lia) A C8 St HT). }
  (* steps that say nothing and that the client does not see *)
  assert (Same : match ev with TWrite _ _ => False | TRead g _ _ | TTimedOut g => g <> 0 | _ => True end ->
    exists Q' pend' tail' T' Gs' Gc' rs', dialogue cap K ds ms os (tr ++ [ev]) n' Q' pend' tail' T' Gs' Gc' rs').
  { intro Hev. exists Q, pend, tail, T, Gs, Gc, rs. constructor; try assumption.
    - rewrite said_snoc. destruct ev; try contradiction; rewrite app_nil_r; exact C2.
    - destruct (CS T) as [cur' G']; [destruct ev; try contradiction; reflexivity|]. exists cur'.
      destruct ev as [g data|g t|g|g room bs|g|g|g]; try contradiction; cbn [new_group] in G'; rewrite ?app_nil_r in G'; try exact G'.
      all: apply Nat.eqb_neq in Hev; rewrite Hev, app_nil_r in G'; exact G'.
    - apply DS. destruct ev; try contradiction; reflexivity. }
  destruct ev as [g data|g t|g|g room bs|g|g|g]; try (apply Same; exact I).
  - destruct g as [|i].
    + (* the client sends *)
      assert (X : exists o tail', pend = [] /\ tail = o :: tail' /\ data = wire (NReq o)).
      { destruct (plays_written 0 (client_program c os) (tr ++ [TWrite 0 data]) []) as [evs [ahead [Cp [W _]]]].
        { rewrite app_nil_r. exact (proj1 Tr). }
        rewrite reads_snoc, app_nil_r in Cp. rewrite said_snoc, of_sender_app, of_sender_one in W. cbn [Nat.eqb] in W.
        destruct (client_now tr [] n Q pend tail T Gs Gc rs ltac:(rewrite app_nil_r; exact Tr0) Dg) as [rs2 [x [s' [ms' [evs0 [ahead0 [_ [Cp0 [W0 [V0 _]]]]]]]]]].
        unfold client_program in Cp, Cp0. pose proof (calls_inj _ _ _ _ Cp Cp0) as ->.
        rewrite <- (writes_visible 0), V0 in W. unfold writes in W. rewrite flat_map_app in W. fold (writes (moves 0 tr)) in W.
        fold (writes (map (TWrite 0) ahead0)) in W. rewrite writes_moves, writes_ahead, <- app_assoc in W. apply app_inv_head in W. cbn [app] in W.
        destruct (going_awaited _ _ _ _ _ C7) as [->|[o [-> Aw]]].
        - destruct tail as [|o tail']; [rewrite W in W0; discriminate W0|]. exists o, tail'. split; [reflexivity|]. split; [reflexivity|].
          rewrite W in W0. cbn [app map ahead_of] in W0. destruct (awaited o); cbn [map] in W0; injection W0 as <- _; reflexivity.
        - exfalso. cbn [app ahead_of] in W0. rewrite Aw in W0. rewrite W in W0. discriminate W0. }
      destruct X as [o [tail' [-> [-> ->]]]].
      assert (Gc = []) as -> by (inversion C7; reflexivity). rewrite !app_nil_r in *.
      set (T' := T ++ [(0, NReq o)]).
      assert (S' : said (tr ++ [TWrite 0 (wire (NReq o))]) = map on_wire T') by (rewrite said_snoc, C2; unfold T'; rewrite map_app; reflexivity).
      assert (F' : forall x, In x T' -> fst x <= length ms).
      { intros x Hx. apply in_app_or in Hx. destruct Hx as [Hx|[<-|[]]]; [exact (C3 x Hx)|cbn; lia]. }
      assert (B0 : by_ 0 T' = map NReq (Q ++ [o])) by (unfold T'; rewrite by_app, C4, map_app; reflexivity).
      assert (B1 : forall i, by_ (S i) T' = by_ (S i) T) by (intro i; unfold T'; rewrite by_app, by_one; apply app_nil_r).
      destruct (CS T') as [cur' G']; [exists (NReq o); auto|]. cbn [new_group] in G'. rewrite ?app_nil_r in G'.
      specialize (DS T' ltac:(exists (NReq o); auto)).
      assert (Do : ordinary o). { rewrite C1 in D. apply Forall_app in D. destruct D as [_ D']. inversion D'; assumption. }
      destruct (awaited_waits o Do) as [[Aw _]|[_ [a [k [l ->]]]]].
      * exists Q, [o], tail', T', Gs, [], rs. constructor; try assumption.
        -- intros i m Em. rewrite B1. destruct (C5 i m Em) as [ext [E [->|[o' [K' _]]]]]; [|discriminate K']. exists []. auto.
        -- destruct (target o) as [id|] eqn:Ht; [exact (go_waits _ _ _ _ _ Ht)|].
           destruct Do as [[Do|[a [k [l ->]]]]| ->]; [contradiction|discriminate Aw|]. apply (go_scans K (all_after Q ms) [] tail'). split; constructor.
        -- exists cur'. rewrite app_nil_r. exact G'.
      * set (o := OpSyncWrite a k l) in *.
        exists (Q ++ [o]), [], tail', T', (Gs ++ []), [], (rs ++ [RepSent (Ok tt)]). constructor; try assumption.
        -- rewrite C1, <- app_assoc. reflexivity.
        -- rewrite app_nil_r. exact B0.
        -- intros i m Em. rewrite B1. destruct (C5 i m Em) as [ext [E [->|[o' [K' _]]]]]; [|discriminate K']. exists [].
           split; [|left; reflexivity]. rewrite E, notes_app, !app_nil_r. reflexivity.
        -- apply (rounds_snoc _ _ _ _ _ C6). constructor.
        -- constructor.
        -- exists cur'. rewrite !app_nil_r. exact G'.
    + (* a motor answers *)
      assert (Li : i < length ms). { inversion St; subst. rewrite map_length in *. lia. }
      destruct (nth_error ms i) as [m|] eqn:Em; [|apply nth_error_None in Em; lia].
      destruct (connected_device _ _ _ _ _ _ Cn Em) as [d [Ed [_ [_ [I1 I2]]]]].
      destruct (C9 i m d Em Ed) as [gs [cur0 [G [Ok Ca]]]].
      destruct (motor_behind cap K c ds ms os Cn P tr _ n Q pend tail T Gs Gc rs i m d gs cur0 Tr Dg Em Ed G Ok Ca)
        as [p [more [evs0 [ahead0 [Ep [Eq [_ [W0 [V0 Ru0]]]]]]]]].
      destruct (plays_written (S i) (device_program d) (tr ++ [TWrite (S i) data]) []) as [evs [ahead [Dp [W _]]]].
      { rewrite app_nil_r. exact (proj2 Tr i d Ed). }
      rewrite reads_snoc, app_nil_r in Dp. rewrite said_snoc, of_sender_app, of_sender_one, Nat.eqb_refl in W.
      destruct Dp as [st [st' [o0 [E Ru]]]].
      assert (st = state_of m) as -> by (rewrite I2 in E; injection E as <-; reflexivity).
      destruct (mock_run_fun _ _ _ _ _ _ Ru0 _ _ _ Ru) as [-> _].
      rewrite <- (writes_visible (S i)), V0 in W. unfold writes in W. rewrite flat_map_app in W. fold (writes (moves (S i) tr)) in W.
      fold (writes (map (TWrite (S i)) ahead0)) in W. rewrite writes_moves, writes_ahead, <- app_assoc in W. apply app_inv_head in W. cbn [app] in W.
      subst ahead0. destruct (C5 i m Em) as [ext [Eb He]].
      assert (Lw : length (notes m Q) + length ext < length (notes m p)).
      { apply (f_equal (@length _)) in W0. rewrite app_length, !map_length, Eb, app_length in W0. cbn [length] in W0. lia. }
      assert (Pend : exists o, pend = [o]).
      { destruct (going_awaited _ _ _ _ _ C7) as [->|[o [-> _]]]; [exfalso|eauto].
        rewrite app_nil_r in Eq. rewrite Eq in Lw. pose proof (notes_grow p m (reqs (map snd cur0) ++ more)). lia. }
      destruct Pend as [o ->].
      assert (Hp : p = Q ++ [o]).
      { destruct (reqs (map snd cur0) ++ more) as [|y l] eqn:El; [rewrite app_nil_r in Eq; auto|exfalso].
        destruct (app_prefix _ _ _ _ _ Eq ltac:(cbn; lia)) as [q' Hq']. rewrite Hq' in Lw. pose proof (notes_grow p m q'). lia. }
      rewrite Hp, notes_app, !app_length in Lw. cbn [notes] in Lw. rewrite app_nil_r, responds_after in Lw.
      destruct (responds o m) eqn:Re; [|cbn in Lw; lia].
      assert (ext = []) as -> by (destruct ext; [reflexivity|cbn in Lw; lia]). rewrite app_nil_r in Eb.
      rewrite Hp, notes_app, map_app, Eb in W0. apply app_inv_head in W0. cbn [notes] in W0. rewrite app_nil_r, responds_after, Re in W0.
      injection W0 as <- _.
      set (T' := T ++ [(S i, answer_note o (after_ops Q m))]).
      exists Q, [o], tail, T', Gs, Gc, rs. constructor; try assumption.
      * rewrite said_snoc, C2. unfold T'. rewrite map_app. reflexivity.
      * intros x Hx. apply in_app_or in Hx. destruct Hx as [Hx|[<-|[]]]; [exact (C3 x Hx)|cbn; lia].
      * unfold T'. rewrite by_app, by_one. cbn [Nat.eqb]. rewrite app_nil_r. exact C4.
      * intros j m' Ej. unfold T'. rewrite by_app, by_one. destruct (S i =? S j) eqn:Eij.
        -- apply Nat.eqb_eq in Eij. injection Eij as <-. rewrite Em in Ej. injection Ej as <-. rewrite Eb. eexists. split; [reflexivity|].
           right. exists o. auto.
        -- rewrite app_nil_r. exact (C5 j m' Ej).
      * destruct (CS T') as [cur' G']; [exists (answer_note o (after_ops Q m)); auto|]. exists cur'.
        cbn [new_group] in G'. rewrite app_nil_r in G'. exact G'.
      * apply DS. exists (answer_note o (after_ops Q m)). auto.
  - destruct (Nat.eq_dec g 0) as [->|Ng]; [|apply Same; exact Ng].
    (* the client reads *)
    destruct (CS T eq_refl) as [cur' G']. cbn [new_group Nat.eqb] in G'.
    assert (Sd : said (tr ++ [TRead 0 room bs]) = said tr) by (rewrite said_snoc; apply app_nil_r).
    assert (Nc : cur <> []).
    { apply (ga_full _ _ _ _ _ _ _ G'). apply in_or_app. right. left. reflexivity. }
    assert (Fc : forall y, In y cur -> exists i m, y = (S i, snd y) /\ nth_error ms i = Some m).
    { intros [f v] Hy. destruct (ga_from _ _ _ _ _ _ _ C8 (f, v)) as [L1 L2]; [apply in_or_app; right; exact Hy|]. cbn [fst] in *.
      destruct f as [|i]; [contradiction|]. rewrite map_length in L1. destruct (nth_error ms i) as [m|] eqn:Em; [eauto|].
      apply nth_error_None in Em. lia. }
    (* everything in it answers the call *)
    assert (One : forall y, In y cur -> exists i m o, pend = [o] /\ nth_error ms i = Some m /\ responds o m = true /\
      y = (S i, answer_note o (after_ops Q m)) /\ by_ (S i) (all_of Gc) = [] /\ by_ (S i) cur = [answer_note o (after_ops Q m)]).
    { intros y Hy. destruct (Fc y Hy) as [i [m [Ey Em]]]. destruct (heard_of _ _ _ _ _ _ _ _ _ _ i m Dg C8 Em) as [ext [rest [_ [E2 [_ E4]]]]].
      pose proof (by_in _ _ Hy) as Hb. rewrite Ey in Hb. cbn [fst snd] in Hb. rewrite by_app in E2.
      destruct E4 as [->|[o [-> [Re ->]]]].
      { exfalso. symmetry in E2. apply app_eq_nil in E2. destruct E2 as [E2 _]. apply app_eq_nil in E2. destruct E2 as [_ E2]. rewrite E2 in Hb. destruct Hb. }
      exists i, m, o. destruct (by_ (S i) (all_of Gc)) as [|z l] eqn:E5.
      - cbn [app] in E2. destruct (by_ (S i) cur) as [|w l] eqn:E6; [destruct Hb|]. cbn [app] in E2. injection E2 as <- E2.
        symmetry in E2. apply app_eq_nil in E2. destruct E2 as [-> _]. destruct Hb as [Hb|[]]. rewrite Ey, <- Hb. auto 8.
      - exfalso. cbn [app] in E2. injection E2 as _ E2. symmetry in E2. apply app_eq_nil in E2. destruct E2 as [E2 _].
        apply app_eq_nil in E2. destruct E2 as [_ E2]. rewrite E2 in Hb. destruct Hb. }
    assert (Pend : exists o, pend = [o]).
    { destruct cur as [|y cur1]; [contradiction|]. destruct (One y (or_introl eq_refl)) as [_ [_ [o [-> _]]]]. eauto. }
    destruct Pend as [o ->].
    assert (Lc : length (wires (map snd cur)) <= K).
    { destruct (plays_written 0 (client_program c os) (tr ++ [TRead 0 room bs]) []) as [evs [ahead [Cp [_ V]]]].
      { rewrite app_nil_r. exact (proj1 Tr). }
      assert (Hin : In (TRead 0 room bs) (flat_map (visible 0) evs)).
      { rewrite V, moves_snoc. unfold moves at 2. cbn [filter]. rewrite Nat.eqb_refl. apply in_or_app. left.
        apply in_or_app. right. left. reflexivity. }
      apply in_flat_map in Hin. destruct Hin as [ie [Hie Hv]]. unfold client_program in Cp.
      destruct (perform_all os (set_script c (reads 0 (tr ++ [TRead 0 room bs])))) as [[rs0 x0] s0] eqn:E0. cbn [snd] in Cp.
      pose proof Cn as [_ [Rc _]].
      destruct (perform_all_rooms _ _ _ _ _ (ha_inv _ _ (hardy_script cap _ _ (ready_hardy _ _ Rc))) E0) as [evs' [C' F]].
      rewrite (calls_inj _ _ _ _ C' Cp) in F. rewrite Forall_forall in F. specialize (F ie Hie). cbn [set_script b_rbuf] in F. fold K in F.
      assert (Hr : room <= K).
      { destruct ie as [|w [e|]| |dl k [b|e]| |]; cbn [visible] in Hv; try contradiction;
          destruct Hv as [Hv|[]]; try discriminate Hv. injection Hv as <- _. exact F. }
      rewrite <- (ga_waits _ _ _ _ _ _ _ C8). inversion St; subst. unfold waiting. lia. }
    clear C1. inversion C7 as [| |o' id tail' Ht|ls tail' F E2|ls tail' F Cm E2]; subst.
    + (* the answer to a call for one motor *)
      destruct cur as [|y cur1] eqn:Ecur; [contradiction|]. rewrite <- Ecur in *.
      destruct (One y ltac:(rewrite Ecur; left; reflexivity)) as [i [m [o' [Eo [Em [Re [Ey [_ By]]]]]]]]. injection Eo as <-.
      assert (Ht' : target o = Some (m_id (after_ops Q m))).
      { rewrite (responds_target o m _ Ht) in Re. apply beq_true in Re. rewrite after_ops_id, Ht, Re. reflexivity. }
      assert (Hcur : cur = [(S i, answer_note o (after_ops Q m))]).
      { apply only_last; [exact Nc|intros z Hz; destruct (Fc z Hz) as [j [m' [-> _]]]; discriminate|].
        intros f Hf. exists []. rewrite app_nil_r, by_one. destruct (S i =? f) eqn:Ef; [apply Nat.eqb_eq in Ef; subst f; rewrite By; reflexivity|].
        symmetry. apply by_none. intros z Hz Fz. destruct (One z Hz) as [j [m' [o' [Eo [Ej [Re' [Ez _]]]]]]]. injection Eo as <-.
        rewrite Ez in Fz. cbn [fst] in Fz. subst f. apply Nat.eqb_neq in Ef. apply Ef. f_equal.
        apply (proj1 (NoDup_nth_error (map m_id ms)) Nd); [rewrite map_length; apply nth_error_Some; congruence|].
        rewrite !nth_error_map, Em, Ej. cbn. rewrite (responds_target o m _ Ht) in Re. rewrite (responds_target o m' _ Ht) in Re'.
        apply beq_true in Re, Re'. congruence. }
      exists (Q ++ [o]), [], tail, T, (Gs ++ [Some cur]), [], (rs ++ [answered o (after_ops Q m)]).
      rewrite app_nil_r in G'. eapply (dialogue_round tr n); [exact Dg|exact Sd|exact G'|apply DS; reflexivity|]. rewrite Hcur.
      apply rd_served; [exact Ht'|]. rewrite all_after_nth, Em. reflexivity.
    + (* answers to the scan *)
      exists Q, [OpScan], tail, T, Gs, (map Some ls ++ [Some cur]), rs. constructor; try assumption.
      * apply Dg.
      * rewrite Sd. exact C2.
      * change [Some cur] with (map Some [cur]). rewrite <- map_app. apply go_scans. destruct F as [F1 F2]. split.
        -- rewrite concat_app. apply Forall_app. split; [exact F1|]. cbn [concat]. rewrite app_nil_r. apply Forall_forall. intros y Hy.
           destruct (One y Hy) as [i [m [o' [Eo [Em [_ [Ey _]]]]]]]. injection Eo as <-. exists i, (after_ops Q m). rewrite Ey. cbn [fst snd].
           split; [reflexivity|]. split; [rewrite all_after_nth, Em; reflexivity|reflexivity].
        -- apply Forall_app. split; [exact F2|]. constructor; [split; [exact Nc|exact Lc]|constructor].
      * exists cur'. rewrite app_assoc. exact G'.
      * apply DS. reflexivity.
    + (* all have answered *)
      exfalso. destruct cur as [|y cur1] eqn:Ecur; [contradiction|]. rewrite <- Ecur in *.
      destruct (One y ltac:(rewrite Ecur; left; reflexivity)) as [i [m [o' [_ [Em [_ [_ [By _]]]]]]]].
      rewrite all_of_app, by_app, all_some in By. rewrite (Cm i (after_ops Q m)) in By; [discriminate By|].
      rewrite all_after_nth, Em. reflexivity.
  - destruct (Nat.eq_dec g 0) as [->|Ng]; [|apply Same; exact Ng].
    (* the client gives up *)
    specialize (Pa eq_refl). destruct (CS T eq_refl) as [cur' G']. cbn [new_group Nat.eqb] in G'.
    assert (Sd : said (tr ++ [TTimedOut 0]) = said tr) by (rewrite said_snoc; apply app_nil_r).
    specialize (DS T eq_refl).
    assert (Over : pend = [] -> tail = [] -> exists Q' pend' tail' T' Gs' Gc' rs',
      dialogue cap K ds ms os (tr ++ [TTimedOut 0]) n' Q' pend' tail' T' Gs' Gc' rs').
    { intros -> ->. assert (E : exists k, Gc = repeat None k) by (inversion C7; [exists 0; reflexivity|eauto]). destruct E as [k ->].
      exists Q, [], [], T, Gs, (repeat None (S k)), rs. constructor; try assumption.
      - rewrite Sd. exact C2.
      - constructor.
      - exists cur'. replace (repeat None (S k)) with (repeat (@None (list said_note)) k ++ [None]); [rewrite app_assoc; exact G'|].
        clear. induction k as [|k IH]; [reflexivity|]. cbn in *. rewrite IH. reflexivity. }
    clear C1. inversion C7 as [tail' E1 E2 E3|k E1 E2 E3|o id tail' Ht E1 E2 E3|ls tail' F E1 E2 E3|ls tail' F Cm E1 E2 E3]; subst.
    + apply Over; [reflexivity|]. exact (stuck_idle tr n Q tail T Gs [] rs Tr0 Dg Pa).
    + apply Over; reflexivity.
    + rewrite app_nil_r in G'. exists (Q ++ [o]), [], tail, T, (Gs ++ [None]), [], (rs ++ [unanswered o 0]).
      eapply (dialogue_round tr n); [exact Dg|exact Sd|exact G'|exact DS|]. apply (rd_missing _ _ o id Ht). rewrite all_after_ids. intro Hin.
      apply in_map_iff in Hin. destruct Hin as [m [<- Hin]]. apply In_nth_error in Hin. destruct Hin as [i Em].
      pose proof (stuck_heard tr n Q o tail T Gs [] rs i m Tr0 Dg Pa Em ltac:(rewrite (responds_target o m _ Ht); apply beq_refl)) as Kx. discriminate Kx.
    + exists Q, [OpScan], tail, T, Gs, (map Some ls ++ [None]), rs. constructor; try assumption.
      * apply Dg.
      * rewrite Sd. exact C2.
      * apply go_scanned; [exact F|]. intros i m Em. rewrite all_after_nth in Em. destruct (nth_error ms i) as [m0|] eqn:Em0; [|discriminate Em].
        injection Em as <-. rewrite <- all_some. exact (stuck_heard tr n Q OpScan tail T Gs _ rs i m0 Tr0 Dg Pa Em0 (scan_responds m0)).
      * exists cur'. rewrite app_assoc. exact G'.
    + exists (Q ++ [OpScan]), [], tail, T, (Gs ++ (map Some ls ++ [None; None])), [], (rs ++ [RepFound (Ok (map found (motors (all_after Q ms) (concat ls))))]).
      eapply (dialogue_round tr n); [exact Dg|exact Sd| |exact DS|constructor; assumption].
      rewrite <- !app_assoc in G'. exact G'.
Qed.

Lemma run_dialogue : forall tr n, bus_run (map m_id ms) tr n -> test_run c ds os tr -> patient (map m_id ms) c ds os tr ->
  exists Q pend tail T Gs Gc rs, dialogue cap K ds ms os tr n Q pend tail T Gs Gc rs.
Proof.
  intros tr n R. induction R as [|tr n ev n' R IH St]; intros Tr Pt.
  - exists [], [], os, [], [], [], []. constructor; try reflexivity.
    + intros x [].
    + intros i m Em. exists []. split; [reflexivity|left; reflexivity].
    + constructor.
    + constructor.
    + exists []. apply gathers_start.
    + intros i m d _ _. exists [], []. split; [apply gathers_start|]. split; constructor.
  - destruct IH as [Q [pend [tail [T [Gs [Gc [rs Dg]]]]]]].
    + destruct Tr as [T1 T2]. split; [exact (plays_prefix _ _ _ _ T1)|]. intros i d E. exact (plays_prefix _ _ _ _ (T2 i d E)).
    + intros past future n0 E R0. apply (Pt past (future ++ [ev]) n0); [rewrite E, <- app_assoc; reflexivity|exact R0].
    + eapply dialogue_step; eauto.
      * intros ->. apply (Pt tr [] n eq_refl R).
      * exact (run_acts _ _ _ R).
Qed.

End Steps.
