(** * ConcurrentTheorems: client and simulated motors in threads of their own *)
From Coq Require Import ZArith ZifyN ZifyNat ZifyBool.
From Verif Require Import Base Endian Error Checksum Bytestuff Packet Time Bus Data Client
  Instructions Device MockDevice Api Spec CallSpec StreamSpec DeviceSpec InstructionSpec Demo Lib ChecksumProofs
  CrcErrorProofs StuffProofs WriteProofs ReadProofs ApiProofs StreamProofs MessageProofs SendProofs
  SendTheorems ReadTheorems StatusProofs DeviceTheorems InstructionProofs DemoProofs TransferTheorems
  UnderstoodTheorems ScanTheorems RemoteSpec RemoteProofs RemoteTheorems EchoSpec EchoTheorems LateSpec LateTheorems
  FitTheorems TestBus TestBusSpec TestBusTheorems ConcurrentSpec ConcurrentProofs.
Ltac Zify.zify_post_hook ::= Z.div_mod_to_equations.

(** ** Messages with their senders *)

Definition said_note := (nat * note)%type.
Definition on_wire (x : said_note) : nat * list byte := (fst x, wire (snd x)).
Definition by_ (f : nat) (l : list said_note) : list note := map snd (filter (fun x => fst x =? f) l).

Lemma by_app : forall f a b, by_ f (a ++ b) = by_ f a ++ by_ f b.
Proof. intros. unfold by_. rewrite filter_app, map_app. reflexivity. Qed.

Lemma by_one : forall f g n, by_ f [(g, n)] = if g =? f then [n] else [].
Proof. intros. unfold by_. cbn [filter fst]. destruct (g =? f); reflexivity. Qed.

Lemma by_cons : forall f x l, by_ f (x :: l) = (if fst x =? f then [snd x] else []) ++ by_ f l.
Proof. intros f [g n] l. change ((g, n) :: l) with ([(g, n)] ++ l). rewrite by_app, by_one. reflexivity. Qed.

Lemma by_in : forall x l, In x l -> In (snd x) (by_ (fst x) l).
Proof. intros x l H. apply in_map, filter_In. split; [exact H|apply Nat.eqb_refl]. Qed.

Lemma in_by : forall f n l, In n (by_ f l) -> In (f, n) l.
Proof.
  intros f n l H. apply in_map_iff in H. destruct H as [[g n'] [E H]]. apply filter_In in H. cbn in *. destruct H as [H G].
  apply Nat.eqb_eq in G. subst. exact H.
Qed.

Lemma of_sender_wire : forall f l, of_sender f (map on_wire l) = map wire (by_ f l).
Proof.
  intros f l. induction l as [|[g n] l IH]; [reflexivity|]. rewrite by_cons. unfold of_sender in *. cbn [map filter on_wire fst snd].
  destruct (g =? f); cbn [map app snd]; rewrite IH; reflexivity.
Qed.

Definition group := option (list said_note).
Definition bare (g : group) : option (list note) := option_map (map snd) g.
Definition all_of (gs : list group) : list said_note := flat_map (fun g => match g with Some l => l | None => [] end) gs.

Lemma all_of_app : forall a b, all_of (a ++ b) = all_of a ++ all_of b.
Proof. intros. apply flat_map_app. Qed.

Lemma flat_bare : forall gs, flat (map bare gs) = map snd (all_of gs).
Proof.
  induction gs as [|[l|] gs IH]; [reflexivity| |exact IH]. cbn [map bare option_map flat flat_map all_of].
  rewrite map_app. f_equal. exact IH.
Qed.

(** ** What has arrived at an endpoint, read by read *)

Record gathers (ids : list byte) (T : list said_note) (tr : list bus_event) (n : net) (e : nat)
    (gs : list group) (cur : list said_note) : Prop := mkGathers {
  ga_reads : reads e tr = map (fun g => chunk (bare g)) gs;
  ga_waits : waiting n e = wires (map snd cur);
  ga_full : forall l, In (Some l) gs -> l <> [];
  ga_from : forall x, In x (all_of gs ++ cur) -> fst x <= length ids /\ fst x <> e;
  ga_by : forall f, f <= length ids -> f <> e ->
    exists rest, by_ f T = by_ f (all_of gs ++ cur) ++ rest /\ length rest <= 1 /\ (busy f tr = false -> rest = []) /\
      forall data todo, net_act n f = AWriting data todo ->
        if existsb (Nat.eqb e) todo then exists x, rest = [x] /\ wire x = data else rest = [];
}.

Lemma reads_snoc : forall e tr ev, reads e (tr ++ [ev]) = reads e tr ++
  match ev with
  | TRead f _ bs => if f =? e then [RdData bs] else []
  | TTimedOut f => if f =? e then [RdErr (IoTimeout 0)] else []
  | _ => []
  end.
Proof. intros. unfold reads. rewrite flat_map_app. cbn [flat_map]. rewrite app_nil_r. reflexivity. Qed.

(** What a step adds to the reads of [e]. *)
Definition new_group (e : nat) (ev : bus_event) (cur : list said_note) : list group :=
  match ev with
  | TRead f _ _ => if f =? e then [Some cur] else []
  | TTimedOut f => if f =? e then [None] else []
  | _ => []
  end.

Lemma gathers_same : forall ids T tr n e gs cur ev n', gathers ids T tr n e gs cur ->
  (forall f, busy f (tr ++ [ev]) = busy f tr) -> reads e (tr ++ [ev]) = reads e tr -> waiting n' e = waiting n e ->
  (forall f data todo, net_act n' f = AWriting data todo -> net_act n f = AWriting data todo) ->
  gathers ids T (tr ++ [ev]) n' e gs cur.
Proof.
  intros ids T tr n e gs cur ev n' [G1 G2 G3 G4 G5] Hb Hr Hw Ha. constructor; [congruence|congruence|exact G3|exact G4|].
  intros f Lf Ne. destruct (G5 f Lf Ne) as [rest [R1 [R2 [R3 R4]]]]. exists rest. rewrite Hb.
  split; [exact R1|]. split; [exact R2|]. split; [exact R3|]. intros data todo E. exact (R4 data todo (Ha f data todo E)).
Qed.

Lemma gathers_step : forall ids T tr n ev n' e gs cur T', NoDup ids -> e <= length ids -> acts ids tr n ->
  gathers ids T tr n e gs cur -> bus_step ids n ev n' ->
  match ev with TWrite g data => exists x, T' = T ++ [(g, x)] /\ wire x = data | _ => T' = T end ->
  exists cur', gathers ids T' (tr ++ [ev]) n' e (gs ++ new_group e ev cur) cur'.
Proof.
  intros ids T tr n ev n' e gs cur T' Nd Le A Ga St HT. pose proof Ga as [G1 G2 G3 G4 G5].
  destruct St as [n g data L Ac|n g data t todo Ac P|n g data t todo Ac P|n g data Ac|n g room L Ac P D R|n g room L Ac P R|n g L Ac];
    cbn [new_group]; rewrite ?app_nil_r.
  - destruct HT as [x [-> <-]]. exists cur. constructor; [rewrite reads_snoc, app_nil_r; exact G1|exact G2|exact G3|exact G4|].
    intros f Lf Ne. destruct (G5 f Lf Ne) as [rest [R1 [R2 [R3 R4]]]]. rewrite by_app, by_one.
    specialize (A g). rewrite Ac in A. cbn [net_act].
    destruct (Nat.eq_dec f g) as [->|Nf].
    + exists [x]. rewrite Nat.eqb_refl, R1, (R3 A), app_nil_r. split; [reflexivity|]. split; [reflexivity|].
      split; [rewrite busy_snoc, Nat.eqb_refl; discriminate|]. intros d todo E. rewrite upd_same in E. injection E as <- <-.
      rewrite (proj2 (existsb_in e _)); [eauto|]. apply wiring_in; auto.
    + exists rest. replace (g =? f) with false by lia. rewrite app_nil_r. split; [exact R1|]. split; [exact R2|].
      rewrite busy_snoc. replace (g =? f) with false by lia. split; [exact R3|].
      intros d todo E. rewrite upd_other in E by exact Nf. exact (R4 d todo E).
  - subst T'. pose proof (A g) as Ag. rewrite Ac in Ag. destruct Ag as [Ag1 [Ag2 [dn Ag3]]].
    assert (Nt : ~ In t todo).
    { pose proof (wiring_once ids g) as N. rewrite Ag3 in N. apply NoDup_remove_2 in N. intro K. apply N, in_or_app. auto. }
    assert (Gt : t <= length ids /\ t <> g).
    { apply (wiring_in ids g t Nd Ag2). rewrite Ag3. apply in_or_app. right. left. reflexivity. }
    destruct (Nat.eq_dec t e) as [->|Nte].
    + destruct (G5 g Ag2 ltac:(lia)) as [restg [Q1 [_ [_ Q4]]]]. specialize (Q4 data (e :: todo) Ac). cbn [existsb] in Q4.
      rewrite Nat.eqb_refl in Q4. destruct Q4 as [x [-> Hx]].
      exists (cur ++ [(g, x)]). constructor.
      * rewrite reads_snoc, app_nil_r. exact G1.
      * unfold waiting in *. cbn [net_shared]. rewrite upd_same. cbn [sh_data]. rewrite map_app, wires_app, G2. cbn [map snd].
        unfold wires at 3. cbn [map concat]. rewrite app_nil_r, Hx. reflexivity.
      * exact G3.
      * intros y M. rewrite app_assoc in M. apply in_app_or in M. destruct M as [M|[<-|[]]]; [exact (G4 y M)|]. cbn [fst]. lia.
      * intros f Lf Ne. destruct (G5 f Lf Ne) as [rest [R1 [R2 [R3 R4]]]]. rewrite busy_snoc, app_assoc, by_app, by_one.
        destruct (Nat.eq_dec f g) as [->|Nf].
        -- exists []. rewrite Nat.eqb_refl, app_nil_r, Q1. split; [reflexivity|]. split; [cbn; lia|]. split; [reflexivity|].
           intros d todo' E'. cbn [net_act] in E'. rewrite upd_same in E'. injection E' as <- <-.
           rewrite (existsb_out e todo Nt). reflexivity.
        -- exists rest. replace (g =? f) with false by lia. rewrite app_nil_r. split; [exact R1|]. split; [exact R2|].
           split; [exact R3|]. intros d todo' E'. cbn [net_act] in E'. rewrite upd_other in E' by exact Nf. exact (R4 d todo' E').
    + exists cur. constructor; [rewrite reads_snoc, app_nil_r; exact G1| |exact G3|exact G4|].
      { unfold waiting in *. cbn [net_shared]. rewrite upd_other by lia. exact G2. }
      intros f Lf Ne. destruct (G5 f Lf Ne) as [rest [R1 [R2 [R3 R4]]]].
      exists rest. rewrite busy_snoc. split; [exact R1|]. split; [exact R2|]. split; [exact R3|].
      intros d todo' E'. cbn [net_act] in E'. destruct (Nat.eq_dec f g) as [->|Nf].
      * rewrite upd_same in E'. injection E' as <- <-. pose proof (R4 data (t :: todo) Ac) as K. cbn [existsb] in K.
        replace (e =? t) with false in K by lia. exact K.
      * rewrite upd_other in E' by exact Nf. exact (R4 d todo' E').
  - subst T'. exists cur. apply (gathers_same ids T tr n); [exact Ga|intro; apply busy_snoc|rewrite reads_snoc; apply app_nil_r|reflexivity|].
    intros f d todo' E. cbn [net_act] in E. destruct (Nat.eq_dec f g) as [->|Nf]; [rewrite upd_same in E; discriminate E|].
    rewrite upd_other in E by exact Nf. exact E.
  - subst T'. exists cur. constructor; [rewrite reads_snoc, app_nil_r; exact G1|exact G2|exact G3|exact G4|].
    intros f Lf Ne. destruct (G5 f Lf Ne) as [rest [R1 [R2 [R3 R4]]]]. exists rest.
    rewrite busy_snoc. split; [exact R1|]. split; [exact R2|].
    destruct (Nat.eq_dec f g) as [->|Nf].
    + rewrite (R4 data [] Ac). split; [reflexivity|]. cbn [net_act]. rewrite upd_same. discriminate.
    + replace (g =? f) with false by lia. split; [exact R3|]. cbn [net_act]. rewrite upd_other by exact Nf. exact R4.
  - subst T'. destruct (Nat.eq_dec g e) as [->|Ng].
    + rewrite Nat.eqb_refl. exists [].
      assert (X : all_of (gs ++ [Some cur]) ++ [] = all_of gs ++ cur).
      { rewrite all_of_app, app_nil_r. cbn [all_of flat_map]. rewrite app_nil_r. reflexivity. }
      constructor.
      * rewrite reads_snoc, Nat.eqb_refl, map_app, G1. cbn [map bare option_map chunk]. do 3 f_equal. exact G2.
      * unfold waiting. cbn [net_shared]. rewrite upd_same. reflexivity.
      * intros l M. apply in_app_or in M. destruct M as [M|[M|[]]]; [exact (G3 l M)|]. injection M as <-.
        intro K. apply D. unfold waiting in G2. rewrite G2, K. reflexivity.
      * rewrite X. exact G4.
      * intros f Lf Ne. destruct (G5 f Lf Ne) as [rest [R1 [R2 [R3 R4]]]]. exists rest. rewrite X, busy_snoc.
        split; [exact R1|]. split; [exact R2|]. split; [exact R3|exact R4].
    + replace (g =? e) with false by lia. rewrite app_nil_r. exists cur.
      apply (gathers_same ids T tr n); [exact Ga|intro; apply busy_snoc| | |auto].
      * rewrite reads_snoc. replace (g =? e) with false by lia. apply app_nil_r.
      * unfold waiting. cbn [net_shared]. rewrite upd_other by lia. reflexivity.
  - subst T'. exists cur. apply (gathers_same ids T tr n); [exact Ga|intro; apply busy_snoc|rewrite reads_snoc; apply app_nil_r| |].
    + unfold waiting. cbn [net_shared]. destruct (Nat.eq_dec e g) as [->|Ng]; [rewrite upd_same|rewrite upd_other by lia]; reflexivity.
    + intros f d todo' E. cbn [net_act] in E. destruct (Nat.eq_dec f g) as [->|Nf]; [rewrite upd_same in E; discriminate E|].
      rewrite upd_other in E by exact Nf. exact E.
  - subst T'. exists cur. destruct (Nat.eq_dec g e) as [->|Ng].
    + rewrite Nat.eqb_refl.
      assert (X : all_of (gs ++ [None]) = all_of gs) by (rewrite all_of_app; apply app_nil_r).
      constructor; [|exact G2| |rewrite X; exact G4|rewrite X; intros f Lf Ne; rewrite busy_snoc; exact (G5 f Lf Ne)].
      * rewrite reads_snoc, Nat.eqb_refl, map_app, G1. reflexivity.
      * intros l M. apply in_app_or in M. destruct M as [M|[M|[]]]; [exact (G3 l M)|discriminate M].
    + replace (g =? e) with false by lia. rewrite app_nil_r.
      apply (gathers_same ids T tr n); [exact Ga|intro; apply busy_snoc| |reflexivity|auto].
      rewrite reads_snoc. replace (g =? e) with false by lia. apply app_nil_r.
Qed.

(** ** The conversation *)

Fixpoint answers_at (i : nat) (o : op) (ms : list motor) : list said_note :=
  match ms with
  | [] => []
  | m :: ms' => (if responds o m then [(i, answer_note o m)] else []) ++ answers_at (S i) o ms'
  end.

Fixpoint talk (ms : list motor) (os : list op) : list said_note :=
  match os with
  | [] => []
  | o :: os' => (0, NReq o) :: answers_at 1 o ms ++ talk (map (touched o) ms) os'
  end.

(** The answers of one motor. *)
Fixpoint notes (m : motor) (os : list op) : list note :=
  match os with
  | [] => []
  | o :: os' => (if responds o m then [answer_note o m] else []) ++ notes (touched o m) os'
  end.

(** All answers. *)
Fixpoint heard_back (ms : list motor) (os : list op) : list said_note :=
  match os with
  | [] => []
  | o :: os' => answers_at 1 o ms ++ heard_back (map (touched o) ms) os'
  end.

Lemma answers_at_from : forall o ms i x, In x (answers_at i o ms) -> i <= fst x < i + length ms.
Proof.
  intros o ms. induction ms as [|m ms IH]; intros i x H; [contradiction|]. cbn [answers_at] in H. apply in_app_or in H.
  destruct H as [H|H]; [|apply IH in H; cbn [length]; lia].
  destruct (responds o m); [|contradiction]. destruct H as [<-|[]]. cbn. lia.
Qed.

Lemma answers_at_snd : forall o ms i, map snd (answers_at i o ms) = answer1 o ms.
Proof.
  intros o ms. induction ms as [|m ms IH]; intro i; [reflexivity|]. cbn [answers_at]. unfold answer1. cbn [flat_map].
  rewrite map_app, IH. destruct (responds o m); reflexivity.
Qed.

Lemma by_none : forall f l, (forall x, In x l -> fst x <> f) -> by_ f l = [].
Proof.
  intros f l. induction l as [|x l IH]; intro H; [reflexivity|]. rewrite by_cons, IH by (intros y Hy; apply H; right; exact Hy).
  pose proof (H x (or_introl eq_refl)) as K. apply Nat.eqb_neq in K. rewrite K. reflexivity.
Qed.

Lemma by_answers : forall o ms i k m, nth_error ms k = Some m ->
  by_ (i + k) (answers_at i o ms) = if responds o m then [answer_note o m] else [].
Proof.
  intros o ms. induction ms as [|m' ms IH]; intros i k m E; [destruct k; discriminate E|].
  cbn [answers_at]. rewrite by_app. destruct k as [|k].
  - injection E as ->. rewrite Nat.add_0_r. rewrite (by_none i (answers_at (S i) o ms)).
    + rewrite app_nil_r. destruct (responds o m); [|reflexivity]. rewrite by_one, Nat.eqb_refl. reflexivity.
    + intros x H. apply answers_at_from in H. lia.
  - replace (i + S k) with (S i + k) by lia. rewrite (IH (S i) k m E). rewrite by_none; [reflexivity|].
    intros x H. destruct (responds o m'); [|contradiction]. destruct H as [<-|[]]. cbn. lia.
Qed.

Lemma by_client : forall os ms, by_ 0 (talk ms os) = map NReq os.
Proof.
  intro os. induction os as [|o os IH]; intro ms; [reflexivity|]. cbn [talk map]. rewrite by_cons, by_app, IH.
  rewrite (by_none 0 (answers_at 1 o ms)); [reflexivity|]. intros x H. apply answers_at_from in H. lia.
Qed.

Lemma by_motor : forall os ms i m, nth_error ms i = Some m -> by_ (S i) (talk ms os) = notes m os.
Proof.
  intro os. induction os as [|o os IH]; intros ms i m E; [reflexivity|]. cbn [talk notes]. rewrite by_cons, by_app.
  cbn [fst]. replace (0 =? S i) with false by reflexivity. cbn [app]. f_equal.
  - exact (by_answers o ms 1 i m E).
  - apply IH. rewrite nth_error_map, E. reflexivity.
Qed.

Lemma by_back : forall os ms f, f <> 0 -> by_ f (heard_back ms os) = by_ f (talk ms os).
Proof.
  intro os. induction os as [|o os IH]; intros ms f Hf; [reflexivity|]. cbn [talk heard_back]. rewrite by_cons, !by_app.
  cbn [fst]. destruct f; [contradiction|]. cbn [app]. rewrite (IH _ (S f) Hf). reflexivity.
Qed.

Lemma back_snd : forall os ms, map snd (heard_back ms os) = answers_of ms os.
Proof.
  intro os. induction os as [|o os IH]; intro ms; [reflexivity|]. cbn [heard_back answers_of].
  rewrite map_app, answers_at_snd, IH. reflexivity.
Qed.

Lemma all_after_nth : forall os ms i, nth_error (all_after os ms) i = option_map (after_ops os) (nth_error ms i).
Proof.
  intro os. induction os as [|o os IH]; intros ms i; [cbn; destruct (nth_error ms i); reflexivity|].
  cbn [all_after]. rewrite IH, nth_error_map. destruct (nth_error ms i); reflexivity.
Qed.

Lemma all_after_ids : forall os ms, map m_id (all_after os ms) = map m_id ms.
Proof. intro os. induction os as [|o os IH]; intro ms; [reflexivity|]. cbn [all_after]. rewrite IH. apply touched_ids. Qed.

Lemma talk_app : forall a ms b, talk ms (a ++ b) = talk ms a ++ talk (all_after a ms) b.
Proof.
  intro a. induction a as [|o a IH]; intros ms b; [reflexivity|]. cbn [app talk all_after]. rewrite IH, app_assoc. reflexivity.
Qed.

Lemma back_app : forall a ms b, heard_back ms (a ++ b) = heard_back ms a ++ heard_back (all_after a ms) b.
Proof.
  intro a. induction a as [|o a IH]; intros ms b; [reflexivity|]. cbn [app heard_back all_after]. rewrite IH, app_assoc. reflexivity.
Qed.

Lemma after_ops_id : forall os m, m_id (after_ops os m) = m_id m.
Proof. intro os. induction os as [|o os IH]; intro m; [reflexivity|]. cbn [after_ops fold_left]. unfold after_ops in IH. rewrite IH. apply touched_id. Qed.

Lemma responds_after : forall o os m, responds o (after_ops os m) = responds o m.
Proof.
  intros o os. induction os as [|o' os IH]; intro m; [reflexivity|]. cbn [after_ops fold_left]. unfold after_ops in IH.
  rewrite IH. apply responds_touched.
Qed.

Lemma notes_app : forall a m b, notes m (a ++ b) = notes m a ++ notes (after_ops a m) b.
Proof.
  intro a. induction a as [|o a IH]; intros m b; [reflexivity|]. cbn [app notes after_ops fold_left]. rewrite IH, app_assoc. reflexivity.
Qed.

Lemma wire_notes : forall os m, map wire (notes m os) = replies m os.
Proof.
  intro os. induction os as [|o os IH]; intro m; [reflexivity|]. cbn [notes replies]. rewrite map_app, IH. f_equal.
  unfold reply1. destruct (responds o m) eqn:R; [|reflexivity]. cbn [map wire answer_note]. unfold sent_by. rewrite R. reflexivity.
Qed.

Lemma notes_grow : forall a m b, length (notes m a) <= length (notes m (a ++ b)).
Proof. intros. rewrite notes_app, app_length. lia. Qed.

(** Who answers a call for one motor. *)
Lemma answers_target_other : forall o id ms i, target o = Some id -> ~ In id (map m_id ms) -> answers_at i o ms = [].
Proof.
  intros o id ms. induction ms as [|m ms IH]; intros i Ht N; [reflexivity|]. cbn [answers_at].
  rewrite (IH (S i) Ht) by (intro K; apply N; right; exact K). rewrite (responds_target o m id Ht).
  destruct (beq id (m_id m)) eqn:B; [|reflexivity]. apply beq_true in B. exfalso. apply N. left. auto.
Qed.

Lemma answers_target : forall o ms i k m, target o = Some (m_id m) -> NoDup (map m_id ms) -> nth_error ms k = Some m ->
  answers_at i o ms = [(i + k, answer_note o m)].
Proof.
  intros o ms. induction ms as [|m' ms IH]; intros i k m Ht N E; [destruct k; discriminate E|].
  cbn [answers_at]. inversion N as [|? ? N1 N2]; subst. rewrite (responds_target o m' _ Ht). destruct k as [|k].
  - injection E as ->. rewrite beq_refl, (answers_target_other o (m_id m) ms (S i) Ht N1), Nat.add_0_r. reflexivity.
  - rewrite (IH (S i) k m Ht N2 E). replace (S i + k) with (i + S k) by lia.
    destruct (beq (m_id m) (m_id m')) eqn:B; [|reflexivity]. apply beq_true in B. exfalso. apply N1.
    rewrite <- B. apply in_map. exact (nth_error_In ms k E).
Qed.

Lemma answers_sync : forall a n l ms i, answers_at i (OpSyncWrite a n l) ms = [].
Proof. intros a n l ms. induction ms as [|m ms IH]; intro i; [reflexivity|]. exact (IH (S i)). Qed.

(** Requests are what the client says. *)
Definition labelled (x : said_note) : Prop := match snd x with NReq _ => fst x = 0 | NSts _ _ _ => fst x <> 0 end.

Lemma answers_labelled : forall o ms i, 0 < i -> Forall labelled (answers_at i o ms).
Proof.
  intros o ms. induction ms as [|m ms IH]; intros i Hi; [constructor|]. cbn [answers_at]. apply Forall_app.
  split; [|apply IH; lia]. destruct (responds o m); constructor; [cbn; lia|constructor].
Qed.

Lemma talk_labelled : forall os ms, Forall labelled (talk ms os).
Proof.
  intro os. induction os as [|o os IH]; intro ms; [constructor|]. cbn [talk]. constructor; [reflexivity|].
  apply Forall_app. split; [apply answers_labelled; lia|apply IH].
Qed.

Lemma reqs_by : forall l, Forall labelled l -> map NReq (reqs (map snd l)) = by_ 0 l.
Proof.
  intros l F. induction F as [|[f n] l H F IH]; [reflexivity|]. rewrite by_cons, <- IH. unfold labelled in H. cbn [fst snd map] in *.
  destruct n as [o|id e ps].
  - subst f. reflexivity.
  - destruct f; [contradiction|]. reflexivity.
Qed.

Lemma possible_app : forall cap a ms b, all_possible comes_back cap ms (a ++ b) ->
  all_possible comes_back cap ms a /\ all_possible comes_back cap (all_after a ms) b.
Proof.
  intros cap a. induction a as [|o a IH]; intros ms b P; [split; [exact I|exact P]|]. destruct P as [P1 P2].
  destruct (IH _ _ P2) as [Q1 Q2]. split; [split; assumption|exact Q2].
Qed.

Lemma answers_ok : forall cap ms o, 16 <= cap -> possible comes_back cap ms o -> forall l i, incl l ms ->
  Forall (fun x => note_ok cap (snd x)) (answers_at i o l).
Proof.
  intros cap ms o Hc P l. induction l as [|m l IH]; intros i L; [constructor|]. cbn [answers_at]. apply Forall_app.
  split; [|apply IH; intros x H; apply L; right; exact H]. destruct (responds o m) eqn:Re; [|constructor].
  constructor; [|constructor]. cbn [snd answer_note note_ok]. apply (status_passes cap ms o m); auto.
  - apply L. left. reflexivity.
  - destruct (status_for o m); reflexivity.
Qed.

Lemma talk_ok : forall cap os ms, 16 <= cap -> all_possible comes_back cap ms os ->
  Forall (fun x => note_ok cap (snd x)) (talk ms os).
Proof.
  intros cap os. induction os as [|o os IH]; intros ms Hc P; [constructor|]. destruct P as [P1 P2]. cbn [talk]. constructor.
  - cbn [snd note_ok]. destruct P1 as [Pr [Pm _]]. split; [exact Pm|exists ms; exact Pr].
  - apply Forall_app. split; [apply (answers_ok cap ms); auto; apply incl_refl|apply IH; auto].
Qed.

(** ** Threads *)

Definition writes (tr : list bus_event) : list (list byte) :=
  flat_map (fun ev => match ev with TWrite _ w => [w] | _ => [] end) tr.

Lemma writes_visible : forall e evs, writes (flat_map (visible e) evs) = written evs.
Proof.
  intros e evs. induction evs as [|ev evs IH]; [reflexivity|]. unfold writes in *. cbn [flat_map]. rewrite flat_map_app, IH.
  unfold written. cbn [flat_map]. f_equal. destruct ev; try reflexivity; match goal with a : _ |- _ => destruct a; reflexivity end.
Qed.

Lemma writes_moves : forall e tr, writes (moves e tr) = of_sender e (said tr).
Proof.
  intros e tr. induction tr as [|ev tr IH]; [reflexivity|]. unfold moves, said in *. cbn [filter flat_map].
  unfold of_sender in *. rewrite filter_app, map_app, <- IH.
  destruct ev as [f d|f t|f|f r bs|f|f|f]; try reflexivity;
    cbn [filter map fst snd app]; destruct (f =? e); reflexivity.
Qed.

Lemma writes_ahead : forall e l, writes (map (TWrite e) l) = l.
Proof. intros e l. induction l as [|w l IH]; [reflexivity|]. cbn. f_equal. exact IH. Qed.

Lemma plays_written : forall e program past future, plays e program (past ++ future) ->
  exists evs ahead, program (reads e past) evs /\ written evs = of_sender e (said past) ++ ahead /\
    flat_map (visible e) evs = moves e past ++ map (TWrite e) ahead.
Proof.
  intros e program past future P. destruct (P past future eq_refl) as [evs [ahead [H V]]]. exists evs, ahead.
  split; [exact H|]. split; [|exact V]. rewrite <- (writes_visible e), V. unfold writes. rewrite flat_map_app.
  fold (writes (moves e past)). rewrite writes_moves. fold (writes (map (TWrite e) ahead)). rewrite writes_ahead. reflexivity.
Qed.

Lemma plays_prefix : forall e program past future, plays e program (past ++ future) -> plays e program past.
Proof.
  intros e program past future P p f E. apply (P p (f ++ future)). rewrite E, app_assoc. reflexivity.
Qed.

Lemma run_rooms : forall id st s evs st' o, mock_run id st s evs st' o -> inv s -> Forall (room_ok (length (b_rbuf s))) evs.
Proof.
  intros id st s evs st' o H. induction H as [st s o s' evs E N C|st s st1 s1 e1 e2 st2 o E C H IH]; intro Hi;
    destruct (mock_iteration_modest id st) as [Kp Ro]; destruct (Ro _ _ _ Hi E) as [evs' [C' F]];
    rewrite (calls_inj _ _ _ _ C C').
  - exact F.
  - pose proof (Kp _ _ _ Hi E) as Ev. apply Forall_app. split; [exact F|]. rewrite <- (ev_rcap _ _ Ev). apply IH, Ev.
Qed.

(** ** The client *)

Lemma perform_all_total : forall cap h q ms s, 16 <= cap -> NoDup (map m_id ms) -> all_possible comes_back cap ms (h ++ q) ->
  Forall directed (h ++ q) -> Forall (served (map m_id ms)) h -> hardy cap s ->
  p_script (b_port s) = map single (answers_of ms h) ->
  exists rs x s' evs ms', perform_all (h ++ q) s = (rs, x, s') /\ calls s s' evs /\
    written evs = map (fun o => wire (NReq o)) (h ++ lead q) /\ (x = Val tt /\ length rs = length (h ++ q) \/
      x = Blocked /\ exists o id, nth_error (h ++ q) (length rs) = Some o /\ target o = Some id) /\
    length h <= length rs <= length (h ++ q) /\
    Forall (fun o => target o = None) (firstn (length rs - length h) q) /\
    remote ms (firstn (length rs) (h ++ q)) rs ms'.
Proof.
  intros cap h q ms s Hc Nd P D Sv H S. destruct (possible_app _ _ _ _ P) as [P1 P2]. apply Forall_app in D. destruct D as [D1 D2].
  destruct (perform_all_answered cap h ms s q [] Hc Nd P1 D1 Sv H ltac:(rewrite app_nil_r; exact S))
    as [rs [s1 [evs [E [H1 [S1 [C [W R]]]]]]]].
  destruct (perform_all_leads cap q (all_after h ms) s1 Hc P2 D2 H1 S1) as [rs2 [x [s2 [evs2 [E2 [C2 [W2 [Hx [L2 [N2 [ms' R2]]]]]]]]]]].
  pose proof (remote_length _ _ _ _ R) as Lr. exists (rs ++ rs2), x, s2, (evs ++ evs2), ms'.
  split; [exact (E _ _ _ E2)|]. split; [exact (calls_app _ _ _ _ _ C C2)|].
  split; [rewrite written_app, W, W2, map_app; reflexivity|]. rewrite !app_length, Lr.
  split.
  { destruct Hx as [[-> Hx]|[-> [o [id [Hx Ht]]]]]; [left; split; [reflexivity|lia]|right]. split; [reflexivity|]. exists o, id.
    rewrite nth_error_app2 by lia. replace (length h + length rs2 - length h) with (length rs2) by lia. auto. }
  split; [lia|].
  replace (length h + length rs2 - length h) with (length rs2) by lia. split; [exact N2|].
  rewrite firstn_app, firstn_all2 by lia. replace (length h + length rs2 - length h) with (length rs2) by lia.
  exact (remote_app _ _ _ _ R _ _ _ R2).
Qed.

(** ** The state of the conversation

    [Q]: the calls that are over on the bus; [pend]: the call that waits for its
    answer; [h]: the calls whose answers the client has got. *)
Definition spoken (ms : list motor) (Q pend : list op) : list said_note := talk ms Q ++ map (fun o => (0, NReq o)) pend.

Definition device_state (cap : nat) (ids : list byte) (T : list said_note) (tr : list bus_event) (n : net) (i : nat)
    (m : motor) (d : node) : Prop :=
  exists gs cur, gathers ids T tr n (S i) gs cur /\ Forall (chunk_ok cap (length (b_rbuf (n_bus d)))) (map bare gs) /\
    Forall (calm_chunk m) (map bare gs).

Record conversation (cap : nat) (ds : list node) (ms : list motor) (os : list op) (tr : list bus_event) (n : net)
    (h Q pend tail : list op) : Prop := mkConversation {
  cv_split : os = Q ++ pend ++ tail;
  cv_pend : pend = [] \/ exists o id, pend = [o] /\ target o = Some id;
  cv_heard : Q = h \/ exists o id, Q = h ++ [o] /\ target o = Some id /\ pend = [];
  cv_served : Forall (served (map m_id ms)) Q;
  cv_said : said tr = map on_wire (spoken ms Q pend);
  cv_client : exists cur, gathers (map m_id ms) (spoken ms Q pend) tr n 0 (map (fun x => Some [x]) (heard_back ms h)) cur;
  cv_device : forall i m d, nth_error ms i = Some m -> nth_error ds i = Some d ->
    device_state cap (map m_id ms) (spoken ms Q pend) tr n i m d;
}.

Lemma spoken_client : forall ms Q pend, by_ 0 (spoken ms Q pend) = map NReq (Q ++ pend).
Proof.
  intros. unfold spoken. rewrite by_app, by_client, map_app. f_equal. induction pend as [|o l IH]; [reflexivity|].
  cbn [map]. rewrite by_cons, IH. reflexivity.
Qed.

Lemma spoken_motor : forall ms Q pend i m, nth_error ms i = Some m -> by_ (S i) (spoken ms Q pend) = notes m Q.
Proof.
  intros ms Q pend i m E. unfold spoken. rewrite by_app, (by_motor _ _ _ _ E), (by_none (S i)); [apply app_nil_r|].
  intros x H. apply in_map_iff in H. destruct H as [o [<- _]]. discriminate.
Qed.

Lemma spoken_labelled : forall ms Q pend, Forall labelled (spoken ms Q pend).
Proof.
  intros. apply Forall_app. split; [apply talk_labelled|]. apply Forall_forall. intros x H. apply in_map_iff in H.
  destruct H as [o [<- _]]. reflexivity.
Qed.

Lemma spoken_ok : forall cap ms Q pend, 16 <= cap -> all_possible comes_back cap ms (Q ++ pend) -> length pend <= 1 ->
  Forall (fun x => note_ok cap (snd x)) (spoken ms Q pend).
Proof.
  intros cap ms Q pend Hc P L. destruct (possible_app _ _ _ _ P) as [P1 P2]. apply Forall_app. split; [apply talk_ok; auto|].
  destruct pend as [|o [|? ?]]; [constructor| |cbn in L; lia]. constructor; [|constructor]. destruct P2 as [[Pr [Pm _]] _].
  split; [exact Pm|eexists; exact Pr].
Qed.

Lemma gathers_in : forall ids T tr n e gs cur x, gathers ids T tr n e gs cur -> In x (all_of gs ++ cur) -> In x T.
Proof.
  intros ids T tr n e gs cur [f m] [_ _ _ G4 G5] H. destruct (G4 _ H) as [L Ne]. cbn [fst] in *.
  destruct (G5 f L Ne) as [rest [R1 _]]. apply in_by. rewrite R1. apply in_or_app. left. exact (by_in (f, m) _ H).
Qed.

Lemma map_inj : forall A B (f : A -> B) (inj : forall x y, f x = f y -> x = y) l l', map f l = map f l' -> l = l'.
Proof.
  intros A B f inj l. induction l as [|x l IH]; intros [|y l'] E; try discriminate E; [reflexivity|].
  injection E as E1 E2. f_equal; [apply inj, E1|apply IH, E2].
Qed.

Lemma prefix_firstn : forall A (l a b : list A), l = a ++ b -> a = firstn (length a) l.
Proof. intros A l a b ->. rewrite firstn_app, firstn_all, Nat.sub_diag. cbn. rewrite app_nil_r. reflexivity. Qed.

(** The requests that an endpoint has got are the first ones. *)
Lemma gathered_reqs : forall ids ms Q pend tr n e gs cur, gathers ids (spoken ms Q pend) tr n e gs cur -> e <> 0 ->
  exists more, Q ++ pend = reqs (map snd (all_of gs ++ cur)) ++ more /\ (busy 0 tr = false -> more = []).
Proof.
  intros ids ms Q pend tr n e gs cur G Ne. destruct (ga_by _ _ _ _ _ _ _ G 0 ltac:(lia) ltac:(lia)) as [rest [R1 [_ [R3 _]]]].
  rewrite spoken_client, <- reqs_by in R1.
  2:{ apply Forall_forall. intros x H. pose proof (spoken_labelled ms Q pend) as F. rewrite Forall_forall in F.
      apply F, (gathers_in _ _ _ _ _ _ _ _ G H). }
  set (r := reqs (map snd (all_of gs ++ cur))) in *.
  assert (E : map NReq (skipn (length r) (Q ++ pend)) = rest).
  { rewrite <- skipn_map, R1, skipn_app, map_length, Nat.sub_diag. rewrite skipn_all2 by (rewrite map_length; lia). reflexivity. }
  exists (skipn (length r) (Q ++ pend)). split.
  - apply (map_inj _ _ NReq); [intros x y K; injection K; auto|]. rewrite (map_app NReq r), E. exact R1.
  - intro B. rewrite (R3 B) in E. destruct (skipn (length r) (Q ++ pend)); [reflexivity|discriminate E].
Qed.

(** What a motor does with what it has got. *)
Lemma device_acts : forall cap tr i m d ms gs k, 16 <= cap -> ready cap (n_bus d) -> pending (n_bus d) = [] ->
  is_motor d m -> In m ms -> reads (S i) tr = map (fun g => chunk (bare g)) gs ->
  Forall (chunk_ok cap (length (b_rbuf (n_bus d)))) (map bare gs) -> Forall (calm_chunk m) (map bare gs) ->
  reqs (map snd (all_of gs)) = k -> all_possible comes_back cap ms k ->
  (exists evs, mock_run (n_id d) (state_of m) (set_script (n_bus d) (reads (S i) tr)) evs (state_of (after_ops k m)) Blocked) /\
  forall evs, device_program d (reads (S i) tr) evs ->
    written evs = replies m k /\ Forall (room_ok (length (b_rbuf (n_bus d)))) evs.
Proof.
  intros cap tr i m d ms gs k Hc Rd Pd [I1 I2] Hin G Ok Ca Hk P.
  pose proof (ready_hardy _ _ Rd) as H. set (K := length (b_rbuf (n_bus d))) in *.
  assert (Un : unread (n_bus d) = []).
  { rewrite pending_unread in Pd. apply app_eq_nil in Pd. destruct Pd as [Pd _]. destruct (unread (n_bus d)); [reflexivity|discriminate Pd]. }
  assert (B : box cap K (set_script (n_bus d) (reads (S i) tr)) (wires []) (map chunk (map bare gs))).
  { constructor; [apply hardy_script, H|reflexivity|exact Un|]. rewrite map_map. exact G. }
  assert (Hk' : cap <= K) by apply (ha_rcap _ _ H).
  destruct (run_total cap K (count (map bare gs)) [] (map bare gs) ms m _ Hc Hk' (le_n _) (Forall_nil _) Ok
    ltac:(intros a o b E; destruct a; discriminate E) Ca B Hin) as [evs [Ru [Wr Ro]]].
  { cbn [app]. rewrite flat_bare, Hk. exact P. }
  cbn [app] in Ru, Wr. rewrite flat_bare, Hk in Ru, Wr. rewrite <- I1 in Ru. split; [eauto|].
  intros evs2 [st [st' [o [E Ru2]]]].
  assert (st = state_of m) as -> by (rewrite I2 in E; injection E as <-; reflexivity).
  destruct (mock_run_fun _ _ _ _ _ _ Ru _ _ _ Ru2) as [-> _]. auto.
Qed.

Lemma app_prefix : forall A (a b x y : list A), a ++ b = x ++ y -> length b <= length y -> exists q, a = x ++ q.
Proof.
  intros A a b x y E L. exists (skipn (length x) a).
  assert (La : length x <= length a) by (apply (f_equal (@length A)) in E; rewrite !app_length in E; lia).
  rewrite <- (firstn_skipn (length x) a) at 1. f_equal.
  apply (f_equal (firstn (length x))) in E. rewrite !firstn_app, Nat.sub_diag, firstn_all in E.
  replace (length x - length a) with 0 in E by lia. cbn in E. rewrite !app_nil_r in E. exact E.
Qed.

Lemma moves_snoc : forall e tr ev, moves e (tr ++ [ev]) = moves e tr ++ moves e [ev].
Proof. intros. apply filter_app. Qed.

Lemma connected_device : forall cap c ds ms i m, connected cap c ds ms -> nth_error ms i = Some m ->
  exists d, nth_error ds i = Some d /\ ready cap (n_bus d) /\ pending (n_bus d) = [] /\ is_motor d m.
Proof.
  intros cap c ds ms i m [_ [_ [F [F2 _]]]] E. revert i E. induction F2 as [|d m' ds ms Im F2 IH]; intros i E; [destruct i; discriminate E|].
  inversion F as [|? ? [Fd1 Fd2] F']; subst. destruct i as [|i].
  - injection E as ->. exists d. auto.
  - exact (IH F' i E).
Qed.

(** The writes of a motor so far are among the answers to what it has got. *)
Lemma device_behind : forall cap c ds ms os tr future n Q pend tail i m d gs cur, connected cap c ds ms ->
  all_possible comes_back cap ms os -> test_run c ds os (tr ++ future) -> os = Q ++ pend ++ tail ->
  said tr = map on_wire (spoken ms Q pend) -> nth_error ms i = Some m -> nth_error ds i = Some d ->
  gathers (map m_id ms) (spoken ms Q pend) tr n (S i) gs cur ->
  Forall (chunk_ok cap (length (b_rbuf (n_bus d)))) (map bare gs) -> Forall (calm_chunk m) (map bare gs) ->
  exists p more evs ahead, p = reqs (map snd (all_of gs)) /\ Q ++ pend = p ++ reqs (map snd cur) ++ more /\
    (busy 0 tr = false -> more = []) /\
    map wire (notes m p) = map wire (notes m Q) ++ ahead /\
    flat_map (visible (S i)) evs = moves (S i) tr ++ map (TWrite (S i)) ahead /\
    mock_run (n_id d) (state_of m) (set_script (n_bus d) (reads (S i) tr)) evs (state_of (after_ops p m)) Blocked.
Proof.
  intros cap c ds ms os tr future n Q pend tail i m d gs cur Cn P [_ Tr] Os Sd Em Ed G Ok Ca.
  destruct (connected_device _ _ _ _ _ _ Cn Em) as [d' [Ed' [Rd [Pd Im]]]]. rewrite Ed in Ed'. injection Ed' as <-.
  destruct (gathered_reqs _ _ _ _ _ _ _ _ _ G ltac:(lia)) as [more [Eq Bz]]. rewrite map_app, reqs_app, <- app_assoc in Eq.
  set (p := reqs (map snd (all_of gs))) in *.
  assert (Pp : all_possible comes_back cap ms p).
  { rewrite Os, app_assoc, Eq, <- !app_assoc in P. apply (possible_app _ _ _ _ P). }
  destruct (device_acts cap tr i m d ms gs p (proj1 Cn) Rd Pd Im (nth_error_In _ _ Em) (ga_reads _ _ _ _ _ _ _ G) Ok Ca eq_refl Pp) as [[evs0 Ru] Wr].
  destruct (plays_written _ _ _ _ (Tr i d Ed)) as [evs [ahead [Dp [W V]]]].
  destruct (Wr evs Dp) as [W1 _]. exists p, more, evs, ahead. split; [reflexivity|]. split; [exact Eq|]. split; [exact Bz|].
  split; [|split; [exact V|]].
  - rewrite !wire_notes, <- W1, W, Sd, of_sender_wire, (spoken_motor _ _ _ _ _ Em), wire_notes. reflexivity.
  - destruct Dp as [st [st' [o [E Ru2]]]]. destruct Im as [I1 I2].
    assert (st = state_of m) as -> by (rewrite I2 in E; injection E as <-; reflexivity).
    destruct (mock_run_fun _ _ _ _ _ _ Ru _ _ _ Ru2) as [-> _]. exact Ru.
Qed.

Lemma device_step : forall cap c ds ms os tr n ev n' h Q pend tail T' i m d, connected cap c ds ms ->
  all_possible comes_back cap ms os -> test_run c ds os (tr ++ [ev]) -> acts (map m_id ms) tr n ->
  bus_step (map m_id ms) n ev n' -> conversation cap ds ms os tr n h Q pend tail ->
  match ev with TWrite g data => exists x, T' = spoken ms Q pend ++ [(g, x)] /\ wire x = data | _ => T' = spoken ms Q pend end ->
  nth_error ms i = Some m -> nth_error ds i = Some d -> device_state cap (map m_id ms) T' (tr ++ [ev]) n' i m d.
Proof.
  intros cap c ds ms os tr n ev n' h Q pend tail T' i m d Cn P Tr A St [C1 C2 C3 C4 C5 C6 C7] HT Em Ed.
  destruct (C7 i m d Em Ed) as [gs [cur [G [Ok Ca]]]].
  assert (Li : S i <= length (map m_id ms)) by (rewrite map_length; apply nth_error_Some; congruence).
  pose proof Cn as [Hc [_ [_ [_ [Nd _]]]]].
  destruct (gathers_step _ _ tr n ev n' (S i) gs cur T' Nd Li A G St HT) as [cur' G'].
  exists (gs ++ new_group (S i) ev cur), cur'. split; [exact G'|]. rewrite map_app.
  assert (Pl : length pend <= 1) by (destruct C2 as [->|[o [id [-> _]]]]; cbn; lia).
  assert (Pq : all_possible comes_back cap ms (Q ++ pend)) by (rewrite C1, app_assoc in P; apply (possible_app _ _ _ _ P)).
  destruct ev as [g data|g t|g|g room bs|g|g|g]; cbn [new_group] in *; try (rewrite !app_nil_r; split; assumption).
  2:{ destruct (g =? S i); [|rewrite !app_nil_r; split; assumption]. split; apply Forall_app; (split; [assumption|repeat constructor]). }
  destruct (g =? S i) eqn:Eg; [|rewrite !app_nil_r; split; assumption]. apply Nat.eqb_eq in Eg. subst g. subst T'.
  destruct (connected_device _ _ _ _ _ _ Cn Em) as [d' [Ed' [Rd [Pd Im]]]]. rewrite Ed in Ed'. injection Ed' as <-.
  split; (apply Forall_app; split; [assumption|constructor; [|constructor]]); cbn [bare option_map].
  - (* it fits *)
    split; [|split].
    + intro K. apply map_eq_nil in K. exact (ga_full _ _ _ _ _ _ _ G' cur ltac:(apply in_or_app; right; left; reflexivity) K).
    + apply Forall_forall. intros x H. apply in_map_iff in H. destruct H as [y [<- H]].
      pose proof (spoken_ok cap ms Q pend Hc Pq Pl) as F. rewrite Forall_forall in F.
      apply F, (gathers_in _ _ _ _ _ _ _ _ G). apply in_or_app. right. exact H.
    + destruct (plays_written (S i) (device_program d) (tr ++ [TRead (S i) room bs]) []) as [evs [ahead [Dp [_ V]]]].
      { rewrite app_nil_r. exact (proj2 Tr i d Ed). }
      assert (Hin : In (TRead (S i) room bs) (flat_map (visible (S i)) evs)).
      { rewrite V, moves_snoc. unfold moves at 2. cbn [filter]. rewrite Nat.eqb_refl. apply in_or_app. left.
        apply in_or_app. right. left. reflexivity. }
      apply in_flat_map in Hin. destruct Hin as [ie [Hie Hv]].
      destruct Dp as [st [st' [o [_ Ru]]]].
      pose proof (run_rooms _ _ _ _ _ _ Ru (ha_inv _ _ (hardy_script cap _ _ (ready_hardy _ _ Rd)))) as F.
      rewrite Forall_forall in F. specialize (F ie Hie).
      assert (Hr : room <= length (b_rbuf (n_bus d))).
      { destruct ie as [|w [e|]| |dl k [b|e]| |]; cbn [visible] in Hv; try contradiction;
          destruct Hv as [Hv|[]]; try discriminate Hv. injection Hv as <- _. exact F. }
      rewrite <- (ga_waits _ _ _ _ _ _ _ G). inversion St; subst. unfold waiting. lia.
  - (* it is calm *)
    intros a r b E Re. destruct (reqs b) as [|x b'] eqn:Eb; [reflexivity|]. exfalso.
    destruct (device_behind cap c ds ms os tr _ n Q pend tail i m d gs cur Cn P Tr C1 C5 Em Ed G Ok Ca)
      as [p [more [evs [ahead [-> [Eq [_ [W _]]]]]]]].
    set (p := reqs (map snd (all_of gs))) in *.
    rewrite E, reqs_app in Eq. cbn [reqs flat_map app] in Eq. fold (reqs b) in Eq. rewrite Eb in Eq.
    assert (Eq2 : Q ++ pend = ((p ++ reqs a) ++ [r]) ++ (x :: b') ++ more) by (rewrite Eq, <- !app_assoc; reflexivity).
    destruct (app_prefix _ _ _ _ _ Eq2 ltac:(rewrite app_length; cbn [length]; lia)) as [q Hq].
    apply (f_equal (@length _)) in W. rewrite app_length, !map_length, Hq in W.
    pose proof (notes_grow ((p ++ reqs a) ++ [r]) m q) as K. rewrite notes_app, app_length in K. cbn [notes] in K.
    rewrite responds_after, Re in K. cbn [app length] in K. pose proof (notes_grow p m (reqs a)). lia.
Qed.

Lemma singles_reads : forall l, map (fun g => chunk (bare g)) (map (fun x : said_note => Some [x]) l) = map single (map snd l).
Proof.
  intro l. rewrite !map_map. apply map_ext. intros [f x]. cbn [bare option_map map snd chunk]. unfold single, wires. cbn [map concat].
  rewrite app_nil_r. reflexivity.
Qed.

Lemma singles_all : forall l, all_of (map (fun x : said_note => Some [x]) l) = l.
Proof. induction l as [|x l IH]; [reflexivity|]. cbn. f_equal. exact IH. Qed.

(** What the client does with what it has got. *)
Lemma client_behind : forall cap c ds ms os tr future n h q Q pend tail, connected cap c ds ms ->
  all_possible comes_back cap ms os -> Forall directed os -> test_run c ds os (tr ++ future) ->
  conversation cap ds ms os tr n h Q pend tail -> os = h ++ q ->
  exists rs x s' ahead ms', perform_all os (set_script c (reads 0 tr)) = (rs, x, s') /\
    map (fun o => wire (NReq o)) (h ++ lead q) = map (fun o => wire (NReq o)) (Q ++ pend) ++ ahead /\
    (exists evs, client_program c os (reads 0 tr) evs /\ flat_map (visible 0) evs = moves 0 tr ++ map (TWrite 0) ahead) /\
    (x = Val tt /\ length rs = length os \/
      x = Blocked /\ exists o id, nth_error os (length rs) = Some o /\ target o = Some id) /\ length h <= length rs <= length os /\
    Forall (fun o => target o = None) (firstn (length rs - length h) q) /\
    remote ms (firstn (length rs) os) rs ms'.
Proof.
  intros cap c ds ms os tr future n h q Q pend tail [Hc [Rc [_ [_ [Nd _]]]]] P D [Tr _] [C1 C2 C3 C4 C5 [cur C6] C7] Oq.
  assert (Sv : Forall (served (map m_id ms)) h).
  { destruct C3 as [<-|[o [id [E _]]]]; [exact C4|]. rewrite E in C4. apply Forall_app in C4. apply C4. }
  assert (S : p_script (b_port (set_script c (reads 0 tr))) = map single (answers_of ms h)).
  { cbn [set_script b_port p_script]. rewrite <- back_snd, <- singles_reads. exact (ga_reads _ _ _ _ _ _ _ C6). }
  pose proof P as P'. pose proof D as D'. rewrite Oq in P', D'.
  destruct (perform_all_total cap h q ms _ Hc Nd P' D' Sv (hardy_script cap c _ (ready_hardy _ _ Rc)) S)
    as [rs [x [s' [evs [ms' [E [C [W [Hx [L [N R]]]]]]]]]]]. rewrite <- Oq in *.
  destruct (plays_written _ _ _ _ Tr) as [evs2 [ahead [Cp [W2 V]]]].
  assert (evs2 = evs) as ->. { unfold client_program in Cp. rewrite E in Cp. exact (calls_inj _ _ _ _ Cp C). }
  exists rs, x, s', ahead, ms'. split; [exact E|]. split.
  { rewrite <- W, W2, C5, of_sender_wire, spoken_client, map_map. reflexivity. }
  split; [eauto|]. auto.
Qed.

Lemma target_sync : forall o, directed o -> target o = None -> exists a n l, o = OpSyncWrite a n l.
Proof. intros o [H|H] E; [contradiction|exact H]. Qed.

Lemma only_last : forall (x : said_note) cur, cur <> [] -> (forall y, In y cur -> fst y <> 0) ->
  (forall f, f <> 0 -> exists rest, by_ f [x] = by_ f cur ++ rest) -> cur = [x].
Proof.
  intros [f v] cur Ne F H. destruct cur as [|[g w] cur]; [contradiction|]. clear Ne.
  destruct (H g (F (g, w) (or_introl eq_refl))) as [rest R]. rewrite by_one, by_cons in R. cbn [fst snd] in R. rewrite Nat.eqb_refl in R.
  destruct (f =? g) eqn:E; [|discriminate R]. apply Nat.eqb_eq in E. subst g. injection R as <- R. symmetry in R.
  apply app_eq_nil in R. destruct R as [R _]. destruct cur as [|[g w] cur]; [reflexivity|exfalso].
  pose proof (F (g, w) (or_intror (or_introl eq_refl))) as Ng. cbn [fst] in Ng.
  destruct (H g Ng) as [rest' R']. rewrite by_one, !by_cons in R'. cbn [fst snd] in R'. rewrite Nat.eqb_refl in R'.
  destruct (f =? g) eqn:E; [|discriminate R']. apply Nat.eqb_eq in E. subst g.
  rewrite by_cons in R. cbn [fst] in R. rewrite Nat.eqb_refl in R. discriminate R.
Qed.

Lemma conversation_step : forall cap c ds ms os tr n ev n' h Q pend tail, connected cap c ds ms ->
  all_possible comes_back cap ms os -> Forall directed os -> test_run c ds os (tr ++ [ev]) -> ev <> TTimedOut 0 ->
  acts (map m_id ms) tr n -> bus_step (map m_id ms) n ev n' -> conversation cap ds ms os tr n h Q pend tail ->
  exists h' Q' pend' tail', conversation cap ds ms os (tr ++ [ev]) n' h' Q' pend' tail'.
Proof.
  intros cap c ds ms os tr n ev n' h Q pend tail Cn P D Tr Nt A St Cv.
  pose proof Cv as [C1 C2 C3 C4 C5 [cur C6] C7]. pose proof Cn as [Hc [_ [_ [_ [Nd _]]]]].
  assert (Oq : exists q, os = h ++ q /\ (Q = h -> q = pend ++ tail) /\ (forall o, Q = h ++ [o] -> q = o :: pend ++ tail)).
  { destruct C3 as [<-|[o [id [-> [Ht ->]]]]].
    - exists (pend ++ tail). split; [exact C1|]. split; [reflexivity|]. intros o E. exfalso.
      apply (f_equal (@length _)) in E. rewrite app_length in E. cbn in E. lia.
    - exists (o :: tail). split; [rewrite C1, <- app_assoc; reflexivity|]. split.
      + intro E. exfalso. apply (f_equal (@length _)) in E. rewrite app_length in E. cbn in E. lia.
      + intros o' E. apply app_inj_tail in E. destruct E as [_ <-]. reflexivity. }
  destruct Oq as [q [Oq [Oq1 Oq2]]].
  assert (DS : forall T', match ev with TWrite g data => exists x, T' = spoken ms Q pend ++ [(g, x)] /\ wire x = data | _ => T' = spoken ms Q pend end ->
    forall i m d, nth_error ms i = Some m -> nth_error ds i = Some d -> device_state cap (map m_id ms) T' (tr ++ [ev]) n' i m d).
  { intros T' HT i m d Em Ed. exact (device_step cap c ds ms os tr n ev n' h Q pend tail T' i m d Cn P Tr A St Cv HT Em Ed). }
  assert (CS : forall T', match ev with TWrite g data => exists x, T' = spoken ms Q pend ++ [(g, x)] /\ wire x = data | _ => T' = spoken ms Q pend end ->
    exists cur', gathers (map m_id ms) T' (tr ++ [ev]) n' 0 (map (fun x => Some [x]) (heard_back ms h) ++ new_group 0 ev cur) cur').
  { intros T' HT. exact (gathers_step _ _ tr n ev n' 0 _ cur T' Nd ltac:(lia) A C6 St HT). }
  (* steps that say nothing and that the client does not see *)
  assert (Same : match ev with TWrite _ _ => False | TRead g _ _ => g <> 0 | _ => True end ->
    exists h' Q' pend' tail', conversation cap ds ms os (tr ++ [ev]) n' h' Q' pend' tail').
  { intro Hev. exists h, Q, pend, tail. constructor; try assumption.
    - rewrite said_snoc. destruct ev; try contradiction; rewrite app_nil_r; exact C5.
    - destruct (CS (spoken ms Q pend)) as [cur' G']; [destruct ev; try contradiction; reflexivity|]. exists cur'.
      destruct ev as [g data|g t|g|g room bs|g|g|g]; try contradiction; cbn [new_group] in G'; rewrite ?app_nil_r in G'; try exact G'.
      + apply Nat.eqb_neq in Hev. rewrite Hev, app_nil_r in G'. exact G'.
      + destruct g; [contradiction Nt; reflexivity|]. cbn [Nat.eqb] in G'. rewrite app_nil_r in G'. exact G'.
    - apply DS. destruct ev; try contradiction; reflexivity. }
  destruct ev as [g data|g t|g|g room bs|g|g|g]; try (apply Same; exact I).
  - destruct g as [|i].
    + (* the client sends *)
      assert (K : exists o tail', Q = h /\ pend = [] /\ tail = o :: tail' /\ data = wire (NReq o)).
      { destruct (plays_written 0 (client_program c os) (tr ++ [TWrite 0 data]) []) as [evs [ahead [Cp [W _]]]].
        { rewrite app_nil_r. exact (proj1 Tr). }
        rewrite reads_snoc, app_nil_r in Cp. rewrite said_snoc, of_sender_app, of_sender_one in W. cbn [Nat.eqb] in W.
        destruct (client_behind cap c ds ms os tr [TWrite 0 data] n h q Q pend tail Cn P D Tr Cv Oq)
          as [rs [x [s' [ahead0 [ms' [_ [W0 [[evs0 [Cp0 V0]] _]]]]]]]].
        unfold client_program in Cp, Cp0. pose proof (calls_inj _ _ _ _ Cp Cp0) as ->.
        assert (W1 : written evs0 = map (fun o => wire (NReq o)) (h ++ lead q)).
        { rewrite <- (writes_visible 0), V0. unfold writes. rewrite flat_map_app. fold (writes (moves 0 tr)).
          fold (writes (map (TWrite 0) ahead0)). rewrite writes_moves, writes_ahead, C5, of_sender_wire, spoken_client, map_map, W0. reflexivity. }
        rewrite W1, C5, of_sender_wire, spoken_client, map_map, <- app_assoc in W.
        assert (Lw : length (Q ++ pend) < length (h ++ lead q)).
        { apply (f_equal (@length _)) in W. rewrite !app_length, !map_length in W. cbn [app length] in W. rewrite !app_length in W |- *. lia. }
        destruct C3 as [->|[o [id [-> [Ht ->]]]]].
        - destruct C2 as [->|[o [id [-> Ht]]]].
          + rewrite app_nil_r in *. specialize (Oq1 eq_refl). cbn [app] in Oq1. subst q.
            destruct tail as [|o tail']; [cbn in Lw; rewrite app_nil_r in Lw; lia|].
            exists o, tail'. split; [reflexivity|]. split; [reflexivity|]. split; [reflexivity|].
            rewrite map_app in W. apply app_inv_head in W. cbn [lead] in W. destruct (target o); cbn [map] in W; injection W as <- _; reflexivity.
          + exfalso. rewrite (Oq1 eq_refl) in Lw. cbn [app lead] in Lw. rewrite Ht in Lw. lia.
        - exfalso. rewrite (Oq2 o eq_refl) in Lw. cbn [app lead] in Lw. rewrite Ht, app_nil_r in Lw. lia. }
      destruct K as [o [tail' [-> [-> [-> ->]]]]]. cbn [app] in C1.
      assert (Do : directed o). { rewrite C1 in D. apply Forall_app in D. destruct D as [_ D]. inversion D; assumption. }
      destruct (target o) as [id|] eqn:Ht.
      * exists h, h, [o], tail'.
        assert (X : spoken ms h [o] = spoken ms h [] ++ [(0, NReq o)]) by (unfold spoken; cbn [map]; rewrite app_nil_r; reflexivity).
        constructor; auto.
        -- right. eauto.
        -- rewrite said_snoc, C5, X, map_app. reflexivity.
        -- destruct (CS (spoken ms h [o])) as [cur' G']; [exists (NReq o); auto|]. exists cur'.
           cbn [new_group] in G'. rewrite app_nil_r in G'. exact G'.
        -- apply DS. exists (NReq o). auto.
      * destruct (target_sync o Do Ht) as [a [k [l ->]]]. set (o := OpSyncWrite a k l) in *.
        exists (h ++ [o]), (h ++ [o]), [], tail'.
        assert (X : spoken ms (h ++ [o]) [] = spoken ms h [] ++ [(0, NReq o)]).
        { unfold spoken. cbn [map]. rewrite !app_nil_r, talk_app. cbn [talk]. unfold o at 2. rewrite answers_sync. reflexivity. }
        assert (Y : heard_back ms (h ++ [o]) = heard_back ms h).
        { rewrite back_app. cbn [heard_back]. unfold o. rewrite answers_sync. apply app_nil_r. }
        constructor; auto.
        -- rewrite C1, <- app_assoc. reflexivity.
        -- apply Forall_app. split; [exact C4|]. constructor; [|constructor]. intros id E. discriminate E.
        -- rewrite said_snoc, C5, X, map_app. reflexivity.
        -- rewrite Y. destruct (CS (spoken ms (h ++ [o]) [])) as [cur' G']; [exists (NReq o); auto|]. exists cur'.
           cbn [new_group] in G'. rewrite app_nil_r in G'. exact G'.
        -- apply DS. exists (NReq o). auto.
    + (* a motor answers *)
      assert (Li : i < length ms). { inversion St; subst. rewrite map_length in *. lia. }
      destruct (nth_error ms i) as [m|] eqn:Em; [|apply nth_error_None in Em; lia].
      destruct (connected_device _ _ _ _ _ _ Cn Em) as [d [Ed [_ [_ _]]]].
      destruct (C7 i m d Em Ed) as [gs [cur0 [G [Ok Ca]]]].
      destruct (device_behind cap c ds ms os tr _ n Q pend tail i m d gs cur0 Cn P Tr C1 C5 Em Ed G Ok Ca)
        as [p [more [evs0 [ahead0 [Ep [Eq [_ [W0 [V0 Ru0]]]]]]]]].
      destruct (plays_written (S i) (device_program d) (tr ++ [TWrite (S i) data]) []) as [evs [ahead [Dp [W _]]]].
      { rewrite app_nil_r. exact (proj2 Tr i d Ed). }
      rewrite reads_snoc, app_nil_r in Dp. rewrite said_snoc, of_sender_app, of_sender_one, Nat.eqb_refl in W.
      destruct (connected_device _ _ _ _ _ _ Cn Em) as [d' [Ed' [_ [_ [I1 I2]]]]]. rewrite Ed in Ed'. injection Ed' as <-.
      destruct Dp as [st [st' [o0 [E Ru]]]].
      assert (st = state_of m) as -> by (rewrite I2 in E; injection E as <-; reflexivity).
      destruct (mock_run_fun _ _ _ _ _ _ Ru0 _ _ _ Ru) as [-> _].
      assert (W1 : written evs0 = map wire (notes m p)).
      { rewrite <- (writes_visible (S i)), V0. unfold writes. rewrite flat_map_app. fold (writes (moves (S i) tr)).
        fold (writes (map (TWrite (S i)) ahead0)).
        rewrite writes_moves, writes_ahead, C5, of_sender_wire, (spoken_motor _ _ _ _ _ Em), W0. reflexivity. }
      rewrite W1, C5, of_sender_wire, (spoken_motor _ _ _ _ _ Em), <- app_assoc in W. cbn [app] in W.
      assert (Lw : length (notes m Q) < length (notes m p)).
      { apply (f_equal (@length _)) in W. rewrite app_length, !map_length in W. cbn [length] in W. lia. }
      destruct C2 as [->|[o [id [-> Ht]]]].
      { exfalso. rewrite app_nil_r in Eq. rewrite Eq in Lw. pose proof (notes_grow p m (reqs (map snd cur0) ++ more)). lia. }
      assert (Hq : Q = h). { destruct C3 as [C3|[? [? [_ [_ C3]]]]]; [exact C3|discriminate C3]. } subst h.
      assert (p = Q ++ [o]) as ->.
      { destruct (reqs (map snd cur0) ++ more) as [|y l] eqn:El; [rewrite app_nil_r in Eq; auto|exfalso].
        destruct (app_prefix _ _ _ _ _ Eq ltac:(cbn; lia)) as [q' Hq']. rewrite Hq' in Lw. pose proof (notes_grow p m q'). lia. }
      rewrite notes_app, map_app in W. apply app_inv_head in W. cbn [notes] in W. rewrite app_nil_r in W.
      destruct (responds o (after_ops Q m)) eqn:Re; [|discriminate W]. injection W as <- _.
      assert (Ht' : target o = Some (m_id (after_ops Q m))).
      { rewrite (responds_target o _ _ Ht) in Re. apply beq_true in Re. rewrite Ht, Re. reflexivity. }
      assert (X : spoken ms (Q ++ [o]) [] = spoken ms Q [o] ++ [(S i, answer_note o (after_ops Q m))]).
      { unfold spoken. cbn [map]. rewrite app_nil_r, talk_app, <- app_assoc. cbn [talk app].
        rewrite (answers_target o (all_after Q ms) 1 i (after_ops Q m) Ht'); [reflexivity|rewrite all_after_ids; exact Nd|].
        rewrite all_after_nth, Em. reflexivity. }
      exists Q, (Q ++ [o]), [], tail. constructor; auto.
      * rewrite C1, <- app_assoc. reflexivity.
      * right. eauto.
      * apply Forall_app. split; [exact C4|]. constructor; [|constructor]. intros id' E'. rewrite Ht' in E'. injection E' as <-.
        rewrite after_ops_id. apply in_map, (nth_error_In _ _ Em).
      * rewrite said_snoc, C5, X, map_app. reflexivity.
      * destruct (CS (spoken ms (Q ++ [o]) [])) as [cur' G']; [exists (answer_note o (after_ops Q m)); auto|]. exists cur'.
        cbn [new_group] in G'. rewrite app_nil_r in G'. exact G'.
      * apply DS. exists (answer_note o (after_ops Q m)). auto.
  - destruct (Nat.eq_dec g 0) as [->|Ng]; [|apply Same; exact Ng].
    (* the client reads *)
    destruct (CS (spoken ms Q pend) eq_refl) as [cur' G']. cbn [new_group Nat.eqb] in G'.
    assert (Nc : cur <> []).
    { apply (ga_full _ _ _ _ _ _ _ G'). apply in_or_app. right. left. reflexivity. }
    assert (Fc : forall y, In y cur -> fst y <> 0).
    { intros y Hy. apply (ga_from _ _ _ _ _ _ _ C6 y). apply in_or_app. right. exact Hy. }
    assert (Bc : forall f, f <> 0 -> f <= length (map m_id ms) -> exists rest, by_ f (talk ms Q) = by_ f (talk ms h) ++ by_ f cur ++ rest).
    { intros f Hf Lf. destruct (ga_by _ _ _ _ _ _ _ C6 f Lf Hf) as [rest [R _]]. exists rest.
      rewrite by_app, singles_all, (by_back h ms f Hf) in R. rewrite app_assoc, <- R.
      unfold spoken. rewrite by_app, (by_none f (map _ _)); [symmetry; apply app_nil_r|].
      intros x Hx. apply in_map_iff in Hx. destruct Hx as [o [<- _]]. cbn. auto. }
    destruct C3 as [->|[o [id [-> [Ht ->]]]]].
    { exfalso. destruct cur as [|[f v] cur]; [contradiction|].
      assert (Lf : f <= length (map m_id ms)). { apply (ga_from _ _ _ _ _ _ _ C6 (f, v)). apply in_or_app. right. left. reflexivity. }
      destruct (Bc f (Fc (f, v) (or_introl eq_refl)) Lf) as [rest R].
      rewrite by_cons in R. cbn [fst] in R. rewrite Nat.eqb_refl in R. apply (f_equal (@length _)) in R.
      rewrite !app_length in R. cbn [length] in R. lia. }
    apply Forall_app in C4. destruct C4 as [C4 C4']. inversion C4' as [|? ? So _]; subst.
    specialize (So id Ht). rewrite <- (all_after_ids h) in So. apply in_map_iff in So. destruct So as [m [Hm So]].
    apply In_nth_error in So. destruct So as [i Em]. subst id.
    assert (Nd' : NoDup (map m_id (all_after h ms))) by (rewrite all_after_ids; exact Nd).
    pose proof (answers_target o (all_after h ms) 1 i m Ht Nd' Em) as Ea. cbn [Nat.add] in Ea.
    assert (Hcur : cur = [(S i, answer_note o m)]).
    { apply only_last; auto. intros f Hf. destruct (Nat.le_gt_cases f (length (map m_id ms))) as [Lf|Lf].
      - destruct (Bc f Hf Lf) as [rest R]. exists rest. rewrite talk_app, by_app in R. apply app_inv_head in R. cbn [talk] in R.
        rewrite by_cons, app_nil_r, Ea in R. cbn [fst] in R. destruct f; [contradiction|]. exact R.
      - exists []. rewrite by_one, (by_none f cur).
        + assert (S i < f). { assert (i < length (all_after h ms)) by (apply nth_error_Some; congruence).
            rewrite map_length, <- (map_length m_id), <- (all_after_ids h), map_length in Lf. lia. }
          replace (S i =? f) with false by lia. reflexivity.
        + intros y Hy E. destruct (ga_from _ _ _ _ _ _ _ C6 y) as [Ly _]; [apply in_or_app; right; exact Hy|]. lia. }
    exists (h ++ [o]), (h ++ [o]), [], tail.
    assert (Y : map (fun x : said_note => Some [x]) (heard_back ms (h ++ [o])) = map (fun x => Some [x]) (heard_back ms h) ++ [Some cur]).
    { rewrite back_app, map_app. cbn [heard_back]. rewrite app_nil_r, Ea, Hcur. reflexivity. }
    constructor; auto.
    + apply Forall_app. split; [exact C4|exact C4'].
    + rewrite said_snoc, app_nil_r. exact C5.
    + rewrite Y. exists cur'. exact G'.
Qed.
