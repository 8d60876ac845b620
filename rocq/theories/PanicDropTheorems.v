(** * PanicDropTheorems: when exactly giving up an iterator panics (C81) *)
From Coq Require Import ZArith ZifyN ZifyNat ZifyBool.
From Verif Require Import Base Endian Error Checksum Bytestuff Packet Time Bus Data Client
  Instructions Device MockDevice Api Spec CallSpec StreamSpec DeviceSpec DataSpec InstructionSpec Demo Lib ChecksumProofs
  CrcErrorProofs StuffProofs WriteProofs ReadProofs ApiProofs StreamProofs MessageProofs SendProofs
  SendTheorems ReadTheorems StatusProofs DeviceTheorems InstructionProofs DataTheorems DemoProofs TransferTheorems IterProofs ScanTheorems
  GenericTheorems UnderstoodTheorems TwinSpec TwinProofs TwinTheorems RemoteSpec RemoteProofs RemoteTheorems SurviveSpec SurviveTheorems
  PanicSpec PanicTheorems ConformSpec ConformTheorems PanicExactSpec PanicExactTheorems BaudTheorems PanicDropSpec.

Lemma keeps_inv : forall A (m : M A) s o s', keeps m -> inv s -> m s = (o, s') -> inv s'.
Proof. intros A m s o s' K Iv E. exact (ev_inv _ _ (K _ _ _ Iv E)). Qed.

(** What one read of a drop does, compared to one step of the iterator. *)
Definition in_step {X Y} (rd : M X) (rd' : M Y) (s : bus) : Prop :=
  (panics (fst (rd' s)) <-> hopeless s) /\
  match rd' s with
  | (Val _, s1) => inv s1 /\ exists x, rd s = (Val x, s1)
  | (Panic _, _) => True
  | (Blocked, _) => fst (rd s) = Blocked
  end.

Lemma drop_exactly : forall Q X Y (rd : Q -> M X) (rd' : Q -> M Y) reqs,
  (forall q s, In q reqs -> inv s -> in_step (rd q) (rd' q) s) ->
  forall n i s, inv s -> n = length reqs - i ->
  (panics (fst (gdrop rd' (skipn i reqs) s)) <->
   exists k xs j s1, k < n /\ nexts (gnext rd reqs) k i s = (Val (xs, j), s1) /\ hopeless s1).
Proof.
  intros Q X Y rd rd' reqs H n. induction n as [|n IH]; intros i s Iv L.
  { rewrite skipn_all2 by lia. split; [intros [k K]; discriminate|intros [k [_ [_ [_ [K _]]]]]; lia]. }
  pose proof (due_nth _ reqs i) as Du. destruct (nth_error reqs i) as [q|] eqn:E; [|lia].
  rewrite (skipn_nth _ _ _ _ E). cbn [gdrop]. unfold bind at 1.
  destruct (H q s (nth_error_In _ _ E) Iv) as [H1 H2].
  destruct (rd' q s) as [[y|p|] s1] eqn:R; cbn [fst] in H1.
  - destruct H2 as [I1 [x H2]]. assert (Nh : ~ hopeless s) by (intro K; apply H1 in K; destruct K; discriminate).
    rewrite (IH (S i) s1 I1 ltac:(lia)). split.
    + intros [k [xs [j [s2 [K1 [K2 K3]]]]]]. exists (S k), (Some x :: xs), j, s2. split; [lia|]. split; [|exact K3].
      cbn [nexts]. unfold bind, gnext at 1. rewrite E. unfold bind. rewrite H2. cbn [ret]. rewrite K2. reflexivity.
    + intros [[|k] [xs [j [s2 [K1 [K2 K3]]]]]].
      * injection K2 as _ _ <-. contradiction.
      * cbn [nexts] in K2. unfold bind, gnext at 1 in K2. rewrite E in K2. unfold bind in K2. rewrite H2 in K2. cbn [ret] in K2.
        destruct (nexts (gnext rd reqs) k (S i) s1) as [[[ys j']|?|] s3] eqn:N; try discriminate. injection K2 as _ <- <-.
        exists k, ys, j', s3. split; [lia|]. auto.
  - split; [intros _|intros _; eexists; reflexivity]. exists 0, [], i, s. split; [lia|]. split; [reflexivity|].
    apply H1. eexists. reflexivity.
  - split; [intros [k K]; discriminate|]. intros [[|k] [xs [j [s2 [K1 [K2 K3]]]]]].
    + injection K2 as _ _ <-. apply H1 in K3. destruct K3; discriminate.
    + cbn [nexts] in K2. unfold bind, gnext at 1 in K2. rewrite E in K2. unfold bind in K2.
      destruct (rd q s) as [[x|?|] s3]; cbn [fst] in H2; discriminate.
Qed.

Lemma in_step_response : forall id n s, is_u16 n -> inv s -> in_step (expect_response id n) (read_status_response n) s.
Proof.
  intros id n s Hn Iv. destruct (response_exactly n s Hn Iv) as [H1 H2]. split; [exact H1|].
  destruct (read_status_response n s) as [[r|p|] s1] eqn:R; [|exact I|].
  - split; [exact (proj1 (tracks_rsr n _ _ _ Iv R))|].
    unfold expect_response, try_, tryr, bind, lift, ret. rewrite R. destruct r as [p|e]; [|eexists; reflexivity].
    specialize (H2 p s1 eq_refl). destruct (status_fields _ H2) as [id' [e [ps [E1 [E2 E3]]]]]. rewrite E1.
    destruct (packet_id_check _ _); [|eexists; reflexivity]. rewrite E3.
    destruct (param_count_check _ _); [|eexists; reflexivity].
    destruct (decode_bytes_safe _ H2) as [r Er]. rewrite Er. eexists; reflexivity.
  - unfold expect_response, try_, bind. rewrite R. reflexivity.
Qed.

Lemma in_step_value : forall A (D : data_impl A) id s, is_u16 (N.of_nat (d_size D)) -> safe_decode D -> inv s ->
  in_step (expect_value D id) (expect_value D id) s.
Proof.
  intros A D id s Hn Hd Iv. split; [exact (value_expected A D id s Iv Hn Hd)|].
  destruct (expect_value D id s) as [[r|p|] s1] eqn:R; [|exact I|reflexivity].
  split; [exact (proj1 (tracks_expect_value A D id _ _ _ Iv R))|eauto].
Qed.

(** From positions to iterators. *)
Lemma positions : forall J X (next : J -> M (option X * J)) (nx : nat -> M (option X * nat)) (f : nat -> J),
  (forall j s, next (f j) s = out_map (fun '(x, j') => (x, f j')) (nx j s)) -> forall n i s,
  ((exists k xs j s1, k < n /\ nexts nx k i s = (Val (xs, j), s1) /\ hopeless s1) <->
   (exists k xs it s1, k < n /\ nexts next k (f i) s = (Val (xs, it), s1) /\ hopeless s1)).
Proof.
  intros J X next nx f H n i s. split.
  - intros [k [xs [j [s1 [K1 [K2 K3]]]]]]. exists k, xs, (f j), s1. split; [exact K1|]. split; [|exact K3].
    rewrite (nexts_rep _ _ _ next nx f H), K2. reflexivity.
  - intros [k [xs [it [s1 [K1 [K2 K3]]]]]]. rewrite (nexts_rep _ _ _ next nx f H) in K2.
    destruct (nexts nx k i s) as [[[ys j]|?|] s2] eqn:N; try discriminate. injection K2 as -> _ ->.
    exists k, xs, j, s1. auto.
Qed.

Lemma L_C81_exactly_when_giving_up_panics : forall J X (next : J -> M (option X * J)) drop it due s, survives s ->
  given_up next drop it due ->
  (panics (fst (drop s)) <->
   exists k xs it' s1, k < due /\ nexts next k it s = (Val (xs, it'), s1) /\ hopeless s1).
Proof.
  intros J X next drop it due s R G. pose proof (survives_inv _ R) as Iv.
  destruct G as [n ids j Hn|A D ids j Hn Hd|l j Hl Hj].
  - rewrite srb_drop_rep, <- (positions _ _ _ _ (fun i => mkSRB n ids i) (srb_rep n ids)).
    apply drop_exactly; auto. intros q t _ It. apply in_step_response; assumption.
  - rewrite sr_drop_rep, <- (positions _ _ _ _ (fun i => mkSR ids i) (sr_rep A D ids)).
    apply drop_exactly; auto. intros q t _ It. apply in_step_value; assumption.
  - rewrite br_drop_rep by exact Hj. rewrite <- (positions _ _ _ _ (fun i => mkBR l i) (br_rep l)).
    apply drop_exactly; auto. intros q t Hin It. rewrite Forall_forall in Hl. apply in_step_response; auto.
Qed.

(** A scan. *)
Lemma scan_step_inv : forall s v s', inv s -> (b_baud s < 2 ^ 32)%N -> scan_next s = (Val v, s') ->
  inv s' /\ (b_baud s' < 2 ^ 32)%N.
Proof.
  intros s v s' Iv Bd E.
  destruct (N.eq_dec (b_baud s) 0) as [Z|Nz].
  { exfalso. pose proof (proj2 (scan_exactly s Iv Bd) (or_introl Z)) as [k K]. rewrite E in K. discriminate. }
  destruct (scan_timeout_val (b_dbg s) (b_baud s) Nz Bd) as [t T]. rewrite (scan_next_eq s t T) in E.
  destruct (read_status_response_timeout t s) as [o s1] eqn:Rd. cbn [fst snd] in E. injection E as _ <-.
  destruct (read_status_timeout_spec _ _ _ _ Iv Rd) as [o1 [_ [_ [I1 [[B1 B2 _ _ _ _ _ _ _]]]]]].
  split; [exact I1|]. change (b_baud (after_deadline t s)) with (b_baud s) in *. congruence.
Qed.

Lemma scan_drop_exactly : forall n s, inv s -> (b_baud s < 2 ^ 32)%N ->
  (panics (fst (scan_drop n s)) <->
   exists k xs s1, k < n /\ scan_nexts k s = (Val xs, s1) /\ ~ In None xs /\ hopeless s1).
Proof.
  induction n as [|n IH]; intros s Iv Bd.
  { split; [intros [k K]; discriminate|intros [k [_ [_ [K _]]]]; lia]. }
  cbn [scan_drop]. unfold bind at 1. pose proof (scan_exactly s Iv Bd) as H1. fold (hopeless s) in H1.
  destruct (scan_next s) as [[v|p|] s1] eqn:E; cbn [fst] in H1.
  - assert (Nh : ~ hopeless s) by (intro K; apply H1 in K; destruct K; discriminate).
    destruct (scan_step_inv _ _ _ Iv Bd E) as [I1 B1]. destruct v as [v|].
    + rewrite (IH s1 I1 B1). split.
      * intros [k [xs [s2 [K1 [K2 [K3 K4]]]]]]. exists (S k), (Some v :: xs), s2. split; [lia|].
        split; [cbn [scan_nexts]; unfold bind; rewrite E, K2; reflexivity|]. split; [|exact K4].
        intros [K|K]; [discriminate|contradiction].
      * intros [[|k] [xs [s2 [K1 [K2 [K3 K4]]]]]].
        -- injection K2 as _ <-. contradiction.
        -- cbn [scan_nexts] in K2. unfold bind in K2. rewrite E in K2.
           destruct (scan_nexts k s1) as [[ys|?|] s3] eqn:N; try discriminate. injection K2 as <- <-.
           exists k, ys, s3. split; [lia|]. split; [exact N|]. split; [|exact K4]. intro K. apply K3. right. exact K.
    + split; [intros [k K]; discriminate|]. intros [[|k] [xs [s2 [K1 [K2 [K3 K4]]]]]].
      * injection K2 as _ <-. contradiction.
      * cbn [scan_nexts] in K2. unfold bind in K2. rewrite E in K2.
        destruct (scan_nexts k s1) as [[ys|?|] s3]; try discriminate. injection K2 as <- _.
        exfalso. apply K3. left. reflexivity.
  - split; [intros _|intros _; eexists; reflexivity]. exists 0, [], s. split; [lia|]. split; [reflexivity|].
    split; [intros []|]. apply H1. eexists. reflexivity.
  - split; [intros [k K]; discriminate|]. intros [[|k] [xs [s2 [K1 [K2 [K3 K4]]]]]].
    + injection K2 as _ <-. apply H1 in K4. destruct K4; discriminate.
    + cbn [scan_nexts] in K2. unfold bind in K2. rewrite E in K2. discriminate.
Qed.

Lemma L_C81_exactly_when_giving_up_a_scan_panics : forall s, survives s -> (b_baud s < 2 ^ 32)%N ->
  ((exists n, panics (fst (scan_drop n s))) <->
   exists k xs s1, scan_nexts k s = (Val xs, s1) /\ ~ In None xs /\ hopeless s1).
Proof.
  intros s R Bd. pose proof (survives_inv _ R) as Iv. split.
  - intros [n K]. apply (scan_drop_exactly n s Iv Bd) in K. destruct K as [k [xs [s1 [_ K]]]]. exists k, xs, s1. exact K.
  - intros [k [xs [s1 K]]]. exists (S k). apply (scan_drop_exactly (S k) s Iv Bd). exists k, xs, s1. split; [lia|exact K].
Qed.

(** ** Examples *)

Definition answer_then_void : bus := fresh true [RdData (frame x01 [STATUS; x00; x2a] ++ void_message)] 64 64.

Lemma answer_then_void_survives : survives answer_then_void.
Proof.
  apply (sv_new true (mkPort [RdData (frame x01 [STATUS; x00; x2a] ++ void_message)] [] [] [] 0 []) (repeat x00 64) (repeat x00 64) 57600).
  reflexivity.
Qed.

Lemma giving_up_trouble : exists s1 s2, survives answer_then_void /\
  given_up srb_next (srb_drop (mkSRB 1 [x01; x02] 0)) (mkSRB 1 [x01; x02] 0) 2 /\
  nexts srb_next 1 (mkSRB 1 [x01; x02] 0) answer_then_void =
    (Val ([Some (Ok (mkResponse x01 false [x2a]))], mkSRB 1 [x01; x02] 1), s1) /\ hopeless s1 /\ ~ hopeless answer_then_void /\
  given_up srb_next (srb_drop (mkSRB 1 [x01] 0)) (mkSRB 1 [x01] 0) 1 /\
  srb_drop (mkSRB 1 [x01] 0) answer_then_void = (Val tt, s2).
Proof.
  destruct (nexts srb_next 1 (mkSRB 1 [x01; x02] 0) answer_then_void) as [o s1] eqn:E.
  assert (X : o = Val ([Some (Ok (mkResponse x01 false [x2a]))], mkSRB 1 [x01; x02] 1) /\ length (b_rbuf s1) = 64 /\
    pending s1 = map inl void_message) by (vm_compute in E; injection E as <- <-; vm_compute; auto).
  destruct X as [-> [X1 X2]].
  destruct (srb_drop (mkSRB 1 [x01] 0) answer_then_void) as [o2 s2] eqn:E2.
  assert (Y : o2 = Val tt) by (vm_compute in E2; injection E2 as <- _; reflexivity). subst o2.
  exists s1, s2. split; [exact answer_then_void_survives|].
  split; [apply (gu_sync_read_bytes 1 [x01; x02] 0); reflexivity|]. split; [reflexivity|].
  split. { right. split; [lia|]. exists [], void_message, []. split; [exact empty_no_header|]. split; [exact void_fatal|].
    rewrite app_nil_r. exact X2. }
  split. { intro K. pose proof (proj2 (proj1 (response_exactly 1 answer_then_void eq_refl (survives_inv _ answer_then_void_survives))) K) as [k P].
    vm_compute in P. discriminate. }
  split; [apply (gu_sync_read_bytes 1 [x01] 0); reflexivity|reflexivity].
Qed.
