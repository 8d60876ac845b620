(** * UnwindTheorems: iterators that are dropped while a panic unwinds the stack (C70), or when they have ended (C52) *)
From Coq Require Import ZArith ZifyN ZifyNat ZifyBool.
From Verif Require Import Base Endian Error Checksum Bytestuff Packet Time Bus Data Client
  Instructions Device MockDevice Api Spec CallSpec StreamSpec DeviceSpec DataSpec InstructionSpec Demo Lib ChecksumProofs
  CrcErrorProofs StuffProofs WriteProofs ReadProofs ApiProofs StreamProofs MessageProofs SendProofs
  SendTheorems ReadTheorems StatusProofs DeviceTheorems InstructionProofs DataTheorems DemoProofs TransferTheorems ScanTheorems
  GenericTheorems UnderstoodTheorems TwinSpec TwinProofs TwinTheorems RemoteSpec RemoteProofs RemoteTheorems SurviveSpec SurviveTheorems
  PanicSpec PanicTheorems TimeSpec.

(** ** C70 *)

Lemma after_status : forall room t s o s', inv s -> length (b_wbuf s) = room -> b_baud s <> 0%N -> (b_baud s < 2 ^ 32)%N ->
  read_status_response_timeout t s = (o, s') -> calm (pending s') -> sane room s'.
Proof.
  intros room t s o s' Iv Lr B1 B2 E C. destruct (read_status_timeout_spec _ _ _ _ Iv E) as [o1 [_ [_ [Iv' Ti]]]].
  destruct Ti as [[F1 F2 F3 _ _ _ _ _ _]]. constructor; [exact Iv'|rewrite F3; exact Lr|rewrite F1; exact B1|rewrite F1; exact B2|exact C].
Qed.

Lemma L_C70_unwinding_scan_partial : forall s k s1 n, survives s -> b_baud s <> 0%N -> (b_baud s < 2 ^ 32)%N ->
  scan_next s = (Panic k, s1) -> calm (pending s1) -> forall k' s2, scan_drop n s1 <> (Panic k', s2).
Proof.
  intros s k s1 n Sv B1 B2 E C k' s2 K. destruct (scan_timeout_val (b_dbg s) (b_baud s) B1 B2) as [t T].
  rewrite (scan_next_eq s t T) in E. destruct (read_status_response_timeout t s) as [o1 s1'] eqn:R. cbn [fst snd] in E.
  injection E as _ <-.
  pose proof (after_status _ t s o1 s1' (survives_inv _ Sv) eq_refl B1 B2 R C) as Sa.
  pose proof (safe_scan_drop _ n s1' Sa) as P. rewrite K in P. exact P.
Qed.

Lemma value_state : forall A (D : data_impl A) id s o s1, expect_value D id s = (o, s1) ->
  s1 = snd (read_status_response (N.of_nat (d_size D)) s).
Proof.
  intros A D id s o s1 E. unfold expect_value, try_, bind in E.
  destruct (read_status_response (N.of_nat (d_size D)) s) as [[[p|e]|k|] s']; cbn [snd]; try (injection E; auto).
  unfold tryr, lift in E. destruct (pk_id p) as [rid|q|]; try (injection E; auto).
  destruct (packet_id_check rid id); [|injection E; auto].
  destruct (st_parameters p) as [ps|q|]; try (injection E; auto).
  destruct (param_count_check _ _); [|injection E; auto].
  destruct (decode_status_packet D p); injection E; auto.
Qed.

Lemma L_C70_unwinding_typed_partial : forall A (D : data_impl A) it s k s1, survives s -> b_baud s <> 0%N ->
  (b_baud s < 2 ^ 32)%N -> is_u16 (N.of_nat (d_size D)) -> safe_decode D ->
  sr_next D it s = (Panic k, s1) -> calm (pending s1) ->
  forall k' s2, sr_drop D (snd (sr_pop it)) s1 <> (Panic k', s2).
Proof.
  intros A D it s k s1 Sv B1 B2 Hn Sd E C k' s2 K. unfold sr_next in E.
  destruct (sr_pop it) as [[id|] it']; [|discriminate]. unfold bind, ret in E.
  destruct (expect_value D id s) as [[r|q|] s'] eqn:X; try discriminate. injection E as _ <-.
  apply value_state in X. cbn [snd] in K.
  unfold read_status_response, bind at 1, get, lift, bind at 1 in X.
  destruct (response_timeout_val (b_dbg s) (b_baud s) _ Hn B1) as [t T]. rewrite T in X.
  destruct (read_status_response_timeout t s) as [o1 s1'] eqn:R. cbn [snd] in X. subst s1'.
  pose proof (after_status _ t s o1 s' (survives_inv _ Sv) eq_refl B1 B2 R C) as Sa.
  pose proof (careful_safe _ _ _ (ca_sr_drop _ _ D it' Hn Sd) s' Sa) as P. rewrite K in P. exact P.
Qed.

(** The decode function of the user panics for the answers of two motors. *)
Definition two_answers : bus := fresh true [RdData (frame x02 [STATUS; x00; x2a] ++ frame x01 [STATUS; x00; x2a])] 64 64.

Lemma two_answers_survives : survives two_answers.
Proof.
  apply (sv_new true (mkPort [RdData (frame x02 [STATUS; x00; x2a] ++ frame x01 [STATUS; x00; x2a])] [] [] [] 0 [])
    (repeat x00 64) (repeat x00 64) 57600). reflexivity.
Qed.

Lemma two_answers_abort : exists s1 s2, sr_next rude (mkSR [x02; x01] 0) two_answers = (Panic PExplicit, s1) /\
  pending s1 = map inl (frame x01 [STATUS; x00; x2a]) /\ sr_drop rude (mkSR [x02; x01] 1) s1 = (Panic PExplicit, s2).
Proof. do 2 eexists. split; [vm_compute; reflexivity|]. split; vm_compute; reflexivity. Qed.

Lemma L_C70_unwinding_typed_refuted : ~ (forall A (D : data_impl A) it s k s1, survives s -> b_baud s <> 0%N ->
  (b_baud s < 2 ^ 32)%N -> is_u16 (N.of_nat (d_size D)) ->
  sr_next D it s = (Panic k, s1) -> calm (pending s1) ->
  forall k' s2, sr_drop D (snd (sr_pop it)) s1 <> (Panic k', s2)).
Proof.
  intro H. destruct two_answers_abort as [s1 [s2 [E [P D]]]].
  refine (H unit rude (mkSR [x02; x01] 0) two_answers _ s1 two_answers_survives _ _ _ E _ _ s2 D).
  - discriminate.
  - reflexivity.
  - reflexivity.
  - rewrite P. exact answer_calm.
Qed.

(** ** C52 *)

Lemma listens_only : forall t s s', waits_at_most s s' t -> exists evs, calls s s' evs /\ Forall only_reads evs.
Proof.
  intros t s s' [d [evs [_ [C F]]]]. exists (LDeadline d :: evs). split; [exact C|]. constructor; [exact I|].
  eapply Forall_impl; [|exact F]. intros [] K; cbn in *; tauto.
Qed.

Lemma scan_next_listens : forall s o s', reach s -> scan_next s = (o, s') ->
  exists evs, calls s s' evs /\ Forall only_reads evs.
Proof.
  intros s o s' R E. destruct (scan_next_spec s o s' R E) as [[x [_ [_ [-> _]]]]|[t [o1 [_ [_ [_ [Ti _]]]]]]].
  - exists []. split; [apply calls_refl|constructor].
  - destruct (timed_calls _ _ _ Ti) as [evs [C F]]. apply (listens_only t). exists (deadline_of t s), evs. auto.
Qed.

Lemma L_C52_drop_only_listens_partial : forall n s o s', reach s -> scan_drop n s = (o, s') ->
  exists evs, calls s s' evs /\ Forall only_reads evs.
Proof.
  induction n as [|n IH]; intros s o s' R E; cbn [scan_drop] in E.
  - injection E as _ <-. exists []. split; [apply calls_refl|constructor].
  - unfold bind in E. destruct (scan_next s) as [o1 s1] eqn:E1.
    destruct (scan_next_listens s _ s1 R E1) as [e1 [C1 F1]].
    destruct o1 as [[r|]|p|]; try (injection E as _ <-; exists e1; split; assumption).
    destruct (IH s1 o s' (scan_next_reach _ _ _ R E1) E) as [e2 [C2 F2]].
    exists (e1 ++ e2). split; [apply (calls_trans _ _ _ _ _ C1 C2)|apply Forall_app; split; assumption].
Qed.

(** ** Examples *)

Lemma calm_error : forall p e, calm p -> calm (p ++ [inr e]).
Proof. intros p e C w F K. apply (C w F). rewrite bytes_in_app in K. cbn [bytes_in] in K. rewrite app_nil_r in K. exact K. Qed.

Lemma scan_unwinds : exists k s1 s2,
  let s := fresh true [RdData (void_message ++ frame x01 [STATUS; x00; x2a]); RdErr (IoTimeout 1)] 64 64 in
  survives s /\ b_baud s = 57600%N /\ scan_next s = (Panic k, s1) /\ calm (pending s1) /\ scan_drop 2 s1 = (Val true, s2).
Proof.
  cbv zeta. set (s := fresh true _ 64 64).
  assert (H : exists k s1 s2, scan_next s = (Panic k, s1) /\
    pending s1 = map inl (frame x01 [STATUS; x00; x2a]) ++ [inr (IoTimeout 1)] /\ scan_drop 2 s1 = (Val true, s2)).
  { do 3 eexists. split; [vm_compute; reflexivity|]. split; vm_compute; reflexivity. }
  destruct H as [k [s1 [s2 [E [P D]]]]]. exists k, s1, s2. split.
  { apply (sv_new true (mkPort [RdData (void_message ++ frame x01 [STATUS; x00; x2a]); RdErr (IoTimeout 1)] [] [] [] 0 [])
      (repeat x00 64) (repeat x00 64) 57600). reflexivity. }
  split; [reflexivity|]. split; [exact E|]. split; [|exact D]. rewrite P. apply calm_error, answer_calm.
Qed.

Lemma typed_unwinds : exists k s1 s2,
  survives void_then_answer /\ b_baud void_then_answer = 57600%N /\ safe_decode (data_int false 1) /\
  sr_next (data_int false 1) (mkSR [x02; x01] 0) void_then_answer = (Panic k, s1) /\ calm (pending s1) /\
  sr_drop (data_int false 1) (mkSR [x02; x01] 1) s1 = (Val tt, s2).
Proof.
  assert (H : exists k s1 s2, sr_next (data_int false 1) (mkSR [x02; x01] 0) void_then_answer = (Panic k, s1) /\
    pending s1 = map inl (frame x01 [STATUS; x00; x2a]) /\
    sr_drop (data_int false 1) (mkSR [x02; x01] 1) s1 = (Val tt, s2)).
  { do 3 eexists. split; [vm_compute; reflexivity|]. split; vm_compute; reflexivity. }
  destruct H as [k [s1 [s2 [E [P D]]]]]. exists k, s1, s2. split; [exact void_then_answer_survives|]. split; [reflexivity|].
  split. { eapply L_C81_crate_types. apply ct_int. cbn; auto. }
  split; [exact E|]. split; [|exact D]. rewrite P. exact answer_calm.
Qed.
