(** * TwinTheorems: C11 (as if not called), C51 *)
From Coq Require Import ZArith ZifyN ZifyNat ZifyBool.
From Verif Require Import Base Endian Error Checksum Bytestuff Packet Time Bus Data Client
  Instructions Device Api Spec CallSpec StreamSpec InstructionSpec DataSpec TwinSpec Demo Lib ChecksumProofs
  CrcErrorProofs StuffProofs WriteProofs ReadProofs ApiProofs StreamProofs MessageProofs SendProofs
  SendTheorems ReadTheorems StatusProofs DeviceTheorems InstructionProofs DataTheorems TwinProofs.

Lemma tw_runs : forall R (p : program R) s o evs s', runs p s o evs s' -> forall t, tw s t ->
  exists t', runs p t o evs t' /\ tw s' t'.
Proof.
  intros R p s o evs s' H.
  induction H as [r s|A m Hm k s a s1 evs o evs' s2 E C _ IH|A m Hm k s p s1 evs E C|A m Hm k s s1 evs E C]; intros t T.
  - exists t. split; [constructor|exact T].
  - destruct (steady_firm _ _ Hm s t T) as [F [T1 [e [C1 C2]]]].
    destruct (m t) as [o' t1] eqn:E'. rewrite E in F, T1, C1. cbn [fst snd] in *. subst o'.
    pose proof (calls_inj _ _ _ _ C C1) as <-.
    destruct (IH t1 T1) as [t' [K1 K2]]. exists t'. split; [|exact K2].
    eapply runs_call; eassumption.
  - destruct (steady_firm _ _ Hm s t T) as [F [T1 [e [C1 C2]]]].
    destruct (m t) as [o' t1] eqn:E'. rewrite E in F, T1, C1. cbn [fst snd] in *. subst o'.
    pose proof (calls_inj _ _ _ _ C C1) as <-. exists t1. split; [|exact T1]. apply runs_panic; assumption.
  - destruct (steady_firm _ _ Hm s t T) as [F [T1 [e [C1 C2]]]].
    destruct (m t) as [o' t1] eqn:E'. rewrite E in F, T1, C1. cbn [fst snd] in *. subst o'.
    pose proof (calls_inj _ _ _ _ C C1) as <-. exists t1. split; [|exact T1]. apply runs_blocked; assumption.
Qed.

Lemma twins_refl : forall s, twins s s.
Proof. intro s. constructor; reflexivity. Qed.

Lemma twins_sym : forall s t, twins s t -> twins t s.
Proof. intros s t []. constructor; congruence. Qed.

(** Every program does run. *)
Lemma program_runs : forall R (p : program R) s, inv s -> exists o evs s', runs p s o evs s'.
Proof.
  intros R p. induction p as [r|A m Hm k IH]; intros s I.
  - exists (Val r), [], s. constructor.
  - destruct (steady_firm _ _ Hm s s (mkTw _ _ (twins_refl s) I I)) as [_ [T1 [e [C1 _]]]].
    destruct (m s) as [[a|q|] s1] eqn:E; cbn [fst snd] in *.
    + destruct (IH a s1 (tw_inv1 _ _ T1)) as [o [evs [s' K]]].
      exists o, (e ++ evs), s'. eapply runs_call; eassumption.
    + exists (Panic q), e, s1. apply runs_panic; assumption.
    + exists Blocked, e, s1. apply runs_blocked; assumption.
Qed.

Lemma L_C51_every_program_runs : forall R (p : program R) s, reach s -> exists o evs s', runs p s o evs s'.
Proof. intros R p s H. apply program_runs, reach_inv, H. Qed.

Lemma L_C51_history_has_no_effect : forall R (p : program R) s t o evs s', reach s -> reach t -> twins s t ->
  runs p s o evs s' -> exists t', runs p t o evs t' /\ twins s' t'.
Proof.
  intros R p s t o evs s' Hs Ht T H.
  destruct (tw_runs _ _ _ _ _ _ H t (mkTw _ _ T (reach_inv _ Hs) (reach_inv _ Ht))) as [t' [K1 K2]].
  exists t'. split; [exact K1|apply K2].
Qed.

Lemma L_C51_crate_types : forall A (D : data_impl A) V R v bytes n, crate_type D V R -> R v bytes -> n <= d_size D ->
  ignores_old_bytes n (d_encode D v).
Proof.
  intros A D V R v bytes n H Hv L l l' E E'.
  destruct (Nat.eq_dec n (d_size D)) as [K|K].
  - destruct (crate_good _ _ _ _ H) as [G1 [G2 [G3 _]]].
    pose proof (G1 _ _ Hv).
    rewrite (G3 v bytes l Hv ltac:(lia)), (G3 v bytes l' Hv ltac:(lia)).
    rewrite !skipn_all2 by lia. auto.
  - destruct H; cbn [d_encode data_int data_array d_size] in *; unfold bts_check.
    + replace (w <=? length l) with false by lia. replace (w <=? length l') with false by lia.
      rewrite E, E'. split; [reflexivity|discriminate].
    + replace (d_size D * n0 <=? length l) with false by lia. replace (d_size D * n0 <=? length l') with false by lia.
      rewrite E, E'. split; [reflexivity|discriminate].
Qed.

(** The buffer the user passes in may hold anything. *)
Definition stale (b : byte) : bus :=
  mkBus (mkPort [] [] [] [] 0 []) 57600 (repeat x00 32) 0 0 (header ++ repeat b 28) true.

Lemma stale_reach : forall b, reach (stale b).
Proof.
  intro b. apply (reach_new true (mkPort [] [] [] [] 0 []) (repeat x00 32) (repeat b 32) 57600). reflexivity.
Qed.

Lemma L_C51_leftovers_refuted : ~ (forall A (D : data_impl A) V R id a v bytes s t, crate_type D V R -> R v bytes ->
  is_u16 a -> reach s -> reach t -> twins s t ->
  exists evs, calls s (snd (reg_write D id a v s)) evs /\ calls t (snd (reg_write D id a v t)) evs).
Proof.
  intro H.
  assert (K : array_const_ok (data_int false 1) 0) by (split; cbn; lia).
  destruct (H _ _ _ _ xfe 64%N [] [] (stale x11) (stale x22)
              (ct_array _ _ _ _ 0 (ct_int false 1 (or_introl eq_refl)) K)) as [evs [C1 C2]].
  - split; [reflexivity|]. exists []. split; [constructor|reflexivity].
  - reflexivity.
  - apply stale_reach.
  - apply stale_reach.
  - constructor; reflexivity.
  - unfold calls in C1, C2. vm_compute in C1, C2. rewrite <- C1 in C2. discriminate C2.
Qed.

(** ** C11 *)

Lemma rejected_twins : forall s w, reach s -> wbuf_ok w -> length w = length (b_wbuf s) -> tw s (set_wbuf s w).
Proof.
  intros s w H W L. pose proof (reach_inv _ H) as I. constructor; [|exact I|split; [apply I|exact W]].
  constructor; try reflexivity. symmetry. exact L.
Qed.

Lemma L_C11_as_if_not_called : forall s id i n enc e s', reach s -> encoder_ok enc ->
  write_instruction id i n enc s = (Val (Err (WBufferTooSmall e)), s') ->
  forall R (p : program R) o evs s1, runs p s o evs s1 ->
  exists s2, runs p s' o evs s2 /\ twins s1 s2.
Proof.
  intros s id i n enc e s' H He E R p o evs s1 Hr.
  destruct (L_C11_rejected_write_changes_nothing _ _ _ _ _ _ _ H He E) as [_ [_ [w [-> [L F]]]]].
  assert (W : wbuf_ok w) by (split; [rewrite L; apply (reach_inv _ H)|exact F]).
  destruct (tw_runs _ _ _ _ _ _ Hr _ (rejected_twins s w H W L)) as [s2 [K1 K2]].
  exists s2. split; [exact K1|apply K2].
Qed.

Lemma L_C11_status_as_if_not_called : forall s id error n enc e s', reach s -> encoder_ok enc ->
  write_status id error n enc s = (Val (Err (WBufferTooSmall e)), s') ->
  forall R (p : program R) o evs s1, runs p s o evs s1 ->
  exists s2, runs p s' o evs s2 /\ twins s1 s2.
Proof.
  intros s id error n enc e s' H He E R p o evs s1 Hr.
  destruct (L_C11_rejected_status_changes_nothing _ _ _ _ _ _ _ H He E) as [_ [_ [w [-> [L F]]]]].
  assert (W : wbuf_ok w) by (split; [rewrite L; apply (reach_inv _ H)|exact F]).
  destruct (tw_runs _ _ _ _ _ _ Hr _ (rejected_twins s w H W L)) as [s2 [K1 K2]].
  exists s2. split; [exact K1|apply K2].
Qed.
