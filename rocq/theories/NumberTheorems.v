(** * NumberTheorems: proofs about NumberSpec *)
From Coq Require Import ZArith ZifyN ZifyNat ZifyBool.
From Verif Require Import Base Lib Error Packet Time Bus Data Client Instructions Device Spec Api CallSpec StreamSpec
  DeviceSpec InstructionSpec DataSpec DataTheorems ApiProofs SendTheorems StuffProofs WriteProofs MessageProofs SendProofs
  ReadTheorems TransferTheorems StatusProofs StreamProofs InstructionProofs TypedTheorems NumberSpec Demo DemoProofs.

(** ** Sending *)

Lemma L_C84_request : forall B E (m : M (result B E)) id i params ins s o s' evs w r,
  request m id i params ins -> reach s -> m s = (o, s') -> calls s s' evs -> In (LWrite w r) evs ->
  (is_frame id (i :: params) w <->
   ff_runs_ok (i :: params) /\ (N.of_nat (length (pstuff (i :: params)) + 2) < 2 ^ 16)%N).
Proof.
  intros B E m id i params ins s o s' evs w r Rq R Eq C Hin.
  destruct (request_transmits _ _ _ _ _ _ _ Rq s o s' R Eq) as [evs2 [C2 [S _]]].
  pose proof (calls_inj _ _ _ _ C C2) as K. subst evs2.
  destruct S as [[r' [evs' [-> F]]]|[[->|[e ->]] _]].
  - destruct Hin as [Hin|[Hin|Hin]]; [discriminate Hin| |].
    + injection Hin as <- _. apply code_wire_frame_iff.
    + rewrite Forall_forall in F. destruct (F _ Hin).
  - destruct Hin.
  - destruct Hin as [Hin|[]]. discriminate Hin.
Qed.

(** ** Receiving *)

Lemma overlooked_iff : forall l, overlooked l = 0 <-> ff_runs_ok l.
Proof.
  intro l. unfold overlooked. rewrite (patterns_tcount l 0), (noticed_fcount l 0), runs_ok_counts.
  pose proof (fcount_le0 l). change (Nat.min 2 0) with 0. change (0 mod 3) with 0. lia.
Qed.

Lemma garbled_length : forall l, length (unst 0 (pstuff l)) = length l + overlooked l.
Proof.
  intro l. unfold overlooked. rewrite (patterns_tcount l 0), (noticed_fcount l 0).
  rewrite pstuff_gstuff, unst_gstuff_length by lia. reflexivity.
Qed.

Lemma calm_not_ff : forall e, no_error e -> beq e xff = false /\ beq e xfd = false.
Proof. intros e H. destruct e; try (split; reflexivity); vm_compute in H; discriminate H. Qed.

Lemma pstuff_calm : forall b l, beq b xff = false -> pstuff (b :: l) = b :: pstuff l.
Proof.
  intros b l H. cbn [pstuff]. destruct l as [|c [|d l]]; try reflexivity. rewrite H. reflexivity.
Qed.

Lemma garbled_status : forall e ps, no_error e ->
  unst 0 (pstuff (STATUS :: e :: ps)) = STATUS :: e :: unst 0 (pstuff ps).
Proof.
  intros e ps H. destruct (calm_not_ff e H) as [H1 H2].
  rewrite pstuff_calm by reflexivity. rewrite pstuff_calm by exact H1.
  cbn [unst]. unfold udel. cbn [Nat.eqb andb]. unfold unext at 2. change (beq STATUS xff) with false. cbv iota.
  cbn [Nat.eqb andb]. unfold unext. rewrite H1. reflexivity.
Qed.

Lemma status_read_any : forall n s id e ps g w rest, reach s -> (n < 2 ^ 16)%N -> b_baud s <> 0%N -> no_error e ->
  ~ contains g header -> is_frame id (STATUS :: e :: ps) w ->
  length w <= length (b_rbuf s) -> pending s = map inl (g ++ w) ++ rest ->
  exists p s', read_status_response n s = (Val (Ok p), s') /\ pending s' = rest /\
    packet_is p id (STATUS :: e :: unst 0 (pstuff ps)).
Proof.
  intros n s id e ps g w rest R Hn Hb Z G F L P.
  destruct (ideal_frame _ g id _ w rest G F ltac:(discriminate) L) as [p [E Q]].
  rewrite garbled_status in Q by exact Z.
  destruct (read_status_response n s) as [o s'] eqn:Eq.
  destruct (read_status_spec n s o s' (reach_inv _ R) Eq) as [[x [T _]]|[t [o1 [_ [I [K _]]]]]].
  { destruct (response_timeout_val (b_dbg s) (b_baud s) n Hn Hb) as [t T']. congruence. }
  rewrite P, E in I. injection I as <- Pe. exists p, s'. split; [|split; [congruence|exact Q]].
  rewrite K. cbn [status_of]. rewrite (status_check_status _ _ _ _ Q).
  apply land127 in Z. rewrite Z. reflexivity.
Qed.

Lemma read_raw_any : forall s id a n e ps rest,
  reach s -> plenty_of_room s 4 -> port_ready s -> b_baud s <> 0%N -> is_u16 n -> no_error e ->
  motor_sends s id e ps rest -> length ps = N.to_nat n ->
  exists s', pending s' = rest /\
    (ff_runs_ok ps -> exists p, packet_is p id (x55 :: e :: ps) /\ read_raw id a n s = (Val (Ok p), s')) /\
    (~ ff_runs_ok ps -> read_raw id a n s =
      (Val (Err (TReadError (RInvalidMessage (IMParameterCount (length ps + overlooked ps) (Exact (length ps)))))), s')).
Proof.
  intros s id a n e ps rest R Rm Pr Hb Hn Z [g [w [G [F [L Hi]]]]] Ln.
  destruct (write_succeeds s id READ 4 _ _ R (read_params_writes a n) eq_refl Rm Pr) as [s1 [W Ws]].
  destruct (status_read_any n s1 id e ps g w rest (wr_reach _ _ Ws) Hn) as [p [s2 [Rd [P Pk]]]]; try assumption.
  - rewrite (wr_baud _ _ Ws). exact Hb.
  - rewrite (wr_rcap _ _ Ws). exact L.
  - rewrite (wr_pending _ _ Ws). exact Hi.
  - exists s2. split; [exact P|]. unfold read_raw, transfer_single, try_, bind. rewrite W, Rd. unfold lift.
    destruct (status_accessors _ _ _ _ Pk) as [A1 [A2 [A3 A4]]]. rewrite A1. unfold packet_id_check. rewrite beq_refl.
    cbn [tryr ret]. rewrite A4. unfold param_count_check. split; intro Ff.
    + rewrite (proj2 (unst_pstuff_iff ps) Ff) in Pk |- *. exists p. split; [exact Pk|].
      replace (length ps =? N.to_nat n) with true by lia. reflexivity.
    + rewrite garbled_length. assert (overlooked ps <> 0) by (rewrite overlooked_iff; exact Ff).
      replace (length ps + overlooked ps =? N.to_nat n) with false by lia. rewrite Ln. reflexivity.
Qed.

Lemma L_C84_read_bytes : forall s id a n e ps rest,
  reach s -> plenty_of_room s 4 -> port_ready s -> b_baud s <> 0%N -> is_u16 n -> no_error e ->
  motor_sends s id e ps rest -> length ps = N.to_nat n ->
  exists s', pending s' = rest /\
    (ff_runs_ok ps -> read_bytes id a n s = (Val (Ok (mkResponse id (alert_bit e) ps)), s')) /\
    (~ ff_runs_ok ps -> read_bytes id a n s =
      (Val (Err (TReadError (RInvalidMessage (IMParameterCount (length ps + overlooked ps) (Exact (length ps)))))), s')).
Proof.
  intros s id a n e ps rest R Rm Pr Hb Hn Z Ms Ln.
  destruct (read_raw_any s id a n e ps rest R Rm Pr Hb Hn Z Ms Ln) as [s' [P [K1 K2]]].
  exists s'. split; [exact P|]. unfold read_bytes, try_, bind. split; intro Ff.
  - destruct (K1 Ff) as [p [Pk ->]]. unfold lift, decode_status_packet_bytes.
    destruct (status_accessors _ _ _ _ Pk) as [A1 [A2 [A3 A4]]].
    rewrite A2. cbn [obind]. rewrite (no_error_check _ Z), A1, A3, A4. reflexivity.
  - rewrite (K2 Ff). reflexivity.
Qed.

Lemma L_C84_read : forall A (D : data_impl A) V Rep v s id a e bytes rest,
  crate_type D V Rep -> Rep v bytes -> is_u16 (N.of_nat (d_size D)) ->
  reach s -> plenty_of_room s 4 -> port_ready s -> b_baud s <> 0%N -> no_error e -> motor_sends s id e bytes rest ->
  exists s', pending s' = rest /\
    (ff_runs_ok bytes -> read D id a s = (Val (Ok (mkResponse id (alert_bit e) v)), s')) /\
    (~ ff_runs_ok bytes -> read D id a s =
      (Val (Err (TReadError (RInvalidMessage (IMParameterCount (d_size D + overlooked bytes) (Exact (d_size D)))))), s')).
Proof.
  intros A D V Rep v s id a e bytes rest Ct Hv Hn R Rm Pr Hb Z Ms.
  assert (Ln : length bytes = d_size D) by (apply (proj2 (L_C73_crate_types_encode _ _ _ _ _ _ Ct Hv))).
  destruct (read_raw_any s id a (N.of_nat (d_size D)) e bytes rest R Rm Pr Hb Hn Z Ms ltac:(lia)) as [s' [P [K1 K2]]].
  exists s'. split; [exact P|]. unfold read, try_, bind. split; intro Ff.
  - destruct (K1 Ff) as [p [Pk ->]]. unfold lift, decode_status_packet.
    destruct (status_accessors _ _ _ _ Pk) as [A1 [A2 [A3 A4]]].
    rewrite A2. cbn [obind]. rewrite (no_error_check _ Z), A1, A3, A4. cbn [obind].
    rewrite (L_C36_round_trip _ _ _ _ _ _ Ct Hv). reflexivity.
  - rewrite (K2 Ff), Ln. reflexivity.
Qed.

(** ** Numbers *)

Lemma small_runs : forall l, length l <= 3 -> ff_runs_ok l.
Proof.
  intros [|a [|b [|c [|d l]]]] L; try (cbn [length] in L; lia); unfold ff_runs_ok; cbn [ff_runs_ok_from]; try exact I.
  - destruct (beq a xff); [exact I|]. destruct (beq a xfd); [split; [left; lia|exact I]|exact I].
  - destruct (beq a xff), (beq a xfd), (beq b xff), (beq b xfd); cbn; repeat split; lia.
  - destruct (beq a xff), (beq a xfd), (beq b xff), (beq b xfd), (beq c xff), (beq c xfd); cbn; repeat split; lia.
Qed.

Lemma four_runs : forall a b c d, ff_runs_ok [a; b; c; d] <-> [a; b; c; d] <> [xff; xff; xff; xfd].
Proof.
  intros a b c d. split.
  - intros H K. injection K as -> -> -> ->. vm_compute in H. lia.
  - intro H. unfold ff_runs_ok. cbn [ff_runs_ok_from].
    destruct (beq a xff) eqn:A1, (beq a xfd), (beq b xff) eqn:B1, (beq b xfd), (beq c xff) eqn:C1, (beq c xfd),
      (beq d xff), (beq d xfd) eqn:D1; cbn; repeat split; try lia;
    exfalso; apply H; apply beq_true in A1; apply beq_true in B1; apply beq_true in C1; apply beq_true in D1; congruence.
Qed.

Lemma number_runs : forall signed w v bytes, In w [1; 2; 4] -> int_bytes signed w v bytes ->
  (ff_runs_ok bytes <-> ~ awkward signed w v).
Proof.
  intros signed w v bytes Hw [Rg [L [k Ev]]]. unfold awkward.
  cbn in Hw. destruct Hw as [<-|[<-|[<-|[]]]].
  - split; [intros _ [K _]; discriminate K|]. intros _. apply small_runs. lia.
  - split; [intros _ [K _]; discriminate K|]. intros _. apply small_runs. lia.
  - destruct bytes as [|a [|b [|c [|d [|x l]]]]]; try discriminate L. rewrite four_runs.
    assert (Ia : forall x y, b2n x = b2n y -> x = y) by (intros x y E; rewrite <- (n2b_b2n x), <- (n2b_b2n y), E; reflexivity).
    pose proof (b2n_lt a). pose proof (b2n_lt b). pose proof (b2n_lt c). pose proof (b2n_lt d).
    cbn [le_value] in Ev. change (2 ^ (8 * Z.of_nat 4))%Z with 4294967296%Z in *.
    unfold int_range in Rg. change (2 ^ (8 * Z.of_nat 4))%Z with 4294967296%Z in *.
    change (2 ^ (8 * Z.of_nat 4 - 1))%Z with 2147483648%Z in *.
    split; intros H4 K; apply H4; clear H4.
    + destruct K as [_ ->].
      assert (E : (Z.of_N (b2n a) + 256 * (Z.of_N (b2n b) + 256 * (Z.of_N (b2n c) + 256 * Z.of_N (b2n d))) = 4261412863)%Z)
        by (destruct signed; lia).
      clear Ev Rg. f_equal; [|f_equal; [|f_equal; [|f_equal]]]; apply Ia; vm_compute (b2n xff); vm_compute (b2n xfd); lia.
    + injection K as -> -> -> ->. split; [reflexivity|]. vm_compute (b2n xff) in Ev. vm_compute (b2n xfd) in Ev.
      destruct signed; lia.
Qed.

Lemma low_address : forall i a l, (a < 65280)%N -> beq i xff = false ->
  (ff_runs_ok (i :: le16 a ++ l) <-> ff_runs_ok l).
Proof.
  intros i a l Ha Hi. unfold ff_runs_ok, le16. cbn [app ff_runs_ok_from]. rewrite Hi.
  assert (Hh : beq (n2b (a / 256)) xff = false).
  { destruct (beq (n2b (a / 256)) xff) eqn:B; [|reflexivity]. apply beq_true in B. apply (f_equal b2n) in B.
    rewrite b2n_n2b in B. vm_compute (b2n xff) in B. lia. }
  rewrite Hh. destruct (beq i xfd), (beq (n2b a) xff), (beq (n2b a) xfd), (beq (n2b (a / 256)) xfd);
    split; intro K; repeat (match type of K with _ /\ _ => destruct K as [? K] end); repeat split; try assumption; lia.
Qed.

Lemma L_C84_write : forall signed w v bytes id a s o s' evs wire r, In w [1; 2; 4] -> int_bytes signed w v bytes ->
  (a < 65280)%N -> reach s -> write (data_int signed w) id a v s = (o, s') -> calls s s' evs -> In (LWrite wire r) evs ->
  (is_frame id (x03 :: le16 a ++ bytes) wire <-> ~ awkward signed w v).
Proof.
  intros signed w v bytes id a s o s' evs wire r Hw B Ha R Eq C Hin.
  assert (Ct : crate_type (data_int signed w) (int_range signed w) (int_bytes signed w)).
  { apply ct_int. cbn in *. intuition subst; tauto. }
  destruct (L_C73_crate_types_encode _ _ _ _ _ _ Ct B) as [Dk En].
  rewrite (L_C84_request _ _ (write (data_int signed w) id a v) id x03 (le16 a ++ bytes) (IWrite a bytes) s o s' evs wire r); try eassumption.
  - rewrite low_address by (assumption || reflexivity). rewrite (number_runs signed w v bytes Hw B). split; [intros [K _]; exact K|].
    intro K. split; [exact K|]. rewrite pstuff_len_runs.
    2:{ apply low_address; [assumption|reflexivity|]. apply (number_runs signed w v bytes Hw B), K. }
    pose proof (fcount_third (x03 :: le16 a ++ bytes)) as T.
    assert (length (x03 :: le16 a ++ bytes) <= 7).
    { cbn [length]. rewrite app_length. unfold le16. cbn [length]. destruct B as [_ [-> _]]. cbn in Hw. lia. }
    lia.
  - apply rq_write; try assumption. unfold is_u16. change (2 ^ 16)%N with 65536%N. lia.
Qed.

Lemma L_C84_read_number : forall signed w v bytes id a s e rest, In w [1; 2; 4] -> int_bytes signed w v bytes ->
  reach s -> plenty_of_room s 4 -> port_ready s -> b_baud s <> 0%N -> no_error e -> motor_sends s id e bytes rest ->
  exists s', pending s' = rest /\
    (~ awkward signed w v -> read (data_int signed w) id a s = (Val (Ok (mkResponse id (alert_bit e) v)), s')) /\
    (awkward signed w v -> read (data_int signed w) id a s =
      (Val (Err (TReadError (RInvalidMessage (IMParameterCount 5 (Exact 4))))), s')).
Proof.
  intros signed w v bytes id a s e rest Hw B R Rm Pr Hb Z Ms.
  assert (Ct : crate_type (data_int signed w) (int_range signed w) (int_bytes signed w)).
  { apply ct_int. cbn in *. intuition subst; tauto. }
  destruct (L_C84_read _ _ _ _ v s id a e bytes rest Ct B) as [s' [P [K1 K2]]]; try assumption.
  { unfold is_u16. cbn [d_size data_int]. change (2 ^ 16)%N with 65536%N. cbn in Hw. lia. }
  exists s'. split; [exact P|]. pose proof (number_runs signed w v bytes Hw B) as Nr. split; intro Aw.
  - apply K1, Nr, Aw.
  - rewrite K2 by (rewrite Nr; tauto). cbn [d_size data_int].
    assert (bytes = [xff; xff; xff; xfd]) as ->.
    { assert (~ ff_runs_ok bytes) as Nf by (rewrite Nr; tauto). destruct Aw as [-> _].
      destruct B as [_ [L _]]. destruct bytes as [|a0 [|b [|c [|d [|x l]]]]]; try discriminate L.
      rewrite four_runs in Nf. destruct (list_eq_dec Byte.byte_eq_dec [a0; b; c; d] [xff; xff; xff; xfd]); [assumption|tauto]. }
    destruct Aw as [-> _]. reflexivity.
Qed.
