(** * CrcExact: exactly which differences the checksum overlooks *)
From Coq Require Import ZArith ZifyN ZifyNat ZifyBool.
From Verif Require Import Base Checksum Spec Lib ChecksumProofs CrcErrorProofs.
Local Open Scope N_scope.

Lemma halve_multiple : forall q d, 2 * d = clmul q crc_poly -> exists q', d = clmul q' crc_poly.
Proof.
  intros q d H. destruct (N.even q) eqn:E.
  - apply N.even_spec in E. destruct E as [q' ->]. exists q'. rewrite clmul_double in H. lia.
  - exfalso. rewrite <- N.negb_odd in E. apply Bool.negb_false_iff, N.odd_spec in E. destruct E as [q' ->].
    rewrite clmul_succ_double in H. apply (f_equal (fun x => N.testbit x 0)) in H.
    rewrite N.lxor_spec, !N.testbit_even_0 in H. discriminate H.
Qed.

Lemma shift_multiple : forall k d, (exists q, d * 2 ^ N.of_nat k = clmul q crc_poly) <-> exists q, d = clmul q crc_poly.
Proof.
  intros k d. split.
  - induction k as [|k IH]; intros [q H].
    + exists q. change (2 ^ N.of_nat 0) with 1 in H. lia.
    + apply IH. apply (halve_multiple q). rewrite Nat2N.inj_succ, N.pow_succ_r' in H. rewrite <- H. lia.
  - intros [q ->]. induction k as [|k [q' IH]].
    + exists q. change (2 ^ N.of_nat 0) with 1. lia.
    + exists (2 * q'). rewrite clmul_double, <- IH, Nat2N.inj_succ, N.pow_succ_r'. lia.
Qed.

Lemma lxor_cancel : forall a b c d e, N.lxor a (b * 2 ^ 16) = N.lxor c e -> N.lxor a (d * 2 ^ 16) = N.lxor (N.lxor c (N.lxor b d * 2 ^ 16)) e.
Proof.
  intros a b c d e H. rewrite <- !N.shiftl_mul_pow2 in *. rewrite N.shiftl_lxor.
  apply N.bits_inj. intro i. apply (f_equal (fun x => N.testbit x i)) in H. rewrite !N.lxor_spec in *.
  destruct (N.testbit a i), (N.testbit (N.shiftl b 16) i), (N.testbit c i), (N.testbit e i), (N.testbit (N.shiftl d 16) i);
    cbn in *; congruence.
Qed.

Lemma L_C03_exactly_overlooked : forall initial a b, initial < 2 ^ 16 -> length a = length b ->
  (calculate_checksum initial a = calculate_checksum initial b <->
   exists q, N.lxor (poly_of a) (poly_of b) = clmul q crc_poly).
Proof.
  intros initial a b Hi L.
  destruct (checksum_is_crc16 initial a Hi) as [Ca [qa Ea]]. destruct (checksum_is_crc16 initial b Hi) as [Cb [qb Eb]].
  rewrite <- (shift_multiple 16 (N.lxor (poly_of a) (poly_of b))). change (N.of_nat 16) with 16. split.
  - intro E. exists (N.lxor qa qb). rewrite <- clmul_lxor. rewrite E in Ea. rewrite <- L in Eb.
    rewrite <- !N.shiftl_mul_pow2 in *. rewrite N.shiftl_lxor.
    apply N.bits_inj. intro i. apply (f_equal (fun x => N.testbit x i)) in Ea. apply (f_equal (fun x => N.testbit x i)) in Eb.
    rewrite !N.lxor_spec in *.
    repeat match goal with |- context [N.testbit ?x i] => destruct (N.testbit x i) end;
    repeat match goal with H : context [N.testbit ?x i] |- _ => destruct (N.testbit x i) end; cbn in *; congruence.
  - intros [q E]. symmetry. apply (is_crc16_unique initial b); [apply checksum_is_crc16, Hi|]. split; [exact Ca|].
    exists (N.lxor qa q). rewrite <- clmul_lxor, <- E, <- L. apply (lxor_cancel _ _ _ _ _ Ea).
Qed.

Lemma small_multiple : forall q m, m = clmul q crc_poly -> 0 < m < 2 ^ 17 -> m = crc_poly.
Proof.
  intros [|[q|q|]] m -> [H1 H2]; cbn [clmul clmul_pos] in *; [lia| | |reflexivity]; exfalso.
  - destruct (clmul_pos_size (q~1)) as [k [Hk [Hlo Hhi]]]. cbn [clmul_pos] in *.
    destruct (clmul_pos_size q) as [j [Hj [Jlo Jhi]]].
    assert (N.testbit (N.lxor (2 * clmul_pos q crc_poly) crc_poly) (j + 1) = true) as B.
    { rewrite N.lxor_spec, (testbit_high crc_poly 17) by (try reflexivity; lia). rewrite xorb_false_r, N.add_1_r, N.double_bits_succ.
      assert (Hc : N.log2 (clmul_pos q crc_poly) = j) by (apply N.log2_unique; [lia|split; [assumption|rewrite <- N.add_1_r; assumption]]).
      rewrite <- Hc. apply N.bit_log2. intro K. rewrite K in Jlo. pose proof (N.pow_nonzero 2 j). lia. }
    rewrite (testbit_high _ 17 (j + 1) H2) in B by lia. discriminate B.
  - destruct (clmul_pos_size q) as [j [Hj [Jlo Jhi]]].
    assert (2 ^ 16 <= 2 ^ j) by (apply N.pow_le_mono_r; lia). change (2 ^ 17) with (2 * 2 ^ 16) in H2. lia.
Qed.

Lemma L_C03_bursts_of_17 : forall initial a b m k, initial < 2 ^ 16 -> length a = length b ->
  N.lxor (poly_of a) (poly_of b) = m * 2 ^ k -> 0 < m < 2 ^ 17 ->
  (calculate_checksum initial a = calculate_checksum initial b <-> m = crc_poly).
Proof.
  intros initial a b m k Hi L E Hm. rewrite L_C03_exactly_overlooked, E by assumption.
  rewrite <- (N2Nat.id k), shift_multiple. split.
  - intros [q H]. exact (small_multiple q m H Hm).
  - intros ->. exists 1. reflexivity.
Qed.

(** ** Two bits *)

Lemma order_reached : (iter (N.to_nat 32767) (2 ^ 15) =? 2 ^ 15) = true.
Proof. vm_compute. reflexivity. Qed.

Lemma order_exact : forall k, iter k (2 ^ 15) = 2 ^ 15 <-> N.of_nat k mod 32767 = 0.
Proof.
  intro k. induction k as [k IH] using (well_founded_induction lt_wf).
  destruct (N.lt_ge_cases (N.of_nat k) 32767) as [L|L].
  - rewrite N.mod_small by exact L. destruct k as [|k]; [split; reflexivity|]. split; intro H; [|lia].
    exfalso. revert H. apply order_of_x; lia.
  - replace k with (N.to_nat 32767 + (k - N.to_nat 32767))%nat by lia. rewrite iter_plus.
    pose proof order_reached as E. apply N.eqb_eq in E. rewrite E, IH by lia. 
    replace (N.of_nat (N.to_nat 32767 + (k - N.to_nat 32767))) with (N.of_nat (k - N.to_nat 32767) + 1 * 32767) by lia.
    rewrite N.mod_add by lia. reflexivity.
Qed.

Lemma two_bits_iff : forall a b c,
  feed 0 (repeat false a ++ true :: repeat false b ++ true :: repeat false c) = 0 <-> N.of_nat (S b) mod 32767 = 0.
Proof.
  intros a b c. rewrite <- order_exact.
  replace (repeat false a ++ true :: repeat false b ++ true :: repeat false c)
    with ((repeat false a ++ true :: repeat false b) ++ (true :: repeat false c))
    by (rewrite <- app_assoc; reflexivity).
  rewrite feed_app, feed_one_then_zeros. cbn [feed fold_left].
  change (fold_left feed1 ?l ?x) with (feed x l). rewrite feed_zeros.
  assert (L : iter (S b) (2 ^ 15) < 2 ^ 16) by (apply iter_lt; reflexivity). split; intro E.
  - apply iter_eq_0 in E; [|apply feed1_lt; exact L].
    unfold feed1 in E. apply T_eq_0 in E; [|apply lxor_lt; [exact L|reflexivity]].
    apply N.lxor_eq in E. exact E.
  - rewrite E. unfold feed1. rewrite N.lxor_nilpotent, T_0. apply iter_0.
Qed.

Lemma L_C03_two_flips_exactly : forall initial a b i j, initial < 2 ^ 16 -> length a = length b ->
  weight (diff_bits a b) = 2%nat ->
  nth i (diff_bits a b) false = true -> nth j (diff_bits a b) false = true -> (i < j)%nat ->
  (calculate_checksum initial a = calculate_checksum initial b <-> N.of_nat (j - i) mod 32767 = 0).
Proof.
  intros initial a b i j Hs Hl Hw Hi Hj Hij.
  assert (Eq : calculate_checksum initial a = calculate_checksum initial b <-> feed 0 (diff_bits a b) = 0).
  { rewrite <- (checksum_diff a b initial Hs Hl). split; [intros ->; apply N.lxor_nilpotent|apply N.lxor_eq]. }
  rewrite Eq. clear Eq.
  destruct (weight_S _ _ Hw) as [z1 [r1 [E1 W1]]].
  destruct (weight_S _ _ W1) as [z2 [r2 [E2 W2]]].
  apply weight_0 in W2. rewrite E1, E2, W2 in *.
  set (d := repeat false z1 ++ true :: repeat false z2 ++ true :: repeat false (length r2)) in *.
  assert (P : forall k, nth k d false = true -> k = z1 \/ k = (z1 + 1 + z2)%nat).
  { intros k Hk. unfold d in Hk.
    destruct (Nat.lt_ge_cases k z1) as [L|L].
    - rewrite app_nth1 in Hk by (rewrite repeat_length; lia). rewrite nth_repeat_false in Hk. discriminate.
    - rewrite app_nth2 in Hk by (rewrite repeat_length; lia). rewrite repeat_length in Hk.
      destruct (k - z1)%nat as [|k1] eqn:K; [left; lia|]. right. simpl in Hk.
      destruct (Nat.lt_ge_cases k1 z2) as [L2|L2].
      + rewrite app_nth1 in Hk by (rewrite repeat_length; lia). rewrite nth_repeat_false in Hk. discriminate.
      + rewrite app_nth2 in Hk by (rewrite repeat_length; lia). rewrite repeat_length in Hk.
        destruct (k1 - z2)%nat as [|k2] eqn:K2; [lia|]. simpl in Hk. rewrite nth_repeat_false in Hk. discriminate. }
  apply P in Hi. apply P in Hj. unfold d. rewrite two_bits_iff. replace (j - i)%nat with (S z2) by lia. reflexivity.
Qed.
