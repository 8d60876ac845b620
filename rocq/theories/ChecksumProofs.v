(** * ChecksumProofs: the table-driven checksum against polynomial division *)
From Coq Require Import ZArith ZifyN ZifyNat ZifyBool.
From Verif Require Import Base Checksum Spec Lib.
Local Open Scope N_scope.
Ltac Zify.zify_post_hook ::= Z.div_mod_to_equations.

(** One shift of the register (multiplication by x modulo the polynomial). *)
Definition T (s : N) : N :=
  if N.testbit s 15 then N.lxor (2 * s) crc_poly else 2 * s.

Lemma lxor_lt : forall n a b, a < 2 ^ n -> b < 2 ^ n -> N.lxor a b < 2 ^ n.
Proof.
  intros n a b Ha Hb.
  destruct (N.eq_dec (N.lxor a b) 0) as [->|Hz]; [lia|].
  apply N.log2_lt_pow2; [lia|].
  apply N.le_lt_trans with (N.max (N.log2 a) (N.log2 b)); [apply N.log2_lxor|].
  apply N.max_lub_lt.
  - destruct (N.eq_dec a 0) as [->|]; [|apply N.log2_lt_pow2; [lia|exact Ha]].
    destruct n; [|simpl; lia]. assert (b = 0) by (change (2^0) with 1 in Hb; lia).
    subst b. exfalso. apply Hz. reflexivity.
  - destruct (N.eq_dec b 0) as [->|]; [|apply N.log2_lt_pow2; [lia|exact Hb]].
    destruct n; [|simpl; lia]. assert (a = 0) by (change (2^0) with 1 in Ha; lia).
    subst a. exfalso. apply Hz. reflexivity.
Qed.

Lemma testbit_high : forall s n k, s < 2 ^ n -> n <= k -> N.testbit s k = false.
Proof.
  intros s n k H Hk. destruct (N.eq_dec s 0) as [->|]; [apply N.bits_0|].
  apply N.bits_above_log2. apply N.log2_lt_pow2; [lia|].
  apply N.lt_le_trans with (2 ^ n); [exact H|]. apply N.pow_le_mono_r; lia.
Qed.

Lemma lt_pow2_bits : forall s n, (forall k, n <= k -> N.testbit s k = false) -> s < 2 ^ n.
Proof.
  intros s n H. destruct (N.eq_dec s 0) as [->|Hz]; [apply N.neq_0_lt_0, N.pow_nonzero; discriminate|].
  apply N.log2_lt_pow2; [lia|].
  destruct (N.lt_ge_cases (N.log2 s) n) as [|Hge]; [assumption|].
  specialize (H _ Hge). rewrite N.bit_log2 in H by assumption. discriminate.
Qed.

Lemma double_lxor : forall a b, 2 * N.lxor a b = N.lxor (2 * a) (2 * b).
Proof.
  intros a b. rewrite !(N.mul_comm 2). change 2 with (2 ^ 1).
  rewrite <- !N.shiftl_mul_pow2. apply N.shiftl_lxor.
Qed.

Lemma T_lt : forall s, s < 2 ^ 16 -> T s < 2 ^ 16.
Proof.
  intros s H. apply lt_pow2_bits. intros k Hk. unfold T.
  destruct (N.testbit s 15) eqn:E.
  - rewrite N.lxor_spec.
    destruct (N.eq_dec k 16) as [->|Hne].
    + change 16 with (N.succ 15). rewrite N.double_bits_succ, E. reflexivity.
    + rewrite (testbit_high (2 * s) 17), (testbit_high crc_poly 17); try reflexivity; try lia.
  - destruct (N.eq_dec k 16) as [->|Hne].
    + change 16 with (N.succ 15). rewrite N.double_bits_succ. exact E.
    + apply (testbit_high (2 * s) 17); lia.
Qed.

Lemma T_lxor : forall a b, T (N.lxor a b) = N.lxor (T a) (T b).
Proof.
  intros a b. unfold T. rewrite N.lxor_spec, double_lxor.
  destruct (N.testbit a 15); destruct (N.testbit b 15); simpl xorb; cbv iota.
  - rewrite (N.lxor_assoc (2*a)), <- (N.lxor_assoc crc_poly), (N.lxor_comm crc_poly (2*b)).
    rewrite N.lxor_assoc, N.lxor_nilpotent, N.lxor_0_r. reflexivity.
  - rewrite !N.lxor_assoc. f_equal. apply N.lxor_comm.
  - rewrite !N.lxor_assoc. reflexivity.
  - reflexivity.
Qed.

Lemma T_0 : T 0 = 0.
Proof. reflexivity. Qed.

(** T is injective on 16-bit states (x is invertible modulo the polynomial). *)
Lemma T_eq_0 : forall s, s < 2 ^ 16 -> T s = 0 -> s = 0.
Proof.
  intros s H HT. unfold T in HT. destruct (N.testbit s 15) eqn:E; [|lia].
  exfalso. apply N.lxor_eq in HT. unfold crc_poly in HT. lia.
Qed.

Fixpoint iter (n : nat) (s : N) : N := match n with O => s | S n' => iter n' (T s) end.

Lemma iter_lt : forall n s, s < 2 ^ 16 -> iter n s < 2 ^ 16.
Proof. induction n as [|n IH]; intros s H; simpl; [exact H|apply IH, T_lt, H]. Qed.

Lemma iter_lxor : forall n a b, iter n (N.lxor a b) = N.lxor (iter n a) (iter n b).
Proof. induction n as [|n IH]; intros a b; simpl; [reflexivity|]. rewrite T_lxor. apply IH. Qed.

Lemma iter_0 : forall n, iter n 0 = 0.
Proof. induction n as [|n IH]; simpl; auto. Qed.

Lemma iter_eq_0 : forall n s, s < 2 ^ 16 -> iter n s = 0 -> s = 0.
Proof.
  induction n as [|n IH]; intros s H H0; simpl in H0; [exact H0|].
  apply T_eq_0; [exact H|]. apply IH; [apply T_lt, H|exact H0].
Qed.

Lemma iter_plus : forall m n s, iter (m + n) s = iter n (iter m s).
Proof. induction m as [|m IH]; intros n s; simpl; auto. Qed.

(** Feeding one message bit, most significant first. *)
Definition feed1 (s : N) (b : bool) : N := T (N.lxor s (if b then 2 ^ 15 else 0)).
Definition feed (s : N) (l : list bool) : N := fold_left feed1 l s.

Lemma bit_lt : forall b : bool, (if b then 2 ^ 15 else 0) < 2 ^ 16.
Proof. intros [|]; reflexivity. Qed.

Lemma feed1_lt : forall s b, s < 2 ^ 16 -> feed1 s b < 2 ^ 16.
Proof. intros s b H. apply T_lt, lxor_lt; [exact H|apply bit_lt]. Qed.

Lemma feed_lt : forall l s, s < 2 ^ 16 -> feed s l < 2 ^ 16.
Proof. induction l as [|b l IH]; intros s H; simpl; [exact H|]. apply IH, feed1_lt, H. Qed.

Lemma feed_app : forall a b s, feed s (a ++ b) = feed (feed s a) b.
Proof. intros. apply fold_left_app. Qed.

Lemma feed_split : forall l s, feed s l = N.lxor (iter (length l) s) (feed 0 l).
Proof.
  induction l as [|b l IH]; intros s.
  - simpl. rewrite N.lxor_0_r. reflexivity.
  - cbn [feed fold_left length iter]. change (fold_left feed1 l ?x) with (feed x l).
    rewrite (IH (feed1 s b)), (IH (feed1 0 b)). unfold feed1.
    rewrite !T_lxor, T_0, N.lxor_0_l, iter_lxor, N.lxor_assoc. reflexivity.
Qed.

(** ** The table *)

Lemma table_length : length TABLE = 256%nat.
Proof. reflexivity. Qed.

(** Every entry is the eight-fold shift of its index. *)
Lemma table_entries : forall i, (i < 256)%N -> nth (N.to_nat i) TABLE 0 = iter 8 (i * 256).
Proof.
  intros i Hi.
  assert (H : forallb (fun k => nth k TABLE 0 =? iter 8 (N.of_nat k * 256)) (seq 0 256) = true)
    by (vm_compute; reflexivity).
  rewrite forallb_forall in H.
  specialize (H (N.to_nat i)). rewrite N2Nat.id in H.
  apply N.eqb_eq, H, in_seq. lia.
Qed.

Lemma iter8_low : forall i, (i < 256)%N -> iter 8 i = i * 256.
Proof.
  intros i Hi.
  assert (H : forallb (fun k => iter 8 (N.of_nat k) =? N.of_nat k * 256) (seq 0 256) = true)
    by (vm_compute; reflexivity).
  rewrite forallb_forall in H. specialize (H (N.to_nat i)). rewrite N2Nat.id in H.
  apply N.eqb_eq, H, in_seq. lia.
Qed.

Lemma feed_byte0 : forall b, feed 0 (bits_of_byte b) = iter 8 (b2n b * 256).
Proof.
  intro b. apply N.eqb_eq. revert b. apply forall_byte. vm_compute. reflexivity.
Qed.

Lemma land_ff : forall b, N.land (b2n b) 0xFF = b2n b.
Proof.
  intro b. change 0xFF with (N.ones 8). rewrite N.land_ones.
  apply N.mod_small. apply b2n_lt.
Qed.

(** The index is always inside the table. *)
Lemma checksum_index_in_range : forall s b, s < 2 ^ 16 ->
  (N.to_nat (checksum_index s b) < length TABLE)%nat.
Proof.
  intros s b H. rewrite table_length. unfold checksum_index. rewrite land_ff.
  assert (N.lxor (N.shiftr s 8) (b2n b) < 2 ^ 8); [|lia].
  apply lxor_lt; [|apply b2n_lt]. rewrite N.shiftr_div_pow2.
  apply N.div_lt_upper_bound; [discriminate|]. exact H.
Qed.

Lemma checksum_step_feed : forall s b, s < 2 ^ 16 ->
  checksum_step s b = feed s (bits_of_byte b).
Proof.
  intros s b H. rewrite feed_split, feed_byte0. unfold checksum_step.
  rewrite table_entries
    by (pose proof (checksum_index_in_range s b H) as Hi; rewrite table_length in Hi; lia).
  unfold checksum_index. rewrite land_ff.
  change (length (bits_of_byte b)) with 8%nat.
  set (hi := N.shiftr s 8).
  assert (Hs : s = N.lxor (s mod 256) (hi * 256)).
  { change 256 with (2 ^ 8) at 2. rewrite lxor_shifted; unfold hi; rewrite ?N.shiftr_div_pow2;
      change (2 ^ 8) with 256; lia. }
  replace (N.shiftl s 8 mod 2 ^ 16) with (iter 8 (s mod 256)).
  2: { rewrite iter8_low by lia. rewrite N.shiftl_mul_pow2. change (2 ^ 8) with 256.
       change (2 ^ 16) with 65536. lia. }
  rewrite Hs at 2. rewrite iter_lxor, N.lxor_assoc. f_equal.
  rewrite <- iter_lxor. f_equal.
  change 256 with (2 ^ 8). rewrite <- !N.shiftl_mul_pow2. apply N.shiftl_lxor.
Qed.

Lemma checksum_step_lt : forall s b, s < 2 ^ 16 -> checksum_step s b < 2 ^ 16.
Proof. intros s b H. rewrite checksum_step_feed by exact H. apply feed_lt, H. Qed.

Lemma checksum_lt : forall l s, s < 2 ^ 16 -> calculate_checksum s l < 2 ^ 16.
Proof.
  induction l as [|b l IH]; intros s H; [exact H|]. apply IH, checksum_step_lt, H.
Qed.

Lemma checksum_feed : forall l s, s < 2 ^ 16 -> calculate_checksum s l = feed s (bits_of l).
Proof.
  induction l as [|b l IH]; intros s H; [reflexivity|].
  cbn [bits_of flat_map]. rewrite feed_app, <- checksum_step_feed by exact H.
  apply IH, checksum_step_lt, H.
Qed.

Lemma checksum_app : forall a b s,
  calculate_checksum s (a ++ b) = calculate_checksum (calculate_checksum s a) b.
Proof. intros. apply fold_left_app. Qed.

(** ** Division by the polynomial *)

Lemma clmul_double : forall q p, clmul (2 * q) p = 2 * clmul q p.
Proof. intros [|q] p; reflexivity. Qed.

Lemma clmul_succ_double : forall q p, clmul (2 * q + 1) p = N.lxor (2 * clmul q p) p.
Proof. intros [|q] p; simpl; [|reflexivity]. destruct p; reflexivity. Qed.

(** Number of a bit string. *)
Definition num (l : list bool) : N :=
  fold_left (fun acc (b : bool) => 2 * acc + if b then 1 else 0) l 0.

Lemma num_snoc : forall l b, num (l ++ [b]) = 2 * num l + (if b : bool then 1 else 0).
Proof. intros. unfold num. rewrite fold_left_app. reflexivity. Qed.

Lemma double_bit_lxor : forall n b,
  (2 * n + if b : bool then 1 else 0) = N.lxor (2 * n) (if b then 1 else 0).
Proof.
  intros n b. rewrite N.lxor_comm. replace (2 * n) with (n * 2 ^ 1) by (apply N.mul_comm).
  rewrite lxor_shifted by (destruct b; reflexivity). lia.
Qed.

(** Invariant of feeding bits. *)
Lemma feed_division : forall l s, s < 2 ^ 16 ->
  exists q, N.lxor (s * 2 ^ N.of_nat (length l)) (num l * 2 ^ 16)
            = N.lxor (clmul q crc_poly) (feed s l).
Proof.
  intros l s H. induction l as [|b l IH] using rev_ind.
  - exists 0. simpl. rewrite N.mul_1_r, N.lxor_0_r. reflexivity.
  - destruct IH as [q IH]. rewrite app_length, feed_app, num_snoc. cbn [length feed fold_left].
    change (fold_left feed1 l s) with (feed s l).
    set (r := feed s l) in *.
    assert (Hr : r < 2 ^ 16) by (apply feed_lt; exact H).
    set (t := N.lxor r (if b then 2 ^ 15 else 0)).
    exists (2 * q + if N.testbit t 15 then 1 else 0).
    rewrite Nat2N.inj_add. change (N.of_nat 1) with 1. rewrite N.pow_add_r. change (2 ^ 1) with 2.
    replace (s * (2 ^ N.of_nat (length l) * 2)) with (2 * (s * 2 ^ N.of_nat (length l))) by lia.
    rewrite double_bit_lxor.
    assert (E1 : N.lxor (2 * num l) (if b then 1 else 0) * 2 ^ 16
                 = N.lxor (2 * (num l * 2 ^ 16)) (2 * (if b then 2 ^ 15 else 0))).
    { replace (2 * (num l * 2 ^ 16)) with ((2 * num l) * 2 ^ 16) by lia.
      replace (2 * (if b then 2 ^ 15 else 0)) with ((if b then 1 else 0) * 2 ^ 16)
        by (destruct b; reflexivity).
      rewrite <- !N.shiftl_mul_pow2. apply N.shiftl_lxor. }
    rewrite E1, <- N.lxor_assoc, <- double_lxor, IH, double_lxor, N.lxor_assoc, <- double_lxor.
    change (feed1 r b) with (T t). fold t. unfold T.
    destruct (N.testbit t 15).
    + rewrite clmul_succ_double, N.lxor_assoc. f_equal.
      rewrite (N.lxor_comm crc_poly), N.lxor_assoc, N.lxor_nilpotent, N.lxor_0_r. reflexivity.
    + rewrite N.add_0_r, clmul_double. reflexivity.
Qed.

Lemma num_acc : forall l acc,
  fold_left (fun acc (b : bool) => 2 * acc + if b then 1 else 0) l acc
  = acc * 2 ^ N.of_nat (length l) + num l.
Proof.
  unfold num. induction l as [|b l IH]; intros acc.
  - simpl. lia.
  - cbn [fold_left length]. rewrite IH, (IH (2 * 0 + if b then 1 else 0)). rewrite Nat2N.inj_succ, N.pow_succ_r'. lia.
Qed.

Lemma num_app : forall a b, num (a ++ b) = num a * 2 ^ N.of_nat (length b) + num b.
Proof. intros a b. unfold num at 1. rewrite fold_left_app. apply num_acc. Qed.

Lemma num_byte : forall b, num (bits_of_byte b) = b2n b.
Proof. intro b. apply N.eqb_eq. revert b. apply forall_byte. vm_compute. reflexivity. Qed.

Lemma bits_of_app : forall a b, bits_of (a ++ b) = bits_of a ++ bits_of b.
Proof. intros. apply flat_map_app. Qed.

Lemma bits_of_length : forall l, length (bits_of l) = (8 * length l)%nat.
Proof.
  induction l as [|b l IH]; [reflexivity|]. cbn [bits_of flat_map]. rewrite app_length.
  change (flat_map bits_of_byte l) with (bits_of l). rewrite IH. simpl. lia.
Qed.

Lemma num_bits_of : forall l, num (bits_of l) = poly_of l.
Proof.
  induction l as [|b l IH] using rev_ind; [reflexivity|].
  rewrite bits_of_app, num_app. cbn [bits_of flat_map]. rewrite app_nil_r, num_byte, IH.
  unfold poly_of. rewrite fold_left_app. reflexivity.
Qed.

Lemma checksum_is_crc16 : forall initial data, initial < 2 ^ 16 ->
  is_crc16 initial data (calculate_checksum initial data).
Proof.
  intros initial data H. split; [apply checksum_lt, H|].
  rewrite checksum_feed by exact H.
  destruct (feed_division (bits_of data) initial H) as [q E]. exists q.
  rewrite <- E, num_bits_of, bits_of_length. do 3 f_equal. lia.
Qed.

(** The remainder is unique: a non-zero multiple of the polynomial has degree
    at least 16. *)
Lemma clmul_pos_size : forall q, exists k, 16 <= k /\ 2 ^ k <= clmul_pos q crc_poly < 2 ^ (k + 1).
Proof.
  induction q as [q IH|q IH|].
  - destruct IH as [k [Hk [Hlo Hhi]]]. exists (k + 1). split; [lia|]. cbn [clmul_pos].
    set (c := clmul_pos q crc_poly) in *.
    assert (Hp1 : 2 ^ (k + 1) = 2 * 2 ^ k) by (rewrite N.add_1_r, N.pow_succ_r'; reflexivity).
    assert (Hp2 : 2 ^ (k + 1 + 1) = 2 * 2 ^ (k + 1)) by (rewrite (N.add_1_r (k+1)), N.pow_succ_r'; reflexivity).
    assert (Hbit : N.testbit (N.lxor (2 * c) crc_poly) (k + 1) = true).
    { rewrite N.lxor_spec, (testbit_high crc_poly 17) by (try reflexivity; lia).
      rewrite xorb_false_r, N.add_1_r, N.double_bits_succ.
      assert (Hc : N.log2 c = k) by (apply N.log2_unique; [lia|split; [assumption|rewrite <- N.add_1_r; assumption]]).
      rewrite <- Hc. apply N.bit_log2. lia. }
    split.
    + destruct (N.le_gt_cases (2 ^ (k + 1)) (N.lxor (2 * c) crc_poly)) as [|Hlt]; [assumption|].
      rewrite (testbit_high _ (k + 1) (k + 1) Hlt) in Hbit by lia. discriminate.
    + apply lxor_lt; [lia|]. apply N.lt_le_trans with (2 ^ 17); [reflexivity|].
      apply N.pow_le_mono_r; lia.
  - destruct IH as [k [Hk [Hlo Hhi]]]. exists (k + 1). split; [lia|]. cbn [clmul_pos].
    rewrite (N.add_1_r (k+1)), !N.pow_succ_r', N.add_1_r, !N.pow_succ_r' in *. lia.
  - exists 16. split; [lia|]. split; vm_compute; congruence.
Qed.

Lemma clmul_lxor : forall a b p, N.lxor (clmul a p) (clmul b p) = clmul (N.lxor a b) p.
Proof.
  assert (E2 : forall n p, clmul (N.double n) p = 2 * clmul n p).
  { intros [|n] p; reflexivity. }
  assert (E3 : forall n p, clmul (N.succ_double n) p = N.lxor (2 * clmul n p) p).
  { intros [|n] p; [destruct p|]; reflexivity. }
  assert (P : forall a b p, N.lxor (clmul_pos a p) (clmul_pos b p) = clmul (Pos.lxor a b) p).
  { induction a as [a IH|a IH|]; destruct b as [b|b|]; intros p; cbn [clmul_pos Pos.lxor].
    - rewrite E2, <- IH, double_lxor.
      rewrite (N.lxor_comm (2 * clmul_pos b p) p), N.lxor_assoc, <- (N.lxor_assoc p p), N.lxor_nilpotent, N.lxor_0_l.
      reflexivity.
    - rewrite E3, <- IH, double_lxor. rewrite N.lxor_assoc, (N.lxor_comm p), <- N.lxor_assoc. reflexivity.
    - rewrite N.lxor_assoc, N.lxor_nilpotent, N.lxor_0_r. reflexivity.
    - rewrite E3, <- IH, double_lxor. rewrite N.lxor_assoc. reflexivity.
    - rewrite E2, <- IH, double_lxor. reflexivity.
    - reflexivity.
    - rewrite (N.lxor_comm _ p), <- N.lxor_assoc, N.lxor_nilpotent, N.lxor_0_l. reflexivity.
    - rewrite N.lxor_comm. reflexivity.
    - rewrite N.lxor_nilpotent. reflexivity. }
  intros [|a] [|b] p; cbn [clmul].
  - reflexivity.
  - rewrite !N.lxor_0_l. reflexivity.
  - rewrite !N.lxor_0_r. reflexivity.
  - rewrite P. reflexivity.
Qed.

Lemma is_crc16_unique : forall initial data c1 c2,
  is_crc16 initial data c1 -> is_crc16 initial data c2 -> c1 = c2.
Proof.
  intros initial data c1 c2 [H1 [q1 E1]] [H2 [q2 E2]]. rewrite E1 in E2.
  assert (E : N.lxor (clmul q1 crc_poly) (clmul q2 crc_poly) = N.lxor c1 c2).
  { apply (f_equal (fun v => N.lxor (N.lxor v c1) (clmul q2 crc_poly))) in E2.
    rewrite (N.lxor_assoc _ c1 c1), N.lxor_nilpotent, N.lxor_0_r in E2.
    rewrite E2. rewrite (N.lxor_comm (clmul q2 crc_poly) c2), !N.lxor_assoc.
    rewrite (N.lxor_comm (clmul q2 crc_poly)), N.lxor_assoc, N.lxor_nilpotent, N.lxor_0_r.
    apply N.lxor_comm. }
  rewrite clmul_lxor in E.
  assert (Hs : N.lxor c1 c2 < 2 ^ 16) by (apply lxor_lt; assumption).
  apply N.lxor_eq. rewrite <- E in *.
  destruct (N.lxor q1 q2) as [|q]; [reflexivity|]. cbn [clmul] in *.
  destruct (clmul_pos_size q) as [k [Hk [Hlo _]]].
  assert (2 ^ 16 <= 2 ^ k) by (apply N.pow_le_mono_r; lia). lia.
Qed.
