(** * CrcErrorProofs: the error classes the checksum detects *)
From Coq Require Import ZArith ZifyN ZifyNat ZifyBool.
From Verif Require Import Base Checksum Spec Lib ChecksumProofs.
Local Open Scope N_scope.
Ltac Zify.zify_post_hook ::= Z.div_mod_to_equations.

Definition xor_list (a b : list bool) : list bool :=
  map (fun p => xorb (fst p) (snd p)) (combine a b).

Lemma feed_diff : forall a b s t, length a = length b ->
  N.lxor (feed s a) (feed t b) = feed (N.lxor s t) (xor_list a b).
Proof.
  induction a as [|x a IH]; destruct b as [|y b]; intros s t H; try discriminate; [reflexivity|].
  unfold xor_list in *. cbn [feed fold_left combine map fst snd].
  change (fold_left feed1 ?l ?x) with (feed x l). rewrite IH by (simpl in H; congruence).
  f_equal. unfold feed1. rewrite <- T_lxor. f_equal.
  rewrite !N.lxor_assoc. f_equal. rewrite <- N.lxor_assoc, (N.lxor_comm _ t), N.lxor_assoc. f_equal.
  destruct x, y; reflexivity.
Qed.

Lemma checksum_diff : forall a b s, s < 2 ^ 16 -> length a = length b ->
  N.lxor (calculate_checksum s a) (calculate_checksum s b) = feed 0 (diff_bits a b).
Proof.
  intros a b s Hs H. rewrite !checksum_feed by exact Hs.
  rewrite feed_diff by (rewrite !bits_of_length; lia). rewrite N.lxor_nilpotent. reflexivity.
Qed.

(** ** Parity *)

Fixpoint par (n : nat) (s : N) : bool :=
  match n with O => false | S k => xorb (N.testbit s (N.of_nat k)) (par k s) end.

Lemma par_lxor : forall n a b, par n (N.lxor a b) = xorb (par n a) (par n b).
Proof.
  induction n as [|n IH]; intros a b; [reflexivity|]. cbn [par].
  rewrite N.lxor_spec, IH. destruct (N.testbit a (N.of_nat n)), (N.testbit b (N.of_nat n)), (par n a), (par n b); reflexivity.
Qed.

Lemma par_double : forall n s, par (S n) (2 * s) = par n s.
Proof.
  induction n as [|n IH]; intros s.
  - cbn [par]. change (N.of_nat 0) with 0. rewrite N.testbit_even_0. reflexivity.
  - change (par (S (S n)) (2 * s)) with (xorb (N.testbit (2 * s) (N.of_nat (S n))) (par (S n) (2 * s))).
    rewrite IH. cbn [par]. rewrite Nat2N.inj_succ, N.double_bits_succ. reflexivity.
Qed.

Lemma par_high : forall s, s < 2 ^ 16 -> par 17 s = par 16 s.
Proof.
  intros s H. change (par 17 s) with (xorb (N.testbit s 16) (par 16 s)).
  rewrite (testbit_high s 16 16 H) by lia. apply xorb_false_l.
Qed.

Lemma par_T : forall s, s < 2 ^ 16 -> par 16 (T s) = par 16 s.
Proof.
  intros s H. rewrite <- (par_high (T s)) by (apply T_lt, H). unfold T.
  destruct (N.testbit s 15).
  - rewrite par_lxor, par_double. replace (par 17 crc_poly) with false by reflexivity.
    apply xorb_false_r.
  - apply par_double.
Qed.

Lemma weight_cons : forall b l, weight (b :: l) = ((if b then 1 else 0) + weight l)%nat.
Proof. intros [|] l; reflexivity. Qed.

Lemma par_feed : forall l s, s < 2 ^ 16 ->
  par 16 (feed s l) = xorb (par 16 s) (Nat.odd (weight l)).
Proof.
  induction l as [|b l IH]; intros s H.
  - change (feed s []) with s. change (Nat.odd (weight [])) with false. symmetry. apply xorb_false_r.
  - cbn [feed fold_left]. change (fold_left feed1 l ?x) with (feed x l).
    rewrite IH by (apply feed1_lt, H). unfold feed1.
    rewrite par_T by (apply lxor_lt; [exact H|apply bit_lt]).
    rewrite par_lxor, weight_cons, Nat.odd_add, xorb_assoc. f_equal.
    destruct b; reflexivity.
Qed.

Lemma odd_error_detected : forall l, Nat.odd (weight l) = true -> feed 0 l <> 0.
Proof.
  intros l H E. pose proof (par_feed l 0 eq_refl) as P. rewrite E, H in P. discriminate.
Qed.

(** ** Zeros *)

Lemma feed_zeros : forall n s, feed s (repeat false n) = iter n s.
Proof.
  induction n as [|n IH]; intros s; [reflexivity|].
  cbn [repeat feed fold_left iter]. change (fold_left feed1 ?l ?x) with (feed x l).
  rewrite IH. unfold feed1. rewrite N.lxor_0_r. reflexivity.
Qed.

Lemma weight_0 : forall l, weight l = 0%nat -> l = repeat false (length l).
Proof.
  induction l as [|b l IH]; intros H; [reflexivity|]. rewrite weight_cons in H.
  destruct b; [lia|]. simpl. f_equal. apply IH. lia.
Qed.

Lemma weight_S : forall l n, weight l = S n ->
  exists a r, l = repeat false a ++ true :: r /\ weight r = n.
Proof.
  induction l as [|b l IH]; intros n H; [discriminate|]. rewrite weight_cons in H.
  destruct b.
  - exists 0%nat, l. split; [reflexivity|lia].
  - destruct (IH n) as [a [r [E W]]]; [lia|]. exists (S a), r. split; [simpl; congruence|exact W].
Qed.

(** ** Two-bit errors: the order of x is 32767 *)

Fixpoint never_back (n : nat) (s : N) : bool :=
  match n with O => true | S n' => negb (T s =? 2 ^ 15) && never_back n' (T s) end.

Lemma never_back_iter : forall n s, never_back n s = true ->
  forall k, (0 < k <= n)%nat -> iter k s <> 2 ^ 15.
Proof.
  induction n as [|n IH]; intros s H k Hk; [lia|]. cbn [never_back] in H.
  apply andb_true_iff in H. destruct H as [H1 H2].
  destruct k as [|k]; [lia|]. cbn [iter].
  destruct k as [|k].
  - simpl. apply negb_true_iff in H1. apply N.eqb_neq. exact H1.
  - apply (IH (T s) H2 (S k)). lia.
Qed.

Lemma order_check : never_back (N.to_nat 32766) (2 ^ 15) = true.
Proof. vm_compute. reflexivity. Qed.

Lemma order_of_x : forall k, (0 < k)%nat -> N.of_nat k < 32767 -> iter k (2 ^ 15) <> 2 ^ 15.
Proof.
  intros k H1 H2. apply (never_back_iter (N.to_nat 32766)); [exact order_check|lia].
Qed.

Lemma feed_one_then_zeros : forall a c, feed 0 (repeat false a ++ true :: repeat false c) = iter (S c) (2 ^ 15).
Proof.
  intros a c. rewrite feed_app, feed_zeros, iter_0. cbn [feed fold_left].
  change (fold_left feed1 ?l ?x) with (feed x l). rewrite feed_zeros. unfold feed1.
  rewrite N.lxor_0_l. reflexivity.
Qed.

Lemma two_bit_detected : forall a b c, N.of_nat b < 32766 ->
  feed 0 (repeat false a ++ true :: repeat false b ++ true :: repeat false c) <> 0.
Proof.
  intros a b c Hb E.
  replace (repeat false a ++ true :: repeat false b ++ true :: repeat false c)
    with ((repeat false a ++ true :: repeat false b) ++ (true :: repeat false c)) in E
    by (rewrite <- app_assoc; reflexivity).
  rewrite feed_app, feed_one_then_zeros in E. cbn [feed fold_left] in E.
  change (fold_left feed1 ?l ?x) with (feed x l) in E. rewrite feed_zeros in E.
  assert (L : iter (S b) (2 ^ 15) < 2 ^ 16) by (apply iter_lt; reflexivity).
  apply iter_eq_0 in E; [|apply feed1_lt; exact L].
  unfold feed1 in E. apply T_eq_0 in E; [|apply lxor_lt; [exact L|reflexivity]].
  apply N.lxor_eq in E. revert E. apply order_of_x; lia.
Qed.

(** ** Bursts *)

Lemma iter_pow2 : forall n j, j + N.of_nat n <= 15 -> iter n (2 ^ j) = 2 ^ (j + N.of_nat n).
Proof.
  induction n as [|n IH]; intros j H.
  - simpl. f_equal. lia.
  - cbn [iter]. replace (T (2 ^ j)) with (2 ^ (j + 1)).
    + rewrite IH by lia. f_equal. lia.
    + unfold T. rewrite N.pow2_bits_false by lia. rewrite N.add_1_r, N.pow_succ_r'. reflexivity.
Qed.

Lemma feed_short : forall w, (length w <= 16)%nat ->
  feed 0 w = iter (length w) (num w * 2 ^ (16 - N.of_nat (length w))).
Proof.
  intros w. induction w as [|b w IH] using rev_ind; intros H; [reflexivity|].
  rewrite app_length in *. simpl length in *.
  rewrite feed_app, IH by lia. cbn [feed fold_left].
  rewrite num_snoc, Nat.add_1_r. unfold feed1.
  assert (E : (if b then 2 ^ 15 else 0)
              = iter (length w) ((if b then 1 else 0) * 2 ^ (15 - N.of_nat (length w)))).
  { destruct b; [|rewrite iter_0; reflexivity]. rewrite N.mul_1_l, iter_pow2 by lia. f_equal. lia. }
  rewrite E, <- iter_lxor.
  assert (C : forall n x, T (iter n x) = iter (S n) x).
  { induction n as [|n IHn]; intros x; [reflexivity|]. cbn [iter] in *. rewrite IHn. reflexivity. }
  rewrite C. f_equal. rewrite double_bit_lxor.
  replace (16 - N.of_nat (S (length w))) with (15 - N.of_nat (length w)) by lia.
  replace (16 - N.of_nat (length w)) with (N.succ (15 - N.of_nat (length w))) by lia.
  rewrite N.pow_succ_r', N.mul_assoc, (N.mul_comm (num w) 2).
  rewrite <- !N.shiftl_mul_pow2. symmetry. apply N.shiftl_lxor.
Qed.

Lemma num_zero : forall w, num w = 0 -> weight w = 0%nat.
Proof.
  induction w as [|b w IH] using rev_ind; intros H; [reflexivity|].
  rewrite num_snoc in H. unfold weight in *. rewrite filter_app, app_length, IH by (destruct b; lia).
  destruct b; [lia|reflexivity].
Qed.

Lemma num_lt : forall w, num w < 2 ^ N.of_nat (length w).
Proof.
  induction w as [|b w IH] using rev_ind; [reflexivity|].
  rewrite num_snoc, app_length. simpl length. rewrite Nat.add_1_r, Nat2N.inj_succ, N.pow_succ_r'.
  destruct b; lia.
Qed.

Lemma burst_detected_split : forall a w c, (length w <= 16)%nat -> weight w <> 0%nat ->
  feed 0 (repeat false a ++ w ++ repeat false c) <> 0.
Proof.
  intros a w c Hl Hw E.
  rewrite !feed_app, (feed_zeros a), iter_0, feed_zeros in E.
  apply iter_eq_0 in E; [|apply feed_lt; reflexivity].
  rewrite feed_short in E by exact Hl.
  assert (B : num w * 2 ^ (16 - N.of_nat (length w)) < 2 ^ 16).
  { pose proof (num_lt w) as L. replace (2 ^ 16) with (2 ^ N.of_nat (length w) * 2 ^ (16 - N.of_nat (length w))).
    - apply N.mul_lt_mono_pos_r; [|exact L]. apply N.neq_0_lt_0, N.pow_nonzero. discriminate.
    - rewrite <- N.pow_add_r. f_equal. lia. }
  apply iter_eq_0 in E; [|exact B].
  apply N.mul_eq_0 in E. destruct E as [E|E].
  - apply Hw, num_zero, E.
  - revert E. apply N.pow_nonzero. discriminate.
Qed.

Lemma all_false_repeat : forall l, (forall j, nth j l false = false) -> l = repeat false (length l).
Proof.
  induction l as [|b l IH]; intros H; [reflexivity|]. simpl. f_equal.
  - exact (H 0%nat).
  - apply IH. intro j. exact (H (S j)).
Qed.

Lemma weight_repeat_false : forall n, weight (repeat false n) = 0%nat.
Proof. induction n as [|n IH]; [reflexivity|]. simpl repeat. rewrite weight_cons. exact IH. Qed.

Lemma weight_app : forall a b, weight (a ++ b) = (weight a + weight b)%nat.
Proof. intros. unfold weight. rewrite filter_app, app_length. reflexivity. Qed.

Lemma nth_skipn' : forall A (l : list A) n j d, nth j (skipn n l) d = nth (n + j) l d.
Proof.
  intros A l n. revert l. induction n as [|n IH]; intros l j d; [reflexivity|].
  destruct l; simpl; [destruct j; reflexivity|apply IH].
Qed.

Lemma nth_firstn' : forall A (l : list A) n j d, (j < n)%nat -> nth j (firstn n l) d = nth j l d.
Proof.
  intros A l n. revert l. induction n as [|n IH]; intros l j d H; [lia|].
  destruct l; [reflexivity|]. destruct j; [reflexivity|]. simpl. apply IH. lia.
Qed.

Lemma nth_repeat_false : forall n j, nth j (repeat false n) false = false.
Proof. induction n as [|n IH]; intros [|j]; simpl; auto. Qed.

Lemma burst_detected : forall d, burst 16 d -> feed 0 d <> 0.
Proof.
  intros d [Hw [i Hi]].
  assert (Hout : forall j, ~ (i <= j < i + 16)%nat -> nth j d false = false).
  { intros j Hj. destruct (nth j d false) eqn:E; [|reflexivity]. apply Hi in E. lia. }
  set (a := firstn i d). set (w := firstn 16 (skipn i d)). set (c := skipn 16 (skipn i d)).
  assert (E : d = a ++ w ++ c).
  { unfold a, w, c. rewrite firstn_skipn. symmetry. apply firstn_skipn. }
  assert (Ea : a = repeat false (length a)).
  { apply all_false_repeat. intro j. unfold a. destruct (Nat.ltb_spec j i).
    - rewrite nth_firstn' by assumption. apply Hout. lia.
    - apply nth_overflow. rewrite firstn_length. lia. }
  assert (Ec : c = repeat false (length c)).
  { apply all_false_repeat. intro j. unfold c. rewrite !nth_skipn'. apply Hout. lia. }
  rewrite E, Ea, Ec. apply burst_detected_split.
  - unfold w. rewrite firstn_length. lia.
  - rewrite E, !weight_app, Ea, Ec, !weight_repeat_false in Hw. lia.
Qed.

(** ** The three classes on messages *)

Lemma checksum_neq : forall a b s, s < 2 ^ 16 -> length a = length b ->
  feed 0 (diff_bits a b) <> 0 -> calculate_checksum s a <> calculate_checksum s b.
Proof.
  intros a b s Hs Hl H E. apply H. rewrite <- (checksum_diff a b s Hs Hl), E.
  apply N.lxor_nilpotent.
Qed.

Lemma checksum_detects_odd : forall a b s, s < 2 ^ 16 -> length a = length b ->
  Nat.odd (weight (diff_bits a b)) = true ->
  calculate_checksum s a <> calculate_checksum s b.
Proof. intros. apply checksum_neq; auto. apply odd_error_detected. assumption. Qed.

Lemma checksum_detects_burst : forall a b s, s < 2 ^ 16 -> length a = length b ->
  burst 16 (diff_bits a b) -> calculate_checksum s a <> calculate_checksum s b.
Proof. intros. apply checksum_neq; auto. apply burst_detected. assumption. Qed.

Lemma nth_at_len : forall (a : list bool) x r, nth (length a) (a ++ x :: r) false = x.
Proof. intros. rewrite app_nth2, Nat.sub_diag by lia. reflexivity. Qed.

Lemma checksum_detects_two : forall a b s i j, s < 2 ^ 16 -> length a = length b ->
  weight (diff_bits a b) = 2%nat ->
  nth i (diff_bits a b) false = true -> nth j (diff_bits a b) false = true -> (i < j)%nat ->
  N.of_nat (j - i) < 32767 ->
  calculate_checksum s a <> calculate_checksum s b.
Proof.
  intros a b s i j Hs Hl Hw Hi Hj Hij Hd. apply checksum_neq; auto.
  destruct (weight_S _ _ Hw) as [z1 [r1 [E1 W1]]].
  destruct (weight_S _ _ W1) as [z2 [r2 [E2 W2]]].
  apply weight_0 in W2. rewrite E1, E2, W2 in *.
  set (d := repeat false z1 ++ true :: repeat false z2 ++ true :: repeat false (length r2)) in *.
  assert (P : forall k, nth k d false = true -> k = z1 \/ k = (z1 + 1 + z2)%nat).
  { intros k Hk. unfold d in Hk.
    destruct (Nat.lt_ge_cases k z1) as [L|L].
    - rewrite app_nth1 in Hk by (rewrite repeat_length; lia). rewrite nth_repeat_false in Hk. discriminate.
    - rewrite app_nth2 in Hk by (rewrite repeat_length; lia). rewrite repeat_length in Hk.
      destruct (k - z1)%nat as [|k1] eqn:K; [left; lia|]. right. simpl in Hk.
      destruct (Nat.lt_ge_cases k1 z2) as [L2|L2].
      + rewrite app_nth1 in Hk by (rewrite repeat_length; lia). rewrite nth_repeat_false in Hk. discriminate.
      + rewrite app_nth2 in Hk by (rewrite repeat_length; lia). rewrite repeat_length in Hk.
        destruct (k1 - z2)%nat as [|k2] eqn:K2; [lia|]. simpl in Hk. rewrite nth_repeat_false in Hk. discriminate. }
  apply two_bit_detected. apply P in Hi. apply P in Hj. lia.
Qed.

(** ** The statements of P_Checksum.v *)

Lemma checksum_iff_crc16 : forall initial data, initial < 2 ^ 16 ->
  forall c, is_crc16 initial data c <-> c = calculate_checksum initial data.
Proof.
  intros i d H c. split.
  - intro C. apply (is_crc16_unique i d); [exact C|]. apply checksum_is_crc16, H.
  - intros ->. apply checksum_is_crc16, H.
Qed.

Lemma checksum_piecewise : forall initial a b,
  calculate_checksum initial (a ++ b) = calculate_checksum (calculate_checksum initial a) b.
Proof. intros. apply checksum_app. Qed.

Lemma C03_odd : forall initial a b,
  initial < 2 ^ 16 -> length a = length b ->
  Nat.odd (weight (diff_bits a b)) = true ->
  calculate_checksum initial a <> calculate_checksum initial b.
Proof. intros. apply checksum_detects_odd; assumption. Qed.

Lemma C03_two : forall initial a b i j,
  initial < 2 ^ 16 -> length a = length b ->
  weight (diff_bits a b) = 2%nat ->
  nth i (diff_bits a b) false = true -> nth j (diff_bits a b) false = true ->
  (i < j)%nat -> N.of_nat (j - i) < 32767 ->
  calculate_checksum initial a <> calculate_checksum initial b.
Proof. intros initial a b i j. intros. apply (checksum_detects_two a b initial i j); assumption. Qed.

Lemma C03_burst : forall initial a b,
  initial < 2 ^ 16 -> length a = length b ->
  burst 16 (diff_bits a b) ->
  calculate_checksum initial a <> calculate_checksum initial b.
Proof. intros. apply checksum_detects_burst; assumption. Qed.

(** Two messages that differ in the first and the last of 32768 bits.  (The
    computation is stated as [bool = true] so that the kernel never compares two
    large unreduced terms.) *)
Definition far_a : list byte := x80 :: repeat x00 (N.to_nat 4094) ++ [x01].
Definition far_b : list byte := x00 :: repeat x00 (N.to_nat 4094) ++ [x00].

Lemma far_check :
  Nat.eqb (length far_a) (length far_b) && Nat.eqb (weight (diff_bits far_a far_b)) 2
  && nth 0 (diff_bits far_a far_b) false && nth (N.to_nat 32767) (diff_bits far_a far_b) false
  && N.eqb (calculate_checksum 0 far_a) (calculate_checksum 0 far_b) = true.
Proof. vm_compute. reflexivity. Qed.

Lemma C03_two_exact :
  exists a b i j, length a = length b /\ weight (diff_bits a b) = 2%nat /\
    nth i (diff_bits a b) false = true /\ nth j (diff_bits a b) false = true /\
    (i < j)%nat /\ N.of_nat (j - i) = 32767 /\
    calculate_checksum 0 a = calculate_checksum 0 b.
Proof.
  exists far_a, far_b, 0%nat, (N.to_nat 32767).
  pose proof far_check as H. rewrite !andb_true_iff in H.
  destruct H as [[[[H1 H2] H3] H4] H5].
  apply Nat.eqb_eq in H1. apply Nat.eqb_eq in H2. apply N.eqb_eq in H5.
  split; [exact H1|]. split; [exact H2|]. split; [exact H3|]. split; [exact H4|].
  split; [lia|]. split; [lia|exact H5].
Qed.

Lemma C03_example_holds :
  weight (diff_bits [x01; x80; x07] [x00; x00; x07]) = 2%nat /\
  nth 7 (diff_bits [x01; x80; x07] [x00; x00; x07]) false = true /\
  nth 8 (diff_bits [x01; x80; x07] [x00; x00; x07]) false = true /\
  Nat.odd (weight (diff_bits [x07] [x00])) = true /\
  burst 16 (diff_bits [x01; x80; x07] [x00; x00; x07]).
Proof.
  repeat split; try reflexivity; [discriminate|].
  exists 0%nat. intros j H. split; [lia|].
  destruct (Nat.ltb_spec j 16) as [L|L]; [exact L|].
  do 16 (destruct j as [|j]; [lia|]). change (nth j (map (fun _ => false) (bits_of_byte x00)) false = true) in H.
  exfalso. do 8 (destruct j as [|j]; [discriminate|]). destruct j; discriminate.
Qed.
