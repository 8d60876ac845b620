(** * Lib: general lemmas about bytes, lists and the slice operations of Base *)
From Coq Require Import ZArith ZifyN ZifyNat ZifyBool.
From Verif Require Import Base Endian.

Ltac Zify.zify_post_hook ::= Z.div_mod_to_equations.

(** ** Bytes *)

Lemma b2n_lt : forall b, (b2n b < 256)%N.
Proof. intros b. destruct b; reflexivity. Qed.

Lemma n2b_b2n : forall b, n2b (b2n b) = b.
Proof. intros b. destruct b; reflexivity. Qed.

Lemma b2n_n2b : forall n, b2n (n2b n) = (n mod 256)%N.
Proof.
  intros n. unfold b2n, n2b.
  destruct (Byte.of_N (n mod 256)) eqn:E.
  - apply Byte.to_of_N in E. exact E.
  - apply Byte.of_N_None_iff in E. lia.
Qed.

Lemma b2n_inj : forall a b, b2n a = b2n b -> a = b.
Proof. intros a b H. rewrite <- (n2b_b2n a), <- (n2b_b2n b), H. reflexivity. Qed.

Lemma beq_true : forall a b, beq a b = true <-> a = b.
Proof.
  intros a b. split; intro H.
  - apply Byte.byte_dec_bl. exact H.
  - apply Byte.byte_dec_lb. exact H.
Qed.

Lemma beq_false : forall a b, beq a b = false <-> a <> b.
Proof.
  intros a b. destruct (beq a b) eqn:E.
  - apply beq_true in E. split; intro H; congruence.
  - split; intro H; [|reflexivity]. intro F. apply beq_true in F. congruence.
Qed.

Lemma beq_refl : forall a, beq a a = true.
Proof. intro a. apply beq_true. reflexivity. Qed.

Lemma bytes_eqb_true : forall a b, bytes_eqb a b = true <-> a = b.
Proof.
  induction a as [|x a IH]; destruct b as [|y b]; simpl; split; intro H;
    try reflexivity; try discriminate.
  - apply andb_true_iff in H. destruct H as [H1 H2].
    apply beq_true in H1. apply IH in H2. congruence.
  - injection H as H1 H2. apply andb_true_iff. split; [apply beq_true|apply IH]; assumption.
Qed.

(** A property of all bytes, checked by computation. *)
Definition all_bytes : list byte := map n2b (map N.of_nat (seq 0 256)).

Lemma in_all_bytes : forall b, In b all_bytes.
Proof.
  intro b. unfold all_bytes. apply in_map_iff. exists (b2n b).
  split; [apply n2b_b2n|]. apply in_map_iff. exists (N.to_nat (b2n b)).
  split; [apply N2Nat.id|]. apply in_seq.
  pose proof (b2n_lt b). lia.
Qed.

Lemma forall_byte : forall f : byte -> bool, forallb f all_bytes = true -> forall b, f b = true.
Proof. intros f H b. rewrite forallb_forall in H. apply H, in_all_bytes. Qed.

(** ** Lists *)

Lemma skipn_length' : forall A n (l : list A), length (skipn n l) = length l - n.
Proof. intros. apply skipn_length. Qed.

Lemma firstn_length' : forall A n (l : list A), length (firstn n l) = Nat.min n (length l).
Proof. intros. apply firstn_length. Qed.

Lemma skipn_skipn' : forall A a b (l : list A), skipn a (skipn b l) = skipn (b + a) l.
Proof.
  intros A a b. induction b as [|b IH]; intros l; [reflexivity|].
  destruct l; simpl; [apply skipn_nil|apply IH].
Qed.

Lemma firstn_skipn_comm' : forall A a b (l : list A),
  firstn a (skipn b l) = skipn b (firstn (b + a) l).
Proof. intros. apply firstn_skipn_comm. Qed.

Lemma skipn_app_le : forall A n (a b : list A), n <= length a ->
  skipn n (a ++ b) = skipn n a ++ b.
Proof. intros A n a b H. rewrite skipn_app. replace (n - length a) with 0 by lia. reflexivity. Qed.

Lemma skipn_app_ge : forall A n (a b : list A), length a <= n ->
  skipn n (a ++ b) = skipn (n - length a) b.
Proof. intros A n a b H. rewrite skipn_app, (skipn_all2 a) by lia. reflexivity. Qed.

Lemma firstn_app_le : forall A n (a b : list A), n <= length a ->
  firstn n (a ++ b) = firstn n a.
Proof.
  intros A n a b H. rewrite firstn_app. replace (n - length a) with 0 by lia.
  simpl. apply app_nil_r.
Qed.

Lemma firstn_app_ge : forall A n (a b : list A), length a <= n ->
  firstn n (a ++ b) = a ++ firstn (n - length a) b.
Proof. intros A n a b H. rewrite firstn_app, (firstn_all2 a) by lia. reflexivity. Qed.

Lemma firstn_skipn_id : forall A n (l : list A), firstn n l ++ skipn n l = l.
Proof. intros. apply firstn_skipn. Qed.

Lemma nth_error_split3 : forall A (l : list A) n x, nth_error l n = Some x ->
  l = firstn n l ++ x :: skipn (S n) l.
Proof.
  induction l as [|y l IH]; intros [|n] x H; simpl in *; try discriminate.
  - congruence.
  - f_equal. apply IH. exact H.
Qed.

Lemma list_set_length : forall l i v, length (list_set l i v) = length l.
Proof. induction l as [|x l IH]; intros [|i] v; simpl; auto. Qed.

Lemma list_set_spec : forall l i v, i < length l ->
  list_set l i v = firstn i l ++ v :: skipn (S i) l.
Proof.
  induction l as [|x l IH]; intros [|i] v H; simpl in *; try lia; [reflexivity|].
  f_equal. apply IH. lia.
Qed.

(** ** Slices *)

Lemma slice_val : forall l a b, a <= b -> b <= length l ->
  slice l a b = Val (firstn (b - a) (skipn a l)).
Proof.
  intros l a b H1 H2. unfold slice.
  destruct (a <=? b) eqn:E1; [|lia]. destruct (b <=? length l) eqn:E2; [|lia]. reflexivity.
Qed.

Lemma slice_inv : forall l a b s, slice l a b = Val s ->
  a <= b /\ b <= length l /\ s = firstn (b - a) (skipn a l).
Proof.
  intros l a b s H. unfold slice in H.
  destruct ((a <=? b) && (b <=? length l)) eqn:E; [|discriminate].
  apply andb_true_iff in E. destruct E as [E1 E2].
  injection H as H. repeat split; [lia|lia|congruence].
Qed.

Lemma slice_panic : forall l a b, ~ (a <= b /\ b <= length l) -> slice l a b = Panic PIndex.
Proof.
  intros l a b H. unfold slice.
  destruct (a <=? b) eqn:E1; destruct (b <=? length l) eqn:E2; simpl; try reflexivity. lia.
Qed.

Lemma slice_to_val : forall l b, b <= length l -> slice_to l b = Val (firstn b l).
Proof.
  intros l b H. unfold slice_to. rewrite slice_val by lia.
  rewrite Nat.sub_0_r. reflexivity.
Qed.

Lemma slice_from_val : forall l a, a <= length l -> slice_from l a = Val (skipn a l).
Proof.
  intros l a H. unfold slice_from. rewrite slice_val by lia.
  rewrite firstn_all2; [reflexivity|]. rewrite skipn_length. lia.
Qed.

Lemma idx_val : forall l i b, nth_error l i = Some b -> idx l i = Val b.
Proof. intros l i b H. unfold idx. rewrite H. reflexivity. Qed.

Lemma idx_lt : forall l i, i < length l -> idx l i = Val (nth i l x00).
Proof.
  intros l i H. unfold idx. rewrite (nth_error_nth' l x00 H). reflexivity.
Qed.

Lemma set_val : forall l i v, i < length l -> set l i v = Val (firstn i l ++ v :: skipn (S i) l).
Proof.
  intros l i v H. unfold set. destruct (i <? length l) eqn:E; [|lia].
  rewrite list_set_spec by lia. reflexivity.
Qed.

Lemma splice_length : forall l a v, a + length v <= length l ->
  length (splice l a v) = length l.
Proof.
  intros l a v H. unfold splice. rewrite !app_length, firstn_length, skipn_length. lia.
Qed.

(** Replacing the middle part of a list given as three parts. *)
Lemma splice_app : forall a m b m', length m = length m' ->
  splice (a ++ m ++ b) (length a) m' = a ++ m' ++ b.
Proof.
  intros a m b m' H. unfold splice.
  rewrite firstn_app_le by lia. rewrite firstn_all.
  rewrite skipn_app_ge by lia.
  replace (length a + length m' - length a) with (length m) by lia.
  rewrite skipn_app_ge by lia. rewrite Nat.sub_diag. reflexivity.
Qed.

Lemma slice_app3 : forall a m b, slice (a ++ m ++ b) (length a) (length a + length m) = Val m.
Proof.
  intros a m b. rewrite slice_val by (rewrite ?app_length; lia).
  rewrite skipn_app_ge by lia. rewrite Nat.sub_diag. simpl.
  replace (length a + length m - length a) with (length m) by lia.
  rewrite firstn_app_le by lia. rewrite firstn_all. reflexivity.
Qed.

(** [with_slice] on a list given as three parts. *)
Lemma with_slice_app3 : forall R a m b (f : list byte -> out (list byte * R)) p q,
  p = length a -> q = length a + length m ->
  with_slice (a ++ m ++ b) p q f =
  (let* '(m', r) := f m in Val (splice (a ++ m ++ b) (length a) m', r)).
Proof.
  intros R a m b f p q -> ->. unfold with_slice. rewrite slice_app3. reflexivity.
Qed.

(** ** Little-endian u16 *)

Lemma u16_low : forall v, b2n (n2b (N.land v 0xFF)) = (v mod 256)%N.
Proof.
  intro v. rewrite b2n_n2b. change 255%N with (N.ones 8).
  rewrite N.land_ones. rewrite N.mod_mod by discriminate. reflexivity.
Qed.

Lemma u16_low' : forall v, n2b (N.land v 0xFF) = n2b v.
Proof. intro v. apply b2n_inj. rewrite u16_low, b2n_n2b. reflexivity. Qed.

Lemma u16_high' : forall v, n2b (N.land (N.shiftr v 8) 0xFF) = n2b (v / 256).
Proof.
  intro v. rewrite u16_low'. rewrite N.shiftr_div_pow2. reflexivity.
Qed.

Lemma land_shifted : forall a b n, (a < 2 ^ n -> N.land a (b * 2 ^ n) = 0)%N.
Proof.
  intros a b n H. apply N.bits_inj. intro i. rewrite N.land_spec, N.bits_0.
  destruct (N.ltb_spec i n).
  - rewrite N.mul_pow2_bits_low by assumption. apply andb_false_r.
  - destruct (N.eq_dec a 0) as [->|Hz]; [rewrite N.bits_0; reflexivity|].
    rewrite (N.bits_above_log2 a i); [reflexivity|].
    apply N.log2_lt_pow2; [lia|]. apply N.lt_le_trans with (2 ^ n)%N; [exact H|].
    apply N.pow_le_mono_r; [discriminate|assumption].
Qed.

Lemma lxor_shifted : forall a b n, (a < 2 ^ n -> N.lxor a (b * 2 ^ n) = a + b * 2 ^ n)%N.
Proof. intros a b n H. symmetry. apply N.add_nocarry_lxor. apply land_shifted. exact H. Qed.

Lemma lor_shiftl_8 : forall a b, (a < 256 -> N.lor a (N.shiftl b 8) = a + 256 * b)%N.
Proof.
  intros a b H. rewrite N.shiftl_mul_pow2.
  rewrite <- N.lxor_lor by (apply land_shifted; exact H).
  rewrite lxor_shifted by exact H. change (2 ^ 8)%N with 256%N. lia.
Qed.

Lemma read_u16_le_val : forall a b l,
  read_u16_le (a :: b :: l) = Val (b2n a + 256 * b2n b)%N.
Proof.
  intros a b l. unfold read_u16_le. cbn [idx nth_error obind].
  rewrite lor_shiftl_8 by apply b2n_lt. reflexivity.
Qed.

Lemma write_u16_le_val : forall a b l v,
  write_u16_le (a :: b :: l) v = Val (n2b v :: n2b (v / 256) :: l).
Proof.
  intros a b l v. unfold write_u16_le. unfold set. cbn [length Nat.ltb Nat.leb obind list_set].
  rewrite u16_low', u16_high'. reflexivity.
Qed.

(** [write_u16_at] on a list given as parts. *)
Lemma write_u16_at_val : forall a x y l v p, p = length a ->
  write_u16_at (a ++ x :: y :: l) p v = Val (a ++ n2b v :: n2b (v / 256) :: l).
Proof.
  intros a x y l v p ->. unfold write_u16_at.
  replace (a ++ x :: y :: l) with (a ++ (x :: y :: l) ++ []) by (rewrite app_nil_r; reflexivity).
  rewrite with_slice_app3 by (rewrite ?app_length; simpl; lia).
  rewrite write_u16_le_val. cbn [obind].
  rewrite splice_app by reflexivity. rewrite app_nil_r. reflexivity.
Qed.

Lemma write_u8_at_val : forall a x l v p, p = length a ->
  write_u8_at (a ++ x :: l) p v = Val (a ++ v :: l).
Proof.
  intros a x l v p ->. unfold write_u8_at.
  replace (a ++ x :: l) with (a ++ (x :: l) ++ []) by (rewrite app_nil_r; reflexivity).
  rewrite with_slice_app3 by (rewrite ?app_length; simpl; lia).
  unfold write_u8_le. rewrite set_val by (simpl; lia). cbn [obind firstn skipn app].
  change (x :: l ++ []) with ((x :: l) ++ []).
  rewrite splice_app by reflexivity. rewrite app_nil_r. reflexivity.
Qed.

Lemma copy_into_val : forall a m b src p q, p = length a -> q = length a + length m ->
  length src = length m -> copy_into (a ++ m ++ b) p q src = Val (a ++ src ++ b).
Proof.
  intros a m b src p q -> -> H. unfold copy_into. rewrite slice_app3. cbn [obind].
  unfold copy_from_slice. rewrite H, Nat.eqb_refl. cbn [obind].
  rewrite splice_app by congruence. reflexivity.
Qed.

Lemma starts_with_true : forall p l, starts_with l p = true <-> exists r, l = p ++ r.
Proof.
  induction p as [|x p IH]; intros l.
  - split; [intros _; exists l; reflexivity|destruct l; reflexivity].
  - destruct l as [|y l]; simpl.
    + split; [discriminate|]. intros [r H]. discriminate.
    + rewrite andb_true_iff, beq_true, IH. split.
      * intros [-> [r ->]]. exists r. reflexivity.
      * intros [r H]. injection H as -> ->. split; [reflexivity|exists r; reflexivity].
Qed.
