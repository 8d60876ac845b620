(** * DataTheorems: encoding and decoding of values *)
From Coq Require Import ZArith ZifyN ZifyNat ZifyBool.
From Verif Require Import Base Endian Error Packet Bus Data DataSpec Api Lib ApiProofs.
Ltac Zify.zify_post_hook ::= Z.div_mod_to_equations.

(** ** Integers *)

Lemma to_le_length : forall w n, length (to_le w n) = w.
Proof. induction w as [|w IH]; intro n; [reflexivity|]. cbn [to_le length]. f_equal. apply IH. Qed.

Lemma le_value_from_le : forall l, le_value l = Z.of_N (from_le l).
Proof. induction l as [|b l IH]; [reflexivity|]. cbn [le_value from_le]. rewrite IH. lia. Qed.

Lemma pow8S : forall w, (2 ^ (8 * Z.of_nat (S w)) = 256 * 2 ^ (8 * Z.of_nat w))%Z.
Proof.
  intro w. replace (8 * Z.of_nat (S w))%Z with (8 + 8 * Z.of_nat w)%Z by lia.
  rewrite Z.pow_add_r by lia. reflexivity.
Qed.

Lemma le_value_range : forall l, (0 <= le_value l < 2 ^ (8 * Z.of_nat (length l)))%Z.
Proof.
  induction l as [|b l IH]; [cbn; lia|]. cbn [le_value length]. rewrite pow8S.
  pose proof (b2n_lt b). lia.
Qed.

Lemma le_value_inj : forall l l', length l = length l' -> le_value l = le_value l' -> l = l'.
Proof.
  induction l as [|b l IH]; intros [|b' l'] L E; try discriminate; [reflexivity|].
  cbn [le_value] in E. injection L as L. pose proof (b2n_lt b). pose proof (b2n_lt b').
  f_equal; [apply b2n_inj; lia|apply IH; [exact L|lia]].
Qed.

Lemma to_le_value : forall w n, (Z.of_N n < 2 ^ (8 * Z.of_nat w))%Z -> le_value (to_le w n) = Z.of_N n.
Proof.
  induction w as [|w IH]; intros n H.
  - cbn in *. lia.
  - cbn [to_le le_value]. rewrite pow8S in H. rewrite IH by lia. rewrite b2n_n2b. lia.
Qed.

Lemma pow8_pos : forall w, (0 < 2 ^ (8 * Z.of_nat w))%Z.
Proof. intro w. apply Z.pow_pos_nonneg; lia. Qed.

Lemma half : forall w, 0 < w -> (2 ^ (8 * Z.of_nat w) = 2 * 2 ^ (8 * Z.of_nat w - 1))%Z.
Proof.
  intros w H. replace (8 * Z.of_nat w)%Z with (1 + (8 * Z.of_nat w - 1))%Z at 1 by lia.
  rewrite Z.pow_add_r by lia. reflexivity.
Qed.

Lemma int_bytes_to_le : forall sg w v l, int_bytes sg w v l -> l = to_le w (int_bits w v).
Proof.
  intros sg w v l [_ [L [k ->]]]. apply le_value_inj; [rewrite to_le_length; exact L|].
  pose proof (le_value_range l) as B. rewrite L in B. pose proof (pow8_pos w).
  unfold int_bits. rewrite Z_mod_plus_full, Z.mod_small by exact B.
  rewrite to_le_value; rewrite Z2N.id; lia.
Qed.

Lemma int_bytes_exists : forall sg w v, int_range sg w v -> int_bytes sg w v (to_le w (int_bits w v)).
Proof.
  intros sg w v H. split; [exact H|]. split; [apply to_le_length|].
  pose proof (pow8_pos w) as P. unfold int_bits.
  exists (v / 2 ^ (8 * Z.of_nat w))%Z.
  pose proof (Z.mod_pos_bound v _ P).
  rewrite to_le_value; rewrite Z2N.id; try lia.
Qed.

Lemma int_value_of : forall sg w v l, 0 < w -> int_bytes sg w v l -> int_value sg w (from_le l) = v.
Proof.
  intros sg w v l Hw [R [L [k E]]]. pose proof (le_value_range l) as B. rewrite L in B.
  rewrite le_value_from_le in *. pose proof (half w Hw) as Hh. pose proof (pow8_pos w).
  unfold int_value, int_range in *. destruct sg; cbn [andb].
  - destruct (2 ^ (8 * Z.of_nat w - 1) <=? Z.of_N (from_le l))%Z eqn:C.
    + assert (k = -1)%Z by nia. lia.
    + assert (k = 0)%Z by nia. lia.
  - assert (k = 0)%Z by nia. lia.
Qed.

Lemma int_value_bytes : forall sg w l, 0 < w -> length l = w -> int_bytes sg w (int_value sg w (from_le l)) l.
Proof.
  intros sg w l Hw L. pose proof (le_value_range l) as B. rewrite L in B.
  pose proof (half w Hw) as Hh. pose proof (pow8_pos w).
  unfold int_bytes, int_value, int_range. rewrite le_value_from_le in *. destruct sg; cbn [andb].
  - destruct (2 ^ (8 * Z.of_nat w - 1) <=? Z.of_N (from_le l))%Z eqn:C.
    + split; [lia|]. split; [exact L|]. exists (-1)%Z. lia.
    + split; [lia|]. split; [exact L|]. exists 0%Z. lia.
  - split; [lia|]. split; [exact L|]. exists 0%Z. lia.
Qed.

Lemma width_pos : forall w, In w [1; 2; 4; 8; 16] -> 0 < w.
Proof. intros w H. cbn in H. intuition lia. Qed.

(** ** All types *)

Definition good {A} (D : data_impl A) (R : A -> list byte -> Prop) : Prop :=
  (forall v l, R v l -> length l = d_size D) /\
  (forall v l l', R v l -> R v l' -> l = l') /\
  (forall v l buf, R v l -> d_size D <= length buf ->
     d_encode D v buf = Val (l ++ skipn (d_size D) buf, Ok tt)) /\
  (forall v buf, length buf < d_size D -> d_encode D v buf = Val (buf, Err (mkBTS (d_size D) (length buf)))) /\
  (forall v l, R v l -> d_decode D l = Val (Ok v)) /\
  (forall l, length l = d_size D -> exists v, d_decode D l = Val (Ok v) /\ R v l).

Lemma good_int : forall sg w, 0 < w -> good (data_int sg w) (int_bytes sg w).
Proof.
  intros sg w Hw. unfold good. cbn [d_size data_int d_encode d_decode]. repeat split.
  - intros v l H. apply H.
  - intros v l l' H H'. apply int_bytes_to_le in H. apply int_bytes_to_le in H'. congruence.
  - intros v l buf H L. unfold bts_check. replace (w <=? length buf) with true by lia.
    rewrite <- (firstn_skipn w buf) at 1.
    change (firstn w buf ++ skipn w buf) with ([] ++ firstn w buf ++ skipn w buf).
    rewrite copy_into_val; [|reflexivity|rewrite firstn_length; cbn; lia|rewrite to_le_length, firstn_length; lia].
    rewrite (int_bytes_to_le _ _ _ _ H). reflexivity.
  - intros v buf L. unfold bts_check. replace (w <=? length buf) with false by lia. reflexivity.
  - intros v l H. unfold param_count_check. rewrite (proj1 (proj2 H)), Nat.eqb_refl.
    rewrite slice_val by (pose proof (proj1 (proj2 H)); lia). cbn [obind skipn].
    rewrite Nat.sub_0_r, firstn_all2 by (pose proof (proj1 (proj2 H)); lia).
    f_equal. f_equal. apply int_value_of; assumption.
  - intros l L. unfold param_count_check. rewrite L, Nat.eqb_refl.
    rewrite slice_val by lia. cbn [obind skipn].
    rewrite Nat.sub_0_r, firstn_all2 by lia.
    eexists. split; [reflexivity|]. apply int_value_bytes; assumption.
Qed.

Lemma array_encode_loop_val : forall A (D : data_impl A) R, good D R -> forall vs ls, Forall2 R vs ls ->
  forall i done rest, length done = i * d_size D -> length (concat ls) <= length rest ->
  array_encode_loop D i vs (done ++ rest) = Val (done ++ concat ls ++ skipn (length (concat ls)) rest, Ok tt).
Proof.
  intros A D R G vs ls H. induction H as [|v l vs ls Hv _ IH]; intros i done rest L1 L2.
  - reflexivity.
  - cbn [array_encode_loop concat]. cbn [concat] in L2. rewrite app_length in L2.
    pose proof (proj1 G _ _ Hv) as Ll.
    rewrite <- (firstn_skipn (d_size D) rest) at 1.
    rewrite with_slice_app3; [|congruence|rewrite firstn_length; lia].
    rewrite (proj1 (proj2 (proj2 G)) v l) by (try assumption; rewrite firstn_length; lia).
    cbn [obind]. rewrite (skipn_all2 (firstn (d_size D) rest)) by (rewrite firstn_length; lia). rewrite app_nil_r.
    rewrite splice_app by (rewrite ?firstn_length; lia).
    rewrite app_assoc, IH.
    + f_equal. f_equal. rewrite <- !app_assoc. f_equal. f_equal. f_equal.
      rewrite skipn_skipn', app_length. f_equal. lia.
    + rewrite app_length. cbn. lia.
    + rewrite skipn_length. lia.
Qed.

Lemma concat_length : forall n (ls : list (list byte)), Forall (fun l => length l = n) ls ->
  length (concat ls) = n * length ls.
Proof. intros n ls H. induction H as [|l ls H _ IH]; [cbn; lia|]. cbn [concat length]. rewrite app_length. lia. Qed.

Lemma array_decode_loop_val : forall A (D : data_impl A) n m i l o,
  (forall j, i <= j < i + m -> exists v, d_decode D (element D l j) = Val (Ok v)) -> i + m = n ->
  n * d_size D <= length l ->
  exists vs, length vs = m /\
    array_decode_loop D m i l o = Val (Ok (ai_elems o ++ vs), ai_elems o ++ vs) /\
    (forall j v, nth_error vs j = Some v -> d_decode D (element D l (i + j)) = Val (Ok v)).
Proof.
  intros A D n m. induction m as [|m IH]; intros i l o H Hn L.
  - exists []. split; [reflexivity|]. split; [cbn; rewrite app_nil_r; reflexivity|].
    intros [|j] v K; discriminate.
  - destruct (H i ltac:(lia)) as [v V].
    destruct (IH (S i) l (ai_push o v)) as [vs [L1 [E1 N1]]].
    { intros j Hj. apply H. lia. }
    { lia. }
    { exact L. }
    exists (v :: vs). split; [cbn; lia|]. split.
    + cbn [array_decode_loop]. rewrite slice_val by nia. cbn [obind].
      replace (i * d_size D + d_size D - i * d_size D) with (d_size D) by lia.
      change (firstn (d_size D) (skipn (i * d_size D) l)) with (element D l i). rewrite V. cbn [obind].
      rewrite E1. cbn [ai_push ai_elems]. rewrite <- app_assoc. reflexivity.
    + intros [|j] w K.
      * injection K as ->. rewrite Nat.add_0_r. exact V.
      * replace (i + S j) with (S i + j) by lia. apply N1. exact K.
Qed.

Lemma element_concat : forall A (D : data_impl A) ls j l, Forall (fun x => length x = d_size D) ls ->
  nth_error ls j = Some l -> element D (concat ls) j = l.
Proof.
  intros A D ls. induction ls as [|x ls IH]; intros [|j] l H E; try discriminate.
  - injection E as ->. apply Forall_inv in H. unfold element. cbn [concat Nat.mul skipn].
    rewrite firstn_app_le, <- H, firstn_all by lia. reflexivity.
  - cbn [nth_error] in E. unfold element. cbn [concat].
    rewrite skipn_app_ge by (rewrite (Forall_inv H); lia). rewrite (Forall_inv H).
    replace (S j * d_size D - d_size D) with (j * d_size D) by lia.
    apply IH; [exact (Forall_inv_tail H)|exact E].
Qed.

Lemma elements_concat : forall A (D : data_impl A) n (l : list byte), length l = d_size D * n ->
  exists ls, length ls = n /\ Forall (fun x => length x = d_size D) ls /\ l = concat ls.
Proof.
  intros A D n. induction n as [|n IH]; intros l L.
  - exists []. destruct l; [auto|cbn in L; lia].
  - destruct (IH (skipn (d_size D) l)) as [ls [L1 [F E]]]; [rewrite skipn_length; lia|].
    exists (firstn (d_size D) l :: ls). split; [cbn; lia|]. split.
    + constructor; [rewrite firstn_length; lia|exact F].
    + cbn [concat]. rewrite <- E. symmetry. apply firstn_skipn.
Qed.

Lemma Forall2_lengths : forall A (R : A -> list byte -> Prop) n, (forall v l, R v l -> length l = n) ->
  forall vs ls, Forall2 R vs ls -> Forall (fun x => length x = n) ls /\ length ls = length vs.
Proof. intros A R n H vs ls F. induction F as [|v l vs ls Hv _ [IH1 IH2]]; [auto|]. split; [constructor; eauto|cbn; lia]. Qed.

Lemma Forall2_fun : forall A (R : A -> list byte -> Prop), (forall v l l', R v l -> R v l' -> l = l') ->
  forall vs ls, Forall2 R vs ls -> forall ls', Forall2 R vs ls' -> ls = ls'.
Proof.
  intros A R H vs ls F. induction F as [|v l vs ls Hv _ IH]; intros ls' F'; inversion F'; subst; [reflexivity|].
  f_equal; eauto.
Qed.

Lemma Forall2_nth : forall A B (R : A -> B -> Prop) vs ls, length vs = length ls ->
  (forall j v l, nth_error vs j = Some v -> nth_error ls j = Some l -> R v l) -> Forall2 R vs ls.
Proof.
  intros A B R. induction vs as [|v vs IH]; intros [|l ls] L H; try discriminate; constructor.
  - apply (H 0); reflexivity.
  - apply IH; [injection L as L; exact L|]. intros j v' l' E E'. apply (H (S j)); assumption.
Qed.

Lemma Forall2_nth_inv : forall A B (R : A -> B -> Prop) vs ls, Forall2 R vs ls ->
  forall j v l, nth_error vs j = Some v -> nth_error ls j = Some l -> R v l.
Proof.
  intros A B R vs ls F. induction F as [|v l vs ls Hv _ IH]; intros [|j] v' l' E E'; try discriminate.
  - injection E as ->. injection E' as ->. exact Hv.
  - exact (IH j v' l' E E').
Qed.

Lemma nth_error_ext_list : forall A (a b : list A), (forall j, nth_error a j = nth_error b j) -> a = b.
Proof.
  intros A. induction a as [|x a IH]; intros [|y b] H; [reflexivity|specialize (H 0); discriminate..|].
  pose proof (H 0) as H0. injection H0 as ->. f_equal. apply IH. intro j. exact (H (S j)).
Qed.

Lemma good_array : forall A (D : data_impl A) R n, good D R -> good (data_array D n) (array_bytes R n).
Proof.
  intros A D R n G. pose proof G as [G1 [G2 [G3 [G4 [G5 G6]]]]].
  unfold good. cbn [d_size data_array d_encode d_decode].
  assert (LEN : forall v l, array_bytes R n v l -> length l = d_size D * n).
  { intros v l [L [ls [F ->]]]. destruct (Forall2_lengths _ _ _ G1 _ _ F) as [F1 F2].
    rewrite (concat_length _ _ F1). congruence. }
  split; [exact LEN|]. split; [|split; [|split; [|split]]].
  - intros v l l' [L [ls [F ->]]] [_ [ls' [F' ->]]]. rewrite (Forall2_fun _ _ G2 _ _ F _ F'). reflexivity.
  - intros v l buf H L. unfold bts_check. replace (d_size D * n <=? length buf) with true by lia.
    pose proof (LEN _ _ H) as Ll. destruct H as [Lv [ls [F ->]]].
    change buf with ([] ++ buf) at 1.
    rewrite (array_encode_loop_val A D R G v ls F); [|reflexivity|lia]. rewrite Ll. reflexivity.
  - intros v buf L. unfold bts_check. replace (d_size D * n <=? length buf) with false by lia. reflexivity.
  - intros v l H. pose proof (LEN _ _ H) as Ll. destruct H as [Lv [ls [F ->]]].
    destruct (Forall2_lengths _ _ _ G1 _ _ F) as [F1 F2]. unfold array_decode_drops.
    assert (DEC : forall j v', nth_error v j = Some v' -> d_decode D (element D (concat ls) j) = Val (Ok v')).
    { intros j v' E. destruct (nth_error ls j) as [l|] eqn:El.
      - rewrite (element_concat A D ls j l F1 El). apply G5. eapply Forall2_nth_inv; eassumption.
      - apply nth_error_None in El. rewrite (proj2 (nth_error_None v j)) in E by lia. discriminate. }
    destruct (array_decode_loop_val A D n n 0 (concat ls) ai_new) as [vs [L1 [E1 N1]]].
    + intros j Hj. destruct (nth_error v j) as [v'|] eqn:E.
      * exists v'. apply DEC, E.
      * apply nth_error_None in E. lia.
    + lia.
    + lia.
    + rewrite E1. cbn [obind ai_new ai_elems app]. f_equal. f_equal.
      apply nth_error_ext_list. intro j.
      destruct (nth_error vs j) as [x|] eqn:Ex.
      * apply N1 in Ex as K. cbn [Nat.add] in K.
        destruct (nth_error v j) as [y|] eqn:Ey.
        -- apply DEC in Ey. rewrite K in Ey. congruence.
        -- apply nth_error_None in Ey. assert (j < length vs) by (apply nth_error_Some; congruence). lia.
      * symmetry. apply nth_error_None. apply nth_error_None in Ex. lia.
  - intros l L. destruct (elements_concat A D n l L) as [ls [L1 [F ->]]].
    destruct (array_decode_loop_val A D n n 0 (concat ls) ai_new) as [vs [L2 [E1 N1]]].
    + intros j Hj. destruct (nth_error ls j) as [l|] eqn:E; [|apply nth_error_None in E; lia].
      rewrite (element_concat A D ls j l F E).
      destruct (G6 l) as [v [V _]]; [|exists v; exact V].
      apply nth_error_In in E. rewrite Forall_forall in F. apply F, E.
    + lia.
    + lia.
    + exists vs. unfold array_decode_drops. rewrite E1. split; [reflexivity|].
      split; [exact L2|]. exists ls. split; [|reflexivity].
      apply Forall2_nth; [lia|]. intros j v l E E'. apply N1 in E. cbn [Nat.add] in E.
      rewrite (element_concat A D ls j l F E') in E.
      destruct (G6 l) as [v' [V K]]; [|congruence].
      apply nth_error_In in E'. rewrite Forall_forall in F. apply F, E'.
Qed.

Lemma crate_good : forall A (D : data_impl A) V R, crate_type D V R -> good D R.
Proof. intros A D V R H. induction H; [apply good_int, width_pos; assumption|apply good_array; assumption]. Qed.

Lemma crate_values : forall A (D : data_impl A) V R, crate_type D V R -> forall v, V v <-> exists l, R v l.
Proof.
  intros A D V R H. induction H as [sg w Hw|A D V R n _ IH _].
  - intro v. split; [intro H; eexists; apply int_bytes_exists, H|intros [l H]; apply H].
  - intro v. split.
    + intros [L F]. assert (K : exists ls, Forall2 R v ls).
      { clear L. induction F as [|x v Hx _ [ls IHF]]; [exists []; constructor|].
        apply IH in Hx as [l Hl]. exists (l :: ls). constructor; assumption. }
      destruct K as [ls K]. exists (concat ls). split; [exact L|]. exists ls. auto.
    + intros [l [L [ls [F _]]]]. split; [exact L|]. clear L.
      induction F as [|x y v ls Hx _ IHF]; constructor; [|exact IHF]. apply IH. eauto.
Qed.

(** ** C36 *)

Lemma L_C36_representation : forall A (D : data_impl A) V R, crate_type D V R -> forall v, V v ->
  exists l, R v l /\ length l = d_size D /\ forall l', R v l' -> l' = l.
Proof.
  intros A D V R H v Hv. apply (crate_values _ _ _ _ H) in Hv as [l Hl]. apply crate_good in H.
  exists l. split; [exact Hl|]. split; [apply (proj1 H v l Hl)|].
  intros l' Hl'. apply (proj1 (proj2 H) v); assumption.
Qed.

Lemma L_C36_encode : forall A (D : data_impl A) V R v l before buf,
  crate_type D V R -> R v l -> length before = d_size D ->
  d_encode D v (before ++ buf) = Val (l ++ buf, Ok tt).
Proof.
  intros A D V R v l before buf H Hv L. apply crate_good in H.
  rewrite (proj1 (proj2 (proj2 H)) v l) by (try assumption; rewrite app_length; lia).
  rewrite skipn_app_ge, L, Nat.sub_diag by lia. reflexivity.
Qed.

Lemma L_C36_too_small : forall A (D : data_impl A) V R v buf,
  crate_type D V R -> length buf < d_size D ->
  d_encode D v buf = Val (buf, Err (mkBTS (d_size D) (length buf))).
Proof. intros A D V R v buf H L. apply crate_good in H. apply H. exact L. Qed.

Lemma L_C36_round_trip : forall A (D : data_impl A) V R v l,
  crate_type D V R -> R v l -> d_decode D l = Val (Ok v).
Proof. intros A D V R v l H Hv. apply crate_good in H. apply H. exact Hv. Qed.

Lemma L_C36_decode_encode : forall A (D : data_impl A) V R l,
  crate_type D V R -> length l = d_size D -> exists v, d_decode D l = Val (Ok v) /\ V v /\ R v l.
Proof.
  intros A D V R l H L. destruct (proj2 (proj2 (proj2 (proj2 (proj2 (crate_good _ _ _ _ H))))) l L) as [v [E K]].
  exists v. split; [exact E|]. split; [|exact K]. apply (crate_values _ _ _ _ H). eauto.
Qed.

(** The encoders of the crate's types keep the length of the buffer. *)
Lemma crate_data_ok : forall A (D : data_impl A) V R, crate_type D V R -> data_ok D.
Proof.
  intros A D V R H. induction H as [sg w Hw|A D V R n _ IH _]; intros v b b' r E; cbn [d_encode data_int data_array] in E.
  - destruct (bts_check w (length b)); [|injection E as <- <-; reflexivity].
    destruct (copy_into b 0 w _) as [x|?|] eqn:C; try discriminate. cbn [obind] in E. injection E as <- <-.
    apply (copy_into_len _ _ _ _ _ C).
  - destruct (bts_check _ (length b)); [|injection E as <- <-; reflexivity].
    revert E. generalize 0. revert b. induction v as [|x v IHv]; intros b i E.
    + injection E as <- <-. reflexivity.
    + cbn [array_encode_loop] in E.
      destruct (with_slice b _ _ _) as [[c r']|?|] eqn:W; try discriminate. cbn [obind] in E.
      apply with_slice_len in W; [|apply IH]. destruct r'.
      * apply IHv in E. congruence.
      * injection E as <- <-. exact W.
Qed.

(** ** C37 *)

Lemma L_C37_numbers_partial : forall signed w l, In w [1; 2; 4; 8; 16] -> length l <> w ->
  d_decode (data_int signed w) l = Val (Err (IMParameterCount (length l) (Exact w))).
Proof.
  intros sg w l _ L. cbn [d_decode data_int]. unfold param_count_check.
  replace (length l =? w) with false by lia. reflexivity.
Qed.

Lemma L_C37_refuted : ~ (forall A (D : data_impl A) V R l, crate_type D V R -> length l <> d_size D ->
  exists e, d_decode D l = Val (Err e)).
Proof.
  intro H.
  assert (K : array_const_ok (data_int false 1) 1) by (split; vm_compute; discriminate).
  pose proof (ct_array _ _ _ _ 1 (ct_int false 1 (or_introl eq_refl)) K) as T.
  destruct (H _ _ _ _ [x01; x02] T) as [e E].
  - vm_compute. discriminate.
  - vm_compute in E. discriminate.
Qed.

Lemma decode_loop_append : forall A (D : data_impl A) m n i l extra o, i + m = n -> n * d_size D <= length l ->
  array_decode_loop D m i (l ++ extra) o = array_decode_loop D m i l o.
Proof.
  intros A D m. induction m as [|m IH]; intros n i l extra o Hn L; [reflexivity|].
  cbn [array_decode_loop]. rewrite !slice_val by (rewrite ?app_length; nia). cbn [obind].
  rewrite skipn_app_le, firstn_app_le by (rewrite ?skipn_length; nia).
  destruct (d_decode D _) as [[v|e]|p|]; try reflexivity. cbn [obind]. apply (IH n); lia.
Qed.

Lemma L_C37_array_ignores_rest : forall A (D : data_impl A) V R n l extra,
  crate_type (data_array D n) V R -> length l = d_size (data_array D n) ->
  d_decode (data_array D n) (l ++ extra) = d_decode (data_array D n) l.
Proof.
  intros A D V R n l extra _ L. cbn [d_decode data_array d_size] in *. unfold array_decode_drops.
  rewrite (decode_loop_append A D n n); [reflexivity|lia|lia].
Qed.

Lemma L_C37_short_array_panics : forall A (D : data_impl A) V R n l,
  crate_type D V R -> array_const_ok D n -> length l < d_size (data_array D n) ->
  d_decode (data_array D n) l = Panic PIndex.
Proof.
  intros A D V R n l H _ L. cbn [d_decode data_array d_size] in *. unfold array_decode_drops.
  assert (K : forall m i o, i + m = n -> i * d_size D <= length l -> array_decode_loop D m i l o = Panic PIndex).
  { induction m as [|m IH]; intros i o Hn Li; [nia|]. cbn [array_decode_loop].
    destruct (Nat.le_gt_cases (S i * d_size D) (length l)) as [C|C].
    - rewrite slice_val by lia. cbn [obind].
      destruct (L_C36_decode_encode A D V R (firstn (i * d_size D + d_size D - i * d_size D) (skipn (i * d_size D) l)) H)
        as [v [-> _]].
      + rewrite firstn_length, skipn_length. lia.
      + cbn [obind]. apply IH; lia.
    - unfold slice. replace (i * d_size D + d_size D <=? length l) with false by lia.
      rewrite andb_false_r. reflexivity. }
  rewrite K by lia. reflexivity.
Qed.

(** ** C38 *)

Lemma L_C38_refuted : ~ (forall A (D : data_impl A) n l arr dropped,
  array_decode_drops D n l = Val (Ok arr, dropped) -> dropped = []).
Proof.
  intro H. specialize (H Z (data_int false 1) 1 [x07] [7%Z] [7%Z]).
  assert (K : [7%Z] = []) by (apply H; vm_compute; reflexivity). discriminate.
Qed.

Lemma decode_drops : forall A (D : data_impl A) l m i o r dropped, array_decode_loop D m i l o = Val (r, dropped) ->
  exists vs, dropped = ai_elems o ++ vs /\
    (forall j v, nth_error vs j = Some v -> d_decode D (element D l (i + j)) = Val (Ok v)) /\
    match r with
    | Ok arr => arr = dropped /\ length vs = m
    | Err e => length vs < m /\ d_decode D (element D l (i + length vs)) = Val (Err e)
    end.
Proof.
  intros A D l m. induction m as [|m IH]; intros i o r dropped E.
  - injection E as <- <-. exists []. unfold ai_drop. rewrite app_nil_r. split; [reflexivity|].
    split; [intros [|j] v K; discriminate|auto].
  - cbn [array_decode_loop] in E.
    destruct (slice l (i * d_size D) _) as [x|?|] eqn:Sl; try discriminate. cbn [obind] in E.
    apply slice_inv in Sl. destruct Sl as [_ [_ Sl]].
    replace (i * d_size D + d_size D - i * d_size D) with (d_size D) in Sl by lia.
    change (firstn (d_size D) (skipn (i * d_size D) l)) with (element D l i) in Sl. subst x.
    destruct (d_decode D (element D l i)) as [[v|e]|?|] eqn:V; try discriminate; cbn [obind] in E.
    + apply IH in E. destruct E as [vs [-> [N K]]]. exists (v :: vs).
      cbn [ai_push ai_elems]. rewrite <- app_assoc. split; [reflexivity|]. split.
      * intros [|j] w Ew; [injection Ew as ->; rewrite Nat.add_0_r; exact V|].
        replace (i + S j) with (S i + j) by lia. apply N, Ew.
      * destruct r as [arr|e].
        -- destruct K as [-> K]. split; [cbn [ai_push ai_elems]; rewrite <- ?app_assoc; reflexivity|cbn; lia].
        -- cbn [length]. replace (i + S (length vs)) with (S i + length vs) by lia. split; [lia|apply K].
    + injection E as <- <-. exists []. unfold ai_drop. rewrite app_nil_r. split; [reflexivity|].
      split; [intros [|j] w K; discriminate|]. cbn [length]. rewrite Nat.add_0_r. split; [lia|exact V].
Qed.

Lemma L_C38_failed_decode_partial : forall A (D : data_impl A) n l e dropped,
  array_decode_drops D n l = Val (Err e, dropped) ->
  length dropped < n /\
  (forall i v, nth_error dropped i = Some v -> d_decode D (element D l i) = Val (Ok v)) /\
  d_decode D (element D l (length dropped)) = Val (Err e).
Proof.
  intros A D n l e dropped E. apply decode_drops in E. destruct E as [vs [-> [N [K1 K2]]]].
  cbn [ai_new ai_elems app]. auto.
Qed.

Lemma L_C38_successful_decode_drops_everything : forall A (D : data_impl A) n l arr dropped,
  array_decode_drops D n l = Val (Ok arr, dropped) ->
  dropped = arr /\ length arr = n /\
  forall i v, nth_error arr i = Some v -> d_decode D (element D l i) = Val (Ok v).
Proof.
  intros A D n l arr dropped E. apply decode_drops in E. destruct E as [vs [-> [N [-> K2]]]].
  cbn [ai_new ai_elems app]. auto.
Qed.
