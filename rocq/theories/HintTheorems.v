(** * HintTheorems: [size_hint] is right (C33) *)
From Coq Require Import Lia.
From Verif Require Import Base Lib Bus Data Client Instructions InstructionSpec HintModel HintSpec.

Section Counted.
  Context {I X : Type} (next : I -> M (option X * I)) (left : I -> nat).
  Hypothesis some : forall it s x it' s', next it s = (Val (Some x, it'), s') -> left it = S (left it').
  Hypothesis none : forall it s it' s', next it s = (Val (None, it'), s') -> left it = 0 /\ it' = it /\ s' = s.
  Hypothesis fused : forall it s, left it = 0 -> next it s = (Val (None, it), s).

  Lemma nexts_count : forall k it s xs it' s', nexts next k it s = (Val (xs, it'), s') ->
    items xs = Nat.min k (left it) /\ left it' = left it - items xs /\
    (In None xs -> left it' = 0).
  Proof.
    induction k as [|k IH]; intros it s xs it' s' H.
    - cbn in H. injection H as <- <- <-. split; [reflexivity|]. split; [cbn; lia|]. intros [].
    - cbn [nexts] in H. unfold bind in H. destruct (next it s) as [[[x it1]|p|] s1] eqn:N; try discriminate.
      destruct (nexts next k it1 s1) as [[[ys it2]|p|] s2] eqn:K; try discriminate.
      injection H as <- <- <-. apply IH in K. destruct K as (C & L & F). destruct x as [x|].
      + apply some in N. change (items (Some x :: ys)) with (S (items ys)).
        split; [lia|]. split; [lia|]. intros [D|D]; [discriminate|]. auto.
      + apply none in N. destruct N as (Z & -> & ->). change (items (None :: ys)) with (items ys).
        split; [lia|]. split; [exact L|]. lia.
  Qed.

  Lemma counted_honest : forall hint it, hint it = Val (0, Some (left it)) -> honest_hint next hint it.
  Proof.
    intros hint it H. exists 0, (left it). split; [exact H|]. intros k s xs it' s' N.
    apply nexts_count in N. destruct N as (C & L & F). split; [lia|]. split; [lia|]. split; [left; lia|].
    intros D. apply fused. auto.
  Qed.
End Counted.

Lemma hint_remaining : forall a b, b <= a -> hint_of (usize_sub a b) = Val (0, Some (a - b)).
Proof. intros a b H. unfold hint_of, usize_sub. replace (b <=? a) with true by (symmetry; apply Nat.leb_le; exact H). reflexivity. Qed.

Theorem L_C33_size_hint_bytes : forall n ids i, i <= length ids -> honest_hint srb_next srb_size_hint (mkSRB n ids i).
Proof.
  intros n ids i L. apply (counted_honest srb_next (fun it => length (srb_ids it) - srb_index it)).
  - intros [m l j] s x it' s' H. unfold srb_next, srb_pop in H. cbn [srb_ids srb_index srb_count] in *.
    destruct (nth_error l j) eqn:E; [|discriminate]. unfold bind in H.
    destruct (expect_response b m s) as [[r|?|] s1]; try discriminate. injection H as _ <- _.
    cbn [srb_ids srb_index]. assert (j < length l) by (apply nth_error_Some; congruence). lia.
  - intros [m l j] s it' s' H. unfold srb_next, srb_pop in H. cbn [srb_ids srb_index srb_count] in *.
    destruct (nth_error l j) eqn:E.
    + unfold bind in H. destruct (expect_response b m s) as [[r|?|] s1]; discriminate.
    + injection H as <- <-. apply nth_error_None in E. split; [lia|]. split; reflexivity.
  - intros [m l j] s H. unfold srb_next, srb_pop. cbn [srb_ids srb_index srb_count] in *.
    replace (nth_error l j) with (@None byte) by (symmetry; apply nth_error_None; lia). reflexivity.
  - apply hint_remaining. exact L.
Qed.

Theorem L_C33_size_hint : forall A (D : data_impl A) ids i, i <= length ids -> honest_hint (sr_next D) sr_size_hint (mkSR ids i).
Proof.
  intros A D ids i L. apply (counted_honest (sr_next D) (fun it => length (sr_ids it) - sr_index it)).
  - intros [l j] s x it' s' H. unfold sr_next, sr_pop in H. cbn [sr_ids sr_index] in *.
    destruct (nth_error l j) eqn:E; [|discriminate]. unfold bind in H.
    destruct (expect_value D b s) as [[r|?|] s1]; try discriminate. injection H as _ <- _.
    cbn [sr_ids sr_index]. assert (j < length l) by (apply nth_error_Some; congruence). lia.
  - intros [l j] s it' s' H. unfold sr_next, sr_pop in H. cbn [sr_ids sr_index] in *.
    destruct (nth_error l j) eqn:E.
    + unfold bind in H. destruct (expect_value D b s) as [[r|?|] s1]; discriminate.
    + injection H as <- <-. apply nth_error_None in E. split; [lia|]. split; reflexivity.
  - intros [l j] s H. unfold sr_next, sr_pop. cbn [sr_ids sr_index] in *.
    replace (nth_error l j) with (@None byte) by (symmetry; apply nth_error_None; lia). reflexivity.
  - apply hint_remaining. exact L.
Qed.

Theorem L_C33_size_hint_bulk : forall l i, i <= length l -> honest_hint br_next br_size_hint (mkBR l i).
Proof.
  intros l0 i L. apply (counted_honest br_next (fun it => length (br_reads it) - br_index it)).
  - intros [l j] s x it' s' H. unfold br_next, br_pop in H. cbn [br_reads br_index] in *.
    destruct (nth_error l j) eqn:E; [|discriminate]. unfold bind in H.
    destruct (expect_response (br_id b) (br_count b) s) as [[r|?|] s1]; try discriminate. injection H as _ <- _.
    cbn [br_reads br_index]. assert (j < length l) by (apply nth_error_Some; congruence). lia.
  - intros [l j] s it' s' H. unfold br_next, br_pop in H. cbn [br_reads br_index] in *.
    destruct (nth_error l j) eqn:E.
    + unfold bind in H. destruct (expect_response (br_id b) (br_count b) s) as [[r|?|] s1]; discriminate.
    + injection H as <- <-. apply nth_error_None in E. split; [lia|]. split; reflexivity.
  - intros [l j] s H. unfold br_next, br_pop. cbn [br_reads br_index] in *.
    replace (nth_error l j) with (@None bulk_read_data) by (symmetry; apply nth_error_None; lia). reflexivity.
  - apply hint_remaining. exact L.
Qed.
