(** * MessageProofs: what the reader makes of a message *)
From Coq Require Import ZArith ZifyN ZifyNat ZifyBool.
From Verif Require Import Base Endian Error Checksum Bytestuff Packet Time Bus Data Client
  Instructions Device Api Spec StreamSpec Lib ChecksumProofs CrcErrorProofs StuffProofs WriteProofs ReadProofs
  ApiProofs StreamProofs.
Ltac Zify.zify_post_hook ::= Z.div_mod_to_equations.

(** ** Garbage *)

Lemma starts_with_header_iff : forall l, header_like l = true <-> l = [] \/ at_header l.
Proof.
  intro l. unfold header_like. rewrite starts_with_true. unfold at_header. split.
  - intros [r E]. destruct (Nat.le_gt_cases 4 (length l)) as [L|L].
    + rewrite Nat.min_l in E by lia. right. left. exists r. exact E.
    + rewrite Nat.min_r in E by lia. destruct l as [|b l]; [left; reflexivity|]. right. right.
      split; [discriminate|]. exists (skipn (length (b :: l)) header). split.
      * intro K. apply (f_equal (@length byte)) in K. rewrite skipn_length in K. cbn [length header] in *. lia.
      * assert (r = []) as ->.
        { apply (f_equal (@length byte)) in E. rewrite app_length, firstn_length in E.
          cbn [length HEADER_PREFIX] in *. destruct r; [reflexivity|cbn [length] in *; lia]. }
        rewrite app_nil_r in E. change header with HEADER_PREFIX at 1.
        rewrite <- (firstn_skipn (length (b :: l)) HEADER_PREFIX). f_equal. symmetry. exact E.
  - intros [->|[[r ->]|[Hne [r [Hr E]]]]].
    + exists []. reflexivity.
    + exists r. rewrite Nat.min_l by (rewrite app_length; cbn; lia). reflexivity.
    + exists []. rewrite app_nil_r. 
      assert (L : length l <= 4) by (apply (f_equal (@length byte)) in E; rewrite app_length in E; cbn [length header] in E; lia).
      rewrite Nat.min_r by lia. change HEADER_PREFIX with header. rewrite E.
      rewrite firstn_app_le, firstn_all by lia. reflexivity.
Qed.

Lemma clean_split : forall u, garbage_split u (firstn (find_header u) u) (clean u).
Proof.
  intro u. unfold garbage_split. split; [symmetry; apply firstn_skipn|]. split.
  - destruct (clean_header_like u) as [H|H]; [left; exact H|]. apply starts_with_header_iff, H.
  - induction u as [|b u IH]; intros g1 x g2 E A.
    + cbn [find_header firstn] in E. destruct g1; discriminate.
    + rewrite find_header_cons in E. unfold clean in A. rewrite find_header_cons in A.
      destruct (header_like (b :: u)) eqn:H.
      * cbn [firstn] in E. destruct g1; discriminate.
      * cbn [firstn skipn] in E, A. destruct g1 as [|y g1].
        -- injection E as <- <-. rewrite firstn_skipn in A.
           assert (header_like (b :: u) = true) by (apply starts_with_header_iff; right; exact A). congruence.
        -- injection E as <- E. apply (IH _ _ _ E A).
Qed.

Lemma split_unique : forall u g c, garbage_split u g c -> c = clean u /\ g = firstn (find_header u) u.
Proof.
  intros u g c. revert u. induction g as [|b g IH]; intros u [E [Hc Hg]].
  - cbn [app] in E. subst u. destruct Hc as [->|Hc]; [split; reflexivity|].
    assert (H : header_like c = true) by (apply starts_with_header_iff; right; exact Hc).
    rewrite clean_of_header_like by exact H. split; [reflexivity|].
    destruct c as [|x c]; [reflexivity|]. rewrite find_header_cons, H. reflexivity.
  - subst u. cbn [app].
    assert (H : header_like (b :: g ++ c) = false).
    { destruct (header_like (b :: g ++ c)) eqn:H; [|reflexivity]. exfalso.
      apply starts_with_header_iff in H. destruct H as [H|H]; [discriminate|].
      apply (Hg [] b g eq_refl H). }
    destruct (IH (g ++ c)) as [I1 I2].
    { split; [reflexivity|]. split; [exact Hc|]. intros g1 x g2 Eg. apply (Hg (b :: g1) x g2). rewrite Eg. reflexivity. }
    rewrite clean_cons, find_header_cons, H. cbn [firstn]. split; [exact I1|]. f_equal. exact I2.
Qed.

Lemma header_overlap : forall g1 b g2 r, at_header (b :: g2 ++ header ++ r) ->
  contains (g1 ++ b :: g2) header.
Proof.
  intros g1 b g2 r [[r' E]|[_ [r' [Hr E]]]].
  - (* a full header *)
    destruct (Nat.le_gt_cases 4 (length (b :: g2))) as [L|L].
    + exists g1, (skipn 4 (b :: g2)).
      f_equal. rewrite <- (firstn_skipn 4 (b :: g2)) at 1. f_equal.
      apply (f_equal (firstn 4)) in E. change (b :: g2 ++ header ++ r) with ((b :: g2) ++ header ++ r) in E.
      rewrite firstn_app_le in E by exact L. rewrite E. reflexivity.
    + exfalso. destruct g2 as [|y0 [|y1 [|y2 g2]]]; cbn [app header length] in *; try lia; discriminate.
  - exfalso. apply (f_equal (@length byte)) in E. cbn [length app] in E. rewrite !app_length in E. cbn [length header] in E.
    destruct r'; [congruence|]. cbn [length] in E. lia.
Qed.

Lemma clean_garbage : forall g r, ~ contains g header -> clean (g ++ header ++ r) = header ++ r.
Proof.
  intros g r H. symmetry. apply (split_unique (g ++ header ++ r) g).
  split; [reflexivity|]. split; [right; left; exists r; reflexivity|].
  intros g1 b g2 Eg A. apply H. rewrite Eg. apply (header_overlap _ _ _ r A).
Qed.

(** ** Messages *)

Lemma le16_value : forall v, (v < 2 ^ 16)%N -> (b2n (n2b v) + 256 * b2n (n2b (v / 256)) = v)%N.
Proof. intros v H. rewrite !b2n_n2b. change (2 ^ 16)%N with 65536%N in H. lia. Qed.

Definition msg_head (id : byte) (len : N) : list byte := header ++ [id] ++ le16 len.

Lemma message_shape : forall id body crc,
  message id body crc = msg_head id (N.of_nat (length body + 2)) ++ body ++ le16 crc.
Proof. intros. unfold message, wire_of_body, msg_head. rewrite <- !app_assoc. reflexivity. Qed.

Lemma msg_head_length : forall id n, length (msg_head id n) = 7.
Proof. reflexivity. Qed.

Lemma message_length : forall id body crc, length (message id body crc) = 9 + length body.
Proof. intros. rewrite message_shape, !app_length, msg_head_length, le16_length. lia. Qed.

Lemma body_len_head : forall id n r, (n < 2 ^ 16)%N -> body_len (msg_head id n ++ r) = N.to_nat n.
Proof. intros id n r H. unfold body_len. cbn [msg_head header le16 app nth]. rewrite le16_value by exact H. reflexivity. Qed.

Lemma firstn_msg : forall id n body x, firstn (7 + length body) (msg_head id n ++ body ++ x) = msg_head id n ++ body.
Proof.
  intros. rewrite firstn_app_ge by (rewrite msg_head_length; lia).
  rewrite msg_head_length. replace (7 + length body - 7) with (length body) by lia.
  rewrite firstn_app_le, firstn_all by lia. reflexivity.
Qed.

Definition message_event (id : byte) (body : list byte) (crc : N) : event :=
  let head := msg_head id (N.of_nat (length body + 2)) in
  let computed := calculate_checksum 0 (head ++ body) in
  if (crc =? computed)%N then
    match unst 0 body with
    | [] => EvPanic PIndex
    | u => EvPacket (head ++ u)
    end
  else EvError (RInvalidMessage (IMChecksum crc computed)).

Lemma clean_head : forall id n r, clean (msg_head id n ++ r) = msg_head id n ++ r.
Proof.
  intros. unfold msg_head. rewrite <- app_assoc. apply clean_of_header_like, header_like_header.
Qed.

Lemma next_event_message : forall cap g id body crc r,
  ~ contains g header -> (crc < 2 ^ 16)%N ->
  (N.of_nat (length body + 2) < 2 ^ 16)%N -> length body + 9 <= cap ->
  next_event cap (g ++ message id body crc ++ r) = Some (message_event id body crc, r).
Proof.
  intros cap g id body crc r Hg Hcrc Hlen Hcap. unfold next_event. cbv zeta.
  rewrite message_shape. set (n := N.of_nat (length body + 2)) in *.
  assert (Hcl : clean (g ++ (msg_head id n ++ body ++ le16 crc) ++ r)
                = msg_head id n ++ body ++ le16 crc ++ r).
  { rewrite <- !app_assoc. unfold msg_head. rewrite <- app_assoc. apply clean_garbage, Hg. }
  rewrite Hcl. set (c := msg_head id n ++ body ++ le16 crc ++ r).
  assert (Lc : length c = 9 + length body + length r)
    by (unfold c; rewrite !app_length, msg_head_length, le16_length; lia).
  assert (Hb : body_len c = length body + 2)
    by (unfold c; rewrite body_len_head by exact Hlen; unfold n; lia).
  unfold parse1. cbv zeta. rewrite Hb, Lc.
  replace (7 <? 9 + length body + length r) with true by lia.
  replace (7 + (length body + 2) <=? cap) with true by lia.
  replace (7 + (length body + 2) <=? 9 + length body + length r) with true by lia.
  assert (Hf : firstn (7 + (length body + 2) - 2) c = msg_head id n ++ body).
  { unfold c. replace (7 + (length body + 2) - 2) with (7 + length body) by lia. apply firstn_msg. }
  assert (Hs : skipn (7 + (length body + 2)) c = r).
  { unfold c. rewrite app_assoc, app_assoc, skipn_app_ge by (rewrite !app_length, msg_head_length, le16_length; lia).
    rewrite !app_length, msg_head_length, le16_length.
    replace (7 + (length body + 2) - (7 + length body + 2)) with 0 by lia. reflexivity. }
  rewrite Hs. f_equal. f_equal. unfold finish_event, message_event. cbv zeta. fold n. rewrite Hf.
  assert (Hcf : crc_field c (7 + (length body + 2)) = crc).
  { unfold crc_field, c. rewrite app_assoc.
    replace (7 + (length body + 2) - 2) with (length (msg_head id n ++ body) + 0) by (rewrite app_length, msg_head_length; lia).
    replace (7 + (length body + 2) - 1) with (length (msg_head id n ++ body) + 1) by (rewrite app_length, msg_head_length; lia).
    rewrite !app_nth2_plus.
    cbn [le16 app nth]. apply le16_value, Hcrc. }
  rewrite Hcf. destruct (crc =? calculate_checksum 0 (msg_head id n ++ body))%N; cbn [negb]; [|reflexivity].
  assert (Hbody : firstn (7 + (length body + 2) - 2 - 7) (skipn 7 c) = body).
  { unfold c. rewrite skipn_app_ge by (rewrite msg_head_length; lia). rewrite msg_head_length.
    replace (7 - 7) with 0 by lia. cbn [skipn]. replace (7 + (length body + 2) - 2 - 7) with (length body) by lia.
    rewrite firstn_app_le, firstn_all by lia. reflexivity. }
  rewrite Hbody.
  assert (H7 : firstn 7 c = msg_head id n) by reflexivity.
  rewrite H7. destruct (unst 0 body); reflexivity.
Qed.

Lemma next_event_oversized : forall cap g id n x r,
  ~ contains g header -> (n < 2 ^ 16)%N -> (N.of_nat cap < 7 + n)%N ->
  next_event cap (g ++ msg_head id n ++ x :: r) =
  Some (EvError (RBufferFull (mkBTS (7 + N.to_nat n) cap)), x :: r).
Proof.
  intros cap g id n x r Hg Hn Hcap. unfold next_event. cbv zeta.
  assert (Hcl : clean (g ++ msg_head id n ++ x :: r) = msg_head id n ++ x :: r).
  { unfold msg_head. rewrite <- !app_assoc. apply clean_garbage, Hg. }
  rewrite Hcl. unfold parse1. cbv zeta. rewrite body_len_head by exact Hn.
  rewrite app_length, msg_head_length. cbn [length].
  replace (7 <? 7 + S (length r)) with true by lia.
  replace (7 + N.to_nat n <=? cap) with false by lia. reflexivity.
Qed.

(** A beginning of a message is kept until the rest arrives. *)
Lemma next_event_partial : forall cap g id body crc a b,
  ~ contains g header -> (N.of_nat (length body + 2) < 2 ^ 16)%N -> length body + 9 <= cap ->
  message id body crc = a ++ b -> b <> [] ->
  next_event cap (g ++ a) = None.
Proof.
  intros cap g id body crc a b Hg Hlen Hcap Hm Hb.
  destruct (next_event cap (g ++ a)) as [[ev r]|] eqn:E; [|reflexivity]. exfalso.
  apply (next_event_app _ _ b) in E. rewrite <- app_assoc, <- Hm in E.
  unfold next_event in E. cbv zeta in E. rewrite message_shape in E.
  set (n := N.of_nat (length body + 2)) in *.
  assert (Hcl : clean (g ++ msg_head id n ++ body ++ le16 crc)
                = msg_head id n ++ body ++ le16 crc).
  { unfold msg_head. rewrite <- app_assoc. apply clean_garbage, Hg. }
  rewrite Hcl in E. set (c := msg_head id n ++ body ++ le16 crc) in *.
  assert (Lc : length c = 9 + length body)
    by (unfold c; rewrite !app_length, msg_head_length, le16_length; lia).
  assert (Hbl : body_len c = length body + 2)
    by (unfold c; rewrite body_len_head by exact Hlen; unfold n; lia).
  unfold parse1 in E. cbv zeta in E. rewrite Hbl, Lc in E.
  replace (7 <? 9 + length body) with true in E by lia.
  replace (7 + (length body + 2) <=? cap) with true in E by lia.
  replace (7 + (length body + 2) <=? 9 + length body) with true in E by lia.
  assert (R : r ++ b = skipn (7 + (length body + 2)) c) by congruence.
  rewrite skipn_all2 in R by lia. destruct r; [|discriminate]. cbn [app] in R. congruence.
Qed.

(** ** Any stream *)

(** A length field of 0 or 1 never comes with a matching CRC field. *)
Definition tiny_check (id : byte) : bool :=
  negb (calculate_checksum 0 (header ++ [id]) =? 0)%N &&
  negb (calculate_checksum 0 (header ++ [id; x01]) mod 256 =? 0)%N.

Lemma tiny_check_all : forall id, tiny_check id = true.
Proof. apply forall_byte. vm_compute. reflexivity. Qed.

Lemma tiny_mismatch : forall id n r, (n < 2)%N -> r <> [] ->
  exists crc computed, (crc <> computed) /\
    finish_event (msg_head id n ++ r) (7 + N.to_nat n) =
    EvError (RInvalidMessage (IMChecksum crc computed)).
Proof.
  intros id n r Hn Hr. pose proof (tiny_check_all id) as T. unfold tiny_check in T.
  apply andb_true_iff in T. destruct T as [T0 T1].
  destruct r as [|x r]; [congruence|].
  assert (Hcases : n = 0%N \/ n = 1%N) by lia.
  destruct Hcases as [-> | ->].
  - exists 0%N, (calculate_checksum 0 (header ++ [id])).
    unfold finish_event, crc_field. cbn [N.to_nat Nat.add Nat.sub firstn nth app msg_head header le16].
    change (b2n (n2b 0) + 256 * b2n (n2b (0 / 256)))%N with 0%N. cbv zeta.
    change [xff; xff; xfd; x00; id] with (header ++ [id]).
    assert (Hne : (0 =? calculate_checksum 0 (header ++ [id]))%N = false)
      by (rewrite N.eqb_sym; destruct (calculate_checksum 0 (header ++ [id]) =? 0)%N; [discriminate|reflexivity]).
    rewrite Hne. cbn [negb]. split; [apply N.eqb_neq, Hne|reflexivity].
  - exists (256 * b2n x)%N, (calculate_checksum 0 (header ++ [id; x01])).
    unfold finish_event, crc_field. change (N.to_nat 1) with 1.
    cbn [Nat.add Nat.sub firstn nth app msg_head header le16].
    change (n2b (1 / 256)) with x00. change (n2b 1) with x01. change (b2n x00) with 0%N.
    cbv zeta. change [xff; xff; xfd; x00; id; x01] with (header ++ [id; x01]).
    assert (Hne : (0 + 256 * b2n x <> calculate_checksum 0 (header ++ [id; x01]))%N).
    { intro K. rewrite <- K in T1. replace ((0 + 256 * b2n x) mod 256)%N with 0%N in T1 by lia. discriminate. }
    replace (0 + 256 * b2n x)%N with (256 * b2n x)%N in * by lia.
    apply N.eqb_neq in Hne. rewrite Hne. cbn [negb]. split; [apply N.eqb_neq, Hne|reflexivity].
Qed.

(** Whatever the cleaned stream is, it is one of these. *)
Inductive front_of (cap : nat) (c : list byte) : option (event * list byte) -> Prop :=
| fo_short : length c <= 7 -> front_of cap c None
| fo_big : forall id n x r, c = msg_head id n ++ x :: r -> (n < 2 ^ 16)%N -> (N.of_nat cap < 7 + n)%N ->
    front_of cap c (Some (EvError (RBufferFull (mkBTS (7 + N.to_nat n) cap)), x :: r))
| fo_partial : forall id n r, c = msg_head id n ++ r -> (n < 2 ^ 16)%N -> (7 + n <= N.of_nat cap)%N ->
    (N.of_nat (length r) < n)%N -> front_of cap c None
| fo_message : forall id body crc r, c = message id body crc ++ r -> (crc < 2 ^ 16)%N ->
    (N.of_nat (length body + 2) < 2 ^ 16)%N -> length body + 9 <= cap ->
    front_of cap c (Some (message_event id body crc, r))
| fo_tiny : forall id n r crc computed, (n < 2)%N -> c = msg_head id n ++ r -> r <> [] -> 7 + N.to_nat n <= cap ->
    crc <> computed ->
    front_of cap c (Some (EvError (RInvalidMessage (IMChecksum crc computed)), skipn (N.to_nat n) r)).

Lemma no_header_nil : ~ contains [] header.
Proof. intros [a [b E]]. apply (f_equal (@length byte)) in E. rewrite !app_length in E. cbn in E. lia. Qed.

Lemma next_event_message0 : forall cap id body crc r, (crc < 2 ^ 16)%N ->
  (N.of_nat (length body + 2) < 2 ^ 16)%N -> length body + 9 <= cap ->
  next_event cap (message id body crc ++ r) = Some (message_event id body crc, r).
Proof. intros cap id body crc r. exact (next_event_message cap [] id body crc r no_header_nil). Qed.

Lemma next_event_oversized0 : forall cap id n x r, (n < 2 ^ 16)%N -> (N.of_nat cap < 7 + n)%N ->
  next_event cap (msg_head id n ++ x :: r) =
  Some (EvError (RBufferFull (mkBTS (7 + N.to_nat n) cap)), x :: r).
Proof. intros cap id n x r. exact (next_event_oversized cap [] id n x r no_header_nil). Qed.

Lemma long_clean : forall u, 7 < length (clean u) -> exists id n x r,
  clean u = msg_head id n ++ x :: r /\ (n < 2 ^ 16)%N.
Proof.
  intros u H. destruct (clean_header_like u) as [E|E]; [rewrite E in H; cbn in H; lia|].
  destruct (header_like_long (clean u) ltac:(lia) E) as [r Er]. rewrite Er in *.
  rewrite app_length in H. cbn [length header] in H.
  destruct r as [|id [|l0 [|l1 [|x r]]]]; cbn [length] in H; try lia.
  exists id, (b2n l0 + 256 * b2n l1)%N, x, r.
  pose proof (b2n_lt l0). pose proof (b2n_lt l1).
  split; [|change (2 ^ 16)%N with 65536%N; lia]. unfold msg_head, le16. rewrite <- !app_assoc. cbn [app].
  replace (n2b (b2n l0 + 256 * b2n l1)) with l0
    by (rewrite <- (n2b_b2n l0) at 1; apply n2b_mod; lia).
  replace (n2b ((b2n l0 + 256 * b2n l1) / 256)) with l1; [reflexivity|].
  rewrite <- (n2b_b2n l1) at 1. f_equal. lia.
Qed.

Lemma next_event_front : forall cap u, front_of cap (clean u) (next_event cap u).
Proof.
  intros cap u.
  destruct (Nat.le_gt_cases (length (clean u)) 7) as [L|L].
  { unfold next_event. cbv zeta. unfold parse1. replace (7 <? length (clean u)) with false by lia.
    apply fo_short, L. }
  destruct (long_clean u L) as [id [n [x [r [E Hn]]]]].
  assert (Hnc : next_event cap u = next_event cap (clean u)).
  { unfold next_event. rewrite clean_idem. reflexivity. }
  rewrite Hnc, E. clear Hnc.
  destruct (N.le_gt_cases (7 + n) (N.of_nat cap)) as [Hc|Hc].
  2:{ rewrite (next_event_oversized0 cap id n x r Hn Hc). eapply fo_big; [reflexivity|exact Hn|exact Hc]. }
  destruct (N.le_gt_cases n (N.of_nat (length (x :: r)))) as [Hl|Hl].
  2:{ unfold next_event. cbv zeta. rewrite clean_head. unfold parse1. cbv zeta.
      rewrite body_len_head, app_length, msg_head_length by exact Hn. cbn [length] in *.
      replace (7 <? 7 + S (length r)) with true by lia.
      replace (7 + N.to_nat n <=? cap) with true by lia.
      replace (7 + N.to_nat n <=? 7 + S (length r)) with false by lia.
      eapply fo_partial; [reflexivity|exact Hn|exact Hc|exact Hl]. }
  destruct (N.le_gt_cases 2 n) as [H2|H2].
  - (* a full message *)
    set (m := x :: r) in *.
    destruct (split_at _ (N.to_nat n - 2) m ltac:(lia)) as [body [tail [Em Lb]]].
    assert (Lt : 2 <= length tail).
    { apply (f_equal (@length byte)) in Em. rewrite app_length in Em. lia. }
    destruct tail as [|c0 [|c1 rest]]; [cbn in Lt; lia|cbn in Lt; lia|].
    pose proof (b2n_lt c0). pose proof (b2n_lt c1).
    assert (Eq : msg_head id n ++ m = message id body (b2n c0 + 256 * b2n c1) ++ rest).
    { rewrite message_shape, Em, Lb. replace (N.of_nat (N.to_nat n - 2 + 2)) with n by lia.
      rewrite <- !app_assoc. f_equal. f_equal. unfold le16. cbn [app].
      replace (n2b (b2n c0 + 256 * b2n c1)) with c0
        by (rewrite <- (n2b_b2n c0) at 1; apply n2b_mod; lia).
      replace (n2b ((b2n c0 + 256 * b2n c1) / 256)) with c1; [reflexivity|].
      rewrite <- (n2b_b2n c1) at 1. f_equal. lia. }
    rewrite Eq.
    assert (Hcrc : (b2n c0 + 256 * b2n c1 < 2 ^ 16)%N) by (change (2 ^ 16)%N with 65536%N; lia).
    rewrite (next_event_message0 cap id body _ rest Hcrc) by lia.
    eapply fo_message; [reflexivity|exact Hcrc|lia|lia].
  - destruct (tiny_mismatch id n (x :: r) H2 ltac:(discriminate)) as [crc [computed [Hne Hfe]]].
    unfold next_event. cbv zeta. rewrite clean_head. unfold parse1. cbv zeta.
    rewrite body_len_head, app_length, msg_head_length by exact Hn. cbn [length] in *.
    replace (7 <? 7 + S (length r)) with true by lia.
    replace (7 + N.to_nat n <=? cap) with true by lia.
    replace (7 + N.to_nat n <=? 7 + S (length r)) with true by lia.
    rewrite Hfe, skipn_app_ge by (rewrite msg_head_length; lia). rewrite msg_head_length.
    replace (7 + N.to_nat n - 7) with (N.to_nat n) by lia.
    eapply fo_tiny; [exact H2|reflexivity|discriminate|lia|exact Hne].
Qed.

(** ** Panics *)

Lemma unst_nil : forall l, unst 0 l = [] <-> l = [].
Proof.
  intro l. split; [|intros ->; reflexivity].
  destruct l as [|b l]; [reflexivity|]. cbn [unst udel Nat.eqb andb]. discriminate.
Qed.

Lemma message_event_panic : forall id body crc p, message_event id body crc = EvPanic p ->
  p = PIndex /\ body = [] /\ crc = calculate_checksum 0 (msg_head id 2).
Proof.
  intros id body crc p H. unfold message_event in H. cbv zeta in H.
  destruct (crc =? _)%N eqn:C; [|discriminate].
  destruct (unst 0 body) eqn:U; [|discriminate]. apply (proj1 (unst_nil _)) in U. subst body.
  injection H as <-. apply N.eqb_eq in C. rewrite app_nil_r in C. auto.
Qed.

(** The only thing that makes the packet reader panic. *)
Lemma next_event_panic_iff : forall cap u p r, 10 <= cap ->
  (next_event cap u = Some (EvPanic p, r) <->
   p = PIndex /\ exists id, clean u = message id [] (calculate_checksum 0 (msg_head id 2)) ++ r).
Proof.
  intros cap u p r Hcap. split.
  - intro E. pose proof (next_event_front cap u) as F. rewrite E in F.
    remember (Some (EvPanic p, r)) as o eqn:Eo.
    destruct F as [|id n x r' Ec Hn Hc|id n r' Ec Hn Hc Hl|id body crc r' Ec Hcrc Hb Hc|id n r' crc comp Hn Ec Hr Hc Hne];
      try discriminate Eo.
    assert (R : r' = r) by congruence. assert (He : message_event id body crc = EvPanic p) by congruence.
    apply message_event_panic in He. destruct He as [Hp [Hbody Hcr]]. subst p body crc r'.
    split; [reflexivity|]. exists id. exact Ec.
  - intros [-> [id Ec]].
    assert (Hnc : next_event cap u = next_event cap (clean u)).
    { unfold next_event. rewrite clean_idem. reflexivity. }
    rewrite Hnc, Ec.
    rewrite (next_event_message0 cap id [] _ r); [| |reflexivity|cbn [length]; lia].
    + unfold message_event. cbv zeta. cbn [length Nat.add N.of_nat unst]. rewrite app_nil_r.
      change (N.of_nat 2) with 2%N. rewrite N.eqb_refl. reflexivity.
    + apply checksum_lt. reflexivity.
Qed.
