(** * TextRoleTheorems: what the texts of errors say (C62) *)
From Coq Require Import ZArith ZifyN ZifyNat ZifyBool Ascii String.
From Verif Require Import Base Lib Error Text TextSpec TextTheorems TextRoleSpec.
Ltac Zify.zify_post_hook ::= Z.div_mod_to_equations.
Local Open Scope string_scope.
Local Open Scope N_scope.

Lemma names_dec : forall before label n after,
  (after = "" \/ exists c after', after = String c after' /\ digit_value c = None) ->
  names (before ++ label ++ dec n ++ after) label n.
Proof.
  intros before label n after H. exists (dec n). split; [exists before, after; split; [reflexivity|exact H]|].
  left. apply digits_numeral; lia.
Qed.

Lemma names_hex : forall before label n after,
  (after = "" \/ exists c after', after = String c after' /\ digit_value c = None) ->
  names (before ++ label ++ hex n ++ after) label n.
Proof.
  intros before label n after H. exists (hex n). split; [exists before, after; split; [reflexivity|exact H]|].
  right. exists (digits (S (N.size_nat n)) 16 n ""). split; [reflexivity|]. apply digits_numeral; lia.
Qed.

Lemma hex2_denotes : forall b, denotes 16 (hex2 b) (b2n b) /\ String.length (hex2 b) = 2%nat.
Proof.
  intro b. pose proof (b2n_lt b) as L. split; [|reflexivity]. split; [discriminate|]. unfold hex2. cbn [value_from].
  rewrite digit_value_digit by lia. replace (b2n b / 16 <? 16) with true by lia.
  rewrite digit_value_digit by lia. replace (b2n b mod 16 <? 16) with true by lia. f_equal. lia.
Qed.

Lemma listed_items : forall l, listed (map hex2 l) = hex2_items l.
Proof.
  induction l as [|x l IH]; [reflexivity|]. destruct l as [|y l]; [reflexivity|].
  cbn [map listed] in *. rewrite IH, hex2_items_cons. reflexivity.
Qed.

Lemma lists_array : forall before label l after,
  (after = "" \/ exists c after', after = String c after' /\ digit_value c = None) ->
  lists (before ++ label ++ hex2_array l ++ after) label l.
Proof.
  intros before label l after H. exists (map hex2 l). split.
  - exists before, after. split; [|exact H]. rewrite listed_items. reflexivity.
  - induction l as [|b l IH]; constructor; [apply hex2_denotes|exact IH].
Qed.

Ltac at_end := left; reflexivity.
Ltac before_text := right; do 2 eexists; split; [reflexivity|reflexivity].

Lemma L_C62_says : forall io e, says io e (transfer_error_text io e).
Proof.
  intros io [[b|x|x]|[b|x|m|raw]]; cbn [says transfer_error_text write_error_text read_error_text]; try reflexivity.
  - split.
    + apply (names_dec "write " "buffer is too small: need "). before_text.
    + rewrite <- (append_nil (dec_nat (total_size b))).
      pose proof (names_dec ("write buffer is too small: need " ++ dec_nat (required_size b) ++ " bytes, but ") "the size is "
        (N.of_nat (total_size b)) "" ltac:(at_end)) as K. rewrite !append_assoc in K. exact K.
  - split.
    + apply (names_dec "read " "buffer is too small: need "). before_text.
    + rewrite <- (append_nil (dec_nat (total_size b))).
      pose proof (names_dec ("read buffer is too small: need " ++ dec_nat (required_size b) ++ " bytes, but ") "the size is "
        (N.of_nat (total_size b)) "" ltac:(at_end)) as K. rewrite !append_assoc in K. exact K.
  - destruct m as [a w|c p|a [w|]|a w|a w]; cbn [invalid_message_text].
    + split.
      * apply (lists_array "invalid " "header prefix, expected "). before_text.
      * rewrite <- (append_nil (hex2_array a)).
        pose proof (lists_array ("invalid header prefix, expected " ++ hex2_array w) ", got " a "" ltac:(at_end)) as K.
        rewrite !append_assoc in K. exact K.
    + split.
      * apply (names_hex "invalid " "checksum, message claims "). before_text.
      * rewrite <- (append_nil (hex p)).
        pose proof (names_hex ("invalid checksum, message claims " ++ hex c) ", computed " p "" ltac:(at_end)) as K.
        rewrite !append_assoc in K. exact K.
    + split.
      * apply (names_hex "invalid " "packet ID, expected "). before_text.
      * rewrite <- (append_nil (hex (b2n a))).
        pose proof (names_hex ("invalid packet ID, expected " ++ hex (b2n w)) ", got " (b2n a) "" ltac:(at_end)) as K.
        rewrite !append_assoc in K. exact K.
    + rewrite <- (append_nil (hex (b2n a))). apply (names_hex "" "invalid packet ID: "). at_end.
    + split.
      * apply (names_dec "invalid " "instruction ID, expected "). before_text.
      * rewrite <- (append_nil (dec (b2n a))).
        pose proof (names_dec ("invalid instruction ID, expected " ++ dec (b2n w)) ", got " (b2n a) "" ltac:(at_end)) as K.
        rewrite !append_assoc in K. exact K.
    + split.
      * destruct w as [n|n|n]; cbn [expected_count_text]; rewrite append_assoc.
        -- apply (names_dec "invalid " "parameter count, expected exactly "). before_text.
        -- apply (names_dec "invalid " "parameter count, expected at most "). before_text.
        -- apply (names_dec "invalid " "parameter count, expected at least "). before_text.
      * rewrite <- (append_nil (dec_nat a)).
        pose proof (names_dec ("invalid parameter count, expected " ++ expected_count_text w) ", got " (N.of_nat a) "" ltac:(at_end)) as K.
        rewrite !append_assoc in K. exact K.
  - unfold motor_error_text. rewrite <- (append_nil (hex (b2n raw))). apply (names_hex "" "motor reported error status: "). at_end.
Qed.

Lemma says_checksum_right : names "invalid checksum, message claims 0x1234, computed 0x1F" "message claims " 4660.
Proof. exact (names_hex "invalid checksum, " "message claims " 4660 ", computed 0x1F" ltac:(before_text)). Qed.

Lemma says_checksum_wrong : ~ names "invalid checksum, message claims 0x1F, computed 0x1234" "message claims " 4660.
Proof.
  intros [d [[before [after [E H]]] N]].
  assert (B : before = "invalid checksum, ").
  { do 18 (destruct before as [|? before]; [discriminate E|]; cbn [append] in E; let K := fresh in injection E as K E; subst).
    destruct before as [|? before]; [reflexivity|exfalso].
    repeat (cbn [append] in E; injection E as ? E; destruct before as [|? before]; [discriminate E|]). discriminate E. }
  subst before. cbn [append] in E. repeat apply tail_inj in E.
  destruct N as [K|[h [-> K]]].
  - destruct K as [[Nd V] _]. destruct d as [|c0 d]; [contradiction|]. cbn [append] in E. injection E as <- E. cbn in V.
    destruct d as [|c1 d]; [discriminate V|]. injection E as <- E. discriminate V.
  - cbn [append] in E. repeat apply tail_inj in E. destruct K as [[Nd V] _].
    destruct h as [|c0 h]; [contradiction|]. cbn [append] in E. injection E as <- E.
    destruct h as [|c1 h]; [discriminate V|]. cbn [append] in E. injection E as <- E.
    destruct h as [|c2 h]; [discriminate V|]. cbn [append] in E. injection E as <- E. discriminate V.
Qed.

Lemma L_C62_small_buffer : unambiguous bts_text /\ forall e,
  names (bts_text e) "buffer is too small: need " (N.of_nat (required_size e)) /\
  names (bts_text e) "the size is " (N.of_nat (total_size e)).
Proof.
  split; [|intro e; unfold bts_text; split].
  - intros a b E. unfold bts_text in E. cbn [append] in E. literal E. apply sizes_inj in E. exact E.
  - apply (names_dec "" "buffer is too small: need "). before_text.
  - rewrite <- (append_nil (dec_nat (total_size e))).
    pose proof (names_dec ("buffer is too small: need " ++ dec_nat (required_size e) ++ " bytes, but ") "the size is "
      (N.of_nat (total_size e)) "" ltac:(at_end)) as K. rewrite !append_assoc in K. exact K.
Qed.

Lemma L_C62_expected_count : unambiguous expected_count_text /\ forall c,
  match c with
  | Exact n => names (expected_count_text c) "exactly " (N.of_nat n)
  | Max n => names (expected_count_text c) "at most " (N.of_nat n)
  | Min n => names (expected_count_text c) "at least " (N.of_nat n)
  end.
Proof.
  split.
  - intros a b E. apply (count_inj a b "" ""); [reflexivity|reflexivity|]. rewrite E. reflexivity.
  - intros [n|n|n]; cbn [expected_count_text]; rewrite <- (append_nil (dec_nat n)).
    + apply (names_dec "" "exactly "). at_end.
    + apply (names_dec "" "at most "). at_end.
    + apply (names_dec "" "at least "). at_end.
Qed.
