(** * TextTheorems: the texts of errors *)
From Coq Require Import ZArith ZifyN ZifyNat ZifyBool Ascii String.
From Verif Require Import Base Lib Error Text TextSpec.
Ltac Zify.zify_post_hook ::= Z.div_mod_to_equations.
Local Open Scope string_scope.
Local Open Scope N_scope.

(** ** Numerals *)

Lemma digit_value_digit : forall d, d < 16 -> digit_value (digit d) = Some d.
Proof.
  intros d H. unfold digit_value, digit.
  rewrite N_ascii_embedding by (destruct (d <? 10) eqn:E; lia).
  destruct (d <? 10) eqn:E.
  - replace ((48 <=? 48 + d) && (48 + d <=? 57)) with true by lia. f_equal. lia.
  - replace ((48 <=? 55 + d) && (55 + d <=? 57)) with false by lia.
    replace ((65 <=? 55 + d) && (55 + d <=? 70)) with true by lia. f_equal. lia.
Qed.

Lemma digit_0 : forall d, d < 16 -> digit d = "0"%char -> d = 0.
Proof.
  intros d H E. pose proof (digit_value_digit d H) as K. rewrite E in K. vm_compute in K. congruence.
Qed.

Definition big_enough (fuel : nat) (n : N) : Prop := n < 2 ^ N.of_nat fuel.

Lemma size_big : forall n, big_enough (S (N.size_nat n)) n.
Proof.
  intro n. unfold big_enough. assert (H : n < 2 ^ N.of_nat (N.size_nat n)).
  { destruct n as [|p]; [reflexivity|]. cbn [N.size_nat].
    induction p as [p IH|p IH|]; cbn [Pos.size_nat]; rewrite ?Nat2N.inj_succ, ?N.pow_succ_r'; [| |reflexivity]; lia. }
  rewrite Nat2N.inj_succ, N.pow_succ_r'. lia.
Qed.

(** The value of what [digits] writes in front of [rest], continued with [rest]. *)
Lemma digits_value : forall fuel base n rest acc, 2 <= base -> base <= 16 -> big_enough fuel n -> acc = 0 ->
  value_from base acc (digits fuel base n rest) = value_from base n rest.
Proof.
  induction fuel as [|fuel IH]; intros base n rest acc B1 B2 Bg ->; cbn [digits].
  - unfold big_enough in Bg. cbn in Bg. f_equal. lia.
  - unfold big_enough in Bg. rewrite Nat2N.inj_succ, N.pow_succ_r' in Bg. destruct (n <? base) eqn:E.
    + cbn [value_from]. rewrite digit_value_digit by lia. rewrite E. f_equal.
    + assert (Q : n / base < 2 ^ N.of_nat fuel).
      { apply N.div_lt_upper_bound; [lia|]. eapply N.lt_le_trans; [exact Bg|]. apply N.mul_le_mono_r. exact B1. }
      rewrite IH by (try assumption; reflexivity). cbn [value_from].
      assert (M : n mod base < base) by (apply N.mod_lt; lia).
      rewrite digit_value_digit by lia. replace (n mod base <? base) with true by lia. f_equal.
      rewrite (N.div_mod n base) at 3 by lia. lia.
Qed.

Lemma digits_cons : forall fuel base n rest, 2 <= base -> base <= 16 -> big_enough fuel n -> (0 < fuel)%nat ->
  exists d r, d < base /\ digits fuel base n rest = String (digit d) r /\ (n <> 0 -> d <> 0) /\ (n = 0 -> r = rest).
Proof.
  induction fuel as [|fuel IH]; intros base n rest B1 B2 Bg F; [lia|]. cbn [digits]. destruct (n <? base) eqn:E.
  - exists n, rest. repeat split; auto; lia.
  - assert (Q : big_enough fuel (n / base)).
    { unfold big_enough in *. rewrite Nat2N.inj_succ, N.pow_succ_r' in Bg.
      apply N.div_lt_upper_bound; [lia|]. eapply N.lt_le_trans; [exact Bg|]. apply N.mul_le_mono_r. exact B1. }
    assert (Nz : n / base <> 0) by (rewrite N.div_small_iff by lia; lia).
    destruct (IH base (n / base) (String (digit (n mod base)) rest) B1 B2 Q) as [d [r [H1 [H2 [H3 _]]]]].
    { destruct fuel; [|lia]. exfalso. unfold big_enough in Q. cbn in Q. lia. }
    exists d, r. split; [exact H1|]. split; [exact H2|]. split; [intros _; apply H3, Nz|lia].
Qed.

Lemma digits_numeral : forall base n, 2 <= base -> base <= 16 -> numeral base (digits (S (N.size_nat n)) base n "") n.
Proof.
  intros base n B1 B2.
  destruct (digits_cons (S (N.size_nat n)) base n "" B1 B2 (size_big n)) as [d [r [H1 [H2 [H3 H4]]]]]; [lia|].
  split; [split|].
  - rewrite H2. discriminate.
  - rewrite digits_value by (try assumption; try reflexivity; apply size_big). reflexivity.
  - destruct (N.eq_dec n 0) as [->|Nz]; [left; cbn [digits N.size_nat]; replace (0 <? base) with true by lia; reflexivity|]. right. intros s' E. rewrite H2 in E. injection E as E _.
    apply (H3 Nz). apply digit_0; [lia|exact E].
Qed.

Lemma digits_inj : forall base n m, 2 <= base -> base <= 16 ->
  digits (S (N.size_nat n)) base n "" = digits (S (N.size_nat m)) base m "" -> n = m.
Proof.
  intros base n m B1 B2 E. destruct (digits_numeral base n B1 B2) as [[_ V1] _].
  destruct (digits_numeral base m B1 B2) as [[_ V2] _]. rewrite E in V1. congruence.
Qed.

(** ** Numerals inside of texts *)

(** The characters of [s] are digits; what follows does not start with one. *)
Fixpoint all_digits (s : string) : Prop :=
  match s with "" => True | String c s' => digit_value c <> None /\ all_digits s' end.
Definition ends (s : string) : Prop := match s with "" => True | String c _ => digit_value c = None end.

Lemma span_inj : forall a b s t, all_digits a -> all_digits b -> ends s -> ends t -> a ++ s = b ++ t -> a = b /\ s = t.
Proof.
  induction a as [|x a IH]; intros [|y b] s t A B S T E; cbn in *.
  - auto.
  - subst s. cbn in S. destruct B. contradiction.
  - subst t. cbn in T. destruct A. contradiction.
  - injection E as -> E. destruct (IH b s t (proj2 A) (proj2 B) S T E) as [-> ->]. auto.
Qed.

Lemma digits_all : forall fuel base n rest, 0 < base -> base <= 16 -> all_digits rest -> all_digits (digits fuel base n rest).
Proof.
  induction fuel as [|fuel IH]; intros base n rest B1 B2 A; cbn [digits]; [exact A|].
  destruct (n <? base) eqn:E.
  - split; [rewrite digit_value_digit by lia; discriminate|exact A].
  - apply IH; try assumption. assert (n mod base < base) by (apply N.mod_lt; lia).
    split; [rewrite digit_value_digit by lia; discriminate|exact A].
Qed.

Lemma dec_inj : forall n m s t, ends s -> ends t -> dec n ++ s = dec m ++ t -> n = m /\ s = t.
Proof.
  intros n m s t S T E. destruct (span_inj (dec n) (dec m) s t) as [E1 E2]; try assumption; try (apply digits_all; cbn; lia || exact I).
  split; [|exact E2]. apply (digits_inj 10); [lia|lia|exact E1].
Qed.

Lemma hex_inj : forall n m s t, ends s -> ends t -> hex n ++ s = hex m ++ t -> n = m /\ s = t.
Proof.
  intros n m s t Hs Ht E. unfold hex in E. cbn [append] in E. injection E as E.
  destruct (span_inj (digits (S (N.size_nat n)) 16 n "") (digits (S (N.size_nat m)) 16 m "") s t) as [E1 E2];
    try assumption; try (apply digits_all; cbn; lia || exact I).
  split; [|exact E2]. apply (digits_inj 16); [lia|lia|exact E1].
Qed.

Lemma append_nil : forall s, s ++ "" = s.
Proof. induction s as [|c s IH]; cbn; congruence. Qed.

Lemma dec_inj_end : forall n m, dec n = dec m -> n = m.
Proof. intros n m E. rewrite <- (append_nil (dec n)), <- (append_nil (dec m)) in E. apply (dec_inj n m "" "" I I E). Qed.
Lemma hex_inj_end : forall n m, hex n = hex m -> n = m.
Proof. intros n m E. rewrite <- (append_nil (hex n)), <- (append_nil (hex m)) in E. apply (hex_inj n m "" "" I I E). Qed.

Lemma dec_nat_inj : forall n m s t, ends s -> ends t -> dec_nat n ++ s = dec_nat m ++ t -> n = m /\ s = t.
Proof. intros n m s t S T E. destruct (dec_inj _ _ _ _ S T E) as [E1 E2]. split; [lia|exact E2]. Qed.
Lemma dec_nat_inj_end : forall n m, dec_nat n = dec_nat m -> n = m.
Proof. intros n m E. apply dec_inj_end in E. lia. Qed.

Lemma hex2_inj : forall a b s t, hex2 a ++ s = hex2 b ++ t -> a = b /\ s = t.
Proof.
  intros a b s t E. unfold hex2 in E. cbn [append] in E. injection E as E1 E2 E3. split; [|exact E3].
  pose proof (b2n_lt a). pose proof (b2n_lt b).
  assert (K : forall x y, x < 16 -> y < 16 -> digit x = digit y -> x = y).
  { intros x y Hx Hy K. apply (f_equal digit_value) in K. rewrite !digit_value_digit in K by assumption. congruence. }
  apply K in E1; try lia. apply K in E2; try lia.
  apply b2n_inj. lia.
Qed.

Lemma tail_inj : forall c a b, String c a = String c b -> a = b.
Proof. intros c a b E. injection E as E. exact E. Qed.

Ltac literal E := cbn [append] in E; repeat match type of E with String _ _ = String _ _ => apply tail_inj in E end.

Lemma append_assoc : forall x y z : string, (x ++ y) ++ z = x ++ (y ++ z).
Proof. induction x as [|c x IH]; intros; cbn; congruence. Qed.

Lemma hex2_items_cons : forall x y l, hex2_items (x :: y :: l) = hex2 x ++ ", " ++ hex2_items (y :: l).
Proof. reflexivity. Qed.

Lemma hex2_items_head : forall x l, exists r, hex2_items (x :: l) = hex2 x ++ r.
Proof. intros x l. destruct l; [exists ""; reflexivity|eexists; reflexivity]. Qed.

Lemma items_inj : forall a b s t, a <> [] -> b <> [] ->
  hex2_items a ++ String "]" s = hex2_items b ++ String "]" t -> a = b /\ s = t.
Proof.
  induction a as [|x a IH]; intros b s t Ha Hb E; [congruence|]. destruct b as [|y b]; [congruence|].
  destruct a as [|x2 a], b as [|y2 b].
  - cbn [hex2_items] in E. apply hex2_inj in E. destruct E as [-> E]. injection E as ->. auto.
  - rewrite hex2_items_cons, append_assoc in E. apply hex2_inj in E. destruct E as [_ E]. discriminate E.
  - rewrite hex2_items_cons, append_assoc in E. apply hex2_inj in E. destruct E as [_ E]. discriminate E.
  - rewrite !hex2_items_cons, !append_assoc in E.
    apply hex2_inj in E. destruct E as [-> E]. cbn [append] in E. do 2 apply tail_inj in E.
    apply IH in E; [|discriminate|discriminate]. destruct E as [-> ->]. auto.
Qed.

Lemma bracket_not_digit : forall x, x < 16 -> digit x <> "]"%char.
Proof.
  intros x H E. apply (f_equal digit_value) in E. rewrite digit_value_digit in E by exact H. discriminate E.
Qed.

Lemma array_inj : forall a b s t, hex2_array a ++ s = hex2_array b ++ t -> a = b /\ s = t.
Proof.
  intros a b s t E. unfold hex2_array in E. rewrite !append_assoc in E. cbn [append] in E. apply tail_inj in E.
  assert (K : forall x l u v, hex2_items (x :: l) ++ u <> String "]" v).
  { intros x l u v Q. destruct (hex2_items_head x l) as [r Hr]. rewrite Hr in Q. unfold hex2 in Q. cbn [append] in Q.
    injection Q as Q _. apply (bracket_not_digit (b2n x / 16)); [|exact Q]. pose proof (b2n_lt x). lia. }
  destruct a as [|x a], b as [|y b].
  - cbn [hex2_items append] in E. injection E as ->. auto.
  - symmetry in E. apply K in E. tauto.
  - apply K in E. tauto.
  - apply items_inj in E; [exact E|discriminate|discriminate].
Qed.

Lemma array_inj_end : forall a b, hex2_array a = hex2_array b -> a = b.
Proof. intros a b E. apply (array_inj a b "" ""). rewrite E. reflexivity. Qed.

(** ** Errors *)

Lemma count_inj : forall a b s t, ends s -> ends t ->
  expected_count_text a ++ s = expected_count_text b ++ t -> a = b /\ s = t.
Proof.
  assert (As : forall x y z : string, (x ++ y) ++ z = x ++ (y ++ z)) by (induction x as [|c x IH]; intros; cbn; congruence).
  intros a b s t S T E. destruct a as [x|x|x], b as [y|y|y]; cbn [expected_count_text] in E; rewrite !As in E;
    cbn [append] in E; try discriminate E; literal E; apply dec_nat_inj in E; try assumption; destruct E as [-> ->]; auto.
Qed.

Lemma sizes_inj : forall a b,
  dec_nat (required_size a) ++ " bytes, but the size is " ++ dec_nat (total_size a) =
  dec_nat (required_size b) ++ " bytes, but the size is " ++ dec_nat (total_size b) -> a = b.
Proof.
  intros [a1 a2] [b1 b2] E. cbn [required_size total_size] in E. apply dec_nat_inj in E; [|reflexivity|reflexivity].
  destruct E as [-> E]. literal E. apply dec_nat_inj_end in E. subst. reflexivity.
Qed.

Lemma L_C62_invalid_message : unambiguous invalid_message_text.
Proof.
  intros a b E.
  destruct a as [a1 a2|a1 a2|a1 [a2|]|a1 a2|a1 a2], b as [b1 b2|b1 b2|b1 [b2|]|b1 b2|b1 b2];
    cbn [invalid_message_text] in E; cbn [append] in E; try discriminate E; literal E.
  - apply array_inj in E. destruct E as [-> E]. literal E.
    apply array_inj_end in E. subst. reflexivity.
  - apply hex_inj in E; [|reflexivity|reflexivity]. destruct E as [-> E]. literal E. apply hex_inj_end in E. subst. reflexivity.
  - apply hex_inj in E; [|reflexivity|reflexivity]. destruct E as [K E]. literal E. apply hex_inj_end in E.
    apply b2n_inj in K, E. subst. reflexivity.
  - apply hex_inj_end in E. apply b2n_inj in E. subst. reflexivity.
  - apply dec_inj in E; [|reflexivity|reflexivity]. destruct E as [K E]. literal E. apply dec_inj_end in E.
    apply b2n_inj in K, E. subst. reflexivity.
  - apply count_inj in E; [|reflexivity|reflexivity]. destruct E as [-> E]. literal E. apply dec_nat_inj_end in E. subst. reflexivity.
Qed.

Lemma L_C62_write_error : forall io, (forall x y, io x = io y -> x = y) ->
  unambiguous (write_error_text io).
Proof.
  intros io Io a b E. destruct a as [a|a|a], b as [b|b|b]; cbn [write_error_text] in E; cbn [append] in E; try discriminate E;
    literal E.
  - apply sizes_inj in E. subst. reflexivity.
  - apply Io in E. subst. reflexivity.
  - apply Io in E. subst. reflexivity.
Qed.

Lemma L_C62_read_error : forall io, (forall x y, io x = io y -> x = y) ->
  unambiguous (read_error_text io).
Proof.
  intros io Io a b E. destruct a as [a|a|a|a], b as [b|b|b|b]; cbn [read_error_text] in *.
  - literal E. apply sizes_inj in E. subst. reflexivity.
  - discriminate E.
  - exfalso. destruct b as [b1 b2|b1 b2|b1 [b2|]|b1 b2|b1 b2]; discriminate E.
  - discriminate E.
  - discriminate E.
  - literal E. apply Io in E. subst. reflexivity.
  - exfalso. destruct b as [b1 b2|b1 b2|b1 [b2|]|b1 b2|b1 b2]; discriminate E.
  - discriminate E.
  - exfalso. destruct a as [a1 a2|a1 a2|a1 [a2|]|a1 a2|a1 a2]; discriminate E.
  - exfalso. destruct a as [a1 a2|a1 a2|a1 [a2|]|a1 a2|a1 a2]; discriminate E.
  - f_equal. apply L_C62_invalid_message; assumption.
  - exfalso. destruct a as [a1 a2|a1 a2|a1 [a2|]|a1 a2|a1 a2]; discriminate E.
  - discriminate E.
  - discriminate E.
  - exfalso. destruct b as [b1 b2|b1 b2|b1 [b2|]|b1 b2|b1 b2]; discriminate E.
  - unfold motor_error_text in E. literal E. apply hex_inj_end in E. apply b2n_inj in E. subst. reflexivity.
Qed.

Lemma L_C62_transfer_error : forall io, (forall x y, io x = io y -> x = y) ->
  unambiguous (transfer_error_text io).
Proof.
  intros io Io a b E. destruct a as [a|a], b as [b|b]; cbn [transfer_error_text] in *.
  - f_equal. apply (L_C62_write_error io Io); auto.
  - exfalso. destruct a, b as [?|?|[? ?|? ?|? [?|]|? ?|? ?]|?]; discriminate E.
  - exfalso. destruct b, a as [?|?|[? ?|? ?|? [?|]|? ?|? ?]|?]; discriminate E.
  - f_equal. apply (L_C62_read_error io Io); assumption.
Qed.

(** ** What the command line prints *)

Lemma zeros_value : forall base k s, 0 < base -> value_from base 0 (zeros k ++ s) = value_from base 0 s.
Proof.
  intros base k s B. induction k as [|k IH]; [reflexivity|]. cbn [zeros append value_from].
  change (digit_value "0") with (Some 0). cbv beta iota. destruct (N.ltb_spec 0 base); [|lia]. exact IH.
Qed.

Lemma string_length_app : forall a b, String.length (a ++ b) = (String.length a + String.length b)%nat.
Proof. induction a as [|c a IH]; intro b; cbn; [reflexivity|]. rewrite IH. reflexivity. Qed.

Lemma zeros_length : forall k, String.length (zeros k) = k.
Proof. induction k as [|k IH]; cbn; congruence. Qed.

Lemma digits_length : forall fuel base n rest w, 2 <= base -> n < base ^ N.of_nat w -> (0 < w)%nat ->
  (String.length (digits fuel base n rest) <= w + String.length rest)%nat.
Proof.
  induction fuel as [|fuel IH]; intros base n rest w B Hn W; cbn [digits]; [lia|].
  destruct (n <? base) eqn:E; [cbn [String.length]; lia|].
  destruct w as [|[|w]]; [lia|change (N.of_nat 1) with 1 in Hn; rewrite N.pow_1_r in Hn; lia|].
  assert (K : n / base < base ^ N.of_nat (S w)).
  { apply N.div_lt_upper_bound; [lia|]. rewrite (Nat2N.inj_succ (S w)), N.pow_succ_r' in Hn. exact Hn. }
  pose proof (IH base (n / base) (String (digit (n mod base)) rest) (S w) B K ltac:(lia)) as L. cbn [String.length] in L. lia.
Qed.

Lemma padded_denotes : forall w n, n < 16 ^ N.of_nat w -> (0 < w)%nat ->
  denotes 16 (hex_padded w n) n /\ String.length (hex_padded w n) = w.
Proof.
  intros w n H W. destruct (digits_numeral 16 n) as [[D1 D2] _]; [lia|lia|]. unfold hex_padded. cbv zeta. split; [split|].
  - destruct (zeros _); [exact D1|discriminate].
  - rewrite zeros_value by lia. exact D2.
  - pose proof (digits_length (S (N.size_nat n)) 16 n "" w ltac:(lia) H W) as L. cbn [String.length] in L.
    rewrite string_length_app, zeros_length. lia.
Qed.

Lemma value_split : forall base acc a b n, value_from base acc a = Some n -> value_from base acc (a ++ b) = value_from base n b.
Proof.
  intros base acc a. revert acc. induction a as [|c a IH]; intros acc b n H; cbn [value_from append] in *; [congruence|].
  destruct (digit_value c) as [d|]; [|discriminate]. destruct (d <? base); [|discriminate]. apply IH, H.
Qed.

Lemma value_shift : forall base acc s n, value_from base 0 s = Some n ->
  value_from base acc s = Some (acc * base ^ N.of_nat (String.length s) + n).
Proof.
  assert (G : forall base s a b n, value_from base b s = Some n ->
            value_from base (a + b) s = Some (a * base ^ N.of_nat (String.length s) + n)).
  { intros base s. induction s as [|c s IH]; intros a b n H; cbn [value_from String.length] in *.
    - injection H as ->. change (N.of_nat 0) with 0. rewrite N.pow_0_r. f_equal. lia.
    - destruct (digit_value c) as [d|]; [|discriminate]. destruct (d <? base); [|discriminate].
      replace ((a + b) * base + d) with (a * base + (b * base + d)) by lia.
      rewrite (IH _ _ _ H). rewrite Nat2N.inj_succ, N.pow_succ_r'. f_equal. lia. }
  intros base acc s n H. rewrite <- (N.add_0_r acc) at 1. apply G, H.
Qed.

Lemma L_C62_read_lines : forall elapsed v,
  (v < 2 ^ 8 -> exists d h, read8_line elapsed v = elapsed ++ ": " ++ d ++ " (0x" ++ h ++ ")" /\
     numeral 10 d v /\ denotes 16 h v /\ String.length h = 2%nat) /\
  (v < 2 ^ 16 -> exists d h, read16_line elapsed v = elapsed ++ ": " ++ d ++ " (0x" ++ h ++ ")" /\
     numeral 10 d v /\ denotes 16 h v /\ String.length h = 4%nat) /\
  (v < 2 ^ 32 -> exists d h1 h2, read32_line elapsed v = elapsed ++ ": " ++ d ++ " (0x" ++ h1 ++ " " ++ h2 ++ ")" /\
     numeral 10 d v /\ denotes 16 (h1 ++ h2) v /\ String.length h1 = 4%nat /\ String.length h2 = 4%nat).
Proof.
  intros elapsed v. split; [|split]; intro H.
  - exists (dec v), (hex_padded 2 v). split; [reflexivity|]. split; [apply digits_numeral; lia|]. apply padded_denotes; [exact H|lia].
  - exists (dec v), (hex_padded 4 v). split; [reflexivity|]. split; [apply digits_numeral; lia|]. apply padded_denotes; [exact H|lia].
  - assert (E1 : N.land v 65535 = v mod 65536) by (change 65535 with (N.ones 16); apply N.land_ones).
    assert (E2 : N.land (N.shiftr v 16) 65535 = v / 65536).
    { change 65535 with (N.ones 16). rewrite N.land_ones, N.shiftr_div_pow2. change (2 ^ 16) with 65536.
      change (2 ^ 32) with 4294967296 in H. apply N.mod_small. lia. }
    change (2 ^ 32) with 4294967296 in H.
    unfold read32_line. rewrite E1, E2.
    destruct (padded_denotes 4 (v / 65536)) as [[D1 D2] D3]; [change (16 ^ N.of_nat 4) with 65536; lia|lia|].
    destruct (padded_denotes 4 (v mod 65536)) as [[D4 D5] D6]; [change (16 ^ N.of_nat 4) with 65536; lia|lia|].
    exists (dec v), (hex_padded 4 (v / 65536)), (hex_padded 4 (v mod 65536)).
    split; [reflexivity|]. split; [apply digits_numeral; lia|]. split; [split|split; assumption].
    + destruct (hex_padded 4 (v / 65536)); [contradiction|discriminate].
    + rewrite (value_split _ _ _ _ _ D2), (value_shift _ _ _ _ D5), D6. change (16 ^ N.of_nat 4) with 65536. f_equal. lia.
Qed.
