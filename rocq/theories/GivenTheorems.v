(** * GivenTheorems: C90 *)
From Coq Require Import ZArith ZifyN ZifyNat ZifyBool.
From Verif Require Import Base Endian Error Checksum Bytestuff Packet Time Bus Data Client
  Instructions Device Api Spec CallSpec StreamSpec InstructionSpec CallerIter GivenSpec Demo Lib StuffProofs
  WriteProofs SendProofs StatusProofs ApiProofs SendTheorems InstructionProofs GenericTheorems TwinProofs.

(** ** The loops *)

Lemma slice_panics : forall l a b, length l < b -> exists p, slice l a b = Panic p.
Proof.
  intros l a b H. unfold slice. replace (b <=? length l) with false by lia. rewrite andb_false_r. eauto.
Qed.

Lemma sync_loop_tail : forall c l i done rest tail, of_size c l ->
  length done = 4 + i * (1 + c) -> length rest = length l * (1 + c) ->
  sync_write_bytes_loop c i l (done ++ rest ++ tail) = Val (done ++ sync_entries l ++ tail).
Proof.
  intros c. induction l as [|x l IH]; intros i done rest tail F Ld Lr; cbn [sync_write_bytes_loop sync_entries flat_map].
  - destruct rest; [reflexivity|discriminate].
  - inversion F as [|? ? Hx F']; subst. rewrite Nat.eqb_refl. cbn [negb]. cbv zeta.
    cbn [length] in Lr. set (c := length (sw_data x)) in *.
    destruct (split_at rest (S c) (length l * S c)) as [m [b [-> [Lm Lb]]]]; [cbn in Lr; lia|].
    destruct m as [|m0 m]; [discriminate|]. cbn [length] in Lm. rewrite <- app_assoc.
    rewrite (with_slice_mid _ done (m0 :: m) (b ++ tail) _ (sw_id x :: sw_data x) tt).
    + cbn [obind]. rewrite app_assoc. rewrite IH with (done := done ++ sw_id x :: sw_data x).
      * rewrite <- app_assoc. cbn [app]. rewrite <- app_assoc. reflexivity.
      * exact F'.
      * rewrite app_length. cbn [length]. fold c. cbn [Nat.mul Nat.add] in *. lia.
      * cbn [Nat.add] in *. lia.
    + rewrite Ld. cbn. lia.
    + cbn [length]. cbn [Nat.add] in *. lia.
    + unfold set. cbn [length Nat.ltb Nat.leb obind list_set].
      pose proof (copy_tail [sw_id x] m (sw_data x) ltac:(fold c; lia)) as K. cbn [app length] in K |- *.
      rewrite K. reflexivity.
    + cbn [length]. fold c. lia.
Qed.

Lemma sync_loop_short : forall c l i b, 4 + i * (1 + c) <= length b -> length b < 4 + (i + length l) * (1 + c) ->
  exists p, sync_write_bytes_loop c i l b = Panic p.
Proof.
  intro c. induction l as [|x l IH]; intros i b L1 L2; cbn [sync_write_bytes_loop length] in *; [lia|].
  destruct (length (sw_data x) =? c) eqn:E; [|exists PAssert; reflexivity]. apply Nat.eqb_eq in E. cbn [negb]. cbv zeta.
  destruct (le_lt_dec (4 + i * (1 + c) + (1 + c)) (length b)) as [L|L].
  2: { destruct (slice_panics b (4 + i * (1 + c)) _ L) as [p K]. unfold with_slice. rewrite K. exists p. reflexivity. }
  destruct (split_at b (4 + i * (1 + c)) (length b - (4 + i * (1 + c)))) as [done [r [-> [Ld Lr]]]]; [lia|].
  rewrite app_length in *.
  destruct (split_at r (S c) (length r - S c)) as [m [t [-> [Lm Lt]]]]; [lia|].
  destruct m as [|m0 m]; [discriminate|]. cbn [length] in Lm.
  rewrite (with_slice_mid _ done (m0 :: m) t _ (sw_id x :: sw_data x) tt).
  - cbn [obind]. apply IH; rewrite !app_length in *; cbn [length] in *; lia.
  - lia.
  - cbn [length]. lia.
  - unfold set. cbn [length Nat.ltb Nat.leb obind list_set].
    pose proof (copy_tail [sw_id x] m (sw_data x) ltac:(lia)) as K. cbn [app length] in K |- *.
    rewrite K. reflexivity.
  - cbn [length]. lia.
Qed.

Lemma sync_loop_wrong : forall c l i b, 4 + i * (1 + c) <= length b -> ~ of_size c l ->
  exists p, sync_write_bytes_loop c i l b = Panic p.
Proof.
  intro c. induction l as [|x l IH]; intros i b L1 H; cbn [sync_write_bytes_loop length] in *; [destruct H; constructor|].
  destruct (length (sw_data x) =? c) eqn:E; [|exists PAssert; reflexivity]. apply Nat.eqb_eq in E. cbn [negb]. cbv zeta.
  destruct (le_lt_dec (4 + i * (1 + c) + (1 + c)) (length b)) as [L|L].
  2: { destruct (slice_panics b (4 + i * (1 + c)) _ L) as [p K]. unfold with_slice. rewrite K. exists p. reflexivity. }
  destruct (split_at b (4 + i * (1 + c)) (length b - (4 + i * (1 + c)))) as [done [r [-> [Ld Lr]]]]; [lia|].
  rewrite app_length in *.
  destruct (split_at r (S c) (length r - S c)) as [m [t [-> [Lm Lt]]]]; [lia|].
  destruct m as [|m0 m]; [discriminate|]. cbn [length] in Lm.
  rewrite (with_slice_mid _ done (m0 :: m) t _ (sw_id x :: sw_data x) tt).
  - cbn [obind]. apply IH; [rewrite !app_length in *; cbn [length] in *; lia|]. intro F. apply H. constructor; assumption.
  - lia.
  - cbn [length]. lia.
  - unfold set. cbn [length Nat.ltb Nat.leb obind list_set].
    pose proof (copy_tail [sw_id x] m (sw_data x) ltac:(lia)) as K. cbn [app length] in K |- *.
    rewrite K. reflexivity.
  - cbn [length]. lia.
Qed.

Ltac Zify.zify_post_hook ::= Z.div_mod_to_equations.
Lemma low_mod : forall v, n2b (v mod 2 ^ 16) = n2b v.
Proof.
  intro v. apply b2n_inj. rewrite !b2n_n2b. change (2 ^ 16)%N with (256 * 256)%N. rewrite N.mod_mul_r by discriminate. lia.
Qed.

Lemma high_mod : forall v, n2b (v mod 2 ^ 16 / 256) = n2b (v / 256).
Proof.
  intro v. apply b2n_inj. rewrite !b2n_n2b. change (2 ^ 16)%N with (256 * 256)%N. rewrite N.mod_mul_r by discriminate. lia.
Qed.

Ltac Zify.zify_post_hook ::= idtac.

Lemma bulk_entry : forall x m t, length m = 5 + length (bw_data x) ->
  (let* b := write_u8_at (m ++ t) 0 (bw_id x) in
   let* b := write_u16_at b 1 (bw_address x) in
   let* b := write_u16_at b 3 (N.of_nat (length (bw_data x)) mod 2 ^ 16) in
   let* b := copy_into b 5 (5 + length (bw_data x)) (bw_data x) in
   Val (b, tt)) =
  Val ((bw_id x :: le16 (bw_address x) ++ le16 (N.of_nat (length (bw_data x))) ++ bw_data x) ++ t, tt).
Proof.
  intros x m t Lm. set (n := length (bw_data x)) in *.
  destruct m as [|m0 [|m1 [|m2 [|m3 [|m4 m]]]]]; try discriminate Lm. cbn [length Nat.add] in Lm.
  cbn [app]. rewrite u8_at0. cbn [obind app]. rewrite u16_at1. cbn [obind app]. rewrite u16_at3. cbn [obind app].
  rewrite low_mod, high_mod.
  match goal with |- context [copy_into ?l 5 _ _] =>
    change l with ([bw_id x; n2b (bw_address x); n2b (bw_address x / 256); n2b (N.of_nat n); n2b (N.of_nat n / 256)] ++ m ++ t) end.
  rewrite (copy_into_val [bw_id x; n2b (bw_address x); n2b (bw_address x / 256); n2b (N.of_nat n); n2b (N.of_nat n / 256)] m t
             (bw_data x) 5 (5 + n) eq_refl).
  - reflexivity.
  - cbn [length]. lia.
  - fold n. lia.
Qed.

Lemma bulk_size_entries : forall l, bulk_size l = length (bulk_write_entries l).
Proof.
  induction l as [|x l IH]; [reflexivity|]. unfold bulk_size in *. cbn [map list_sum fold_right bulk_write_entries flat_map] in *.
  fold (bulk_write_entries l). change (fold_right Nat.add 0) with list_sum. rewrite IH. cbn [app length le16]. rewrite !app_length. lia.
Qed.

Lemma bulk_loop_tail : forall l offset done rest tail, length done = offset -> length rest = length (bulk_write_entries l) ->
  bulk_write_loop offset l (done ++ rest ++ tail) = Val (done ++ bulk_write_entries l ++ tail).
Proof.
  induction l as [|x l IH]; intros offset done rest tail Ld Lr; cbn [bulk_write_loop bulk_write_entries flat_map] in *.
  - destruct rest; [reflexivity|discriminate].
  - cbv zeta. fold (bulk_write_entries l) in *. set (n := length (bw_data x)) in *.
    assert (Lr' : length rest = 5 + n + length (bulk_write_entries l)).
    { rewrite Lr. cbn [app length le16]. rewrite app_length. fold n. lia. }
    destruct (split_at rest (5 + n) (length (bulk_write_entries l))) as [m [b [-> [Lm Lb]]]]; [exact Lr'|].
    rewrite <- app_assoc. subst offset.
    set (entry := bw_id x :: le16 (bw_address x) ++ le16 (N.of_nat n) ++ bw_data x).
    assert (Le : length entry = 5 + n) by (unfold entry; cbn [app length le16]; fold n; lia).
    rewrite (with_slice_tail _ done (m ++ b ++ tail) _ (entry ++ b ++ tail) tt).
    + cbn [obind]. rewrite (app_assoc done entry). rewrite IH.
      * rewrite <- !app_assoc. reflexivity.
      * rewrite app_length, Le. lia.
      * exact Lb.
    + exact (bulk_entry x m (b ++ tail) Lm).
    + rewrite !app_length. lia.
Qed.

Lemma bulk_entry_short : forall x m, length m < 5 + length (bw_data x) ->
  exists p, (let* b := write_u8_at m 0 (bw_id x) in
   let* b := write_u16_at b 1 (bw_address x) in
   let* b := write_u16_at b 3 (N.of_nat (length (bw_data x)) mod 2 ^ 16) in
   let* b := copy_into b 5 (5 + length (bw_data x)) (bw_data x) in
   Val (b, tt)) = Panic p.
Proof.
  intros x m Lm. generalize (N.of_nat (length (bw_data x)) mod 2 ^ 16)%N as v. intro v.
  destruct m as [|m0 [|m1 [|m2 [|m3 [|m4 m]]]]].
  - exists PIndex. reflexivity.
  - exists PIndex. reflexivity.
  - exists PIndex. reflexivity.
  - rewrite u8_at0. cbn [obind]. rewrite u16_at1. cbn [obind]. exists PIndex. reflexivity.
  - rewrite u8_at0. cbn [obind]. rewrite u16_at1. cbn [obind]. exists PIndex. reflexivity.
  - rewrite u8_at0. cbn [obind]. rewrite u16_at1. cbn [obind]. rewrite u16_at3. cbn [obind].
    match goal with |- context [copy_into ?l 5 ?e _] => destruct (slice_panics l 5 e) as [p K] end.
    { cbn [length] in *. lia. }
    exists p. unfold copy_into. rewrite K. reflexivity.
Qed.

Lemma bulk_loop_short : forall l offset b, offset <= length b -> length b < offset + bulk_size l ->
  exists p, bulk_write_loop offset l b = Panic p.
Proof.
  induction l as [|x l IH]; intros offset b L1 L2; unfold bulk_size in L2; cbn [bulk_write_loop map list_sum fold_right] in *; [lia|].
  change (fold_right Nat.add 0 (map (fun w => 5 + length (bw_data w)) l)) with (bulk_size l) in L2. cbv zeta.
  destruct (split_at b offset (length b - offset)) as [done [r [-> [Ld Lr]]]]; [lia|]. rewrite app_length in *. subst offset.
  destruct (le_lt_dec (5 + length (bw_data x)) (length r)) as [L|L].
  - destruct (split_at r (5 + length (bw_data x)) (length r - (5 + length (bw_data x)))) as [m [t [-> [Lm Lt]]]]; [lia|].
    set (entry := bw_id x :: le16 (bw_address x) ++ le16 (N.of_nat (length (bw_data x))) ++ bw_data x).
    assert (Le : length entry = 5 + length (bw_data x)) by (unfold entry; cbn [app length le16]; lia).
    rewrite <- app_length.
    rewrite (with_slice_tail _ done (m ++ t) _ (entry ++ t) tt (bulk_entry x m t Lm)) by (rewrite !app_length; lia).
    cbn [obind]. apply IH; rewrite !app_length in *; lia.
  - destruct (bulk_entry_short x r L) as [p K]. exists p. rewrite <- app_length.
    pose proof (with_slice_app3 _ done r [] (fun b => let* b := write_u8_at b 0 (bw_id x) in
       let* b := write_u16_at b 1 (bw_address x) in
       let* b := write_u16_at b 3 (N.of_nat (length (bw_data x)) mod 2 ^ 16) in
       let* b := copy_into b 5 (5 + length (bw_data x)) (bw_data x) in
       Val (b, tt)) (length done) (length (done ++ r)) eq_refl) as W.
    rewrite app_nil_r in W. rewrite W by apply app_length. rewrite K. reflexivity.
Qed.

(** ** Sending *)

Lemma write_filled : forall s id i enc enc' n params, reach s -> encoder_ok enc -> writes_parameters enc' params -> n = length params ->
  (n + 10 <= length (b_wbuf s) -> enc (leftover s 8 n) = Val (params, Ok tt)) ->
  write_instruction id i n enc s = write_instruction id i n enc' s.
Proof.
  intros s id i enc enc' n params R O [O' W'] -> H. pose proof (reach_inv _ R) as [_ Hw]. unfold write_instruction.
  rewrite !write_packet_gen by assumption.
  unfold write_gen. cbv zeta. destruct (usize_max <? N.of_nat (length params + 10))%N; [reflexivity|].
  destruct (length (b_wbuf s) <? length params + 10) eqn:L; [reflexivity|]. unfold leftover in H.
  rewrite H by lia. rewrite W' by (rewrite firstn_length, skipn_length; lia). reflexivity.
Qed.

Lemma no_calls : forall s, calls s s [].
Proof. intro s. unfold calls. rewrite app_nil_r. reflexivity. Qed.

Lemma write_refused : forall s id i enc n o s', reach s -> encoder_ok enc ->
  (n + 10 <= length (b_wbuf s) -> exists p, enc (leftover s 8 n) = Panic p) ->
  write_instruction id i n enc s = (o, s') -> calls s s' [] /\ forall r, o <> Val (Ok r).
Proof.
  intros s id i enc n o s' R O H E. pose proof (reach_inv _ R) as [_ Hw]. unfold write_instruction in E.
  rewrite write_packet_gen in E by assumption. unfold write_gen in E. cbv zeta in E.
  destruct (usize_max <? N.of_nat (n + 10))%N; [injection E as <- <-; split; [apply no_calls|discriminate]|].
  destruct (length (b_wbuf s) <? n + 10) eqn:L; [injection E as <- <-; split; [apply no_calls|discriminate]|].
  destruct H as [p H]; [lia|]. unfold leftover in H. rewrite H in E. injection E as <- <-. split; [apply no_calls|discriminate].
Qed.

Lemma iter_unfold : forall motors a n l s,
  sync_write_bytes_iter motors a n l s =
  match (let* product := usize_mul (b_dbg s) motors (1 + n) in usize_add (b_dbg s) 4 product) with
  | Val k => write_instruction BROADCAST SYNC_WRITE (N.to_nat k) (enc_ok (fun b =>
       let* b := write_u16_at b 0 a in
       let* b := write_u16_at b 2 n in
       sync_write_bytes_loop (N.to_nat n) 0 l b)) s
  | Panic p => (Panic p, s)
  | Blocked => (Blocked, s)
  end.
Proof.
  intros. unfold sync_write_bytes_iter, bind, get, lift. destruct (usize_mul (b_dbg s) motors (1 + n)) as [x|p|]; cbn [obind]; try reflexivity.
Qed.

Lemma iter_count : forall dbg motors n, (4 + motors * (1 + n) <= usize_max)%N ->
  (let* product := usize_mul dbg motors (1 + n) in usize_add dbg 4 product) = Val (4 + motors * (1 + n))%N.
Proof.
  intros dbg motors n H. unfold usize_mul. replace (usize_max <? motors * (1 + n))%N with false by lia. cbn [obind].
  unfold usize_add. replace (usize_max <? 4 + motors * (1 + n))%N with false by lia. reflexivity.
Qed.

Lemma iter_count_le : forall dbg motors n k,
  (let* product := usize_mul dbg motors (1 + n) in usize_add dbg 4 product) = Val k -> (k <= 4 + motors * (1 + n))%N.
Proof.
  intros dbg motors n k. unfold usize_mul, usize_add. generalize (motors * (1 + n))%N as p. intro p.
  assert (M : forall x, (x mod (usize_max + 1) <= x)%N) by (intro x; apply N.mod_le; discriminate).
  assert (S : forall q, (q <= p)%N -> (if (usize_max <? 4 + q)%N then if dbg then Panic POverflow else Val ((4 + q) mod (usize_max + 1))%N
    else Val (4 + q)%N) = Val k -> (k <= 4 + p)%N).
  { intros q Hq. specialize (M (4 + q)%N). destruct (usize_max <? 4 + q)%N; [destruct dbg|]; intro E; try discriminate.
    - assert (K : k = ((4 + q) mod (usize_max + 1))%N) by congruence. rewrite K. apply (N.le_trans _ _ _ M). lia.
    - assert (K : k = (4 + q)%N) by congruence. lia. }
  destruct (usize_max <? p)%N; [destruct dbg|]; cbn [obind]; try discriminate; apply S; [apply M|lia].
Qed.

(** ** C90 *)

Lemma L_C90_honest : forall a n l s, (4 + N.of_nat (length l) * (1 + n) <= usize_max)%N ->
  sync_write_bytes_iter (N.of_nat (length l)) a n l s = sync_write_bytes a n l s.
Proof.
  intros a n l s H. rewrite iter_unfold, iter_count by exact H. unfold sync_write_bytes. cbv zeta.
  replace (N.to_nat (4 + N.of_nat (length l) * (1 + n))) with (4 + length l * (1 + N.to_nat n)); [reflexivity|].
  rewrite N2Nat.inj_add, N2Nat.inj_mul, N2Nat.inj_add, Nat2N.id. reflexivity.
Qed.

Lemma L_C90_more_than_announced : forall motors a n l s o s', reach s -> (motors < N.of_nat (length l))%N ->
  sync_write_bytes_iter motors a n l s = (o, s') -> calls s s' [] /\ forall r, o <> Val (Ok r).
Proof.
  intros motors a n l s o s' R H E. rewrite iter_unfold in E.
  destruct (let* product := usize_mul (b_dbg s) motors (1 + n) in usize_add (b_dbg s) 4 product) as [k|p|] eqn:C;
    [|injection E as <- <-; split; [apply no_calls|discriminate]|injection E as <- <-; split; [apply no_calls|discriminate]].
  apply iter_count_le in C. assert (Ck : N.to_nat k < 4 + length l * (1 + N.to_nat n)) by nia.
  revert E. apply write_refused; [exact R|apply sync_write_bytes_params_ok|]. intro L.
  assert (Lb : length (leftover s 8 (N.to_nat k)) = N.to_nat k) by (unfold leftover; rewrite firstn_length, skipn_length; lia).
  revert Lb. generalize (leftover s 8 (N.to_nat k)) as b. intros b Lb. unfold enc_ok.
  destruct b as [|x [|y [|z [|u r]]]].
  - exists PIndex. reflexivity.
  - exists PIndex. reflexivity.
  - rewrite u16_at0. cbn [obind]. exists PIndex. reflexivity.
  - rewrite u16_at0. cbn [obind]. exists PIndex. reflexivity.
  - rewrite u16_at0. cbn [obind]. rewrite u16_at2. cbn [obind].
    match goal with |- context [sync_write_bytes_loop _ _ _ ?b] => destruct (sync_loop_short (N.to_nat n) l 0 b) as [p K] end.
    + cbn [length]. lia.
    + cbn [length] in *. lia.
    + exists p. rewrite K. reflexivity.
Qed.

Lemma L_C90_wrong_size : forall motors a n l s o s', reach s -> ~ of_size (N.to_nat n) l ->
  sync_write_bytes_iter motors a n l s = (o, s') -> calls s s' [] /\ forall r, o <> Val (Ok r).
Proof.
  intros motors a n l s o s' R H E. rewrite iter_unfold in E.
  destruct (let* product := usize_mul (b_dbg s) motors (1 + n) in usize_add (b_dbg s) 4 product) as [k|p|] eqn:C;
    [|injection E as <- <-; split; [apply no_calls|discriminate]|injection E as <- <-; split; [apply no_calls|discriminate]].
  revert E. apply write_refused; [exact R|apply sync_write_bytes_params_ok|]. intro L.
  generalize (leftover s 8 (N.to_nat k)) as b. intros b. unfold enc_ok.
  destruct b as [|x [|y [|z [|u r]]]].
  - exists PIndex. reflexivity.
  - exists PIndex. reflexivity.
  - rewrite u16_at0. cbn [obind]. exists PIndex. reflexivity.
  - rewrite u16_at0. cbn [obind]. exists PIndex. reflexivity.
  - rewrite u16_at0. cbn [obind]. rewrite u16_at2. cbn [obind].
    match goal with |- context [sync_write_bytes_loop _ _ _ ?b] => destruct (sync_loop_wrong (N.to_nat n) l 0 b) as [p K] end.
    + cbn [length]. lia.
    + exact H.
    + exists p. rewrite K. reflexivity.
Qed.

(** Bytes are commands of any size that divides their number. *)
Lemma bytes_are_commands : forall c k (b : list byte), length b = k * (1 + c) ->
  exists ghosts, length ghosts = k /\ of_size c ghosts /\ sync_entries ghosts = b.
Proof.
  intro c. induction k as [|k IH]; intros b L.
  - destruct b; [|discriminate]. exists []. split; [reflexivity|]. split; [constructor|reflexivity].
  - destruct (split_at b (1 + c) (k * (1 + c))) as [e [r [-> [Le Lr]]]]; [lia|].
    destruct e as [|x e]; [discriminate|]. destruct (IH r Lr) as [g [Lg [F <-]]].
    exists (mkSync x e :: g). split; [cbn [length]; lia|]. split; [constructor; [cbn [sw_data length] in *; lia|exact F]|reflexivity].
Qed.

Lemma sync_entries_app : forall l l', sync_entries (l ++ l') = sync_entries l ++ sync_entries l'.
Proof. intros l l'. apply flat_map_app. Qed.

Lemma leftover_split : forall s i n m, leftover s i (n + m) = leftover s i n ++ leftover s (i + n) m.
Proof.
  intros s i n m. unfold leftover. rewrite <- (firstn_skipn n (skipn i (b_wbuf s))) at 1.
  destruct (le_lt_dec n (length (skipn i (b_wbuf s)))) as [L|L].
  - rewrite firstn_app, firstn_length, Nat.min_l by exact L. replace (n + m - n) with m by lia.
    rewrite firstn_firstn, Nat.min_r by lia. rewrite skipn_skipn'. reflexivity.
  - rewrite (skipn_all2 (skipn i _)) by lia. rewrite app_nil_r, <- skipn_skipn', (skipn_all2 (skipn i _)) by lia.
    rewrite firstn_firstn, Nat.min_r by lia. rewrite firstn_nil, app_nil_r. reflexivity.
Qed.

Lemma leftover_length : forall s i n, i + n <= length (b_wbuf s) -> length (leftover s i n) = n.
Proof. intros s i n H. unfold leftover. rewrite firstn_length, skipn_length. lia. Qed.

Lemma L_C90_fewer_than_announced : forall motors a n l s, reach s -> of_size (N.to_nat n) l ->
  length l <= motors -> (4 + N.of_nat motors * (1 + n) <= usize_max)%N ->
  exists ghosts, length l + length ghosts = motors /\ of_size (N.to_nat n) ghosts /\
    (12 + motors * (1 + N.to_nat n) <= length (b_wbuf s) ->
     sync_entries ghosts = leftover s (12 + length (sync_entries l)) (length (sync_entries ghosts))) /\
    sync_write_bytes_iter (N.of_nat motors) a n l s = sync_write_bytes a n (l ++ ghosts) s.
Proof.
  intros motors a n l s R F Hm Hn. set (c := N.to_nat n) in *. pose proof (sync_entries_length c l F) as Le.
  assert (P : motors * (1 + c) = length l * (1 + c) + (motors - length l) * (1 + c)) by nia.
  set (k := motors - length l) in *.
  assert (G : exists ghosts, length ghosts = k /\ of_size c ghosts /\
    (12 + motors * (1 + c) <= length (b_wbuf s) -> sync_entries ghosts = leftover s (12 + length l * (1 + c)) (k * (1 + c)))).
  { destruct (le_lt_dec (12 + motors * (1 + c)) (length (b_wbuf s))) as [L|L].
    - destruct (bytes_are_commands c k (leftover s (12 + length l * (1 + c)) (k * (1 + c)))) as [g [Lg [Fg Eg]]].
      { apply leftover_length. lia. }
      exists g. auto.
    - destruct (bytes_are_commands c k (repeat x00 (k * (1 + c)))) as [g [Lg [Fg Eg]]]; [apply repeat_length|].
      exists g. split; [exact Lg|]. split; [exact Fg|]. intro. lia. }
  destruct G as [g [Lg [Fg Eg]]]. pose proof (sync_entries_length c g Fg) as Lge. rewrite Lg in Lge.
  exists g. split; [unfold k in *; lia|]. split; [exact Fg|]. split; [rewrite Le, Lge; exact Eg|].
  assert (Fa : of_size c (l ++ g)) by (apply Forall_app; split; assumption).
  rewrite iter_unfold, iter_count by exact Hn. unfold sync_write_bytes. cbv zeta. fold c.
  replace (N.to_nat (4 + N.of_nat motors * (1 + n))) with (4 + length (l ++ g) * (1 + c)).
  2: { rewrite app_length, Lg, N2Nat.inj_add, N2Nat.inj_mul, N2Nat.inj_add, Nat2N.id. fold c. change (N.to_nat 4) with 4. change (N.to_nat 1) with 1. nia. }
  apply (write_filled s _ _ _ _ _ (le16 a ++ le16 n ++ sync_entries (l ++ g)) R (sync_write_bytes_params_ok a n c l) (sync_write_bytes_writes a n (l ++ g) Fa)).
  - rewrite !app_length, (sync_entries_length c (l ++ g) Fa). rewrite app_length. cbn [length le16]. lia.
  - rewrite app_length, Lg. replace (length l + k) with motors by (unfold k; lia). intro L.
    assert (L0 : length (leftover s 8 (4 + motors * (1 + c))) = 4 + motors * (1 + c)) by (apply leftover_length; lia).
    rewrite P, leftover_split, leftover_split. change (8 + 4) with 12. rewrite <- Eg by lia.
    assert (L4 : length (leftover s 8 4) = 4) by (apply leftover_length; lia).
    destruct (leftover s 8 4) as [|x [|y [|z [|u [|v h]]]]]; try discriminate L4. unfold enc_ok. cbn [app].
    rewrite u16_at0. cbn [obind]. rewrite u16_at2. cbn [obind].
    match goal with |- context [sync_write_bytes_loop _ _ _ ?b] =>
      change b with ((le16 a ++ le16 n) ++ leftover s 12 (length l * (1 + c)) ++ sync_entries g) end.
    rewrite (sync_loop_tail c l 0 (le16 a ++ le16 n)).
    + cbn [obind]. rewrite sync_entries_app, <- app_assoc. reflexivity.
    + exact F.
    + reflexivity.
    + apply leftover_length. lia.
Qed.

(** The last message that was sent lies in the write buffer. *)
Lemma message_stays : forall m id i params s s', reach s -> sends m id i params -> m s = (Val (Ok tt), s') ->
  exists w, calls s s' [LDiscard None; LWrite w None] /\ firstn (length w) (b_wbuf s') = w.
Proof.
  intros m id i params s s' R S E. destruct (sends_ok _ _ _ _ _ _ R S E) as [C _].
  exists (code_wire id (i :: params)). split; [exact C|].
  destruct (N.lt_ge_cases usize_max (N.of_nat (length params + 10))) as [O|O].
  { rewrite (sends_overflow _ _ _ _ _ S (reach_inv _ R) O) in E. discriminate E. }
  rewrite (sends_value _ _ _ _ _ S (reach_inv _ R) O) in E. unfold write_value in E. cbv zeta in E.
  destruct (length (b_wbuf s) <? length params + 10); [discriminate E|].
  destruct (build_result (b_dbg s) (length (b_wbuf s)) (i :: params)); try discriminate E.
  unfold transmit in E. cbn [b_port set_used set_rlen set_wbuf] in E.
  destruct (hd None (p_discards (b_port s))); [discriminate E|].
  assert (W : b_wbuf s' = code_wire id (i :: params) ++ skipn (10 + length params + fcount 0 (i :: params)) (b_wbuf s)).
  { apply (f_equal (fun x => b_wbuf (snd x))) in E. cbn [snd] in E. rewrite <- E. reflexivity. }
  rewrite W, firstn_app, Nat.sub_diag, firstn_all. cbn [firstn]. apply app_nil_r.
Qed.

Lemma L_C90_old_messages_come_back : forall m id i params motors a n l s0 s, reach s0 -> sends m id i params ->
  m s0 = (Val (Ok tt), s) -> of_size (N.to_nat n) l -> length l <= motors -> (4 + N.of_nat motors * (1 + n) <= usize_max)%N ->
  exists w ghosts, calls s0 s [LDiscard None; LWrite w None] /\
    length l + length ghosts = motors /\ of_size (N.to_nat n) ghosts /\
    (12 + motors * (1 + N.to_nat n) <= length w ->
     sync_entries ghosts = firstn (length (sync_entries ghosts)) (skipn (12 + length (sync_entries l)) w)) /\
    sync_write_bytes_iter (N.of_nat motors) a n l s = sync_write_bytes a n (l ++ ghosts) s.
Proof.
  intros m id i params motors a n l s0 s R S E F Hm Hn. destruct (message_stays _ _ _ _ _ _ R S E) as [w [C W]].
  assert (R' : reach s).
  { clear C. destruct S as [id i params enc H|id e params enc H].
    - exact (reach_call _ _ _ _ _ R (api_write_instruction id i (length params) enc (proj1 H)) E).
    - exact (reach_call _ _ _ _ _ R (api_device_write_status id e (length params) enc (proj1 H)) E). }
  destruct (L_C90_fewer_than_announced motors a n l s R' F Hm Hn) as [g [Lg [Fg [Eg K]]]].
  exists w, g. split; [exact C|]. split; [exact Lg|]. split; [exact Fg|]. split; [|exact K]. intro L.
  assert (Lw : length w <= length (b_wbuf s)) by (rewrite <- W, firstn_length; lia).
  rewrite Eg at 1 by lia. unfold leftover. rewrite <- W at 1.
  pose proof (sync_entries_length _ _ F) as L1. pose proof (sync_entries_length _ _ Fg) as L2.
  rewrite skipn_firstn_comm, firstn_firstn, Nat.min_l; [reflexivity|]. nia.
Qed.

(** Ghosts in a new client: announced two commands, given one. *)
Lemma ghost_sent : exists s', sync_write_bytes_iter 2 100 1 [mkSync x05 [x01]] (fresh true [] 32 64) = (Val (Ok tt), s') /\
  exists w, calls (fresh true [] 32 64) s' [LDiscard None; LWrite w None] /\ length w = 18.
Proof.
  eexists. split; [vm_compute; reflexivity|]. eexists. split; [vm_compute; reflexivity|reflexivity].
Qed.

Lemma incl_one : forall (x : sync_write_data (list byte)) l, incl l [x] -> l = repeat x (length l).
Proof.
  intros x l. induction l as [|y l IH]; intro H; [reflexivity|]. cbn [length repeat].
  destruct (H y (or_introl eq_refl)) as [<-|[]]. f_equal. apply IH. intros z Hz. apply H. right. exact Hz.
Qed.

Lemma L_C90_only_what_was_given_refuted : ~ (forall motors a n l s s' evs, reach s -> of_size (N.to_nat n) l ->
  is_u16 a -> is_u16 n -> (N.of_nat (length l) <= motors <= usize_max)%N ->
  sync_write_bytes_iter motors a n l s = (Val (Ok tt), s') -> calls s s' evs ->
  exists commands, incl commands l /\ NoDup commands /\ sent BROADCAST SYNC_WRITE (le16 a ++ le16 n ++ sync_entries commands) evs).
Proof.
  intro H. destruct ghost_sent as [s' [E [w [C L]]]].
  destruct (H 2%N 100%N 1%N [mkSync x05 [x01]] _ _ _ (fresh_reach true [] 32 64 ltac:(lia)) ltac:(repeat constructor) eq_refl eq_refl
    ltac:(vm_compute; split; discriminate) E C) as [commands [I [D [w' [r [evs' [Ew [_ [Fr _]]]]]]]]].
  injection Ew as <- _ _.
  assert (K : commands = [] \/ commands = [mkSync x05 [x01]]).
  { rewrite (incl_one _ _ I) in D |- *. destruct commands as [|c1 [|c2 commands]]; [left|right|exfalso]; try reflexivity.
    cbn [length repeat] in D. inversion D as [|? ? Hin _]. apply Hin. left. reflexivity. }
  destruct Fr as [crc [W _]].
  - destruct K as [-> | ->]; vm_compute; repeat split; discriminate.
  - destruct K as [-> | ->]; vm_compute; reflexivity.
  - destruct K as [-> | ->]; apply (f_equal (@length byte)) in W; rewrite L in W; vm_compute in W; discriminate W.
Qed.

(** ** Bulk writes *)

Lemma bulk_iter_unfold : forall counted written s, Forall (fun w => is_u16 (N.of_nat (length (bw_data w)))) counted ->
  bulk_write_iter counted written s = write_instruction BROADCAST BULK_WRITE (bulk_size counted) (enc_ok (bulk_write_loop 0 written)) s.
Proof.
  intros counted written s F. unfold bulk_write_iter, bind, lift. rewrite bulk_write_count_val by exact F. cbn [Nat.add].
  rewrite bulk_size_entries. reflexivity.
Qed.

Lemma L_C90_bulk_same_size : forall counted written s, Forall (fun w => is_u16 (N.of_nat (length (bw_data w)))) (counted ++ written) ->
  bulk_size counted = bulk_size written -> bulk_write_iter counted written s = bulk_write written s.
Proof.
  intros counted written s F H. apply Forall_app in F. destruct F as [F1 F2].
  rewrite (bulk_iter_unfold _ _ _ F1), H. unfold bulk_write, bind, lift. rewrite bulk_write_count_val by exact F2.
  cbn [Nat.add]. rewrite bulk_size_entries. reflexivity.
Qed.

Lemma N_lt_dec : forall a b, {(a < b)%N} + {~ (a < b)%N}.
Proof. intros a b. destruct (a <? b)%N eqn:E; [left|right]; lia. Qed.

Lemma L_C90_bulk_more_than_counted : forall counted written s o s', reach s -> bulk_size counted < bulk_size written ->
  bulk_write_iter counted written s = (o, s') -> calls s s' [] /\ forall r, o <> Val (Ok r).
Proof.
  intros counted written s o s' R H E.
  destruct (Forall_dec (fun w => is_u16 (N.of_nat (length (bw_data w)))) (fun w => N_lt_dec _ _) counted) as [F|F].
  - rewrite bulk_iter_unfold in E by exact F. revert E. apply write_refused; [exact R|apply bulk_write_params_ok|]. intro L.
    destruct (bulk_loop_short written 0 (leftover s 8 (bulk_size counted))) as [p K]; [lia| |].
    + rewrite leftover_length by lia. exact H.
    + exists p. unfold enc_ok. rewrite K. reflexivity.
  - unfold bulk_write_iter, bind, lift in E. rewrite bulk_write_count_panics in E by exact F. injection E as <- <-.
    split; [apply no_calls|discriminate].
Qed.

Lemma L_C90_bulk_fewer_than_counted : forall counted written s enc, reach s ->
  Forall (fun w => is_u16 (N.of_nat (length (bw_data w)))) counted -> bulk_size written <= bulk_size counted ->
  10 + bulk_size counted <= length (b_wbuf s) ->
  writes_parameters enc (bulk_write_entries written ++ leftover s (8 + bulk_size written) (bulk_size counted - bulk_size written)) ->
  bulk_write_iter counted written s = write_instruction BROADCAST BULK_WRITE (bulk_size counted) enc s.
Proof.
  intros counted written s enc R F H L W. rewrite bulk_iter_unfold by exact F.
  apply (write_filled s _ _ _ _ _ _ R (bulk_write_params_ok written) W).
  - rewrite app_length, leftover_length, <- bulk_size_entries by lia. lia.
  - intros _. replace (bulk_size counted) with (bulk_size written + (bulk_size counted - bulk_size written)) at 1 by lia.
    rewrite leftover_split. unfold enc_ok.
    pose proof (bulk_loop_tail written 0 [] (leftover s 8 (bulk_size written))
      (leftover s (8 + bulk_size written) (bulk_size counted - bulk_size written)) eq_refl) as K. cbn [app] in K. rewrite K.
    + reflexivity.
    + rewrite leftover_length by lia. apply bulk_size_entries.
Qed.
