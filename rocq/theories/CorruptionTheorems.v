(** * CorruptionTheorems: corrupted packets are recognised *)
From Coq Require Import ZArith ZifyN ZifyNat ZifyBool.
From Verif Require Import Base Endian Error Checksum Bytestuff Packet Time Bus Data Client
  Instructions Device Api Spec CallSpec StreamSpec Demo Lib ChecksumProofs CrcErrorProofs StuffProofs
  WriteProofs ReadProofs ApiProofs StreamProofs MessageProofs SendProofs SendTheorems ReadTheorems.

Lemma combine_app : forall A B (a c : list A) (b d : list B), length a = length b ->
  combine (a ++ c) (b ++ d) = combine a b ++ combine c d.
Proof.
  induction a as [|x a IH]; destruct b as [|y b]; intros d H; try discriminate; [reflexivity|].
  cbn [app combine]. f_equal. apply IH. cbn [length] in H. lia.
Qed.

Lemma diff_bits_app : forall a b c d, length a = length b ->
  diff_bits (a ++ c) (b ++ d) = diff_bits a b ++ diff_bits c d.
Proof.
  intros a b c d H. unfold diff_bits, bits_of. rewrite !flat_map_app, combine_app.
  - apply map_app.
  - change (length (bits_of a) = length (bits_of b)). rewrite !bits_of_length. lia.
Qed.

Lemma diff_bits_length : forall a b, length a = length b -> length (diff_bits a b) = 8 * length a.
Proof.
  intros a b H. unfold diff_bits. rewrite map_length, combine_length, !bits_of_length. lia.
Qed.

Lemma testbit_n2b : forall v i, (i < 8)%N -> N.testbit (b2n (n2b v)) i = N.testbit v i.
Proof. intros v i H. rewrite b2n_n2b. change 256%N with (2 ^ 8)%N. apply N.mod_pow2_bits_low, H. Qed.

Lemma testbit_div256 : forall v i, N.testbit (v / 256) i = N.testbit v (i + 8).
Proof. intros v i. change 256%N with (2 ^ 8)%N. apply N.div_pow2_bits. Qed.

Definition bits16 (x : N) : list bool :=
  map (N.testbit x) [15; 14; 13; 12; 11; 10; 9; 8; 7; 6; 5; 4; 3; 2; 1; 0]%N.

Lemma crc_diff_weight : forall a b, weight (diff_bits (le16 a) (le16 b)) = weight (bits16 (N.lxor a b)).
Proof.
  intros a b.
  assert (E : diff_bits (le16 a) (le16 b) =
    map (N.testbit (N.lxor a b)) [7; 6; 5; 4; 3; 2; 1; 0]%N ++ map (N.testbit (N.lxor a b)) [15; 14; 13; 12; 11; 10; 9; 8]%N).
  { unfold diff_bits, le16, bits_of, bits_of_byte. cbn [flat_map map app combine fst snd].
    rewrite !testbit_n2b by lia. rewrite !testbit_div256. cbn [N.add]. rewrite !N.lxor_spec. reflexivity. }
  rewrite E, weight_app, Nat.add_comm, <- weight_app. reflexivity.
Qed.

Lemma bits16_par : forall x, Nat.odd (weight (bits16 x)) = par 16 x.
Proof.
  intro x.
  assert (K : forall n, Nat.odd (weight (map (fun i => N.testbit x (N.of_nat i)) (rev (seq 0 n)))) = par n x).
  { induction n as [|n IH]; [reflexivity|].
    rewrite seq_S, rev_app_distr. cbn [rev app map par Nat.add]. rewrite weight_cons, Nat.odd_add, IH.
    f_equal. destruct (N.testbit x (N.of_nat n)); reflexivity. }
  exact (K 16).
Qed.

Lemma bits16_nth : forall x i, (i < 16)%N -> N.testbit x i = nth (15 - N.to_nat i) (bits16 x) false.
Proof.
  intros x i H.
  assert (K : forall k, k < 16 -> N.testbit x (N.of_nat k) = nth (15 - k) (bits16 x) false).
  { intros k Hk. do 16 (destruct k as [|k]; [reflexivity|]). lia. }
  specialize (K (N.to_nat i) ltac:(lia)). rewrite N2Nat.id in K. exact K.
Qed.

Lemma bits16_zero : forall x, (x < 2 ^ 16)%N -> weight (bits16 x) = 0 -> x = 0%N.
Proof.
  intros x H W. apply weight_0 in W. apply N.bits_inj. intro i. rewrite N.bits_0.
  destruct (N.lt_ge_cases i 16) as [L|L].
  - rewrite bits16_nth, W, nth_repeat_false by exact L. reflexivity.
  - apply (testbit_high x 16 i H L).
Qed.

Lemma bits16_one : forall x, (x < 2 ^ 16)%N -> weight (bits16 x) = 1 -> exists j, (j < 16)%N /\ x = (2 ^ j)%N.
Proof.
  intros x H W. destruct (weight_S _ _ W) as [a [r [E W2]]]. apply weight_0 in W2.
  assert (L : length (bits16 x) = 16) by reflexivity.
  rewrite E, app_length, repeat_length in L. cbn [length] in L.
  exists (N.of_nat (15 - a)). split; [lia|]. apply N.bits_inj. intro i.
  destruct (N.lt_ge_cases i 16) as [Li|Li].
  - rewrite bits16_nth by exact Li. rewrite E, W2.
    destruct (Nat.lt_trichotomy (15 - N.to_nat i) a) as [K|[K|K]].
    + rewrite app_nth1, nth_repeat_false by (rewrite repeat_length; lia).
      rewrite N.pow2_bits_false by lia. reflexivity.
    + rewrite app_nth2, repeat_length, K, Nat.sub_diag by (rewrite repeat_length; lia). cbn [nth].
      replace i with (N.of_nat (15 - a)) by lia. rewrite N.pow2_bits_true. reflexivity.
    + rewrite app_nth2, repeat_length by (rewrite repeat_length; lia).
      destruct (15 - N.to_nat i - a) as [|k] eqn:Ek; [lia|]. cbn [nth]. rewrite nth_repeat_false.
      rewrite N.pow2_bits_false by lia. reflexivity.
  - rewrite (testbit_high x 16 i H Li). rewrite N.pow2_bits_false by lia. reflexivity.
Qed.

Lemma iter_add : forall a b x, iter (a + b) x = iter b (iter a x).
Proof. induction a as [|a IH]; intros b x; cbn [Nat.add iter]; [reflexivity|]. apply IH. Qed.

(** The three kinds of corruption. *)
Lemma corruption_detected : forall cov cov' crc crc',
  length cov = length cov' -> (crc < 2 ^ 16)%N -> (crc' < 2 ^ 16)%N ->
  crc = calculate_checksum 0 cov -> crc' = calculate_checksum 0 cov' ->
  (Nat.odd (weight (diff_bits (cov ++ le16 crc) (cov' ++ le16 crc'))) = true -> False) /\
  ((N.of_nat (length cov + 2) <= 4095)%N ->
     weight (diff_bits (cov ++ le16 crc) (cov' ++ le16 crc')) = 2 -> False) /\
  (crc = crc' -> burst 16 (diff_bits cov cov') -> False).
Proof.
  intros cov cov' crc crc' L Hc Hc' E E'.
  pose proof (checksum_diff cov cov' 0 ltac:(reflexivity) L) as D. rewrite <- E, <- E' in D.
  rewrite diff_bits_app, weight_app, crc_diff_weight by exact L.
  set (d := diff_bits cov cov') in *. set (x := N.lxor crc crc') in *.
  assert (Hx : (x < 2 ^ 16)%N) by (apply lxor_lt; assumption).
  split; [|split].
  - intro O. rewrite Nat.odd_add, bits16_par, D, par_feed in O by reflexivity.
    change (par 16 0) with false in O. rewrite xorb_false_l, xorb_nilpotent in O. discriminate.
  - intros Hl W.
    assert (Ld : length d = 8 * length cov) by (apply diff_bits_length, L).
    destruct (weight d) as [|[|[|k]]] eqn:Wd.
    + apply weight_0 in Wd. rewrite Wd, feed_zeros, iter_0 in D. rewrite D in W. discriminate W.
    + destruct (bits16_one x Hx ltac:(lia)) as [j [Hj Ej]].
      destruct (weight_S _ _ Wd) as [a [r [Er Wr]]]. apply weight_0 in Wr.
      rewrite Er, Wr, feed_one_then_zeros in D. rewrite Ej in D.
      assert (Lr : length r < 8 * length cov).
      { rewrite <- Ld, Er, app_length. cbn [length]. lia. }
      apply (order_of_x (S (length r) + (15 - N.to_nat j))); [lia|lia|].
      rewrite iter_add, <- D. rewrite iter_pow2 by lia. f_equal. lia.
    + assert (W0 : weight (bits16 x) = 0) by lia. apply bits16_zero in W0; [|exact Hx].
      rewrite W0 in D. destruct (weight_S _ _ Wd) as [z1 [r1 [E1 W1]]].
      destruct (weight_S _ _ W1) as [z2 [r2 [E2 W2]]]. apply weight_0 in W2.
      assert (Lz : z2 < length d).
      { rewrite E1, E2. repeat rewrite app_length, repeat_length. cbn [length]. rewrite app_length, repeat_length. lia. }
      symmetry in D. rewrite E1, E2, W2 in D. revert D. apply two_bit_detected. lia.
    + lia.
  - intros Ec B. unfold x in D. rewrite Ec, N.lxor_nilpotent in D. symmetry in D. revert D. apply burst_detected, B.
Qed.

(** ** C22 *)

Lemma corruption_shape : forall id body w w', corruption_of id body w w' ->
  exists id' body' crc crc',
    w = (msg_head id (N.of_nat (length body + 2)) ++ body) ++ le16 crc /\
    w' = message id' body' crc' /\
    w' = (msg_head id' (N.of_nat (length body + 2)) ++ body') ++ le16 crc' /\
    length body' = length body /\ (N.of_nat (length body + 2) < 2 ^ 16)%N /\
    (crc < 2 ^ 16)%N /\ (crc' < 2 ^ 16)%N /\
    crc = calculate_checksum 0 (msg_head id (N.of_nat (length body + 2)) ++ body).
Proof.
  intros id body w w' [F [L [H4 H5]]]. apply framed_iff in F. destruct F as [crc [-> [Hl C]]].
  assert (Hc : (crc < 2 ^ 16)%N) by apply C. apply checksum_iff_crc16 in C; [|reflexivity].
  rewrite message_length in L.
  destruct w' as [|b0 [|b1 [|b2 [|b3 [|id' [|l0 [|l1 r]]]]]]]; cbn [length] in L; try lia.
  assert (Lr : length r = length body + 2) by lia.
  exists id', (firstn (length body) r).
  set (c2 := skipn (length body) r).
  assert (L2 : length c2 = 2) by (unfold c2; rewrite skipn_length; lia).
  assert (Er : r = firstn (length body) r ++ c2) by (symmetry; apply firstn_skipn).
  assert (Lb : length (firstn (length body) r) = length body) by (rewrite firstn_length; lia).
  destruct c2 as [|y0 [|y1 [|]]]; try discriminate L2.
  exists crc, (b2n y0 + 256 * b2n y1)%N.
  assert (E16 : le16 (b2n y0 + 256 * b2n y1) = [y0; y1] /\ (b2n y0 + 256 * b2n y1 < 2 ^ 16)%N).
  { pose proof (b2n_lt y0). pose proof (b2n_lt y1). split; [|change (2 ^ 16)%N with 65536%N; lia].
    unfold le16. f_equal; [|f_equal]; apply b2n_inj; rewrite b2n_n2b.
    - rewrite N.mul_comm, N.mod_add by lia. apply N.mod_small. assumption.
    - rewrite N.mul_comm, N.div_add by lia. rewrite N.div_small, N.add_0_l, N.mod_small by assumption. reflexivity. }
  destruct E16 as [E16 B16].
  assert (Eh : b0 :: b1 :: b2 :: b3 :: id' :: l0 :: l1 :: r =
    (msg_head id' (N.of_nat (length body + 2)) ++ firstn (length body) r) ++ le16 (b2n y0 + 256 * b2n y1)).
  { rewrite E16. rewrite <- app_assoc, <- Er. rewrite message_shape in H4, H5.
    unfold msg_head in *. cbn [firstn skipn app header le16] in H4, H5.
    injection H4 as -> -> -> ->. injection H5 as -> ->. reflexivity. }
  split; [|split; [|split; [exact Eh|]]].
  - rewrite message_shape, app_assoc. reflexivity.
  - rewrite Eh, message_shape, Lb, app_assoc. reflexivity.
  - auto 10.
Qed.

Lemma corrupted_ideal : forall cap g id body w w' rest, 10 <= cap -> ~ contains g header -> length w <= cap ->
  corruption_of id body w w' ->
  (Nat.odd (weight (diff_bits w w')) = true \/
   ((N.of_nat (length w) <= 4095)%N /\ weight (diff_bits w w') = 2) \/
   (burst 16 (diff_bits w w') /\ skipn (length w - 2) w' = skipn (length w - 2) w)) ->
  exists m c, m <> c /\ ideal cap (map inl (g ++ w') ++ rest) = (Val (Err (RInvalidMessage (IMChecksum m c))), rest).
Proof.
  intros cap g id body w w' rest Hcap G Hw C K.
  destruct (corruption_shape _ _ _ _ C) as [id' [body' [crc [crc' [Ew [Em [Ew' [Lb [Hl [Hc [Hc' Ec]]]]]]]]]]].
  exists crc', (calculate_checksum 0 (msg_head id' (N.of_nat (length body' + 2)) ++ body')).
  set (cov := msg_head id (N.of_nat (length body + 2)) ++ body) in *.
  set (cov' := msg_head id' (N.of_nat (length body + 2)) ++ body') in *.
  assert (Lc : length cov = length cov') by (unfold cov, cov'; rewrite !app_length, !msg_head_length; lia).
  assert (Lw : length w = length cov + 2) by (rewrite Ew, app_length; reflexivity).
  assert (Ne : crc' <> calculate_checksum 0 cov').
  { intro E. destruct (corruption_detected cov cov' crc crc' Lc Hc Hc' Ec E) as [K1 [K2 K3]].
    rewrite <- Ew, <- Ew' in K1, K2. destruct K as [K|[[K0 K]|[K K0]]].
    - exact (K1 K).
    - apply K2; [|exact K]. lia.
    - assert (crc = crc') as Eq.
      { rewrite Lw in K0. replace (length cov + 2 - 2) with (length cov) in K0 by lia.
        rewrite Ew in K0. rewrite (Ew') in K0. rewrite skipn_app_ge in K0 by lia.
        rewrite skipn_app_ge in K0 by lia. rewrite Lc, !Nat.sub_diag in K0. cbn [skipn] in K0.
        rewrite <- (le16_value crc Hc), <- (le16_value crc' Hc'). unfold le16 in K0. congruence. }
      apply K3; [exact Eq|]. rewrite Ew, Ew', <- Eq, diff_bits_app in K by exact Lc.
      destruct K as [W [i Hi]].
      assert (Z : diff_bits (le16 crc) (le16 crc) = repeat false 16).
      { unfold diff_bits, le16, bits_of, bits_of_byte. cbn [flat_map map app combine fst snd].
        rewrite !xorb_nilpotent. reflexivity. }
      rewrite Z in W, Hi. split.
      + rewrite weight_app, weight_repeat_false, Nat.add_0_r in W. exact W.
      + exists i. intros j Hj. apply Hi. rewrite app_nth1; [exact Hj|].
        destruct (Nat.lt_ge_cases j (length (diff_bits cov cov'))) as [Lj|Lj]; [exact Lj|].
        rewrite nth_overflow in Hj by exact Lj. discriminate. }
  assert (Ec2 : msg_head id' (N.of_nat (length body' + 2)) ++ body' = cov') by (unfold cov'; rewrite Lb; reflexivity).
  rewrite Ec2. split; [exact Ne|].
  rewrite Em, ideal_message; [|exact Hcap|exact G|exact Hc'|rewrite Lb; exact Hl|].
  - rewrite (message_event_bad id' body' crc' (calculate_checksum 0 cov')).
    + reflexivity.
    + rewrite Ec2. apply checksum_iff_crc16; reflexivity.
    + exact Ne.
  - rewrite Lb. unfold cov in Lw. rewrite app_length, msg_head_length in Lw. lia.
Qed.

Lemma L_C22_corruption_detected : forall s d g id body w w' rest, reach s -> 10 <= length (b_rbuf s) ->
  ~ contains g header -> length w <= length (b_rbuf s) -> corruption_of id body w w' ->
  (Nat.odd (weight (diff_bits w w')) = true \/
   ((N.of_nat (length w) <= 4095)%N /\ weight (diff_bits w w') = 2) \/
   (burst 16 (diff_bits w w') /\ skipn (length w - 2) w' = skipn (length w - 2) w)) ->
  pending s = map inl (g ++ w') ++ rest ->
  exists m c s', m <> c /\ pending s' = rest /\
    read_packet_deadline d s = (Val (Err (RInvalidMessage (IMChecksum m c))), s').
Proof.
  intros s d g id body w w' rest R L G Lw C K P.
  destruct (corrupted_ideal (length (b_rbuf s)) g id body w w' rest L G Lw C K) as [m [c [Ne E]]].
  destruct (read_step d s _ _ (reach_inv _ R) ltac:(rewrite P; exact E)) as [s' [E1 [E2 _]]].
  exists m, c, s'. auto.
Qed.
