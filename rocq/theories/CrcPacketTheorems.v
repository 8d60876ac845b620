(** * CrcPacketTheorems: exactly which corruptions of a packet are overlooked *)
From Coq Require Import ZArith ZifyN ZifyNat ZifyBool.
From Verif Require Import Base Endian Error Checksum Bytestuff Packet Time Bus Data Client
  Instructions Device Api Spec CallSpec StreamSpec Demo DemoProofs Lib ChecksumProofs CrcErrorProofs StuffProofs
  WriteProofs ReadProofs ApiProofs StreamProofs MessageProofs SendProofs SendTheorems ReadTheorems CorruptionTheorems
  CrcSpec CrcExact.

Lemma ordered : forall cov crc, in_crc_order (cov ++ le16 crc) = cov ++ [n2b (crc / 256); n2b crc].
Proof.
  intros cov crc. unfold in_crc_order. rewrite app_length. cbn [le16 length].
  replace (length cov + 2 - 2) with (length cov) by lia.
  rewrite firstn_app, firstn_all, skipn_app_ge, Nat.sub_diag by lia. cbn [firstn skipn]. rewrite app_nil_r. reflexivity.
Qed.

Lemma code_word : forall cov crc, (crc < 2 ^ 16)%N ->
  poly_of (in_crc_order (cov ++ le16 crc)) = N.lxor (poly_of cov * 2 ^ 16) crc.
Proof.
  intros cov crc H. rewrite ordered. unfold poly_of. rewrite fold_left_app. cbn [fold_left].
  rewrite N.lxor_comm, lxor_shifted by exact H. pose proof (le16_value crc H) as K.
  change (2 ^ 16)%N with 65536%N. lia.
Qed.

Lemma code_word_iff : forall cov crc, (crc < 2 ^ 16)%N ->
  (crc = calculate_checksum 0 cov <-> exists q, poly_of (in_crc_order (cov ++ le16 crc)) = clmul q crc_poly).
Proof.
  intros cov crc H. rewrite <- checksum_iff_crc16 by reflexivity. rewrite code_word by exact H. unfold is_crc16.
  rewrite N.mul_0_l, N.lxor_0_l. split.
  - intros [_ [q ->]]. exists q. rewrite N.lxor_assoc, N.lxor_nilpotent, N.lxor_0_r. reflexivity.
  - intros [q E]. split; [exact H|]. exists q. rewrite <- E, N.lxor_assoc, N.lxor_nilpotent, N.lxor_0_r. reflexivity.
Qed.

Lemma L_C22_exactly_overlooked : forall s d g id body w w' rest, reach s -> 10 <= length (b_rbuf s) ->
  ~ contains g header -> length w <= length (b_rbuf s) -> corruption_of id body w w' -> body <> [] ->
  pending s = map inl (g ++ w') ++ rest ->
  exists r s', read_packet_deadline d s = (Val r, s') /\ pending s' = rest /\
    ((exists p, r = Ok p) <->
     exists q, N.lxor (poly_of (in_crc_order w)) (poly_of (in_crc_order w')) = clmul q crc_poly) /\
    ((exists p, r = Ok p) \/ exists m c, m <> c /\ r = Err (RInvalidMessage (IMChecksum m c))).
Proof.
  intros s d g id body w w' rest R L G Lw C Hb P.
  destruct (corruption_shape _ _ _ _ C) as [id' [body' [crc [crc' [Ew [Em [Ew' [Lb [Hl [Hc [Hc' Ec]]]]]]]]]]].
  set (cov := msg_head id (N.of_nat (length body + 2)) ++ body) in *.
  set (cov' := msg_head id' (N.of_nat (length body + 2)) ++ body') in *.
  assert (Ec2 : msg_head id' (N.of_nat (length body' + 2)) ++ body' = cov') by (unfold cov'; rewrite Lb; reflexivity).
  assert (Lc : length w = length body + 9) by (rewrite Ew; unfold cov; rewrite !app_length, msg_head_length; cbn; lia).
  assert (Hb' : body' <> []) by (intros ->; destruct body; [contradiction|discriminate Lb]).
  assert (Key : crc' = calculate_checksum 0 cov' <->
    exists q, N.lxor (poly_of (in_crc_order w)) (poly_of (in_crc_order w')) = clmul q crc_poly).
  { apply (proj1 (code_word_iff cov crc Hc)) in Ec. rewrite <- Ew in Ec. destruct Ec as [q0 E0].
    rewrite (code_word_iff cov' crc' Hc'), <- Ew', E0. split.
    - intros [q ->]. exists (N.lxor q0 q). apply clmul_lxor.
    - intros [q E]. exists (N.lxor q0 q). rewrite <- clmul_lxor, <- E, <- N.lxor_assoc, N.lxor_nilpotent, N.lxor_0_l. reflexivity. }
  pose proof (ideal_message (length (b_rbuf s)) g id' body' crc' rest L G Hc' ltac:(rewrite Lb; exact Hl) ltac:(lia)) as I.
  rewrite <- Em in I.
  destruct (N.eq_dec crc' (calculate_checksum 0 cov')) as [E|E].
  - rewrite (message_event_good id' body' crc') in I; [|rewrite Ec2; apply checksum_iff_crc16; [reflexivity|exact E]|exact Hb'].
    destruct (read_step d s _ _ (reach_inv _ R) ltac:(rewrite P; exact I)) as [s' [E1 [E2 _]]].
    cbn [ev_out] in E1. do 2 eexists. split; [exact E1|]. split; [exact E2|]. split; [|left; eauto]. rewrite <- Key.
    split; [intros _; exact E|eauto].
  - rewrite (message_event_bad id' body' crc' (calculate_checksum 0 cov')) in I; [|rewrite Ec2; apply checksum_iff_crc16; reflexivity|exact E].
    destruct (read_step d s _ _ (reach_inv _ R) ltac:(rewrite P; exact I)) as [s' [E1 [E2 _]]].
    cbn [ev_out] in E1. do 2 eexists. split; [exact E1|]. split; [exact E2|]. split; [|right; eauto]. rewrite <- Key.
    split; [intros [p K]; discriminate K|intro K; contradiction].
Qed.

Lemma L_C22_burst_into_checksum : exists s id body w w' p s', reach s /\ corruption_of id body w w' /\ w' <> w /\
  burst 9 (diff_bits w w') /\ pending s = map inl w' /\ read_packet_deadline now s = (Val (Ok p), s') /\
  ~ packet_is p id body.
Proof.
  set (w' := [xff; xff; xfd; x00; x01; x05; x00; x55; x00; x03] ++
    [n2b (N.lxor (b2n (nth 10 (frame x01 [x55; x00; x00]) x00)) 10); nth 11 (frame x01 [x55; x00; x00]) x00]).
  exists (fresh true [RdData w'] 32 32), x01, [x55; x00; x00], (frame x01 [x55; x00; x00]), w'. do 2 eexists.
  split; [apply fresh_reach; lia|]. split.
  { split; [apply raw_frame_ok; reflexivity|]. split; [|split]; vm_compute; reflexivity. }
  split; [vm_compute; discriminate|]. split.
  { split; [vm_compute; discriminate|]. exists 78. intros j Hj.
    do 96 (destruct j as [|j]; [vm_compute in Hj; try discriminate Hj; lia|]). vm_compute in Hj. destruct j; discriminate Hj. }
  split; [reflexivity|]. split; [vm_compute; reflexivity|]. intros [_ K]. vm_compute in K. discriminate K.
Qed.
