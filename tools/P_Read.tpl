(** * Properties C16-C24: reading *)
From Verif Require Import Base Endian Error Checksum Bytestuff Packet Time Bus Data Client
  Instructions Device Api Spec CallSpec StreamSpec Demo DemoProofs CrcErrorProofs SendTheorems ReadTheorems
  DeviceTheorems CorruptionTheorems CrcSpec CrcPacketTheorems.

(** ** C16.  Refuted: a message whose length field is 2 (no instruction byte),
    with a correct CRC, makes every read panic; one with only the instruction
    byte 0x55 makes reading a status panic. *)
@C16_read_never_panics_refuted

(** These are the only such inputs. *)
@C16_exactly_when_read_panics

@C16_exactly_when_status_read_panics

@C16_exactly_when_device_read_panics

Example C16_example :
  let s := fresh false [RdData (x00 :: header); RdData ([x01; x02; x00] ++ le16 (Checksum.calculate_checksum 0 (header ++ [x01; x02; x00])))] 32 32 in
  reach s /\ 10 <= length (b_rbuf s) /\ exists p s', read_packet_deadline now s = (Panic p, s').
Proof. cbv zeta. split; [apply fresh_reach; lia|]. split; [vm_compute; lia|]. do 2 eexists. vm_compute. reflexivity. Qed.

(** A status packet without an error byte, and a packet without an instruction byte
    after a status packet that the device skips. *)
Example C16_status_and_device_example :
  let w := message x01 [STATUS] (Checksum.calculate_checksum 0 (header ++ [x01] ++ le16 3 ++ [STATUS])) in
  let w0 := message x02 [] (Checksum.calculate_checksum 0 (header ++ [x02] ++ le16 2 ++ [])) in
  let s := fresh true [RdData ([xff] ++ w)] 32 32 in
  let t := fresh true [RdData (frame x01 [STATUS; x00] ++ w0)] 32 32 in
  reach s /\ pending s = map inl ([xff] ++ w) ++ [] /\
  (exists p s', read_status_response_timeout dur_34ms s = (Panic p, s')) /\
  (exists p s', read_packet_deadline now s = (Val (Ok p), s')) /\
  reach t /\ (exists p t', device_read dur_34ms t = (Panic p, t')).
Proof.
  cbv zeta. split; [apply fresh_reach; lia|]. split; [vm_compute; reflexivity|].
  split; [do 2 eexists; vm_compute; reflexivity|]. split; [do 2 eexists; vm_compute; reflexivity|].
  split; [apply fresh_reach; lia|]. do 2 eexists. vm_compute. reflexivity.
Qed.

(** ** C17 *)
@C17_chunking_does_not_matter

@C17_scripts

Example C17_example :
  let w := frame x01 [STATUS; x00; x07] ++ frame x02 [STATUS; x80] in
  let s := fresh true [RdData w] 32 32 in
  let t := fresh false (map (fun b => RdData [b]) w) 32 64 in
  reach s /\ reach t /\ length (b_rbuf s) = length (b_rbuf t) /\ pending s = pending t /\
  exists p1 p2 s', reads [now; now] s = (Val [Ok p1; Ok p2], s').
Proof.
  cbv zeta. split; [apply fresh_reach; lia|]. split; [apply fresh_reach; lia|].
  split; [reflexivity|]. split; [vm_compute; reflexivity|]. do 3 eexists. vm_compute. reflexivity.
Qed.

(** ** C18.  Refuted by data that is not stuffed reversibly (C06). *)
@C18_write_then_read_refuted

@C18_write_then_read_partial

@C18_accessors

Example C18_example : exists s' w p t',
  let s := fresh true [] 32 32 in
  let t := fresh true [RdData ([x00; xff] ++ w)] 32 32 in
  let m := write_instruction x01 WRITE 5 (fill [x74; x00; xff; xff; xfd]) in
  reach s /\ sends m x01 WRITE [x74; x00; xff; xff; xfd] /\ m s = (Val (Ok tt), s') /\
  calls s s' [LDiscard None; LWrite w None] /\ (N.of_nat (length w - 7) < 2 ^ 16)%N /\
  comes_back [WRITE; x74; x00; xff; xff; xfd] /\ reach t /\ ~ contains [x00; xff] header /\
  length w <= length (b_rbuf t) /\ pending t = map inl ([x00; xff] ++ w) ++ [] /\
  read_packet_deadline now t = (Val (Ok p), t') /\ packet_is p x01 [WRITE; x74; x00; xff; xff; xfd].
Proof.
  eexists. exists (frame x01 [WRITE; x74; x00; xff; xff; xfd]). do 2 eexists. cbv zeta.
  split; [apply fresh_reach; lia|].
  split; [apply (sends_instruction x01 WRITE [x74; x00; xff; xff; xfd]), fill_writes|].
  split; [vm_compute; reflexivity|]. split; [vm_compute; reflexivity|]. split; [vm_compute; reflexivity|].
  split; [vm_compute; intuition lia|]. split; [apply fresh_reach; lia|]. split; [apply header_in_false; reflexivity|].
  split; [vm_compute; lia|]. split; [reflexivity|]. split; [vm_compute; reflexivity|]. split; vm_compute; reflexivity.
Qed.

(** ** C19 *)
@C19_back_to_back

Example C19_example :
  let sent := [(x01, [STATUS; x00; xff; xff; xfd]); (x02, [STATUS; x80]); (x03, [PING])] in
  let chunks := [frame x01 [STATUS; x00; xff; xff; xfd]; [xff; x01] ++ frame x02 [STATUS; x80]; frame x03 [PING]] in
  let s := fresh true [RdData (firstn 17 (concat chunks)); RdData (skipn 17 (concat chunks))] 20 10 in
  reach s /\ Forall2 (arrives (length (b_rbuf s))) sent chunks /\ pending s = map inl (concat chunks) ++ [].
Proof.
  cbv zeta. split; [apply fresh_reach; lia|]. split; [|vm_compute; reflexivity].
  constructor; [|constructor; [|constructor; [|constructor]]].
  - exists [], (frame x01 [STATUS; x00; xff; xff; xfd]). demo.
  - exists [xff; x01], (frame x02 [STATUS; x80]). demo.
  - exists [], (frame x03 [PING]). demo.
Qed.

(** ** C20 *)
@C20_io_error_loses_nothing

@C20_interrupted_packet_arrives

Example C20_example : exists p s',
  let w := frame x01 [STATUS; x00; x2a] in
  let s := fresh true [RdData (firstn 3 w); RdErr (IoTimeout 1); RdData (firstn 5 (skipn 3 w));
                       RdErr (IoOther 2); RdData (skipn 8 w)] 32 32 in
  reach s /\ reads [now; now; now] s = (Val [Err (RIo (IoTimeout 1)); Err (RIo (IoOther 2)); Ok p], s') /\
  packet_is p x01 [STATUS; x00; x2a].
Proof.
  do 2 eexists. cbv zeta. split; [apply fresh_reach; lia|]. split; [vm_compute; reflexivity|].
  split; vm_compute; reflexivity.
Qed.

(** ** C21 *)
@C21_bad_checksum_skipped

Example C21_example : exists s',
  let c := Checksum.calculate_checksum 0 (header ++ [x01] ++ le16 4 ++ [STATUS; x00]) in
  let s := fresh true [RdData ([x07] ++ message x01 [STATUS; x00] 1 ++ frame x02 [STATUS; x00])] 32 32 in
  reach s /\ is_crc16 0 (header ++ [x01] ++ le16 (N.of_nat (length [STATUS; x00] + 2)) ++ [STATUS; x00]) c /\
  1%N <> c /\ pending s = map inl ([x07] ++ message x01 [STATUS; x00] 1) ++ map inl (frame x02 [STATUS; x00]) /\
  read_packet_deadline now s = (Val (Err (RInvalidMessage (IMChecksum 1 c))), s') /\
  pending s' = map inl (frame x02 [STATUS; x00]).
Proof.
  eexists. cbv zeta. split; [apply fresh_reach; lia|].
  split; [apply checksum_iff_crc16; reflexivity|].
  split; [vm_compute; discriminate|]. split; [vm_compute; reflexivity|]. split; vm_compute; reflexivity.
Qed.

(** ** C22 *)
@C22_corruption_detected

(** Three bits of the packet (id, data and CRC) are flipped. *)
Example C22_example : exists s',
  let w := frame x01 [STATUS; x00; x2a] in
  let w' := [xff; xff; xfd; x00; x03; x05; x00; x55; x00; x2b] ++ [xad; xa1] in
  let s := fresh true [RdData w'] 32 32 in
  corruption_of x01 [STATUS; x00; x2a] w w' /\ weight (diff_bits w w') = 3 /\
  read_packet_deadline now s = (Val (Err (RInvalidMessage (IMChecksum 41389 20906))), s').
Proof.
  eexists. cbv zeta. split; [|split; vm_compute; reflexivity].
  split; [apply raw_frame_ok; reflexivity|]. split; [|split]; vm_compute; reflexivity.
Qed.

(** Exactly which corruptions are overlooked: those whose difference, with the two
    bytes of the CRC in the order of the division, is a multiple of the generator.
    Every other one is an error that shows two different checksums. *)
@C22_exactly_overlooked

(** The CRC travels least significant byte first, so a burst that ends in its first
    byte is not a burst for the division: a burst of nine bits can go unnoticed. *)
@C22_burst_into_checksum

(** The last data byte changes by 3 and the first CRC byte by 10: overlooked. *)
Example C22_exactly_example :
  let w := frame x01 [STATUS; x00; x00] in
  let w' := [xff; xff; xfd; x00; x01; x05; x00; x55; x00; x03] ++ [n2b (N.lxor (b2n (nth 10 w x00)) 10); nth 11 w x00] in
  corruption_of x01 [STATUS; x00; x00] w w' /\ w <> w' /\
  N.lxor (poly_of (in_crc_order w)) (poly_of (in_crc_order w')) = clmul 2 crc_poly.
Proof.
  cbv zeta. split; [|split; [vm_compute; discriminate|vm_compute; reflexivity]].
  split; [apply raw_frame_ok; reflexivity|]. split; [|split]; vm_compute; reflexivity.
Qed.

(** ** C23 *)
@C23_oversized

@C23_reading_resumes

(** The error is reported when the byte after the length field has arrived. *)
@C23_header_alone_waits

Example C23_example :
  let s := fresh true [RdData ([xfd] ++ header ++ [x01] ++ le16 400 ++ [x01; x02; x03] ++ frame x02 [STATUS; x00])] 32 32 in
  reach s /\ ~ contains [xfd] header /\ (400 < 2 ^ 16)%N /\ (N.of_nat (length (b_rbuf s)) < 7 + 400)%N /\
  ~ contains [x01; x02; x03] header /\ is_frame x02 [STATUS; x00] (frame x02 [STATUS; x00]) /\
  ff_runs_ok [STATUS; x00] /\ length (frame x02 [STATUS; x00]) <= length (b_rbuf s) /\
  pending s = map inl ([xfd] ++ header ++ [x01] ++ le16 400 ++ [x01; x02; x03] ++ frame x02 [STATUS; x00]) ++ [].
Proof. cbv zeta. demo. Qed.

(** Only the length field has arrived when the port reports a timeout. *)
Example C23_header_alone_example : exists s',
  let s := fresh true [RdData ([xfd] ++ header ++ [x01] ++ le16 400); RdErr (IoTimeout 1); RdData [x01]] 32 32 in
  reach s /\ ~ contains [xfd] header /\
  pending s = map inl ([xfd] ++ header ++ [x01] ++ le16 400) ++ inr (IoTimeout 1) :: map inl [x01] /\
  read_packet_deadline now s = (Val (Err (RIo (IoTimeout 1))), s') /\
  pending s' = map inl (header ++ [x01] ++ le16 400) ++ map inl [x01].
Proof. eexists. cbv zeta. demo. Qed.

(** ** C24 *)
@C24_garbage_does_not_matter

@C24_split_exists

@C24_only_garbage_dropped

@C24_only_packet_consumed

Example C24_example : garbage_split [x01; xff; xfd; xff; xff] [x01; xff; xfd] [xff; xff].
Proof.
  split; [reflexivity|]. split.
  - right. right. split; [discriminate|]. exists [xfd; x00]. split; [discriminate|reflexivity].
  - intros g1 b g2 E [[r H]|[_ [r [_ H]]]];
    (destruct g1 as [|? [|? [|? [|? ?]]]]; injection E; intros; subst; discriminate).
Qed.

(** The garbage of the split is gone after a timeout, the two bytes that may begin a
    header are kept; then a packet is read with the garbage before it. *)
Example C24_reading_example : exists s1 p s2,
  let w := frame x01 [STATUS; x00; x2a] in
  let s := fresh true [RdData [x01; xff; xfd; xff; xff]; RdErr (IoTimeout 1); RdData ([xff; x07] ++ w)] 32 32 in
  reach s /\ read_packet_deadline now s = (Val (Err (RIo (IoTimeout 1))), s1) /\
  pending s1 = map inl [xff; xff] ++ map inl ([xff; x07] ++ w) /\
  read_packet_deadline now s1 = (Val (Ok p), s2) /\ pending s2 = [].
Proof.
  do 3 eexists. cbv zeta. split; [apply fresh_reach; lia|]. split; [vm_compute; reflexivity|].
  split; [vm_compute; reflexivity|]. split; vm_compute; reflexivity.
Qed.
