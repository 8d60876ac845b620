(** * Properties C16-C24: reading *)
From Verif Require Import Base Endian Error Checksum Bytestuff Packet Time Bus Data Client
  Instructions Device Api Spec CallSpec StreamSpec Demo DemoProofs CrcErrorProofs SendTheorems ReadTheorems
  DeviceTheorems CorruptionTheorems CrcSpec CrcPacketTheorems.

(** ** C16.  Refuted: a message whose length field is 2 (no instruction byte),
    with a correct CRC, makes every read panic; one with only the instruction
    byte 0x55 makes reading a status panic. *)
Theorem C16_read_never_panics_refuted :
  ~ (forall s d o s', reach s -> read_packet_deadline d s = (o, s') ->
     match o with Panic _ => False | _ => True end).
Proof. exact L_C16_read_never_panics_refuted. Qed.
Print Assumptions C16_read_never_panics_refuted.

(** These are the only such inputs. *)
Theorem C16_exactly_when_read_panics : forall s d, reach s -> 10 <= length (b_rbuf s) ->
  ((exists p s', read_packet_deadline d s = (Panic p, s')) <->
   (exists g id crc rest, ~ contains g header /\
      pending s = map inl (g ++ header ++ [id; x02; x00] ++ le16 crc) ++ rest /\
      is_crc16 0 (header ++ [id; x02; x00]) crc)).
Proof. exact L_C16_exactly_when_read_panics. Qed.
Print Assumptions C16_exactly_when_read_panics.

Theorem C16_exactly_when_status_read_panics : forall s t, reach s -> 10 <= length (b_rbuf s) ->
  ((exists p s', read_status_response_timeout t s = (Panic p, s')) <->
   (exists g id body w rest, ~ contains g header /\ (body = [] \/ body = [STATUS]) /\ framed id body w /\
      pending s = map inl (g ++ w) ++ rest)).
Proof. exact L_C16_exactly_when_status_read_panics. Qed.
Print Assumptions C16_exactly_when_status_read_panics.

Theorem C16_exactly_when_device_read_panics : forall s t, reach s -> 10 <= length (b_rbuf s) ->
  ((exists p s', device_read t s = (Panic p, s')) <->
   (exists line g id w rest, skips (length (b_rbuf s)) (pending s) line /\
      ~ contains g header /\ framed id [] w /\ line = map inl (g ++ w) ++ rest)).
Proof. exact L_C16_exactly_when_device_read_panics. Qed.
Print Assumptions C16_exactly_when_device_read_panics.

Example C16_example :
  let s := fresh false [RdData (x00 :: header); RdData ([x01; x02; x00] ++ le16 (Checksum.calculate_checksum 0 (header ++ [x01; x02; x00])))] 32 32 in
  reach s /\ 10 <= length (b_rbuf s) /\ exists p s', read_packet_deadline now s = (Panic p, s').
Proof. cbv zeta. split; [apply fresh_reach; lia|]. split; [vm_compute; lia|]. do 2 eexists. vm_compute. reflexivity. Qed.

(** A status packet without an error byte, and a packet without an instruction byte
    after a status packet that the device skips. *)
Example C16_status_and_device_example :
  let w := message x01 [STATUS] (Checksum.calculate_checksum 0 (header ++ [x01] ++ le16 3 ++ [STATUS])) in
  let w0 := message x02 [] (Checksum.calculate_checksum 0 (header ++ [x02] ++ le16 2 ++ [])) in
  let s := fresh true [RdData ([xff] ++ w)] 32 32 in
  let t := fresh true [RdData (frame x01 [STATUS; x00] ++ w0)] 32 32 in
  reach s /\ pending s = map inl ([xff] ++ w) ++ [] /\
  (exists p s', read_status_response_timeout dur_34ms s = (Panic p, s')) /\
  (exists p s', read_packet_deadline now s = (Val (Ok p), s')) /\
  reach t /\ (exists p t', device_read dur_34ms t = (Panic p, t')).
Proof.
  cbv zeta. split; [apply fresh_reach; lia|]. split; [vm_compute; reflexivity|].
  split; [do 2 eexists; vm_compute; reflexivity|]. split; [do 2 eexists; vm_compute; reflexivity|].
  split; [apply fresh_reach; lia|]. do 2 eexists. vm_compute. reflexivity.
Qed.

(** ** C17 *)
Theorem C17_chunking_does_not_matter : forall s t ds1 ds2 o1 o2 s' t',
  reach s -> reach t -> length (b_rbuf s) = length (b_rbuf t) ->
  pending s = pending t -> length ds1 = length ds2 ->
  reads ds1 s = (o1, s') -> reads ds2 t = (o2, t') ->
  o1 = o2 /\ pending s' = pending t'.
Proof. exact L_C17_chunking_does_not_matter. Qed.
Print Assumptions C17_chunking_does_not_matter.

Theorem C17_scripts : forall dbg p1 p2 rb1 rb2 wb1 wb2 baud1 baud2 s t ds,
  items (p_script p1) = items (p_script p2) -> length rb1 = length rb2 ->
  with_buffers_and_baud_rate dbg p1 rb1 wb1 baud1 = Val s ->
  with_buffers_and_baud_rate dbg p2 rb2 wb2 baud2 = Val t ->
  fst (reads ds s) = fst (reads ds t).
Proof. exact L_C17_scripts. Qed.
Print Assumptions C17_scripts.

Example C17_example :
  let w := frame x01 [STATUS; x00; x07] ++ frame x02 [STATUS; x80] in
  let s := fresh true [RdData w] 32 32 in
  let t := fresh false (map (fun b => RdData [b]) w) 32 64 in
  reach s /\ reach t /\ length (b_rbuf s) = length (b_rbuf t) /\ pending s = pending t /\
  exists p1 p2 s', reads [now; now] s = (Val [Ok p1; Ok p2], s').
Proof.
  cbv zeta. split; [apply fresh_reach; lia|]. split; [apply fresh_reach; lia|].
  split; [reflexivity|]. split; [vm_compute; reflexivity|]. do 3 eexists. vm_compute. reflexivity.
Qed.

(** ** C18.  Refuted by data that is not stuffed reversibly (C06). *)
Theorem C18_write_then_read_refuted :
  ~ (forall s m id i params s' w t d g rest,
     reach s -> sends m id i params -> m s = (Val (Ok tt), s') ->
     calls s s' [LDiscard None; LWrite w None] -> (N.of_nat (length w) < 2 ^ 16)%N ->
     reach t -> ~ contains g header -> length w <= length (b_rbuf t) ->
     pending t = map inl (g ++ w) ++ rest ->
     exists p t', read_packet_deadline d t = (Val (Ok p), t') /\ pending t' = rest /\
       packet_is p id (i :: params)).
Proof. exact L_C18_write_then_read_refuted. Qed.
Print Assumptions C18_write_then_read_refuted.

Theorem C18_write_then_read_partial : forall s m id i params s' w t d g rest,
  reach s -> sends m id i params -> m s = (Val (Ok tt), s') ->
  calls s s' [LDiscard None; LWrite w None] -> (N.of_nat (length w - 7) < 2 ^ 16)%N ->
  reach t -> ~ contains g header -> length w <= length (b_rbuf t) ->
  pending t = map inl (g ++ w) ++ rest ->
  exists p t', read_packet_deadline d t = (Val (Ok p), t') /\ pending t' = rest /\
    (packet_is p id (i :: params) <-> comes_back (i :: params)).
Proof. exact L_C18_write_then_read_partial. Qed.
Print Assumptions C18_write_then_read_partial.

Theorem C18_accessors : forall p id i params, packet_is p id (i :: params) ->
  pk_id p = Val id /\ pk_instruction p = Val i /\ in_parameters p = Val params /\
  forall error rest, params = error :: rest -> st_error p = Val error /\ st_parameters p = Val rest.
Proof. exact L_C18_accessors. Qed.
Print Assumptions C18_accessors.

Example C18_example : exists s' w p t',
  let s := fresh true [] 32 32 in
  let t := fresh true [RdData ([x00; xff] ++ w)] 32 32 in
  let m := write_instruction x01 WRITE 5 (fill [x74; x00; xff; xff; xfd]) in
  reach s /\ sends m x01 WRITE [x74; x00; xff; xff; xfd] /\ m s = (Val (Ok tt), s') /\
  calls s s' [LDiscard None; LWrite w None] /\ (N.of_nat (length w - 7) < 2 ^ 16)%N /\
  comes_back [WRITE; x74; x00; xff; xff; xfd] /\ reach t /\ ~ contains [x00; xff] header /\
  length w <= length (b_rbuf t) /\ pending t = map inl ([x00; xff] ++ w) ++ [] /\
  read_packet_deadline now t = (Val (Ok p), t') /\ packet_is p x01 [WRITE; x74; x00; xff; xff; xfd].
Proof.
  eexists. exists (frame x01 [WRITE; x74; x00; xff; xff; xfd]). do 2 eexists. cbv zeta.
  split; [apply fresh_reach; lia|].
  split; [apply (sends_instruction x01 WRITE [x74; x00; xff; xff; xfd]), fill_writes|].
  split; [vm_compute; reflexivity|]. split; [vm_compute; reflexivity|]. split; [vm_compute; reflexivity|].
  split; [vm_compute; intuition lia|]. split; [apply fresh_reach; lia|]. split; [apply header_in_false; reflexivity|].
  split; [vm_compute; lia|]. split; [reflexivity|]. split; [vm_compute; reflexivity|]. split; vm_compute; reflexivity.
Qed.

(** ** C19 *)
Theorem C19_back_to_back : forall s ds sent chunks rest, reach s ->
  Forall2 (arrives (length (b_rbuf s))) sent chunks -> length ds = length sent ->
  pending s = map inl (concat chunks) ++ rest ->
  exists packets s', reads ds s = (Val (map Ok packets), s') /\ pending s' = rest /\
    Forall2 (fun p x => packet_is p (fst x) (snd x)) packets sent.
Proof. exact L_C19_back_to_back. Qed.
Print Assumptions C19_back_to_back.

Example C19_example :
  let sent := [(x01, [STATUS; x00; xff; xff; xfd]); (x02, [STATUS; x80]); (x03, [PING])] in
  let chunks := [frame x01 [STATUS; x00; xff; xff; xfd]; [xff; x01] ++ frame x02 [STATUS; x80]; frame x03 [PING]] in
  let s := fresh true [RdData (firstn 17 (concat chunks)); RdData (skipn 17 (concat chunks))] 20 10 in
  reach s /\ Forall2 (arrives (length (b_rbuf s))) sent chunks /\ pending s = map inl (concat chunks) ++ [].
Proof.
  cbv zeta. split; [apply fresh_reach; lia|]. split; [|vm_compute; reflexivity].
  constructor; [|constructor; [|constructor; [|constructor]]].
  - exists [], (frame x01 [STATUS; x00; xff; xff; xfd]). demo.
  - exists [xff; x01], (frame x02 [STATUS; x80]). demo.
  - exists [], (frame x03 [PING]). demo.
Qed.

(** ** C20 *)
Theorem C20_io_error_loses_nothing : forall s d e s',
  reach s -> read_packet_deadline d s = (Val (Err (RIo e)), s') ->
  exists received rest, pending s = map inl received ++ inr e :: rest /\
    forall t ds, reach t -> length (b_rbuf t) = length (b_rbuf s) ->
      pending t = map inl received ++ rest ->
      fst (reads ds s') = fst (reads ds t).
Proof. exact L_C20_io_error_loses_nothing. Qed.
Print Assumptions C20_io_error_loses_nothing.

Theorem C20_interrupted_packet_arrives : forall s ds g id body w q b rest, reach s ->
  ~ contains g header -> is_frame id body w -> body <> [] -> ff_runs_ok body ->
  length w <= length (b_rbuf s) -> bytes_in (q ++ [inl b]) = g ++ w ->
  pending s = q ++ inl b :: rest -> length ds = S (length (errors_in q)) ->
  exists p s', reads ds s = (Val (map (fun e => Err (RIo e)) (errors_in q) ++ [Ok p]), s') /\
    packet_is p id body /\ pending s' = rest.
Proof. exact L_C20_interrupted_packet_arrives. Qed.
Print Assumptions C20_interrupted_packet_arrives.

Example C20_example : exists p s',
  let w := frame x01 [STATUS; x00; x2a] in
  let s := fresh true [RdData (firstn 3 w); RdErr (IoTimeout 1); RdData (firstn 5 (skipn 3 w));
                       RdErr (IoOther 2); RdData (skipn 8 w)] 32 32 in
  reach s /\ reads [now; now; now] s = (Val [Err (RIo (IoTimeout 1)); Err (RIo (IoOther 2)); Ok p], s') /\
  packet_is p x01 [STATUS; x00; x2a].
Proof.
  do 2 eexists. cbv zeta. split; [apply fresh_reach; lia|]. split; [vm_compute; reflexivity|].
  split; vm_compute; reflexivity.
Qed.

(** ** C21 *)
Theorem C21_bad_checksum_skipped : forall s d g id body crc c rest, reach s -> 10 <= length (b_rbuf s) ->
  ~ contains g header -> (crc < 2 ^ 16)%N -> (N.of_nat (length body + 2) < 2 ^ 16)%N ->
  length body + 9 <= length (b_rbuf s) ->
  is_crc16 0 (header ++ [id] ++ le16 (N.of_nat (length body + 2)) ++ body) c -> crc <> c ->
  pending s = map inl (g ++ message id body crc) ++ rest ->
  exists s', read_packet_deadline d s = (Val (Err (RInvalidMessage (IMChecksum crc c))), s') /\
    pending s' = rest.
Proof. exact L_C21_bad_checksum_skipped. Qed.
Print Assumptions C21_bad_checksum_skipped.

Example C21_example : exists s',
  let c := Checksum.calculate_checksum 0 (header ++ [x01] ++ le16 4 ++ [STATUS; x00]) in
  let s := fresh true [RdData ([x07] ++ message x01 [STATUS; x00] 1 ++ frame x02 [STATUS; x00])] 32 32 in
  reach s /\ is_crc16 0 (header ++ [x01] ++ le16 (N.of_nat (length [STATUS; x00] + 2)) ++ [STATUS; x00]) c /\
  1%N <> c /\ pending s = map inl ([x07] ++ message x01 [STATUS; x00] 1) ++ map inl (frame x02 [STATUS; x00]) /\
  read_packet_deadline now s = (Val (Err (RInvalidMessage (IMChecksum 1 c))), s') /\
  pending s' = map inl (frame x02 [STATUS; x00]).
Proof.
  eexists. cbv zeta. split; [apply fresh_reach; lia|].
  split; [apply checksum_iff_crc16; reflexivity|].
  split; [vm_compute; discriminate|]. split; [vm_compute; reflexivity|]. split; vm_compute; reflexivity.
Qed.

(** ** C22 *)
Theorem C22_corruption_detected : forall s d g id body w w' rest, reach s -> 10 <= length (b_rbuf s) ->
  ~ contains g header -> length w <= length (b_rbuf s) -> corruption_of id body w w' ->
  (Nat.odd (weight (diff_bits w w')) = true \/
   ((N.of_nat (length w) <= 4095)%N /\ weight (diff_bits w w') = 2) \/
   (burst 16 (diff_bits w w') /\ skipn (length w - 2) w' = skipn (length w - 2) w)) ->
  pending s = map inl (g ++ w') ++ rest ->
  exists m c s', m <> c /\ pending s' = rest /\
    read_packet_deadline d s = (Val (Err (RInvalidMessage (IMChecksum m c))), s').
Proof. exact L_C22_corruption_detected. Qed.
Print Assumptions C22_corruption_detected.

(** Three bits of the packet (id, data and CRC) are flipped. *)
Example C22_example : exists s',
  let w := frame x01 [STATUS; x00; x2a] in
  let w' := [xff; xff; xfd; x00; x03; x05; x00; x55; x00; x2b] ++ [xad; xa1] in
  let s := fresh true [RdData w'] 32 32 in
  corruption_of x01 [STATUS; x00; x2a] w w' /\ weight (diff_bits w w') = 3 /\
  read_packet_deadline now s = (Val (Err (RInvalidMessage (IMChecksum 41389 20906))), s').
Proof.
  eexists. cbv zeta. split; [|split; vm_compute; reflexivity].
  split; [apply raw_frame_ok; reflexivity|]. split; [|split]; vm_compute; reflexivity.
Qed.

(** Exactly which corruptions are overlooked: those whose difference, with the two
    bytes of the CRC in the order of the division, is a multiple of the generator.
    Every other one is an error that shows two different checksums. *)
Theorem C22_exactly_overlooked : forall s d g id body w w' rest, reach s -> 10 <= length (b_rbuf s) ->
  ~ contains g header -> length w <= length (b_rbuf s) -> corruption_of id body w w' -> body <> [] ->
  pending s = map inl (g ++ w') ++ rest ->
  exists r s', read_packet_deadline d s = (Val r, s') /\ pending s' = rest /\
    ((exists p, r = Ok p) <->
     exists q, N.lxor (poly_of (in_crc_order w)) (poly_of (in_crc_order w')) = clmul q crc_poly) /\
    ((exists p, r = Ok p) \/ exists m c, m <> c /\ r = Err (RInvalidMessage (IMChecksum m c))).
Proof. exact L_C22_exactly_overlooked. Qed.
Print Assumptions C22_exactly_overlooked.

(** The CRC travels least significant byte first, so a burst that ends in its first
    byte is not a burst for the division: a burst of nine bits can go unnoticed. *)
Theorem C22_burst_into_checksum : exists s id body w w' p s', reach s /\ corruption_of id body w w' /\ w' <> w /\
  burst 9 (diff_bits w w') /\ pending s = map inl w' /\ read_packet_deadline now s = (Val (Ok p), s') /\
  ~ packet_is p id body.
Proof. exact L_C22_burst_into_checksum. Qed.
Print Assumptions C22_burst_into_checksum.

(** The last data byte changes by 3 and the first CRC byte by 10: overlooked. *)
Example C22_exactly_example :
  let w := frame x01 [STATUS; x00; x00] in
  let w' := [xff; xff; xfd; x00; x01; x05; x00; x55; x00; x03] ++ [n2b (N.lxor (b2n (nth 10 w x00)) 10); nth 11 w x00] in
  corruption_of x01 [STATUS; x00; x00] w w' /\ w <> w' /\
  N.lxor (poly_of (in_crc_order w)) (poly_of (in_crc_order w')) = clmul 2 crc_poly.
Proof.
  cbv zeta. split; [|split; [vm_compute; discriminate|vm_compute; reflexivity]].
  split; [apply raw_frame_ok; reflexivity|]. split; [|split]; vm_compute; reflexivity.
Qed.

(** ** C23 *)
Theorem C23_oversized : forall s d g id n x r rest, reach s -> 10 <= length (b_rbuf s) ->
  ~ contains g header -> (n < 2 ^ 16)%N -> (N.of_nat (length (b_rbuf s)) < 7 + n)%N ->
  pending s = map inl (g ++ header ++ [id] ++ le16 n ++ x :: r) ++ rest ->
  exists s', read_packet_deadline d s =
      (Val (Err (RBufferFull (mkBTS (7 + N.to_nat n) (length (b_rbuf s))))), s') /\
    pending s' = map inl (x :: r) ++ rest.
Proof. exact L_C23_oversized. Qed.
Print Assumptions C23_oversized.

Theorem C23_reading_resumes : forall s d1 d2 g id n x r id2 body2 w2 rest, reach s ->
  ~ contains g header -> (n < 2 ^ 16)%N -> (N.of_nat (length (b_rbuf s)) < 7 + n)%N ->
  ~ contains (x :: r) header -> is_frame id2 body2 w2 -> body2 <> [] -> ff_runs_ok body2 ->
  length w2 <= length (b_rbuf s) ->
  pending s = map inl (g ++ header ++ [id] ++ le16 n ++ (x :: r) ++ w2) ++ rest ->
  exists p s', reads [d1; d2] s =
      (Val [Err (RBufferFull (mkBTS (7 + N.to_nat n) (length (b_rbuf s)))); Ok p], s') /\
    packet_is p id2 body2 /\ pending s' = rest.
Proof. exact L_C23_reading_resumes. Qed.
Print Assumptions C23_reading_resumes.

(** The error is reported when the byte after the length field has arrived. *)
Theorem C23_header_alone_waits : forall s d g id n e rest, reach s -> 10 <= length (b_rbuf s) ->
  ~ contains g header -> (n < 2 ^ 16)%N ->
  pending s = map inl (g ++ header ++ [id] ++ le16 n) ++ inr e :: rest ->
  exists s', read_packet_deadline d s = (Val (Err (RIo e)), s') /\
    pending s' = map inl (header ++ [id] ++ le16 n) ++ rest.
Proof. exact L_C23_header_alone_waits. Qed.
Print Assumptions C23_header_alone_waits.

Example C23_example :
  let s := fresh true [RdData ([xfd] ++ header ++ [x01] ++ le16 400 ++ [x01; x02; x03] ++ frame x02 [STATUS; x00])] 32 32 in
  reach s /\ ~ contains [xfd] header /\ (400 < 2 ^ 16)%N /\ (N.of_nat (length (b_rbuf s)) < 7 + 400)%N /\
  ~ contains [x01; x02; x03] header /\ is_frame x02 [STATUS; x00] (frame x02 [STATUS; x00]) /\
  ff_runs_ok [STATUS; x00] /\ length (frame x02 [STATUS; x00]) <= length (b_rbuf s) /\
  pending s = map inl ([xfd] ++ header ++ [x01] ++ le16 400 ++ [x01; x02; x03] ++ frame x02 [STATUS; x00]) ++ [].
Proof. cbv zeta. demo. Qed.

(** Only the length field has arrived when the port reports a timeout. *)
Example C23_header_alone_example : exists s',
  let s := fresh true [RdData ([xfd] ++ header ++ [x01] ++ le16 400); RdErr (IoTimeout 1); RdData [x01]] 32 32 in
  reach s /\ ~ contains [xfd] header /\
  pending s = map inl ([xfd] ++ header ++ [x01] ++ le16 400) ++ inr (IoTimeout 1) :: map inl [x01] /\
  read_packet_deadline now s = (Val (Err (RIo (IoTimeout 1))), s') /\
  pending s' = map inl (header ++ [x01] ++ le16 400) ++ map inl [x01].
Proof. eexists. cbv zeta. demo. Qed.

(** ** C24 *)
Theorem C24_garbage_does_not_matter : forall s t ds u g c q, reach s -> reach t ->
  10 <= length (b_rbuf s) -> length (b_rbuf t) = length (b_rbuf s) ->
  garbage_split u g c -> pending s = map inl u ++ q -> pending t = map inl c ++ q ->
  fst (reads ds s) = fst (reads ds t).
Proof. exact L_C24_garbage_does_not_matter. Qed.
Print Assumptions C24_garbage_does_not_matter.

Theorem C24_split_exists : forall u, exists g c, garbage_split u g c /\
  forall g' c', garbage_split u g' c' -> g' = g /\ c' = c.
Proof. exact L_C24_split_exists. Qed.
Print Assumptions C24_split_exists.

Theorem C24_only_garbage_dropped : forall s d e s', reach s ->
  read_packet_deadline d s = (Val (Err (RIo e)), s') ->
  exists u g c rest, pending s = map inl u ++ inr e :: rest /\ garbage_split u g c /\
    pending s' = map inl c ++ rest.
Proof. exact L_C24_only_garbage_dropped. Qed.
Print Assumptions C24_only_garbage_dropped.

Theorem C24_only_packet_consumed : forall s d p s', reach s ->
  read_packet_deadline d s = (Val (Ok p), s') ->
  exists g id body w, ~ contains g header /\ framed id body w /\
    pending s = map inl (g ++ w) ++ pending s' /\
    exists u, packet_is p id u /\ some_stuffed u body.
Proof. exact L_C24_only_packet_consumed. Qed.
Print Assumptions C24_only_packet_consumed.

Example C24_example : garbage_split [x01; xff; xfd; xff; xff] [x01; xff; xfd] [xff; xff].
Proof.
  split; [reflexivity|]. split.
  - right. right. split; [discriminate|]. exists [xfd; x00]. split; [discriminate|reflexivity].
  - intros g1 b g2 E [[r H]|[_ [r [_ H]]]];
    (destruct g1 as [|? [|? [|? [|? ?]]]]; injection E; intros; subst; discriminate).
Qed.

(** The garbage of the split is gone after a timeout, the two bytes that may begin a
    header are kept; then a packet is read with the garbage before it. *)
Example C24_reading_example : exists s1 p s2,
  let w := frame x01 [STATUS; x00; x2a] in
  let s := fresh true [RdData [x01; xff; xfd; xff; xff]; RdErr (IoTimeout 1); RdData ([xff; x07] ++ w)] 32 32 in
  reach s /\ read_packet_deadline now s = (Val (Err (RIo (IoTimeout 1))), s1) /\
  pending s1 = map inl [xff; xff] ++ map inl ([xff; x07] ++ w) /\
  read_packet_deadline now s1 = (Val (Ok p), s2) /\ pending s2 = [].
Proof.
  do 3 eexists. cbv zeta. split; [apply fresh_reach; lia|]. split; [vm_compute; reflexivity|].
  split; [vm_compute; reflexivity|]. split; vm_compute; reflexivity.
Qed.
