(** * Properties C08-C13: writing *)
From Verif Require Import Base Endian Error Checksum Bytestuff Packet Time Bus Data Client
  Instructions Device Api Spec CallSpec StreamSpec Demo DemoProofs SendTheorems.

(** ** C08.  Not true for every packet (stuffing, see C04, and packets over 65535
    bytes, see C10). *)
Theorem C08_packet_on_wire_refuted :
  ~ (forall s m id i params s', reach s -> sends m id i params -> m s = (Val (Ok tt), s') ->
     exists w, calls s s' [LDiscard None; LWrite w None] /\ is_frame id (i :: params) w).
Proof. exact L_C08_packet_on_wire_refuted. Qed.
Print Assumptions C08_packet_on_wire_refuted.

(** What is sent is always header, id, length (modulo 2^16), some stuffing of
    the data, and the CRC of all that. *)
Theorem C08_packet_on_wire_partial : forall s m id i params s',
  reach s -> sends m id i params -> m s = (Val (Ok tt), s') ->
  exists w, calls s s' [LDiscard None; LWrite w None] /\
    is_packet id i params w /\
    (is_frame id (i :: params) w <->
     ff_runs_ok (i :: params) /\ (N.of_nat (length (pstuff (i :: params)) + 2) < 2 ^ 16)%N).
Proof. exact L_C08_packet_on_wire_partial. Qed.
Print Assumptions C08_packet_on_wire_partial.

(** No API call ever writes anything else. *)
Theorem C08_every_call_writes_packets : forall A (m : M A) s o s', reach s -> api m -> m s = (o, s') ->
  exists evs, calls s s' evs /\
    calls_ok (fun w => exists id i params, is_packet id i params w) evs.
Proof. exact L_C08_every_call_writes_packets. Qed.
Print Assumptions C08_every_call_writes_packets.

Example C08_example : exists s',
  let s := fresh true [] 32 32 in
  let m := write_instruction x01 READ 4 (fill [x84; x00; x04; x00]) in
  reach s /\ sends m x01 READ [x84; x00; x04; x00] /\ m s = (Val (Ok tt), s') /\
  calls s s' [LDiscard None; LWrite [xff; xff; xfd; x00; x01; x07; x00; x02; x84; x00; x04; x00; x1d; x15] None].
Proof.
  eexists. cbv zeta. split; [apply fresh_reach; lia|].
  split; [apply (sends_instruction x01 READ [x84; x00; x04; x00]), fill_writes|].
  split; [vm_compute; reflexivity|]. vm_compute. reflexivity.
Qed.

(** ** C09.  Refuted: with room for the stuffed data but not for the CRC after
    it, the function panics. *)
Theorem C09_no_panic_refuted :
  ~ (forall s m id i params, reach s -> sends m id i params ->
     (N.of_nat (length (pstuff (i :: params)) + 9) < 2 ^ 16)%N ->
     if 9 + length (pstuff (i :: params)) <=? length (b_wbuf s)
     then exists r s', m s = (Val r, s') /\ not_too_small r
     else exists e s', m s = (Val (Err (WBufferTooSmall e)), s')).
Proof. exact L_C09_no_panic_refuted. Qed.
Print Assumptions C09_no_panic_refuted.

(** The exact outcome in every case, for packets that fit the length field. *)
Theorem C09_outcome_partial : forall s m id i params, reach s -> sends m id i params ->
  let room := length (b_wbuf s) in
  let stuffed := length (i :: params) + noticed_from 0 (i :: params) in
  (N.of_nat (stuffed + 2) < 2 ^ 16)%N ->
  (9 + stuffed <= room -> exists r s', m s = (Val r, s') /\ not_too_small r) /\
  (room < 7 + stuffed \/ room < length params + 10 ->
     exists e s', m s = (Val (Err (WBufferTooSmall e)), s')) /\
  (7 + stuffed <= room < 9 + stuffed /\ length params + 10 <= room ->
     m s = (Panic PIndex, s)).
Proof. exact L_C09_outcome_partial. Qed.
Print Assumptions C09_outcome_partial.

Theorem C09_enough_room_never_panics : forall s m id i params, reach s -> sends m id i params ->
  let n := length params in
  10 + n + (n + 1) / 3 <= length (b_wbuf s) ->
  (N.of_nat (n + (n + 1) / 3 + 3) < 2 ^ 16)%N ->
  exists r s', m s = (Val r, s') /\ not_too_small r.
Proof. exact L_C09_enough_room_never_panics. Qed.
Print Assumptions C09_enough_room_never_panics.

Example C09_example :
  let s := fresh true [] 32 13 in
  let m := write_instruction x01 WRITE 3 (fill [xff; xff; xfd]) in
  reach s /\ sends m x01 WRITE [xff; xff; xfd] /\ 
  length [WRITE; xff; xff; xfd] + noticed_from 0 [WRITE; xff; xff; xfd] = 5 /\ (N.of_nat (5 + 2) < 2 ^ 16)%N /\
  7 + 5 <= length (b_wbuf s) < 9 + 5 /\ 3 + 10 <= length (b_wbuf s).
Proof.
  cbv zeta. split; [apply fresh_reach; lia|].
  split; [apply (sends_instruction x01 WRITE [xff; xff; xfd]), fill_writes|]. demo.
Qed.

Example C09_example_room :
  10 + 3 + (3 + 1) / 3 <= length (b_wbuf (fresh true [] 32 14)) /\ (N.of_nat (3 + (3 + 1) / 3 + 3) < 2 ^ 16)%N.
Proof. demo. Qed.

(** ** C10.  Refuted in debug and in release builds for packets over 65535 bytes. *)
Theorem C10_length_field_refuted : forall dbg,
  ~ (forall s m id i params s', b_dbg s = dbg -> reach s -> sends m id i params ->
     m s = (Val (Ok tt), s') ->
     exists w, calls s s' [LDiscard None; LWrite w None] /\
       length_field w = N.of_nat (length w - 7)).
Proof. exact L_C10_length_field_refuted. Qed.
Print Assumptions C10_length_field_refuted.

Theorem C10_length_field_modulo : forall s m id i params s',
  reach s -> sends m id i params -> m s = (Val (Ok tt), s') ->
  exists w, calls s s' [LDiscard None; LWrite w None] /\
    length_field w = (N.of_nat (length w - 7) mod 2 ^ 16)%N.
Proof. exact L_C10_length_field_modulo. Qed.
Print Assumptions C10_length_field_modulo.

(** With a write buffer of at most 65542 bytes it is always right. *)
Theorem C10_length_field_partial : forall s m id i params s',
  (N.of_nat (length (b_wbuf s)) <= 65542)%N ->
  reach s -> sends m id i params -> m s = (Val (Ok tt), s') ->
  exists w, calls s s' [LDiscard None; LWrite w None] /\
    length_field w = N.of_nat (length w - 7).
Proof. exact L_C10_length_field_partial. Qed.
Print Assumptions C10_length_field_partial.

Example C10_example : (N.of_nat (length (b_wbuf (fresh true [] 32 128))) <= 65542)%N.
Proof. vm_compute. discriminate. Qed.

(** ** C11 *)
Theorem C11_rejected_write_changes_nothing : forall s id i n enc e s', reach s -> encoder_ok enc ->
  write_instruction id i n enc s = (Val (Err (WBufferTooSmall e)), s') ->
  calls s s' [] /\ pending s' = pending s /\
  exists w', s' = set_wbuf s w' /\ length w' = length (b_wbuf s) /\ firstn 4 w' = header.
Proof. exact L_C11_rejected_write_changes_nothing. Qed.
Print Assumptions C11_rejected_write_changes_nothing.

Theorem C11_rejected_status_changes_nothing : forall s id error n enc e s', reach s -> encoder_ok enc ->
  write_status id error n enc s = (Val (Err (WBufferTooSmall e)), s') ->
  calls s s' [] /\ pending s' = pending s /\
  exists w', s' = set_wbuf s w' /\ length w' = length (b_wbuf s) /\ firstn 4 w' = header.
Proof. exact L_C11_rejected_status_changes_nothing. Qed.
Print Assumptions C11_rejected_status_changes_nothing.

Example C11_example : exists s',
  let s := fresh true [RdData [x2a]] 32 12 in
  reach s /\ encoder_ok (fill [x01; x02; x03]) /\
  write_instruction x01 WRITE 3 (fill [x01; x02; x03]) s = (Val (Err (WBufferTooSmall (mkBTS 13 12))), s').
Proof.
  eexists. cbv zeta. split; [apply fresh_reach; lia|]. split; [apply fill_writes|]. vm_compute. reflexivity.
Qed.

Example C11_status_example : exists s',
  let s := fresh true [RdData [x2a]] 32 13 in
  reach s /\ encoder_ok (fill [x01; x02; x03]) /\
  write_status x01 x00 3 (fill [x01; x02; x03]) s = (Val (Err (WBufferTooSmall (mkBTS 14 13))), s').
Proof.
  eexists. cbv zeta. split; [apply fresh_reach; lia|]. split; [apply fill_writes|]. vm_compute. reflexivity.
Qed.

(** ** C12 *)
Theorem C12_discard_once_before_write : forall s m id i params o s',
  reach s -> sends m id i params -> m s = (o, s') ->
  match o with
  | Val (Ok _) => exists w, calls s s' [LDiscard None; LWrite w None]
  | Val (Err (WWrite e)) => exists w, calls s s' [LDiscard None; LWrite w (Some e)]
  | Val (Err (WDiscardBuffer e)) => calls s s' [LDiscard (Some e)]
  | Val (Err (WBufferTooSmall _)) => calls s s' []
  | Panic _ => calls s s' []
  | Blocked => False
  end.
Proof. exact L_C12_discard_once_before_write. Qed.
Print Assumptions C12_discard_once_before_write.

Theorem C12_port_failure_decides : forall s m id i params s' r,
  reach s -> sends m id i params -> m s = (Val r, s') -> not_too_small r ->
  r = match hd None (p_discards (b_port s)) with
      | Some e => Err (WDiscardBuffer e)
      | None => match hd None (p_writes (b_port s)) with
                | Some e => Err (WWrite e)
                | None => Ok tt
                end
      end.
Proof. exact L_C12_port_failure_decides. Qed.
Print Assumptions C12_port_failure_decides.

Theorem C12_every_call : forall A (m : M A) s o s', reach s -> api m -> m s = (o, s') ->
  exists evs, calls s s' evs /\ calls_ok (fun _ => True) evs.
Proof. exact L_C12_every_call. Qed.
Print Assumptions C12_every_call.

(** The port refuses to discard. *)
Example C12_example : exists s',
  let s := mkBus (mkPort [] [Some (IoOther 5)] [] [] 0 []) 57600 (repeat x00 20) 0 0 (header ++ repeat x00 20) true in
  reach s /\
  write_instruction x01 PING 0 (fill []) s = (Val (Err (WDiscardBuffer (IoOther 5))), s') /\
  calls s s' [LDiscard (Some (IoOther 5))].
Proof.
  eexists. cbv zeta. split.
  - apply (reach_new true (mkPort [] [Some (IoOther 5)] [] [] 0 []) (repeat x00 20) (repeat x00 24) 57600).
    vm_compute. reflexivity.
  - split; vm_compute; reflexivity.
Qed.

(** ** C13 *)
Theorem C13_stale_input_dropped : forall s m id i params r s',
  reach s -> sends m id i params -> m s = (Val r, s') -> not_too_small r ->
  pending s' = items (p_script (b_port s')) /\
  forall t ds, reach t -> pending t = items (p_script (b_port s')) ->
    length (b_rbuf t) = length (b_rbuf s) ->
    fst (reads ds s') = fst (reads ds t).
Proof. exact L_C13_stale_input_dropped. Qed.
Print Assumptions C13_stale_input_dropped.

(** A status packet that was received before the write (left over in the buffer
    after reading the one before it) is not returned after it. *)
Example C13_example : exists p s1 s2,
  let w := frame x01 [STATUS; x00] in
  let s := fresh true [RdData (w ++ w)] 32 32 in
  reach s /\ read_status_response_timeout dur_34ms s = (Val (Ok p), s1) /\
  pending s1 = map inl w ++ [] /\
  write_instruction x01 PING 0 (fill []) s1 = (Val (Ok tt), s2) /\ pending s2 = [].
Proof.
  do 3 eexists. cbv zeta. split; [apply fresh_reach; lia|].
  split; [vm_compute; reflexivity|]. split; [vm_compute; reflexivity|].
  split; vm_compute; reflexivity.
Qed.
