(** * Properties C14, C15, C48, C49: the bus *)
From Verif Require Import Base Endian Error Checksum Bytestuff Packet Time Bus Data Client
  Instructions Device Api Spec CallSpec StreamSpec Demo DemoProofs SendTheorems FitTheorems.

(** ** C14 *)
Theorem C14_bookkeeping : forall s, reach s ->
  b_used s <= b_rlen s /\ b_rlen s <= length (b_rbuf s) /\
  10 <= length (b_wbuf s) /\ firstn 4 (b_wbuf s) = header.
Proof. exact L_C14_bookkeeping. Qed.
Print Assumptions C14_bookkeeping.

Theorem C14_sizes_never_change : forall A (m : M A) s o s', reach s -> api m -> m s = (o, s') ->
  length (b_rbuf s') = length (b_rbuf s) /\ length (b_wbuf s') = length (b_wbuf s).
Proof. exact L_C14_sizes_never_change. Qed.
Print Assumptions C14_sizes_never_change.

(** A state with used and unused bytes. *)
Example C14_example : exists p s',
  let w := frame x01 [STATUS; x00] in
  read_packet_deadline now (fresh true [RdData (w ++ [xff; xff])] 32 32) = (Val (Ok p), s') /\
  b_used s' = 11 /\ b_rlen s' = 13 /\ length (b_rbuf s') = 32.
Proof. do 2 eexists. cbv zeta. split; [vm_compute; reflexivity|]. split; [|split]; vm_compute; reflexivity. Qed.

(** ** C15 *)
Theorem C15_never_reads_into_empty_buffer : forall A (m : M A) s o s' evs,
  reach s -> api m -> m s = (o, s') -> calls s s' evs ->
  forall d cap a, In (LRead d cap a) evs \/ In (LReadWait d cap) evs -> 0 < cap.
Proof. exact L_C15_never_reads_into_empty_buffer. Qed.
Print Assumptions C15_never_reads_into_empty_buffer.

(** Nor for more bytes than the read buffer has. *)
Theorem C15_reads_fit_the_buffer : forall A (m : M A) s o s' evs,
  reach s -> api m -> m s = (o, s') -> calls s s' evs ->
  forall d cap a, In (LRead d cap a) evs \/ In (LReadWait d cap) evs -> cap <= length (b_rbuf s).
Proof. exact L_C15_reads_fit_the_buffer. Qed.
Print Assumptions C15_reads_fit_the_buffer.

Example C15_example : exists r s',
  let s := fresh true [RdData [xff; xff]; RdErr (IoTimeout 1)] 10 10 in
  reach s /\ api (read_status_response_timeout dur_34ms) /\
  read_status_response_timeout dur_34ms s = (Val r, s') /\
  calls s s' [LDeadline now; LRead now 10 (Ok [xff; xff]); LRead now 8 (Err (IoTimeout 1))].
Proof.
  do 2 eexists. cbv zeta. split; [apply fresh_reach; lia|]. split; [constructor|].
  split; vm_compute; reflexivity.
Qed.

(** ** C48 *)
Theorem C48_set_baud_rate : forall s baud,
  let answer := hd None (p_setbauds (b_port s)) in
  exists s',
    client_set_baud_rate baud s =
      (Val (match answer with None => Ok tt | Some e => Err e end), s') /\
    calls s s' [LSetBaud baud answer] /\
    b_baud s' = (match answer with None => baud | Some _ => b_baud s end) /\
    pending s' = pending s /\ b_rbuf s' = b_rbuf s /\ b_rlen s' = b_rlen s /\
    b_used s' = b_used s /\ b_wbuf s' = b_wbuf s /\ b_dbg s' = b_dbg s.
Proof. exact L_C48_set_baud_rate. Qed.
Print Assumptions C48_set_baud_rate.

(** The port refuses the rate. *)
Example C48_example : exists s',
  let s := mkBus (mkPort [] [] [] [Some (IoOther 5)] 0 []) 57600 (repeat x00 20) 0 0 (header ++ repeat x00 20) true in
  client_set_baud_rate 1000000 s = (Val (Err (IoOther 5)), s') /\ b_baud s' = 57600%N.
Proof. eexists. cbv zeta. split; vm_compute; reflexivity. Qed.

(** ** C49 *)
Theorem C49_construction : forall dbg p rb wb baud,
  (length wb < 10 -> with_buffers_and_baud_rate dbg p rb wb baud = Panic PAssert) /\
  (10 <= length wb -> exists s, with_buffers_and_baud_rate dbg p rb wb baud = Val s /\
     b_port s = p /\ b_baud s = baud /\ pending s = items (p_script p) /\
     length (b_rbuf s) = length rb /\ length (b_wbuf s) = length wb).
Proof. exact L_C49_construction. Qed.
Print Assumptions C49_construction.

Theorem C49_default_buffers : forall dbg p baud, exists s,
  client_new dbg p (Ok baud) = Val (Ok s) /\ length (b_rbuf s) = 128 /\ length (b_wbuf s) = 128 /\
  (forall e, client_new dbg p (Err e) = Val (Err e)).
Proof. exact L_C49_default_buffers. Qed.
Print Assumptions C49_default_buffers.

Theorem C49_small_read_buffer : forall s d t, length (b_rbuf s) < 10 ->
  let full {A} : result A read_error := Err (RBufferFull (mkBTS 10 (length (b_rbuf s)))) in
  read_packet_deadline d s = (Val full, s) /\
  (exists s', read_status_response_timeout t s = (Val full, s') /\
     calls s s' [LDeadline (mkDeadline (p_deadlines (b_port s)) t)] /\ pending s' = pending s) /\
  (exists s', device_read t s = (Val full, s') /\
     calls s s' [LDeadline (mkDeadline (p_deadlines (b_port s)) t)] /\ pending s' = pending s).
Proof. exact L_C49_small_read_buffer. Qed.
Print Assumptions C49_small_read_buffer.

Example C49_example : length (b_rbuf (fresh true [RdData [xff]] 9 10)) < 10.
Proof. vm_compute. lia. Qed.
