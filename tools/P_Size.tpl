(** * Property C63: sizes in buffer errors *)
From Verif Require Import Base Endian Error Checksum Bytestuff Packet Time Bus Data Client
  Instructions Device Api Spec CallSpec StreamSpec Demo DemoProofs SizeTheorems.

(** Not true for writing: when the stuffing does not fit, the error counts only the
    part of the buffer after the header, and otherwise the size it asks for leaves
    no room for the stuffing. *)
@C63_actual_size_refuted

@C63_needed_size_refuted

(** The sizes an error names, in every case. *)
@C63_write_sizes_exact

(** Without patterns to stuff they are right. *)
@C63_write_sizes_partial

Example C63_example_write : exists s',
  let s := fresh true [] 32 12 in
  let m := write_instruction x01 READ 4 (fill [x84; x00; x04; x00]) in
  reach s /\ sends m x01 READ [x84; x00; x04; x00] /\
  m s = (Val (Err (WBufferTooSmall (mkBTS 14 12))), s') /\ noticed_from 0 [READ; x84; x00; x04; x00] = 0.
Proof.
  eexists. cbv zeta. split; [apply fresh_reach; lia|].
  split; [apply (sends_instruction x01 READ [x84; x00; x04; x00]), fill_writes|].
  split; vm_compute; reflexivity.
Qed.

Example C63_example_stuffing : exists s',
  let s := fresh true [] 32 19 in
  let params := [xff; xff; xfd; xff; xff; xfd; xff; xff; xfd] in
  let m := write_instruction x01 WRITE 9 (fill params) in
  reach s /\ sends m x01 WRITE params /\ m s = (Val (Err (WBufferTooSmall (mkBTS 13 12))), s') /\
  length (b_wbuf s) = 19.
Proof.
  eexists. cbv zeta. split; [apply fresh_reach; lia|].
  split; [apply (sends_instruction x01 WRITE [xff; xff; xfd; xff; xff; xfd; xff; xff; xfd]), fill_writes|].
  split; vm_compute; reflexivity.
Qed.

(** Reading: the sizes are right, and a buffer of the size asked for suffices. *)
@C63_read_sizes

@C63_needed_size_suffices

Example C63_example_read : exists s',
  let s := fresh true [RdData (header ++ [x01] ++ le16 400 ++ [x55])] 32 32 in
  let t := fresh true [RdData (header ++ [x01] ++ le16 400 ++ [x55])] 407 32 in
  reach s /\ reach t /\ 10 <= length (b_rbuf s) /\ pending t = pending s /\
  read_packet_deadline now s = (Val (Err (RBufferFull (mkBTS 407 32))), s').
Proof.
  eexists. cbv zeta. split; [apply fresh_reach; lia|]. split; [apply fresh_reach; lia|].
  split; [vm_compute; lia|]. split; vm_compute; reflexivity.
Qed.
