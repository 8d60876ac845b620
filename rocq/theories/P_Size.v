(** * Property C63: sizes in buffer errors *)
From Verif Require Import Base Endian Error Checksum Bytestuff Packet Time Bus Data Client
  Instructions Device Api Spec CallSpec StreamSpec Demo DemoProofs SizeTheorems.

(** Not true for writing: when the stuffing does not fit, the error counts only the
    part of the buffer after the header, and otherwise the size it asks for leaves
    no room for the stuffing. *)
Theorem C63_actual_size_refuted :
  ~ (forall s m id i params e s', reach s -> sends m id i params ->
     m s = (Val (Err (WBufferTooSmall e)), s') -> total_size e = length (b_wbuf s)).
Proof. exact L_C63_actual_size_refuted. Qed.
Print Assumptions C63_actual_size_refuted.

Theorem C63_needed_size_refuted :
  ~ (forall s m id i params e s', reach s -> sends m id i params ->
     m s = (Val (Err (WBufferTooSmall e)), s') ->
     forall t, reach t -> length (b_wbuf t) = required_size e ->
     exists r t', m t = (Val r, t') /\ not_too_small r).
Proof. exact L_C63_needed_size_refuted. Qed.
Print Assumptions C63_needed_size_refuted.

(** The sizes an error names, in every case. *)
Theorem C63_write_sizes_exact : forall s m id i params e s', reach s -> sends m id i params ->
  m s = (Val (Err (WBufferTooSmall e)), s') ->
  e = if length (b_wbuf s) <? length params + 10 then mkBTS (length params + 10) (length (b_wbuf s))
      else mkBTS (length (i :: params) + noticed_from 0 (i :: params)) (length (b_wbuf s) - 7).
Proof. exact L_C63_write_sizes_exact. Qed.
Print Assumptions C63_write_sizes_exact.

(** Without patterns to stuff they are right. *)
Theorem C63_write_sizes_partial : forall s m id i params e s', reach s -> sends m id i params ->
  m s = (Val (Err (WBufferTooSmall e)), s') -> noticed_from 0 (i :: params) = 0 ->
  total_size e = length (b_wbuf s) /\ total_size e < required_size e /\
  forall t, reach t -> required_size e <= length (b_wbuf t) -> (N.of_nat (length params + 3) < 2 ^ 16)%N ->
    exists r t', m t = (Val r, t') /\ not_too_small r.
Proof. exact L_C63_write_sizes_partial. Qed.
Print Assumptions C63_write_sizes_partial.

Example C63_example_write : exists s',
  let s := fresh true [] 32 12 in
  let m := write_instruction x01 READ 4 (fill [x84; x00; x04; x00]) in
  reach s /\ sends m x01 READ [x84; x00; x04; x00] /\
  m s = (Val (Err (WBufferTooSmall (mkBTS 14 12))), s') /\ noticed_from 0 [READ; x84; x00; x04; x00] = 0.
Proof.
  eexists. cbv zeta. split; [apply fresh_reach; lia|].
  split; [apply (sends_instruction x01 READ [x84; x00; x04; x00]), fill_writes|].
  split; vm_compute; reflexivity.
Qed.

Example C63_example_stuffing : exists s',
  let s := fresh true [] 32 19 in
  let params := [xff; xff; xfd; xff; xff; xfd; xff; xff; xfd] in
  let m := write_instruction x01 WRITE 9 (fill params) in
  reach s /\ sends m x01 WRITE params /\ m s = (Val (Err (WBufferTooSmall (mkBTS 13 12))), s') /\
  length (b_wbuf s) = 19.
Proof.
  eexists. cbv zeta. split; [apply fresh_reach; lia|].
  split; [apply (sends_instruction x01 WRITE [xff; xff; xfd; xff; xff; xfd; xff; xff; xfd]), fill_writes|].
  split; vm_compute; reflexivity.
Qed.

(** Reading: the sizes are right, and a buffer of the size asked for suffices. *)
Theorem C63_read_sizes : forall s d e s', reach s ->
  read_packet_deadline d s = (Val (Err (RBufferFull e)), s') ->
  total_size e = length (b_rbuf s) /\ total_size e < required_size e /\
  (length (b_rbuf s) < 10 /\ required_size e = 10 \/
   10 <= length (b_rbuf s) /\ exists g id n x rest, ~ contains g header /\ (n < 2 ^ 16)%N /\
     pending s = map inl (g ++ header ++ [id] ++ le16 n ++ [x]) ++ rest /\ required_size e = 7 + N.to_nat n).
Proof. exact L_C63_read_sizes. Qed.
Print Assumptions C63_read_sizes.

Theorem C63_needed_size_suffices : forall s d e s' t d' e' t', reach s -> reach t ->
  10 <= length (b_rbuf s) -> read_packet_deadline d s = (Val (Err (RBufferFull e)), s') ->
  pending t = pending s -> required_size e <= length (b_rbuf t) ->
  read_packet_deadline d' t <> (Val (Err (RBufferFull e')), t').
Proof. exact L_C63_needed_size_suffices. Qed.
Print Assumptions C63_needed_size_suffices.

Example C63_example_read : exists s',
  let s := fresh true [RdData (header ++ [x01] ++ le16 400 ++ [x55])] 32 32 in
  let t := fresh true [RdData (header ++ [x01] ++ le16 400 ++ [x55])] 407 32 in
  reach s /\ reach t /\ 10 <= length (b_rbuf s) /\ pending t = pending s /\
  read_packet_deadline now s = (Val (Err (RBufferFull (mkBTS 407 32))), s').
Proof.
  eexists. cbv zeta. split; [apply fresh_reach; lia|]. split; [apply fresh_reach; lia|].
  split; [vm_compute; lia|]. split; vm_compute; reflexivity.
Qed.
