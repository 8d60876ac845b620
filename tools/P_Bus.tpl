(** * Properties C14, C15, C48, C49: the bus *)
From Verif Require Import Base Endian Error Checksum Bytestuff Packet Time Bus Data Client
  Instructions Device Api Spec CallSpec StreamSpec Demo DemoProofs SendTheorems FitTheorems.

(** ** C14 *)
@C14_bookkeeping

@C14_sizes_never_change

(** A state with used and unused bytes. *)
Example C14_example : exists p s',
  let w := frame x01 [STATUS; x00] in
  read_packet_deadline now (fresh true [RdData (w ++ [xff; xff])] 32 32) = (Val (Ok p), s') /\
  b_used s' = 11 /\ b_rlen s' = 13 /\ length (b_rbuf s') = 32.
Proof. do 2 eexists. cbv zeta. split; [vm_compute; reflexivity|]. split; [|split]; vm_compute; reflexivity. Qed.

(** ** C15 *)
@C15_never_reads_into_empty_buffer

(** Nor for more bytes than the read buffer has. *)
@C15_reads_fit_the_buffer

Example C15_example : exists r s',
  let s := fresh true [RdData [xff; xff]; RdErr (IoTimeout 1)] 10 10 in
  reach s /\ api (read_status_response_timeout dur_34ms) /\
  read_status_response_timeout dur_34ms s = (Val r, s') /\
  calls s s' [LDeadline now; LRead now 10 (Ok [xff; xff]); LRead now 8 (Err (IoTimeout 1))].
Proof.
  do 2 eexists. cbv zeta. split; [apply fresh_reach; lia|]. split; [constructor|].
  split; vm_compute; reflexivity.
Qed.

(** ** C48 *)
@C48_set_baud_rate

(** The port refuses the rate. *)
Example C48_example : exists s',
  let s := mkBus (mkPort [] [] [] [Some (IoOther 5)] 0 []) 57600 (repeat x00 20) 0 0 (header ++ repeat x00 20) true in
  client_set_baud_rate 1000000 s = (Val (Err (IoOther 5)), s') /\ b_baud s' = 57600%N.
Proof. eexists. cbv zeta. split; vm_compute; reflexivity. Qed.

(** ** C49 *)
@C49_construction

@C49_default_buffers

@C49_small_read_buffer

Example C49_example : length (b_rbuf (fresh true [RdData [xff]] 9 10)) < 10.
Proof. vm_compute. lia. Qed.
