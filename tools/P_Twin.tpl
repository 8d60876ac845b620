(** * Properties C11 (second half), C51: leftovers have no effect *)
From Coq Require Import ZArith.
From Verif Require Import Base Endian Error Checksum Bytestuff Packet Time Bus Data Client
  Instructions Device Api Spec CallSpec StreamSpec InstructionSpec DataSpec TwinSpec Demo DemoProofs TwinTheorems.

(** ** C11: whatever program runs after a rejected write behaves as without it. *)
@C11_as_if_not_called

@C11_status_as_if_not_called

(** A write is rejected, then a motor answers a read. *)
Example C11_program_example : exists s' evs s1,
  let s := fresh true [RdData (frame x01 [STATUS; x00; x2a])] 32 16 in
  let p := Call (read_bytes x01 64 1) (st_read_bytes _ _ _) (fun r => Done r) in
  reach s /\ encoder_ok (fill (repeat x07 9)) /\
  write_instruction x01 WRITE 9 (fill (repeat x07 9)) s = (Val (Err (WBufferTooSmall (mkBTS 19 16))), s') /\
  runs p s (Val (Ok (mkResponse x01 false [x2a]))) evs s1 /\ length evs = 4.
Proof.
  do 3 eexists. cbv zeta. split; [apply fresh_reach; lia|]. split; [apply fill_writes|].
  split; [vm_compute; reflexivity|]. split.
  - eapply runs_call; [vm_compute; reflexivity|vm_compute; reflexivity|apply runs_done].
  - reflexivity.
Qed.

(** ** C51.  Refuted: [reg_write] of an empty array sends a byte that was in the buffer
    before (the parameter count is always one byte of data). *)
@C51_leftovers_refuted

(** True for all other calls, also with closures and [Data] implementations of the user
    that do not look at the old contents themselves. *)
@C51_history_has_no_effect

@C51_every_program_runs

(** The types of the crate are such implementations. *)
@C51_crate_types

Example C51_example : exists o evs s',
  let s := stale x11 in
  let t := stale x22 in
  let p := Call (reg_write_bytes xfe 64 [x05]) (st_reg_write_bytes _ _ _) (fun _ =>
           Call broadcast_action st_broadcast_action (fun r => Done r)) in
  s <> t /\ reach s /\ reach t /\ twins s t /\ runs p s o evs s' /\ o = Val (Ok tt) /\ length evs = 4.
Proof.
  do 3 eexists. cbv zeta. split; [discriminate|]. split; [apply stale_reach|]. split; [apply stale_reach|].
  split; [constructor; reflexivity|]. split.
  - eapply runs_call; [vm_compute; reflexivity|vm_compute; reflexivity|].
    eapply runs_call; [vm_compute; reflexivity|vm_compute; reflexivity|apply runs_done].
  - split; reflexivity.
Qed.
