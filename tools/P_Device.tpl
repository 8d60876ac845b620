(** * Properties C28, C41, C42, C44-C46: status packets and the device *)
From Verif Require Import Base Endian Error Checksum Bytestuff Packet Time Bus Data Client
  Instructions Device Api Spec CallSpec StreamSpec DeviceSpec Demo DemoProofs SendTheorems ReadTheorems
  StatusProofs DeviceTheorems.

(** ** C28 *)
@C28_error_and_alert

@C28_client_reports

@C28_no_false_motor_error

(** Alert bit only: no error.  Error 3 with alert bit: an error. *)
Example C28_example : exists p s1 s2,
  let s e := fresh true [RdData (frame x01 [STATUS; e; x07])] 32 32 in
  (forall e, reach (s e)) /\
  read_status_response_timeout dur_34ms (s x80) = (Val (Ok p), s1) /\ packet_is p x01 [STATUS; x80; x07] /\
  read_status_response_timeout dur_34ms (s x83) = (Val (Err (RMotorError x83)), s2).
Proof.
  do 3 eexists. cbv zeta. split; [intro; apply fresh_reach; lia|].
  split; [vm_compute; reflexivity|]. split; [split; vm_compute; reflexivity|]. vm_compute. reflexivity.
Qed.

(** ** C41 *)
@C41_status_response_timeout

@C41_status_response

@C41_device_read

(** Two partial reads, one deadline. *)
Example C41_example : exists r s',
  let s := fresh true [RdData (firstn 5 (frame x01 [STATUS; x00])); RdData (skipn 5 (frame x01 [STATUS; x00]))] 32 32 in
  reach s /\ read_status_response 0 s = (Val (Ok r), s') /\
  exists d a b, calls s s' [LDeadline d; LRead d 32 a; LRead d 27 b].
Proof.
  do 2 eexists. cbv zeta. split; [apply fresh_reach; lia|]. split; [vm_compute; reflexivity|].
  do 3 eexists. vm_compute. reflexivity.
Qed.

(** ** C42 *)
@C42_returns_the_instruction

@C42_reports_errors

@C42_only_instructions

(** The status of another device, then an instruction. *)
Example C42_example : exists s',
  let w := frame x01 [READ; x84; x00; x04; x00] in
  let s := fresh true [RdData (frame x02 [STATUS; x00] ++ w)] 32 32 in
  reach s /\ skips (length (b_rbuf s)) (pending s) (map inl ([] ++ w) ++ []) /\
  ~ contains [] header /\ is_frame x01 [READ; x84; x00; x04; x00] w /\ READ <> STATUS /\
  ff_runs_ok [READ; x84; x00; x04; x00] /\ length w <= length (b_rbuf s) /\ follows_rule READ 4 /\
  device_read dur_34ms s = (Val (Ok (mkInstruction x01 (IRead 132 4))), s').
Proof.
  eexists. cbv zeta. split; [apply fresh_reach; lia|]. split; [|demo].
  apply (skip_status 32 [] x02 [x00] (frame x02 [STATUS; x00])
           (map inl (frame x01 [READ; x84; x00; x04; x00]))).
  - apply header_in_false. reflexivity.
  - apply (raw_frame_ok x02 [STATUS; x00]). reflexivity.
  - vm_compute. lia.
  - apply skip_none.
Qed.

(** The status of another device, then a packet with a wrong CRC. *)
Example C42_error_example : exists c s',
  let s := fresh true [RdData (frame x02 [STATUS; x00] ++ message x01 [PING] 1 ++ [x07])] 32 32 in
  device_read dur_34ms s = (Val (Err (RInvalidMessage (IMChecksum 1 c))), s') /\ pending s' = map inl [x07].
Proof. do 2 eexists. cbv zeta. split; vm_compute; reflexivity. Qed.

(** ** C44 *)
@C44_malformed_rejected

@C44_meaning_is_unique

Example C44_example : exists p s',
  let s := fresh true [RdData (frame x01 [SYNC_READ; x84; x00; x04])] 32 32 in
  read_packet_deadline now s = (Val (Ok p), s') /\ packet_is p x01 [SYNC_READ; x84; x00; x04] /\
  ~ follows_rule SYNC_READ (length [x84; x00; x04]) /\
  instruction_try_from p = Val (Err (IMParameterCount 3 (Min 4))).
Proof.
  do 2 eexists. cbv zeta. split; [vm_compute; reflexivity|]. split; [split; vm_compute; reflexivity|].
  split; [vm_compute; lia|]. vm_compute. reflexivity.
Qed.

(** ** C45.  Refuted: a bulk write comes back as a bulk read. *)
@C45_read_owned_refuted

(** Nothing else goes wrong. *)
@C45_read_owned_exactly

Example C45_example : exists s1 s2,
  let s := fresh true [RdData (frame x01 [BULK_WRITE; x01])] 32 32 in
  device_read dur_34ms s = (Val (Ok (mkInstruction x01 (IBulkWrite [x01]))), s1) /\
  device_read_owned dur_34ms s = (Val (Ok (mkInstruction x01 (IBulkRead [x01]))), s2).
Proof. do 2 eexists. cbv zeta. split; vm_compute; reflexivity. Qed.

(** ** C46.  Refuted by data that is not stuffed reversibly (C06). *)
@C46_status_arrives_refuted

@C46_status_arrives_partial

Example C46_example : exists s' w p c',
  let s := fresh true [] 32 32 in
  let c := fresh false [RdData (xff :: w)] 32 32 in
  reach s /\ writes_parameters (fill [xff; xff; xfd]) [xff; xff; xfd] /\
  device_write_status x05 x80 3 (fill [xff; xff; xfd]) s = (Val (Ok tt), s') /\
  calls s s' [LDiscard None; LWrite w None] /\ comes_back [STATUS; x80; xff; xff; xfd] /\
  reach c /\ length w <= length (b_rbuf c) /\
  read_status_response_timeout dur_34ms c = (Val (Ok p), c') /\ packet_is p x05 [STATUS; x80; xff; xff; xfd].
Proof.
  eexists. exists (frame x05 [STATUS; x80; xff; xff; xfd]). do 2 eexists. cbv zeta.
  split; [apply fresh_reach; lia|]. split; [apply fill_writes|].
  split; [vm_compute; reflexivity|]. split; [vm_compute; reflexivity|]. split; [vm_compute; intuition lia|].
  split; [apply fresh_reach; lia|]. split; [vm_compute; lia|]. split; [vm_compute; reflexivity|].
  split; vm_compute; reflexivity.
Qed.
