(** * Properties C39, C40: transfer times and timeouts *)
From Coq Require Import ZArith.
From Verif Require Import Base Endian Error Checksum Bytestuff Packet Time Bus Data Client
  Instructions Device Api Spec CallSpec StreamSpec DeviceSpec InstructionSpec TimeSpec Demo DemoProofs
  TimeTheorems ScanTheorems.
Local Open Scope N_scope.

(** ** C39 *)
@C39_transfer_time

@C39_monotone

@C39_faster_line

(** 12 bytes at 57600 baud take 2083333.3 nanoseconds. *)
Example C39_example :
  message_transfer_time true 12 57600 = Val (mkDur 0 2083334) /\
  enough_time 12 57600 2083334 /\ ~ enough_time 12 57600 2083333.
Proof. split; [vm_compute; reflexivity|]. split; vm_compute; intuition discriminate. Qed.

(** ** C40.  Refuted: stuffing of the response is not accounted for. *)
@C40_timeout_refuted

@C40_timeout_partial

@C40_stuffing_uses_up_allowance

@C40_instant_answer_times_out

@C40_scan_timeout

Example C40_example : exists o s' d evs,
  let s := fresh true [RdData (frame x01 [STATUS; x00; x2a])] 32 32 in
  let w := frame x01 [STATUS; x00; x2a] in
  reach s /\ b_baud s <> 0 /\ b_baud s < 2 ^ 32 /\ read_status_response 1 s = (o, s') /\
  calls s s' (LDeadline d :: evs) /\ dl_timeout d = mkDur 0 36083334 /\
  is_frame x01 [x55; x00; x2a] w /\ pstuff [x55; x00; x2a] = [x55; x00; x2a] /\
  enough_time (N.of_nat (length w)) (b_baud s) (36083334 - 34000000).
Proof.
  do 4 eexists. cbv zeta. split; [apply fresh_reach; lia|]. split; [discriminate|]. split; [reflexivity|].
  split; [vm_compute; reflexivity|]. split; [vm_compute; reflexivity|]. split; [reflexivity|].
  split; [apply frame_ok; reflexivity|]. split; [reflexivity|]. vm_compute. discriminate.
Qed.
