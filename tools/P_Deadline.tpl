(** * Property C72: deadlines far in the future *)
From Coq Require Import ZArith.
From Verif Require Import Base Endian Error Checksum Bytestuff Packet Time Bus Data Client
  Instructions Device Api Spec CallSpec StreamSpec TimeSpec Serial2 Demo DemoProofs DeadlineTheorems.
Local Open Scope N_scope.

(** ** C72.  Refuted: waiting (almost) for ever, with the largest [Duration], panics. *)
@C72_any_timeout_refuted

@C72_exactly

(** The timeouts the crate computes never do (in the first 292 billion years), also at one baud. *)
@C72_own_timeouts_fit

@C72_scan_timeouts_fit

(** On Linux, in the first 136 years after the start of the machine: every timeout of less than 2^63 - 2^32 seconds is
    accepted, every timeout of 2^63 seconds or more panics. *)
@C72_linux

Example C72_linux_example :
  86400 * 1000000000 < 2 ^ 32 * 1000000000 /\
  valid_duration (mkDur (2 ^ 40) 5) /\ d_secs (mkDur (2 ^ 40) 5) < 2 ^ 63 - 2 ^ 32 /\
  valid_duration (mkDur (2 ^ 64 - 1) 999999999) /\ 2 ^ 63 <= d_secs (mkDur (2 ^ 64 - 1) 999999999).
Proof. repeat split; vm_compute; congruence. Qed.

Example C72_example : exists o s',
  let s := fresh true [RdErr (IoTimeout 1)] 32 32 in
  reach s /\ b_baud s <> 0 /\ b_baud s < 2 ^ 32 /\ 10 ^ 18 + 655460034000000 <= linux_limit /\
  read_status_response 65535 s = (o, s').
Proof.
  do 2 eexists. cbv zeta. split; [apply fresh_reach; lia|]. split; [discriminate|]. split; [reflexivity|].
  split; [vm_compute; discriminate|]. vm_compute. reflexivity.
Qed.
