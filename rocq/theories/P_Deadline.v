(** * Property C72: deadlines far in the future *)
From Coq Require Import ZArith.
From Verif Require Import Base Endian Error Checksum Bytestuff Packet Time Bus Data Client
  Instructions Device Api Spec CallSpec StreamSpec TimeSpec Serial2 Demo DemoProofs DeadlineTheorems.
Local Open Scope N_scope.

(** ** C72.  Refuted: waiting (almost) for ever, with the largest [Duration], panics. *)
Theorem C72_any_timeout_refuted : ~ (forall now t, now <= linux_limit -> valid_duration t ->
  exists d, serial2_make_deadline linux_limit now t = Val d).
Proof. exact L_C72_any_timeout_refuted. Qed.
Print Assumptions C72_any_timeout_refuted.

Theorem C72_exactly : forall limit now t,
  (now + nanoseconds t <= limit -> serial2_make_deadline limit now t = Val (now + nanoseconds t)) /\
  (limit < now + nanoseconds t -> serial2_make_deadline limit now t = Panic POverflow).
Proof. exact L_C72_exactly. Qed.
Print Assumptions C72_exactly.

(** The timeouts the crate computes never do (in the first 292 billion years), also at one baud. *)
Theorem C72_own_timeouts_fit : forall s n o s' limit now, reach s -> n < 2 ^ 16 -> b_baud s <> 0 -> b_baud s < 2 ^ 32 ->
  now + 655460034000000 <= limit -> read_status_response n s = (o, s') ->
  exists t d, waits_at_most s s' t /\ serial2_make_deadline limit now t = Val d.
Proof. exact L_C72_own_timeouts_fit. Qed.
Print Assumptions C72_own_timeouts_fit.

Theorem C72_scan_timeouts_fit : forall s o s' limit now, reach s -> b_baud s <> 0 -> b_baud s < 2 ^ 32 ->
  now + 35420034000000 <= limit -> scan_next s = (o, s') ->
  exists t d, waits_at_most s s' t /\ serial2_make_deadline limit now t = Val d.
Proof. exact L_C72_scan_timeouts_fit. Qed.
Print Assumptions C72_scan_timeouts_fit.

(** On Linux, in the first 136 years after the start of the machine: every timeout of less than 2^63 - 2^32 seconds is
    accepted, every timeout of 2^63 seconds or more panics. *)
Theorem C72_linux : forall now t, now < 2 ^ 32 * 1000000000 -> valid_duration t ->
  (d_secs t < 2 ^ 63 - 2 ^ 32 -> serial2_make_deadline linux_limit now t = Val (now + nanoseconds t)) /\
  (2 ^ 63 <= d_secs t -> serial2_make_deadline linux_limit now t = Panic POverflow).
Proof. exact L_C72_linux. Qed.
Print Assumptions C72_linux.

Example C72_linux_example :
  86400 * 1000000000 < 2 ^ 32 * 1000000000 /\
  valid_duration (mkDur (2 ^ 40) 5) /\ d_secs (mkDur (2 ^ 40) 5) < 2 ^ 63 - 2 ^ 32 /\
  valid_duration (mkDur (2 ^ 64 - 1) 999999999) /\ 2 ^ 63 <= d_secs (mkDur (2 ^ 64 - 1) 999999999).
Proof. repeat split; vm_compute; congruence. Qed.

Example C72_example : exists o s',
  let s := fresh true [RdErr (IoTimeout 1)] 32 32 in
  reach s /\ b_baud s <> 0 /\ b_baud s < 2 ^ 32 /\ 10 ^ 18 + 655460034000000 <= linux_limit /\
  read_status_response 65535 s = (o, s').
Proof.
  do 2 eexists. cbv zeta. split; [apply fresh_reach; lia|]. split; [discriminate|]. split; [reflexivity|].
  split; [vm_compute; discriminate|]. vm_compute. reflexivity.
Qed.
