(** * Properties C39, C40: transfer times and timeouts *)
From Coq Require Import ZArith.
From Verif Require Import Base Endian Error Checksum Bytestuff Packet Time Bus Data Client
  Instructions Device Api Spec CallSpec StreamSpec DeviceSpec InstructionSpec TimeSpec Demo DemoProofs
  TimeTheorems ScanTheorems.
Local Open Scope N_scope.

(** ** C39 *)
Theorem C39_transfer_time : forall dbg size baud, size < 2 ^ 32 -> baud <> 0 -> baud < 2 ^ 32 ->
  exists t, message_transfer_time dbg size baud = Val t /\ valid_duration t /\
    enough_time size baud (nanoseconds t) /\
    forall ns, enough_time size baud ns -> nanoseconds t <= ns.
Proof. exact L_C39_transfer_time. Qed.
Print Assumptions C39_transfer_time.

Theorem C39_monotone : forall dbg size size' baud t t', size <= size' -> size' < 2 ^ 32 -> baud < 2 ^ 32 ->
  message_transfer_time dbg size baud = Val t -> message_transfer_time dbg size' baud = Val t' ->
  nanoseconds t <= nanoseconds t'.
Proof. exact L_C39_monotone. Qed.
Print Assumptions C39_monotone.

Theorem C39_faster_line : forall dbg size baud baud' t t', size < 2 ^ 32 -> baud <= baud' -> baud' < 2 ^ 32 ->
  message_transfer_time dbg size baud = Val t -> message_transfer_time dbg size baud' = Val t' ->
  nanoseconds t' <= nanoseconds t.
Proof. exact L_C39_faster_line. Qed.
Print Assumptions C39_faster_line.

(** 12 bytes at 57600 baud take 2083333.3 nanoseconds. *)
Example C39_example :
  message_transfer_time true 12 57600 = Val (mkDur 0 2083334) /\
  enough_time 12 57600 2083334 /\ ~ enough_time 12 57600 2083333.
Proof. split; [vm_compute; reflexivity|]. split; vm_compute; intuition discriminate. Qed.

(** ** C40.  Refuted: stuffing of the response is not accounted for. *)
Theorem C40_timeout_refuted :
  ~ (forall s n o s', reach s -> n < 2 ^ 16 -> b_baud s <> 0 -> b_baud s < 2 ^ 32 ->
       read_status_response n s = (o, s') ->
       exists t, waits_at_most s s' t /\ 34000000 <= nanoseconds t /\
         forall id e params w, is_frame id (x55 :: e :: params) w -> N.of_nat (length params) = n ->
           enough_time (N.of_nat (length w)) (b_baud s) (nanoseconds t - 34000000)).
Proof. exact L_C40_timeout_refuted. Qed.
Print Assumptions C40_timeout_refuted.

Theorem C40_timeout_partial : forall s n o s', reach s -> n < 2 ^ 16 -> b_baud s <> 0 -> b_baud s < 2 ^ 32 ->
  read_status_response n s = (o, s') ->
  exists t, waits_at_most s s' t /\ 34000000 <= nanoseconds t /\
    forall id e params w, is_frame id (x55 :: e :: params) w -> N.of_nat (length params) = n ->
      pstuff (x55 :: e :: params) = x55 :: e :: params ->
      enough_time (N.of_nat (length w)) (b_baud s) (nanoseconds t - 34000000).
Proof. exact L_C40_timeout_partial. Qed.
Print Assumptions C40_timeout_partial.

Theorem C40_stuffing_uses_up_allowance : forall s n o s', reach s -> n < 2 ^ 16 -> b_baud s <> 0 -> b_baud s < 2 ^ 32 ->
  read_status_response n s = (o, s') ->
  exists t, waits_at_most s s' t /\
    forall id e params w k spare, is_frame id (x55 :: e :: params) w -> N.of_nat (length params) = n ->
      N.of_nat (length w) = 11 + n + k -> spare <= 34000000 -> enough_time k (b_baud s) (34000000 - spare) ->
      spare <= nanoseconds t /\ enough_time (N.of_nat (length w)) (b_baud s) (nanoseconds t - spare).
Proof. exact L_C40_stuffing_uses_up_allowance. Qed.
Print Assumptions C40_stuffing_uses_up_allowance.

Theorem C40_instant_answer_times_out : exists s n o s', reach s /\ read_status_response n s = (o, s') /\
  b_baud s = 9600 /\ (exists t, waits_at_most s s' t) /\
  forall t, waits_at_most s s' t ->
    exists id e params w, is_frame id (x55 :: e :: params) w /\ N.of_nat (length params) = n /\
      ~ enough_time (N.of_nat (length w)) (b_baud s) (nanoseconds t).
Proof. exact L_C40_instant_answer_times_out. Qed.
Print Assumptions C40_instant_answer_times_out.

Theorem C40_scan_timeout : forall s o s', reach s -> b_baud s <> 0%N -> (b_baud s < 2 ^ 32)%N ->
  scan_next s = (o, s') ->
  exists t, waits_at_most s s' t /\ (34000000 <= nanoseconds t)%N /\
    enough_time (253 * 14) (b_baud s) (nanoseconds t - 34000000).
Proof. exact L_C40_scan_timeout. Qed.
Print Assumptions C40_scan_timeout.

Example C40_example : exists o s' d evs,
  let s := fresh true [RdData (frame x01 [STATUS; x00; x2a])] 32 32 in
  let w := frame x01 [STATUS; x00; x2a] in
  reach s /\ b_baud s <> 0 /\ b_baud s < 2 ^ 32 /\ read_status_response 1 s = (o, s') /\
  calls s s' (LDeadline d :: evs) /\ dl_timeout d = mkDur 0 36083334 /\
  is_frame x01 [x55; x00; x2a] w /\ pstuff [x55; x00; x2a] = [x55; x00; x2a] /\
  enough_time (N.of_nat (length w)) (b_baud s) (36083334 - 34000000).
Proof.
  do 4 eexists. cbv zeta. split; [apply fresh_reach; lia|]. split; [discriminate|]. split; [reflexivity|].
  split; [vm_compute; reflexivity|]. split; [vm_compute; reflexivity|]. split; [reflexivity|].
  split; [apply frame_ok; reflexivity|]. split; [reflexivity|]. vm_compute. discriminate.
Qed.
