(** * Properties C40, C48 (exact timeouts and the rate in use), C52 *)
From Coq Require Import ZArith.
From Verif Require Import Base Endian Error Checksum Bytestuff Packet Time Bus Data Client
  Instructions Device Api Spec CallSpec StreamSpec DeviceSpec InstructionSpec TimeSpec Demo DemoProofs
  BaudTheorems.
Local Open Scope N_scope.

(** ** C40: the timeouts are not longer than promised either. *)
Theorem C40_exact : forall s n o s', reach s -> n < 2 ^ 16 -> b_baud s <> 0 -> b_baud s < 2 ^ 32 ->
  read_status_response n s = (o, s') ->
  exists t x, waits_at_most s s' t /\ valid_duration t /\ nanoseconds t = x + 34000000 /\
    shortest_time (11 + n) (b_baud s) x.
Proof. exact L_C40_exact. Qed.
Print Assumptions C40_exact.

Theorem C40_scan_exact : forall s o s', reach s -> b_baud s <> 0 -> b_baud s < 2 ^ 32 ->
  scan_next s = (o, s') ->
  exists t x, waits_at_most s s' t /\ valid_duration t /\ nanoseconds t = 253 * x + 34000000 /\
    shortest_time 14 (b_baud s) x.
Proof. exact L_C40_scan_exact. Qed.
Print Assumptions C40_scan_exact.

(** 14 bytes at 1000000 baud take 140 microseconds: a scan waits 253 times that, and 34 milliseconds. *)
Example C40_scan_example : exists o s' d evs,
  let p := mkPort [RdErr (IoTimeout 1)] [] [] [] 0 [] in
  let s := mkBus p 1000000 (repeat x00 32) 0 0 (header ++ repeat x00 28) true in
  reach s /\ scan_next s = (o, s') /\ calls s s' (LDeadline d :: evs) /\ dl_timeout d = mkDur 0 69420000 /\
  shortest_time 14 1000000 140000.
Proof.
  do 4 eexists. cbv zeta. split.
  - apply (reach_new true (mkPort [RdErr (IoTimeout 1)] [] [] [] 0 []) (repeat x00 32) (repeat x00 32) 1000000).
    vm_compute. reflexivity.
  - split; [vm_compute; reflexivity|]. split; [vm_compute; reflexivity|]. split; [vm_compute; reflexivity|].
    split; [vm_compute; intro X; discriminate X|]. unfold enough_time. intros. lia.
Qed.

(** ** C48: all later timeouts. *)
Theorem C48_rate_follows_port : forall A (m : M A) s o s', reach s -> api m -> m s = (o, s') ->
  exists evs, calls s s' evs /\ b_baud s' = rate_after (b_baud s) evs.
Proof. exact L_C48_rate_follows_port. Qed.
Print Assumptions C48_rate_follows_port.

Theorem C48_rate_is_last_accepted : forall dbg p rb wb baud s evs s',
  with_buffers_and_baud_rate dbg p rb wb baud = Val s -> later s evs s' -> b_baud s' = rate_after baud evs.
Proof. exact L_C48_rate_is_last_accepted. Qed.
Print Assumptions C48_rate_is_last_accepted.

Theorem C48_later_timeouts : forall dbg p rb wb baud s evs s1 n o s2,
  with_buffers_and_baud_rate dbg p rb wb baud = Val s -> later s evs s1 ->
  n < 2 ^ 16 -> rate_after baud evs <> 0 -> rate_after baud evs < 2 ^ 32 ->
  read_status_response n s1 = (o, s2) ->
  exists t x, waits_at_most s1 s2 t /\ valid_duration t /\ nanoseconds t = x + 34000000 /\
    shortest_time (11 + n) (rate_after baud evs) x.
Proof. exact L_C48_later_timeouts. Qed.
Print Assumptions C48_later_timeouts.

(** The port accepts 1000000 baud, then refuses 9600; a response of one byte takes
    12 bytes, 120 microseconds. *)
Example C48_later_example : exists s s1 o s2 d evs',
  let p := mkPort [RdErr (IoTimeout 1)] [] [] [None; Some (IoOther 5)] 0 [] in
  let evs := [LSetBaud 1000000 None; LSetBaud 9600 (Some (IoOther 5))] in
  with_buffers_and_baud_rate true p (repeat x00 32) (repeat x00 32) 57600 = Val s /\
  later s evs s1 /\ rate_after 57600 evs = 1000000 /\ read_status_response 1 s1 = (o, s2) /\
  calls s1 s2 (LDeadline d :: evs') /\ dl_timeout d = mkDur 0 34120000.
Proof.
  do 6 eexists. cbv zeta. split; [vm_compute; reflexivity|]. split.
  - change [LSetBaud 1000000 None; LSetBaud 9600 (Some (IoOther 5))]
      with (([] ++ [LSetBaud 1000000 None]) ++ [LSetBaud 9600 (Some (IoOther 5))]).
    eapply later_call with (m := client_set_baud_rate 9600).
    { eapply later_call with (m := client_set_baud_rate 1000000);
        [apply later_now|apply api_set_baud_rate|vm_compute; reflexivity|vm_compute; reflexivity]. }
    { apply api_set_baud_rate. }
    { vm_compute. reflexivity. }
    { vm_compute. reflexivity. }
  - split; [reflexivity|]. split; [vm_compute; reflexivity|]. split; vm_compute; reflexivity.
Qed.

(** ** C52.  Refuted: a scan that has ended listens again when it is dropped. *)
Theorem C52_finished_scan_refuted : ~ (forall s s1 n o s2, reach s -> scan_next s = (Val None, s1) ->
  scan_drop n s1 = (o, s2) -> o = Val true -> calls s1 s2 []).
Proof. exact L_C52_finished_scan_refuted. Qed.
Print Assumptions C52_finished_scan_refuted.

(** It always does, for the whole timeout of a scan. *)
Theorem C52_drop_waits_again : forall s n o s', reach s -> b_baud s <> 0 -> b_baud s < 2 ^ 32 ->
  scan_drop (S n) s = (o, s') ->
  exists d x evs, calls s s' (LDeadline d :: evs) /\ nanoseconds (dl_timeout d) = 253 * x + 34000000 /\
    shortest_time 14 (b_baud s) x.
Proof. exact L_C52_drop_waits_again. Qed.
Print Assumptions C52_drop_waits_again.

Example C52_example : exists s1 s2 d evs,
  let s := fresh true [RdErr (IoTimeout 1); RdData (frame x03 [STATUS; x00]); RdErr (IoTimeout 1)] 32 32 in
  reach s /\ b_baud s <> 0 /\ b_baud s < 2 ^ 32 /\
  scan_next s = (Val None, s1) /\ scan_drop 2 s1 = (Val true, s2) /\
  calls s1 s2 (LDeadline d :: evs) /\ length evs = 3%nat /\ pending s2 = [].
Proof.
  do 4 eexists. cbv zeta. split; [apply fresh_reach; lia|]. split; [discriminate|]. split; [reflexivity|].
  split; [vm_compute; reflexivity|]. split; [vm_compute; reflexivity|]. split; [vm_compute; reflexivity|].
  split; vm_compute; reflexivity.
Qed.
