(** * Properties C40, C48 (exact timeouts and the rate in use), C52 *)
From Coq Require Import ZArith.
From Verif Require Import Base Endian Error Checksum Bytestuff Packet Time Bus Data Client
  Instructions Device Api Spec CallSpec StreamSpec DeviceSpec InstructionSpec TimeSpec Demo DemoProofs
  BaudTheorems.
Local Open Scope N_scope.

(** ** C40: the timeouts are not longer than promised either. *)
@C40_exact

@C40_scan_exact

(** 14 bytes at 1000000 baud take 140 microseconds: a scan waits 253 times that, and 34 milliseconds. *)
Example C40_scan_example : exists o s' d evs,
  let p := mkPort [RdErr (IoTimeout 1)] [] [] [] 0 [] in
  let s := mkBus p 1000000 (repeat x00 32) 0 0 (header ++ repeat x00 28) true in
  reach s /\ scan_next s = (o, s') /\ calls s s' (LDeadline d :: evs) /\ dl_timeout d = mkDur 0 69420000 /\
  shortest_time 14 1000000 140000.
Proof.
  do 4 eexists. cbv zeta. split.
  - apply (reach_new true (mkPort [RdErr (IoTimeout 1)] [] [] [] 0 []) (repeat x00 32) (repeat x00 32) 1000000).
    vm_compute. reflexivity.
  - split; [vm_compute; reflexivity|]. split; [vm_compute; reflexivity|]. split; [vm_compute; reflexivity|].
    split; [vm_compute; intro X; discriminate X|]. unfold enough_time. intros. lia.
Qed.

(** ** C48: all later timeouts. *)
@C48_rate_follows_port

@C48_rate_is_last_accepted

@C48_later_timeouts

(** The port accepts 1000000 baud, then refuses 9600; a response of one byte takes
    12 bytes, 120 microseconds. *)
Example C48_later_example : exists s s1 o s2 d evs',
  let p := mkPort [RdErr (IoTimeout 1)] [] [] [None; Some (IoOther 5)] 0 [] in
  let evs := [LSetBaud 1000000 None; LSetBaud 9600 (Some (IoOther 5))] in
  with_buffers_and_baud_rate true p (repeat x00 32) (repeat x00 32) 57600 = Val s /\
  later s evs s1 /\ rate_after 57600 evs = 1000000 /\ read_status_response 1 s1 = (o, s2) /\
  calls s1 s2 (LDeadline d :: evs') /\ dl_timeout d = mkDur 0 34120000.
Proof.
  do 6 eexists. cbv zeta. split; [vm_compute; reflexivity|]. split.
  - change [LSetBaud 1000000 None; LSetBaud 9600 (Some (IoOther 5))]
      with (([] ++ [LSetBaud 1000000 None]) ++ [LSetBaud 9600 (Some (IoOther 5))]).
    eapply later_call with (m := client_set_baud_rate 9600).
    { eapply later_call with (m := client_set_baud_rate 1000000);
        [apply later_now|apply api_set_baud_rate|vm_compute; reflexivity|vm_compute; reflexivity]. }
    { apply api_set_baud_rate. }
    { vm_compute. reflexivity. }
    { vm_compute. reflexivity. }
  - split; [reflexivity|]. split; [vm_compute; reflexivity|]. split; vm_compute; reflexivity.
Qed.

(** ** C52.  Refuted: a scan that has ended listens again when it is dropped. *)
@C52_finished_scan_refuted

(** It always does, for the whole timeout of a scan. *)
@C52_drop_waits_again

Example C52_example : exists s1 s2 d evs,
  let s := fresh true [RdErr (IoTimeout 1); RdData (frame x03 [STATUS; x00]); RdErr (IoTimeout 1)] 32 32 in
  reach s /\ b_baud s <> 0 /\ b_baud s < 2 ^ 32 /\
  scan_next s = (Val None, s1) /\ scan_drop 2 s1 = (Val true, s2) /\
  calls s1 s2 (LDeadline d :: evs) /\ length evs = 3%nat /\ pending s2 = [].
Proof.
  do 4 eexists. cbv zeta. split; [apply fresh_reach; lia|]. split; [discriminate|]. split; [reflexivity|].
  split; [vm_compute; reflexivity|]. split; [vm_compute; reflexivity|]. split; [vm_compute; reflexivity|].
  split; vm_compute; reflexivity.
Qed.
