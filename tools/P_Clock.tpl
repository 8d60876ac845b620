(** * Property C57: how long calls take with a real serial port *)
From Coq Require Import ZArith.
From Verif Require Import Base Endian Error Checksum Bytestuff Packet Time Bus Data Client
  Instructions Device Api Spec CallSpec StreamSpec InstructionSpec TimeSpec Serial2 ClockSpec
  Demo DemoProofs ClockTheorems ClockIterTheorems.
Local Open Scope N_scope.

(** ** C57: with the port of serial2.rs, over an operating system that keeps read
    timeouts up to [pc_slack]. *)
@C57_call_duration

@C57_reads_are_bounded

@C57_status_response

@C57_single_motor

(** A ping at 57600 baud, answered by two reads. *)
Example C57_example : exists o s' evs due t',
  let w := frame x01 [STATUS; x00; x0a; x14; x2e] in
  let s := fresh true [RdData (firstn 9 w); RdData (skipn 9 w)] 32 32 in
  let pc := mkPace 1000 50000 1000000 10 in
  let os := fun timeout t1 (_ : result (list byte) io_error) t2 => t1 + 10 <= t2 /\ t2 <= t1 + timeout + 1000000 in
  punctual pc os /\ reach s /\ awaits (ping x01) 3 /\ b_baud s <> 0 /\ b_baud s < 2 ^ 32 /\
  ping x01 s = (o, s') /\ o = Val (Ok (mkResponse x01 false (mkPing 5130 x2e))) /\
  calls s s' evs /\ length evs = 5%nat /\ clocked pc os due 0 evs t' /\ t' = 3200000.
Proof.
  do 3 eexists. exists (fun _ => 60500 + nanoseconds (mkDur 0 36430556)), 3200000. cbv zeta.
  split. { intros timeout t1 answer t2 [H1 H2]. cbn [pc_slack pc_read]. split; [lia|]. destruct answer; [lia|exact I]. }
  split; [apply fresh_reach; lia|]. split; [apply aw_ping|]. split; [discriminate|]. split; [reflexivity|].
  split; [vm_compute; reflexivity|]. split; [reflexivity|]. split; [vm_compute; reflexivity|]. split; [reflexivity|].
  split; [|reflexivity].
  eapply (ck_discard _ _ _ 0 500 20000); [cbn; lia|cbn; lia|].
  eapply (ck_write _ _ _ 20000 20100 60000); [cbn; lia|cbn; lia|].
  eapply (ck_deadline _ _ _ 60000 60500); [cbn; lia|vm_compute; reflexivity|].
  eapply (ck_read _ _ _ 60500 60600 2100000); [cbn; lia| |].
  { eapply s2_read; [vm_compute; reflexivity|]. split; vm_compute; discriminate. }
  eapply (ck_read _ _ _ 2100000 2100500 3200000); [cbn; lia| |].
  { eapply s2_read; [vm_compute; reflexivity|]. split; vm_compute; discriminate. }
  apply ck_nil.
Qed.

(** Asking many motors, taking some of the answers and dropping the rest: also when
    motors do not answer, or answer slowly. *)
@C57_sync_read_bytes

@C57_sync_read

@C57_bulk_read

(** Two motors; the first one answers, the second one does not, and is given up with the
    iterator. *)
Example C57_example_many : exists o s' evs due t',
  let w := frame x01 [STATUS; x00; x2a] in
  let s := fresh true [RdData w; RdErr (IoTimeout 7)] 32 32 in
  let pc := mkPace 1000 50000 1000000 10 in
  let os := fun timeout t1 (_ : result (list byte) io_error) t2 => t1 + 10 <= t2 /\ t2 <= t1 + timeout + 1000000 in
  punctual pc os /\ reach s /\ b_baud s <> 0 /\ b_baud s < 2 ^ 32 /\
  ask_sync_bytes [x01; x02] 132 1 1 s = (o, s') /\ o = Val (Ok [Some (Ok (mkResponse x01 false [x2a]))]) /\
  calls s s' evs /\ length evs = 6%nat /\ clocked pc os due 0 evs t' /\ t' = 39000000.
Proof.
  do 3 eexists.
  exists (fun n => match n with O => 60500 | _ => 2101000 end + nanoseconds (mkDur 0 36083334)), 39000000. cbv zeta.
  split. { intros timeout t1 answer t2 [H1 H2]. cbn [pc_slack pc_read]. split; [lia|]. destruct answer; [lia|exact I]. }
  split; [apply fresh_reach; lia|]. split; [discriminate|]. split; [reflexivity|].
  split; [vm_compute; reflexivity|]. split; [reflexivity|]. split; [vm_compute; reflexivity|]. split; [reflexivity|].
  split; [|reflexivity].
  eapply (ck_discard _ _ _ 0 500 20000); [cbn; lia|cbn; lia|].
  eapply (ck_write _ _ _ 20000 20100 60000); [cbn; lia|cbn; lia|].
  eapply (ck_deadline _ _ _ 60000 60500); [cbn; lia|vm_compute; reflexivity|].
  eapply (ck_read _ _ _ 60500 60600 2100000); [cbn; lia| |].
  { eapply s2_read; [vm_compute; reflexivity|]. split; vm_compute; discriminate. }
  eapply (ck_deadline _ _ _ 2100000 2101000); [cbn; lia|vm_compute; reflexivity|].
  eapply (ck_read _ _ _ 2101000 2101500 39000000); [cbn; lia| |].
  { eapply s2_read; [vm_compute; reflexivity|]. split; vm_compute; discriminate. }
  apply ck_nil.
Qed.
