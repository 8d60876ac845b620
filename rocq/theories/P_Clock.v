(** * Property C57: how long calls take with a real serial port *)
From Coq Require Import ZArith.
From Verif Require Import Base Endian Error Checksum Bytestuff Packet Time Bus Data Client
  Instructions Device Api Spec CallSpec StreamSpec InstructionSpec TimeSpec Serial2 ClockSpec
  Demo DemoProofs ClockTheorems ClockIterTheorems.
Local Open Scope N_scope.

(** ** C57: with the port of serial2.rs, over an operating system that keeps read
    timeouts up to [pc_slack]. *)
Theorem C57_call_duration : forall pc os due A (m : M A) s o s' evs t t',
  punctual pc os -> reach s -> api m -> m s = (o, s') -> calls s s' evs -> clocked pc os due t evs t' ->
  t' <= t + cost pc evs.
Proof. exact L_C57_call_duration. Qed.
Print Assumptions C57_call_duration.

Theorem C57_reads_are_bounded : forall pc os due A (m : M A) s o s' evs t t',
  punctual pc os -> reach s -> api m -> m s = (o, s') -> calls s s' evs -> clocked pc os due t evs t' ->
  pc_read pc * successful_reads evs <= reading_time pc evs.
Proof. exact L_C57_reads_are_bounded. Qed.
Print Assumptions C57_reads_are_bounded.

Theorem C57_status_response : forall pc os due s n o s' evs t t',
  punctual pc os -> reach s -> n < 2 ^ 16 -> b_baud s <> 0 -> b_baud s < 2 ^ 32 ->
  read_status_response n s = (o, s') -> calls s s' evs -> clocked pc os due t evs t' ->
  exists x, shortest_time (11 + n) (b_baud s) x /\
    t' <= t + (x + 34000000) + pc_slack pc + 2 * pc_compute pc /\
    pc_read pc * successful_reads evs <= x + 34000000 + pc_slack pc.
Proof. exact L_C57_status_response. Qed.
Print Assumptions C57_status_response.

Theorem C57_single_motor : forall pc os due A (m : M A) n s o s' evs t t',
  punctual pc os -> reach s -> awaits m n -> n < 2 ^ 16 -> b_baud s <> 0 -> b_baud s < 2 ^ 32 ->
  m s = (o, s') -> calls s s' evs -> clocked pc os due t evs t' ->
  exists x, shortest_time (11 + n) (b_baud s) x /\
    t' <= t + (x + 34000000) + pc_slack pc + 4 * pc_compute pc + 2 * pc_call pc.
Proof. exact L_C57_single_motor. Qed.
Print Assumptions C57_single_motor.

(** A ping at 57600 baud, answered by two reads. *)
Example C57_example : exists o s' evs due t',
  let w := frame x01 [STATUS; x00; x0a; x14; x2e] in
  let s := fresh true [RdData (firstn 9 w); RdData (skipn 9 w)] 32 32 in
  let pc := mkPace 1000 50000 1000000 10 in
  let os := fun timeout t1 (_ : result (list byte) io_error) t2 => t1 + 10 <= t2 /\ t2 <= t1 + timeout + 1000000 in
  punctual pc os /\ reach s /\ awaits (ping x01) 3 /\ b_baud s <> 0 /\ b_baud s < 2 ^ 32 /\
  ping x01 s = (o, s') /\ o = Val (Ok (mkResponse x01 false (mkPing 5130 x2e))) /\
  calls s s' evs /\ length evs = 5%nat /\ clocked pc os due 0 evs t' /\ t' = 3200000.
Proof.
  do 3 eexists. exists (fun _ => 60500 + nanoseconds (mkDur 0 36430556)), 3200000. cbv zeta.
  split. { intros timeout t1 answer t2 [H1 H2]. cbn [pc_slack pc_read]. split; [lia|]. destruct answer; [lia|exact I]. }
  split; [apply fresh_reach; lia|]. split; [apply aw_ping|]. split; [discriminate|]. split; [reflexivity|].
  split; [vm_compute; reflexivity|]. split; [reflexivity|]. split; [vm_compute; reflexivity|]. split; [reflexivity|].
  split; [|reflexivity].
  eapply (ck_discard _ _ _ 0 500 20000); [cbn; lia|cbn; lia|].
  eapply (ck_write _ _ _ 20000 20100 60000); [cbn; lia|cbn; lia|].
  eapply (ck_deadline _ _ _ 60000 60500); [cbn; lia|vm_compute; reflexivity|].
  eapply (ck_read _ _ _ 60500 60600 2100000); [cbn; lia| |].
  { eapply s2_read; [vm_compute; reflexivity|]. split; vm_compute; discriminate. }
  eapply (ck_read _ _ _ 2100000 2100500 3200000); [cbn; lia| |].
  { eapply s2_read; [vm_compute; reflexivity|]. split; vm_compute; discriminate. }
  apply ck_nil.
Qed.

(** Asking many motors, taking some of the answers and dropping the rest: also when
    motors do not answer, or answer slowly. *)
Theorem C57_sync_read_bytes : forall pc os due ids a n k s o s' evs t t',
  punctual pc os -> reach s -> n < 2 ^ 16 -> b_baud s <> 0 -> b_baud s < 2 ^ 32 ->
  ask_sync_bytes ids a n k s = (o, s') -> calls s s' evs -> clocked pc os due t evs t' ->
  exists x, shortest_time (11 + n) (b_baud s) x /\
    t' <= t + N.of_nat (length ids) * (x + 34000000 + pc_slack pc + 2 * pc_compute pc) + 2 * (pc_compute pc + pc_call pc).
Proof. exact L_C57_sync_read_bytes. Qed.
Print Assumptions C57_sync_read_bytes.

Theorem C57_sync_read : forall pc os due A (D : data_impl A) ids a k s o s' evs t t',
  punctual pc os -> reach s -> N.of_nat (d_size D) < 2 ^ 16 -> b_baud s <> 0 -> b_baud s < 2 ^ 32 ->
  ask_sync D ids a k s = (o, s') -> calls s s' evs -> clocked pc os due t evs t' ->
  exists x, shortest_time (11 + N.of_nat (d_size D)) (b_baud s) x /\
    t' <= t + N.of_nat (length ids) * (x + 34000000 + pc_slack pc + 2 * pc_compute pc) + 2 * (pc_compute pc + pc_call pc).
Proof. exact L_C57_sync_read. Qed.
Print Assumptions C57_sync_read.

Theorem C57_bulk_read : forall pc os due l k s o s' evs t t',
  punctual pc os -> reach s -> Forall (fun q => br_count q < 2 ^ 16) l -> b_baud s <> 0 -> b_baud s < 2 ^ 32 ->
  ask_bulk l k s = (o, s') -> calls s s' evs -> clocked pc os due t evs t' ->
  exists xs, Forall2 (fun q x => shortest_time (11 + br_count q) (b_baud s) x) l xs /\
    t' <= t + total xs + N.of_nat (length l) * (34000000 + pc_slack pc + 2 * pc_compute pc) + 2 * (pc_compute pc + pc_call pc).
Proof. exact L_C57_bulk_read. Qed.
Print Assumptions C57_bulk_read.

(** Two motors; the first one answers, the second one does not, and is given up with the
    iterator. *)
Example C57_example_many : exists o s' evs due t',
  let w := frame x01 [STATUS; x00; x2a] in
  let s := fresh true [RdData w; RdErr (IoTimeout 7)] 32 32 in
  let pc := mkPace 1000 50000 1000000 10 in
  let os := fun timeout t1 (_ : result (list byte) io_error) t2 => t1 + 10 <= t2 /\ t2 <= t1 + timeout + 1000000 in
  punctual pc os /\ reach s /\ b_baud s <> 0 /\ b_baud s < 2 ^ 32 /\
  ask_sync_bytes [x01; x02] 132 1 1 s = (o, s') /\ o = Val (Ok [Some (Ok (mkResponse x01 false [x2a]))]) /\
  calls s s' evs /\ length evs = 6%nat /\ clocked pc os due 0 evs t' /\ t' = 39000000.
Proof.
  do 3 eexists.
  exists (fun n => match n with O => 60500 | _ => 2101000 end + nanoseconds (mkDur 0 36083334)), 39000000. cbv zeta.
  split. { intros timeout t1 answer t2 [H1 H2]. cbn [pc_slack pc_read]. split; [lia|]. destruct answer; [lia|exact I]. }
  split; [apply fresh_reach; lia|]. split; [discriminate|]. split; [reflexivity|].
  split; [vm_compute; reflexivity|]. split; [reflexivity|]. split; [vm_compute; reflexivity|]. split; [reflexivity|].
  split; [|reflexivity].
  eapply (ck_discard _ _ _ 0 500 20000); [cbn; lia|cbn; lia|].
  eapply (ck_write _ _ _ 20000 20100 60000); [cbn; lia|cbn; lia|].
  eapply (ck_deadline _ _ _ 60000 60500); [cbn; lia|vm_compute; reflexivity|].
  eapply (ck_read _ _ _ 60500 60600 2100000); [cbn; lia| |].
  { eapply s2_read; [vm_compute; reflexivity|]. split; vm_compute; discriminate. }
  eapply (ck_deadline _ _ _ 2100000 2101000); [cbn; lia|vm_compute; reflexivity|].
  eapply (ck_read _ _ _ 2101000 2101500 39000000); [cbn; lia| |].
  { eapply s2_read; [vm_compute; reflexivity|]. split; vm_compute; discriminate. }
  apply ck_nil.
Qed.
