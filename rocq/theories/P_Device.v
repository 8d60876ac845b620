(** * Properties C28, C41, C42, C44-C46: status packets and the device *)
From Verif Require Import Base Endian Error Checksum Bytestuff Packet Time Bus Data Client
  Instructions Device Api Spec CallSpec StreamSpec DeviceSpec Demo DemoProofs SendTheorems ReadTheorems
  StatusProofs DeviceTheorems.

(** ** C28 *)
Theorem C28_error_and_alert : forall p id e params, packet_is p id (STATUS :: e :: params) ->
  st_error p = Val e /\
  st_alert p = Val (N.testbit (b2n e) 7) /\
  st_error_number p = Val (n2b (b2n e mod 128)) /\
  motor_error_alert e = N.testbit (b2n e) 7 /\
  motor_error_number e = n2b (b2n e mod 128) /\
  (motor_error_check e = Ok tt <-> b2n e mod 128 = 0)%N /\
  (forall raw, motor_error_check e = Err raw -> raw = e).
Proof. exact L_C28_error_and_alert. Qed.
Print Assumptions C28_error_and_alert.

Theorem C28_client_reports : forall t s g id e params w rest, reach s -> ~ contains g header ->
  is_frame id (STATUS :: e :: params) w -> ff_runs_ok (STATUS :: e :: params) ->
  length w <= length (b_rbuf s) -> pending s = map inl (g ++ w) ++ rest ->
  exists s', pending s' = rest /\
    ((b2n e mod 128 = 0)%N -> exists p, packet_is p id (STATUS :: e :: params) /\
       read_status_response_timeout t s = (Val (Ok p), s')) /\
    ((b2n e mod 128 <> 0)%N -> read_status_response_timeout t s = (Val (Err (RMotorError e)), s')).
Proof. exact L_C28_client_reports. Qed.
Print Assumptions C28_client_reports.

Theorem C28_no_false_motor_error : forall t s raw s', reach s ->
  read_status_response_timeout t s = (Val (Err (RMotorError raw)), s') ->
  (b2n raw mod 128 <> 0)%N /\
  exists id params, carries (pending s) id (STATUS :: raw :: params) (pending s').
Proof. exact L_C28_no_false_motor_error. Qed.
Print Assumptions C28_no_false_motor_error.

(** Alert bit only: no error.  Error 3 with alert bit: an error. *)
Example C28_example : exists p s1 s2,
  let s e := fresh true [RdData (frame x01 [STATUS; e; x07])] 32 32 in
  (forall e, reach (s e)) /\
  read_status_response_timeout dur_34ms (s x80) = (Val (Ok p), s1) /\ packet_is p x01 [STATUS; x80; x07] /\
  read_status_response_timeout dur_34ms (s x83) = (Val (Err (RMotorError x83)), s2).
Proof.
  do 3 eexists. cbv zeta. split; [intro; apply fresh_reach; lia|].
  split; [vm_compute; reflexivity|]. split; [split; vm_compute; reflexivity|]. vm_compute. reflexivity.
Qed.

(** ** C41 *)
Theorem C41_status_response_timeout : forall s t o s', reach s -> read_status_response_timeout t s = (o, s') ->
  exists d evs, dl_timeout d = t /\ calls s s' (LDeadline d :: evs) /\ Forall (reads_with d) evs.
Proof. exact L_C41_status_response_timeout. Qed.
Print Assumptions C41_status_response_timeout.

Theorem C41_status_response : forall s n o s', reach s -> read_status_response n s = (o, s') ->
  match response_timeout (b_dbg s) (b_baud s) n with
  | Val t => exists d evs, dl_timeout d = t /\ calls s s' (LDeadline d :: evs) /\ Forall (reads_with d) evs
  | _ => calls s s' []
  end.
Proof. exact L_C41_status_response. Qed.
Print Assumptions C41_status_response.

Theorem C41_device_read : forall s t o s', reach s -> device_read t s = (o, s') ->
  exists d evs, dl_timeout d = t /\ calls s s' (LDeadline d :: evs) /\ Forall (reads_with d) evs.
Proof. exact L_C41_device_read. Qed.
Print Assumptions C41_device_read.

(** Two partial reads, one deadline. *)
Example C41_example : exists r s',
  let s := fresh true [RdData (firstn 5 (frame x01 [STATUS; x00])); RdData (skipn 5 (frame x01 [STATUS; x00]))] 32 32 in
  reach s /\ read_status_response 0 s = (Val (Ok r), s') /\
  exists d a b, calls s s' [LDeadline d; LRead d 32 a; LRead d 27 b].
Proof.
  do 2 eexists. cbv zeta. split; [apply fresh_reach; lia|]. split; [vm_compute; reflexivity|].
  do 3 eexists. vm_compute. reflexivity.
Qed.

(** ** C42 *)
Theorem C42_returns_the_instruction : forall s t line g id i params w rest, reach s ->
  skips (length (b_rbuf s)) (pending s) line ->
  ~ contains g header -> is_frame id (i :: params) w -> i <> STATUS -> ff_runs_ok (i :: params) ->
  length w <= length (b_rbuf s) -> line = map inl (g ++ w) ++ rest ->
  exists s', pending s' = rest /\
    (follows_rule i (length params) -> exists ins, means i params ins /\
       device_read t s = (Val (Ok (mkInstruction id ins)), s')) /\
    (~ follows_rule i (length params) -> exists e, parameter_rule i = Some e /\
       device_read t s = (Val (Err (RInvalidMessage (IMParameterCount (length params) e))), s')).
Proof. exact L_C42_returns_the_instruction. Qed.
Print Assumptions C42_returns_the_instruction.

Theorem C42_reports_errors : forall s t line u d e u', reach s ->
  skips (length (b_rbuf s)) (pending s) line -> 10 <= length (b_rbuf s) ->
  reach u -> length (b_rbuf u) = length (b_rbuf s) -> pending u = line ->
  read_packet_deadline d u = (Val (Err e), u') ->
  exists s', device_read t s = (Val (Err e), s') /\ pending s' = pending u'.
Proof. exact L_C42_reports_errors. Qed.
Print Assumptions C42_reports_errors.

Theorem C42_only_instructions : forall s t ins s', reach s -> device_read t s = (Val (Ok ins), s') ->
  exists line i params, skips (length (b_rbuf s)) (pending s) line /\
    carries line (i_id ins) (i :: params) (pending s') /\ i <> STATUS /\ means i params (i_instruction ins).
Proof. exact L_C42_only_instructions. Qed.
Print Assumptions C42_only_instructions.

(** The status of another device, then an instruction. *)
Example C42_example : exists s',
  let w := frame x01 [READ; x84; x00; x04; x00] in
  let s := fresh true [RdData (frame x02 [STATUS; x00] ++ w)] 32 32 in
  reach s /\ skips (length (b_rbuf s)) (pending s) (map inl ([] ++ w) ++ []) /\
  ~ contains [] header /\ is_frame x01 [READ; x84; x00; x04; x00] w /\ READ <> STATUS /\
  ff_runs_ok [READ; x84; x00; x04; x00] /\ length w <= length (b_rbuf s) /\ follows_rule READ 4 /\
  device_read dur_34ms s = (Val (Ok (mkInstruction x01 (IRead 132 4))), s').
Proof.
  eexists. cbv zeta. split; [apply fresh_reach; lia|]. split; [|demo].
  apply (skip_status 32 [] x02 [x00] (frame x02 [STATUS; x00])
           (map inl (frame x01 [READ; x84; x00; x04; x00]))).
  - apply header_in_false. reflexivity.
  - apply (raw_frame_ok x02 [STATUS; x00]). reflexivity.
  - vm_compute. lia.
  - apply skip_none.
Qed.

(** The status of another device, then a packet with a wrong CRC. *)
Example C42_error_example : exists c s',
  let s := fresh true [RdData (frame x02 [STATUS; x00] ++ message x01 [PING] 1 ++ [x07])] 32 32 in
  device_read dur_34ms s = (Val (Err (RInvalidMessage (IMChecksum 1 c))), s') /\ pending s' = map inl [x07].
Proof. do 2 eexists. cbv zeta. split; vm_compute; reflexivity. Qed.

(** ** C44 *)
Theorem C44_malformed_rejected : forall p id i params, packet_is p id (i :: params) ->
  (follows_rule i (length params) ->
     exists ins, instruction_try_from p = Val (Ok (mkInstruction id ins)) /\ means i params ins) /\
  (~ follows_rule i (length params) ->
     exists e, parameter_rule i = Some e /\
       instruction_try_from p = Val (Err (IMParameterCount (length params) e))).
Proof. exact L_C44_malformed_rejected. Qed.
Print Assumptions C44_malformed_rejected.

Theorem C44_meaning_is_unique : forall i params a b, means i params a -> means i params b -> a = b.
Proof. exact L_C44_meaning_is_unique. Qed.
Print Assumptions C44_meaning_is_unique.

Example C44_example : exists p s',
  let s := fresh true [RdData (frame x01 [SYNC_READ; x84; x00; x04])] 32 32 in
  read_packet_deadline now s = (Val (Ok p), s') /\ packet_is p x01 [SYNC_READ; x84; x00; x04] /\
  ~ follows_rule SYNC_READ (length [x84; x00; x04]) /\
  instruction_try_from p = Val (Err (IMParameterCount 3 (Min 4))).
Proof.
  do 2 eexists. cbv zeta. split; [vm_compute; reflexivity|]. split; [split; vm_compute; reflexivity|].
  split; [vm_compute; lia|]. vm_compute. reflexivity.
Qed.

(** ** C45.  Refuted: a bulk write comes back as a bulk read. *)
Theorem C45_read_owned_refuted :
  ~ (forall s t, reach s -> device_read_owned t s = device_read t s).
Proof. exact L_C45_read_owned_refuted. Qed.
Print Assumptions C45_read_owned_refuted.

(** Nothing else goes wrong. *)
Theorem C45_read_owned_exactly : forall s t,
  device_read_owned t s = device_read t s <->
  forall id ps s', device_read t s <> (Val (Ok (mkInstruction id (IBulkWrite ps))), s').
Proof. exact L_C45_read_owned_exactly. Qed.
Print Assumptions C45_read_owned_exactly.

Example C45_example : exists s1 s2,
  let s := fresh true [RdData (frame x01 [BULK_WRITE; x01])] 32 32 in
  device_read dur_34ms s = (Val (Ok (mkInstruction x01 (IBulkWrite [x01]))), s1) /\
  device_read_owned dur_34ms s = (Val (Ok (mkInstruction x01 (IBulkRead [x01]))), s2).
Proof. do 2 eexists. cbv zeta. split; vm_compute; reflexivity. Qed.

(** ** C46.  Refuted by data that is not stuffed reversibly (C06). *)
Theorem C46_status_arrives_refuted :
  ~ (forall s id error params enc s' w c t g rest,
     reach s -> writes_parameters enc params ->
     device_write_status id error (length params) enc s = (Val (Ok tt), s') ->
     calls s s' [LDiscard None; LWrite w None] -> (N.of_nat (length w) < 2 ^ 16)%N ->
     reach c -> ~ contains g header -> length w <= length (b_rbuf c) ->
     pending c = map inl (g ++ w) ++ rest -> (b2n error mod 128 = 0)%N ->
     exists p c', read_status_response_timeout t c = (Val (Ok p), c') /\ packet_is p id (STATUS :: error :: params)).
Proof. exact L_C46_status_arrives_refuted. Qed.
Print Assumptions C46_status_arrives_refuted.

Theorem C46_status_arrives_partial : forall s id error params enc s' w c t g rest,
  reach s -> writes_parameters enc params ->
  device_write_status id error (length params) enc s = (Val (Ok tt), s') ->
  calls s s' [LDiscard None; LWrite w None] -> (N.of_nat (length w - 7) < 2 ^ 16)%N ->
  reach c -> ~ contains g header -> length w <= length (b_rbuf c) ->
  pending c = map inl (g ++ w) ++ rest ->
  exists c', pending c' = rest /\
    ((b2n error mod 128 = 0)%N -> exists p ps, packet_is p id (STATUS :: error :: ps) /\
       (ps = params <-> comes_back (STATUS :: error :: params)) /\
       read_status_response_timeout t c = (Val (Ok p), c')) /\
    ((b2n error mod 128 <> 0)%N -> read_status_response_timeout t c = (Val (Err (RMotorError error)), c')).
Proof. exact L_C46_status_arrives_partial. Qed.
Print Assumptions C46_status_arrives_partial.

Example C46_example : exists s' w p c',
  let s := fresh true [] 32 32 in
  let c := fresh false [RdData (xff :: w)] 32 32 in
  reach s /\ writes_parameters (fill [xff; xff; xfd]) [xff; xff; xfd] /\
  device_write_status x05 x80 3 (fill [xff; xff; xfd]) s = (Val (Ok tt), s') /\
  calls s s' [LDiscard None; LWrite w None] /\ comes_back [STATUS; x80; xff; xff; xfd] /\
  reach c /\ length w <= length (b_rbuf c) /\
  read_status_response_timeout dur_34ms c = (Val (Ok p), c') /\ packet_is p x05 [STATUS; x80; xff; xff; xfd].
Proof.
  eexists. exists (frame x05 [STATUS; x80; xff; xff; xfd]). do 2 eexists. cbv zeta.
  split; [apply fresh_reach; lia|]. split; [apply fill_writes|].
  split; [vm_compute; reflexivity|]. split; [vm_compute; reflexivity|]. split; [vm_compute; intuition lia|].
  split; [apply fresh_reach; lia|]. split; [vm_compute; lia|]. split; [vm_compute; reflexivity|].
  split; vm_compute; reflexivity.
Qed.
