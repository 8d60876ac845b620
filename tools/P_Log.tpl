(** * Property C64: the log *)
From Verif Require Import Base Endian Error Checksum Bytestuff Packet Time Bus Data Client
  Instructions Device Api Spec CallSpec StreamSpec LogModel LogSpec Demo DemoProofs LogTheorems.

(** ** Logging changes nothing: evaluating the arguments of the log macros cannot
    panic, and what the functions return and do is what they do without them. *)
@C64_write_unchanged

@C64_read_unchanged

@C64_transfer_unchanged

@C64_scan_unchanged

(** ** Sending: the log shows the bytes given to the serial port. *)
@C64_write

(** ** Receiving: every complete message shows up once, without its CRC, and the
    number of bytes skipped is right. *)
@C64_read

(** The bytes shown as skipped can be wrong: after a packet was handed out, the log
    shows the beginning of that packet. *)
@C64_garbage_refuted

(** Missing: reads right after a read that returned a packet. *)
@C64_garbage_partial

(** For every read: as many bytes are shown as were skipped, and only those that
    lay in the bus when the read began can be shown wrongly. *)
@C64_garbage_late

Example C64_example_garbage_late : exists p s s' logs,
  let s0 := fresh true [RdData (frame x01 [STATUS; x00] ++ [x07; x08]); RdData [x09; x0a]; RdErr (IoTimeout 0)] 32 32 in
  read_status_response 0 s0 = (Val (Ok p), s) /\ reach s /\ 10 <= length (b_rbuf s) /\ already_received s = 2 /\
  read_packet_deadline_log now s = (Val (Err (RIo (IoTimeout 0))), s', logs) /\
  garbage_in logs = [xff; xff; x09; x0a].
Proof.
  eexists _, _, _, _. cbv zeta. split; [vm_compute; reflexivity|]. split.
  { eapply reach_call; [|apply (api_read_status_response 0)|];
      [exact (fresh_reach true [RdData (frame x01 [STATUS; x00] ++ [x07; x08]); RdData [x09; x0a]; RdErr (IoTimeout 0)] 32 32 ltac:(lia))|
       vm_compute; reflexivity]. }
  split; [vm_compute; lia|]. split; [vm_compute; reflexivity|]. split; [vm_compute; reflexivity|].
  vm_compute. reflexivity.
Qed.

Example C64_example_read : exists p s' w c,
  let s := fresh true [RdData ([x07; xff] ++ firstn 4 (frame x01 [STATUS; x00; x2a]));
                       RdData (skipn 4 (frame x01 [STATUS; x00; x2a]) ++ [xff])] 32 32 in
  reach s /\ nothing_handed_out s /\ 10 <= length (b_rbuf s) /\
  read_packet_deadline_log now s = (Val (Ok p), s',
    [LogSkipping 2; LogSkipped [x07; xff]; LogReadPacket w]) /\
  w ++ c = frame x01 [STATUS; x00; x2a] /\ length c = 2.
Proof.
  eexists _, _, _, (skipn 10 (frame x01 [STATUS; x00; x2a])). cbv zeta. split; [apply fresh_reach; lia|].
  split.
  { apply (nho_new true (mkPort [RdData ([x07; xff] ++ firstn 4 (frame x01 [STATUS; x00; x2a]));
                       RdData (skipn 4 (frame x01 [STATUS; x00; x2a]) ++ [xff])] [] [] [] 0 []) (repeat x00 32) (repeat x00 32) 57600).
    vm_compute. reflexivity. }
  split; [vm_compute; lia|]. split; [vm_compute; reflexivity|].
  split; vm_compute; reflexivity.
Qed.

(** ** A sequence of writes and reads: every packet sent and every message received
    is logged, in order. *)
@C64_session

@C64_transfer

Example C64_example_session : exists p s' w1 w2 m,
  let s := fresh true [RdData (frame x01 [STATUS; x00]); RdErr (IoTimeout 3)] 32 32 in
  let cs := [CWrite x01 WRITE 2 (fill [x74; x00]); CRead now; CWrite x02 PING 0 no_params; CRead now] in
  reach s /\ closures_ok cs /\
  run_calls cs s = (Val [None; Some (Ok p); None; Some (Err (RIo (IoTimeout 3)))], s',
    [LogSending w1; LogReadPacket m; LogSending w2]).
Proof.
  eexists _, _, _, _, _. cbv zeta. split; [apply fresh_reach; lia|].
  split.
  { repeat apply Forall_cons; try exact I; [apply fill_writes| |apply Forall_nil].
    intros x x' r E. unfold no_params in E. injection E as <- _. reflexivity. }
  vm_compute. reflexivity.
Qed.

(** ** Different records have different texts; a scan says when it ended. *)
@C64_texts

@C64_scan_timeout

Example C64_example_scan : exists s',
  scan_next_log (fresh true [RdErr (IoTimeout 3)] 32 32) = (Val None, s', [LogPingTimeout]).
Proof. eexists. vm_compute. reflexivity. Qed.
