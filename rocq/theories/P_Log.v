(** * Property C64: the log *)
From Verif Require Import Base Endian Error Checksum Bytestuff Packet Time Bus Data Client
  Instructions Device Api Spec CallSpec StreamSpec LogModel LogSpec Demo DemoProofs LogTheorems.

(** ** Logging changes nothing: evaluating the arguments of the log macros cannot
    panic, and what the functions return and do is what they do without them. *)
Theorem C64_write_unchanged : forall id i n enc s,
  fst (write_packet_log id i n enc s) = write_packet id i n enc s.
Proof. exact L_C64_write_unchanged. Qed.
Print Assumptions C64_write_unchanged.

Theorem C64_read_unchanged : forall d s, fst (read_packet_deadline_log d s) = read_packet_deadline d s.
Proof. exact L_C64_read_unchanged. Qed.
Print Assumptions C64_read_unchanged.

Theorem C64_transfer_unchanged : forall id i n k enc s,
  fst (transfer_single_log id i n k enc s) = transfer_single id i n k enc s.
Proof. exact L_C64_transfer_unchanged. Qed.
Print Assumptions C64_transfer_unchanged.

Theorem C64_scan_unchanged : forall s, fst (scan_next_log s) = scan_next s.
Proof. exact L_C64_scan_unchanged. Qed.
Print Assumptions C64_scan_unchanged.

(** ** Sending: the log shows the bytes given to the serial port. *)
Theorem C64_write : forall id i n enc s o s' logs, write_packet_log id i n enc s = (o, s', logs) ->
  exists evs, calls s s' evs /\ sent_in logs = written_in evs /\
    logs = map LogSending (written_in evs) /\ (forall u, o = Val (Ok u) -> exists w, logs = [LogSending w]).
Proof. exact L_C64_write. Qed.
Print Assumptions C64_write.

(** ** Receiving: every complete message shows up once, without its CRC, and the
    number of bytes skipped is right. *)
Theorem C64_read : forall d s o s' logs, reach s -> 10 <= List.length (b_rbuf s) ->
  read_packet_deadline_log d s = (o, s', logs) ->
  exists g ws, read_story s s' o g ws /\ received_in logs = ws /\ sent_in logs = [] /\
    skip_count logs = List.length g.
Proof. exact L_C64_read. Qed.
Print Assumptions C64_read.

(** The bytes shown as skipped can be wrong: after a packet was handed out, the log
    shows the beginning of that packet. *)
Theorem C64_garbage_refuted :
  ~ (forall d s o s' logs, reach s -> 10 <= List.length (b_rbuf s) -> read_packet_deadline_log d s = (o, s', logs) ->
     exists g ws, read_story s s' o g ws /\ garbage_in logs = g).
Proof. exact L_C64_garbage_refuted. Qed.
Print Assumptions C64_garbage_refuted.

(** Missing: reads right after a read that returned a packet. *)
Theorem C64_garbage_partial : forall d s o s' logs, reach s -> nothing_handed_out s -> 10 <= List.length (b_rbuf s) ->
  read_packet_deadline_log d s = (o, s', logs) ->
  exists g ws, read_story s s' o g ws /\ garbage_in logs = g.
Proof. exact L_C64_garbage_partial. Qed.
Print Assumptions C64_garbage_partial.

(** For every read: as many bytes are shown as were skipped, and only those that
    lay in the bus when the read began can be shown wrongly. *)
Theorem C64_garbage_late : forall d s o s' logs, reach s -> 10 <= List.length (b_rbuf s) ->
  read_packet_deadline_log d s = (o, s', logs) ->
  exists g ws, read_story s s' o g ws /\ List.length (garbage_in logs) = List.length g /\
    skipn (already_received s) (garbage_in logs) = skipn (already_received s) g.
Proof. exact L_C64_garbage_late. Qed.
Print Assumptions C64_garbage_late.

Example C64_example_garbage_late : exists p s s' logs,
  let s0 := fresh true [RdData (frame x01 [STATUS; x00] ++ [x07; x08]); RdData [x09; x0a]; RdErr (IoTimeout 0)] 32 32 in
  read_status_response 0 s0 = (Val (Ok p), s) /\ reach s /\ 10 <= length (b_rbuf s) /\ already_received s = 2 /\
  read_packet_deadline_log now s = (Val (Err (RIo (IoTimeout 0))), s', logs) /\
  garbage_in logs = [xff; xff; x09; x0a].
Proof.
  eexists _, _, _, _. cbv zeta. split; [vm_compute; reflexivity|]. split.
  { eapply reach_call; [|apply (api_read_status_response 0)|];
      [exact (fresh_reach true [RdData (frame x01 [STATUS; x00] ++ [x07; x08]); RdData [x09; x0a]; RdErr (IoTimeout 0)] 32 32 ltac:(lia))|
       vm_compute; reflexivity]. }
  split; [vm_compute; lia|]. split; [vm_compute; reflexivity|]. split; [vm_compute; reflexivity|].
  vm_compute. reflexivity.
Qed.

Example C64_example_read : exists p s' w c,
  let s := fresh true [RdData ([x07; xff] ++ firstn 4 (frame x01 [STATUS; x00; x2a]));
                       RdData (skipn 4 (frame x01 [STATUS; x00; x2a]) ++ [xff])] 32 32 in
  reach s /\ nothing_handed_out s /\ 10 <= length (b_rbuf s) /\
  read_packet_deadline_log now s = (Val (Ok p), s',
    [LogSkipping 2; LogSkipped [x07; xff]; LogReadPacket w]) /\
  w ++ c = frame x01 [STATUS; x00; x2a] /\ length c = 2.
Proof.
  eexists _, _, _, (skipn 10 (frame x01 [STATUS; x00; x2a])). cbv zeta. split; [apply fresh_reach; lia|].
  split.
  { apply (nho_new true (mkPort [RdData ([x07; xff] ++ firstn 4 (frame x01 [STATUS; x00; x2a]));
                       RdData (skipn 4 (frame x01 [STATUS; x00; x2a]) ++ [xff])] [] [] [] 0 []) (repeat x00 32) (repeat x00 32) 57600).
    vm_compute. reflexivity. }
  split; [vm_compute; lia|]. split; [vm_compute; reflexivity|].
  split; vm_compute; reflexivity.
Qed.

(** ** A sequence of writes and reads: every packet sent and every message received
    is logged, in order. *)
Theorem C64_session : forall cs s o s' logs, reach s -> closures_ok cs -> run_calls cs s = (o, s', logs) ->
  (exists evs, calls s s' evs /\ sent_in logs = written_in evs) /\
  (forall rs, o = Val rs -> List.length (received_in logs) = List.length (filter got_message rs)).
Proof. exact L_C64_session. Qed.
Print Assumptions C64_session.

Theorem C64_transfer : forall id i n k enc s p s' logs, reach s -> encoder_ok enc ->
  transfer_single_log id i n k enc s = (Val (Ok p), s', logs) ->
  exists s1 w g m c, write_packet id i n enc s = (Val (Ok tt), s1) /\ calls s s1 [LDiscard None; LWrite w None] /\
    pending s1 = map inl (g ++ m ++ c) ++ pending s' /\ garbage_split (g ++ m ++ c) g (m ++ c) /\ List.length c = 2 /\
    sent_in logs = [w] /\ received_in logs = [m] /\ skip_count logs = List.length g /\ garbage_in logs = g.
Proof. exact L_C64_transfer. Qed.
Print Assumptions C64_transfer.

Example C64_example_session : exists p s' w1 w2 m,
  let s := fresh true [RdData (frame x01 [STATUS; x00]); RdErr (IoTimeout 3)] 32 32 in
  let cs := [CWrite x01 WRITE 2 (fill [x74; x00]); CRead now; CWrite x02 PING 0 no_params; CRead now] in
  reach s /\ closures_ok cs /\
  run_calls cs s = (Val [None; Some (Ok p); None; Some (Err (RIo (IoTimeout 3)))], s',
    [LogSending w1; LogReadPacket m; LogSending w2]).
Proof.
  eexists _, _, _, _, _. cbv zeta. split; [apply fresh_reach; lia|].
  split.
  { repeat apply Forall_cons; try exact I; [apply fill_writes| |apply Forall_nil].
    intros x x' r E. unfold no_params in E. injection E as <- _. reflexivity. }
  vm_compute. reflexivity.
Qed.

(** ** Different records have different texts; a scan says when it ended. *)
Theorem C64_texts : forall a b, record_text a = record_text b -> a = b.
Proof. exact L_C64_texts. Qed.
Print Assumptions C64_texts.

Theorem C64_scan_timeout : forall s r s' logs, scan_next_log s = (Val r, s', logs) ->
  (r = None <-> In LogPingTimeout logs).
Proof. exact L_C64_scan_timeout. Qed.
Print Assumptions C64_scan_timeout.

Example C64_example_scan : exists s',
  scan_next_log (fresh true [RdErr (IoTimeout 3)] 32 32) = (Val None, s', [LogPingTimeout]).
Proof. eexists. vm_compute. reflexivity. Qed.
