(** * Property C91: the tool shows the traffic when asked *)
From Coq Require Import ZArith Ascii String.
From Verif Require Import Base Endian Error Checksum Bytestuff Packet Time Bus Data Client Instructions Device Api CallSpec
  StreamSpec Cli Text TextSpec LogModel LogSpec CliOutput CliOutputSpec VerboseModel VerboseSpec CliSpec InstructionSpec Spec
  Demo DemoProofs VerboseTheorems VerboseScanTheorems.
Local Open Scope list_scope.

(** ** C91.  Without the records of the library it is the tool of C65. *)
Theorem C91_same : forall io el fuel c s o s' es, cli_verbose io el fuel c s = (o, s', es) ->
  cli_output io el fuel c s =
  (match o with Val r => Val (own_lines es, r) | Panic p => Panic p | Blocked => Blocked end, s').
Proof. exact L_C91_same. Qed.
Print Assumptions C91_same.

(** The records of the library hide nothing the user is told, are not shown without -v, and are never marked as errors or
    warnings. *)
Theorem C91_told_anyway : forall io el fuel c s r s' es lines verbose, cli_verbose io el fuel c s = (Val r, s', es) ->
  cli_output io el fuel c s = (Val (lines, r), s') -> (verbose < 256)%N ->
  screen 0 es = printed 0 lines /\
  marked "Error: " (screen verbose es) = marked "Error: " (printed verbose lines) /\
  marked "Warning: " (screen verbose es) = marked "Warning: " (printed verbose lines) /\
  (forall t, In t (printed verbose lines) -> In t (screen verbose es)).
Proof. exact L_C91_told_anyway. Qed.
Print Assumptions C91_told_anyway.

(** With -vv, and not with less, the screen shows the packets given to the serial port, all of them, in order, and no others;
    whatever comes of the command. *)
Theorem C91_traffic : forall io el fuel c s o s' es verbose, reach s -> cli_verbose io el fuel c s = (o, s', es) ->
  (verbose < 256)%N ->
  exists evs, calls s s' evs /\
    after "Trace:  sending packet: " (screen verbose es) = if (2 <=? verbose)%N then map hex2_array (written_in evs) else [].
Proof. exact L_C91_traffic. Qed.
Print Assumptions C91_traffic.

(** What is going to be done comes first, then the traffic, then what came of it. *)
Theorem C91_order : forall io el fuel c call s o s' es, client_call c call -> cli_verbose io el fuel c s = (o, s', es) ->
  exists d ls tail, es = Own (LvDebug, d) :: map Lib ls ++ map Own tail /\ (tail <> [] <-> exists r, o = Val r).
Proof. exact L_C91_order. Qed.
Print Assumptions C91_order.

(** A command that succeeds shows the packet sent and the message taken as answer. *)
Theorem C91_answer : forall io el fuel c call s r s' es verbose, reach s -> client_call c call -> target c <> BROADCAST ->
  cli_verbose io el fuel c s = (Val (Ok r), s', es) -> (2 <= verbose < 256)%N ->
  exists evs w g m e, calls s s' evs /\ written_in evs = [w] /\
    items (p_script (b_port s)) = map inl (g ++ m ++ e) ++ pending s' /\
    garbage_split (g ++ m ++ e) g (m ++ e) /\ List.length e = 2 /\
    after "Trace:  sending packet: " (screen verbose es) = [hex2_array w] /\
    after "Trace:  read packet: " (screen verbose es) = [hex2_array m].
Proof. exact L_C91_answer. Qed.
Print Assumptions C91_answer.

(** The packet shown is the one the command asks for. *)
Theorem C91_request : forall io el c id i params fuel s o s' es verbose, command_request c id i params -> reach s ->
  cli_verbose io el fuel c s = (o, s', es) -> (2 <= verbose < 256)%N ->
  exists evs, calls s s' evs /\
    ((exists w, sent id i params evs /\ written_in evs = [w] /\
        after "Trace:  sending packet: " (screen verbose es) = [hex2_array w]) \/
     (nothing_sent evs /\ (forall r, o <> Val (Ok r)) /\ after "Trace:  sending packet: " (screen verbose es) = [])) /\
    (plenty_of_room s (List.length params) -> hd None (p_discards (b_port s)) = None -> sent id i params evs).
Proof. exact L_C91_request. Qed.
Print Assumptions C91_request.

(** The message shown says what the tool reports: of the motor asked, for commands that read; of some motor (see C26), for
    commands that change something. *)
Theorem C91_reading : forall io el c id n report fuel s rep s' es verbose, reading c id n report -> id <> BROADCAST -> reach s ->
  cli_verbose io el fuel c s = (Val (Ok rep), s', es) -> (2 <= verbose < 256)%N ->
  exists m e data stuffed, after "Trace:  read packet: " (screen verbose es) = [hex2_array m] /\
    m = header ++ [id] ++ le16 (N.of_nat (List.length stuffed + 2)) ++ stuffed /\ some_stuffed (x55 :: e :: data) stuffed /\
    no_error e /\ List.length data = n /\ rep = report (alert_bit e) data.
Proof. exact L_C91_reading. Qed.
Print Assumptions C91_reading.

Theorem C91_changing : forall io el c id fuel s rep s' es verbose, changing c (MId id) -> id <> BROADCAST -> reach s ->
  cli_verbose io el fuel c s = (Val (Ok rep), s', es) -> (2 <= verbose < 256)%N ->
  exists m id' e stuffed, after "Trace:  read packet: " (screen verbose es) = [hex2_array m] /\
    m = header ++ [id'] ++ le16 (N.of_nat (List.length stuffed + 2)) ++ stuffed /\ some_stuffed [x55; e] stuffed /\
    no_error e /\ rep = RepDone (mkResponse id' (alert_bit e) tt).
Proof. exact L_C91_changing. Qed.
Print Assumptions C91_changing.

(** Garbage before the answer: with one -v the screen shows, besides what it shows without, what is going to be done and
    how many bytes were skipped; with -vv also the bytes. *)
Theorem C91_garbage : forall io el fuel c call s r s' es, reach s -> client_call c call -> target c <> BROADCAST ->
  cli_verbose io el fuel c s = (Val (Ok r), s', es) ->
  exists d parts m e,
    items (p_script (b_port s)) = map inl (List.concat parts ++ m ++ e) ++ pending s' /\
    garbage_split (List.concat parts ++ m ++ e) (List.concat parts) (m ++ e) /\ List.length e = 2 /\
    Forall (fun p => p <> []) parts /\
    screen 1 es = (" " ++ d)%string ::
      map (fun p => " skipping " ++ dec_nat (List.length p) ++ " bytes of leading garbage.")%string parts ++ screen 0 es /\
    (forall verbose, (verbose < 256)%N -> after "Trace:  skipped garbage: " (screen verbose es) =
      if (2 <=? verbose)%N then map hex2_array parts else []).
Proof. exact L_C91_garbage. Qed.
Print Assumptions C91_garbage.

(** An order for all motors: a packet and no answer. *)
Theorem C91_broadcast : forall io el fuel c s r s' es verbose, reach s -> order_only c -> target c = BROADCAST ->
  cli_verbose io el fuel c s = (Val (Ok r), s', es) -> (2 <= verbose < 256)%N ->
  exists evs w, calls s s' evs /\ written_in evs = [w] /\
    after "Trace:  sending packet: " (screen verbose es) = [hex2_array w] /\
    after "Trace:  read packet: " (screen verbose es) = [].
Proof. exact L_C91_broadcast. Qed.
Print Assumptions C91_broadcast.

(** A scan: one packet, and all messages that came. *)
Theorem C91_scan : forall io el fuel s l s' es verbose, reach s -> 10 <= List.length (b_rbuf s) ->
  cli_verbose io el fuel (CPing MBroadcast) s = (Val (Ok (RepScan l)), s', es) -> (2 <= verbose < 256)%N ->
  exists evs w ws, calls s s' evs /\ written_in evs = [w] /\ listened (items (p_script (b_port s))) (pending s') ws /\
    after "Trace:  sending packet: " (screen verbose es) = [hex2_array w] /\
    after "Trace:  read packet: " (screen verbose es) = map hex2_array ws.
Proof. exact L_C91_scan. Qed.
Print Assumptions C91_scan.

(** Each thing a scan reports comes right after the message that says it. *)
Theorem C91_scan_each : forall io el fuel s l s' es, reach s -> 10 <= List.length (b_rbuf s) ->
  cli_verbose io el fuel (CPing MBroadcast) s = (Val (Ok (RepScan l)), s', es) ->
  exists w each last, es = Lib (LogSending w) :: each ++ map Lib last /\ scan_entries io el 0 l each.
Proof. exact L_C91_scan_each. Qed.
Print Assumptions C91_scan_each.

(** Texts of errors and times for the examples. *)
Definition io_text (e : io_error) : string :=
  match e with IoTimeout n => ("timed out " ++ dec n)%string | IoOther n => ("error " ++ dec n)%string end.
Definition time_text (k : nat) : string := "1.25ms".

(** read16 with -vv, with garbage before the answer. *)
Example C91_example :
  let s := fresh true [RdData ([x07; x08] ++ frame x01 [STATUS; x80; x34; x12])] 32 32 in
  let c := CRead16 (MId x01) 132 in
  exists call s' es, reach s /\ client_call c call /\ target c <> BROADCAST /\
  cli_verbose io_text time_text 5 c s = (Val (Ok (RepValue (mkResponse x01 true 4660%Z))), s', es) /\
  screen 0 es = ["Warning:  Alert bit set in response from motor!"; " 1.25ms: 4660 (0x1234)"]%string /\
  screen 1 es = [" Reading a 16-bit value from motor 1 at address 132"; " skipping 2 bytes of leading garbage.";
                 "Warning:  Alert bit set in response from motor!"; " 1.25ms: 4660 (0x1234)"]%string /\
  screen 2 es = [" Reading a 16-bit value from motor 1 at address 132";
                 "Trace:  sending packet: [FF, FF, FD, 00, 01, 07, 00, 02, 84, 00, 02, 00, 1D, 01]";
                 " skipping 2 bytes of leading garbage.";
                 "Trace:  skipped garbage: [07, 08]";
                 "Trace:  read packet: [FF, FF, FD, 00, 01, 06, 00, 55, 80, 34, 12]";
                 "Warning:  Alert bit set in response from motor!"; " 1.25ms: 4660 (0x1234)"]%string.
Proof.
  cbv zeta. do 3 eexists. split; [apply fresh_reach; lia|]. split; [apply cc_read16|]. split; [discriminate|].
  split; [vm_compute; reflexivity|]. split; [vm_compute; reflexivity|]. split; vm_compute; reflexivity.
Qed.

Example C91_example_reading : exists s' es rep,
  let s := fresh true [RdData ([x07; x08] ++ frame x01 [STATUS; x80; x34; x12])] 32 32 in
  let c := CRead16 (MId x01) 132 in
  reading c x01 2 (fun alert data => RepValue (mkResponse x01 alert (DataSpec.le_value data))) /\ x01 <> BROADCAST /\
  command_request c x01 x02 (le16 132 ++ [x02; x00]) /\ plenty_of_room s 4 /\ reach s /\
  cli_verbose io_text time_text 5 c s = (Val (Ok rep), s', es) /\ rep = RepValue (mkResponse x01 true 4660%Z) /\
  after "Trace:  read packet: " (screen 2 es) = ["[FF, FF, FD, 00, 01, 06, 00, 55, 80, 34, 12]"]%string.
Proof.
  do 3 eexists. cbv zeta. split; [constructor|]. split; [discriminate|]. split; [constructor|].
  split; [split; vm_compute; try lia; reflexivity|]. split; [apply fresh_reach; lia|]. split; [vm_compute; reflexivity|].
  split; vm_compute; reflexivity.
Qed.

Example C91_example_changing : exists s' es rep,
  let s := fresh true [RdData (frame x01 [STATUS; x80])] 32 32 in
  let c := CWrite8 (MId x01) 64 1 in
  changing c (MId x01) /\ x01 <> BROADCAST /\ reach s /\
  cli_verbose io_text time_text 5 c s = (Val (Ok rep), s', es) /\ rep = RepDone (mkResponse x01 true tt) /\
  after "Trace:  read packet: " (screen 2 es) = ["[FF, FF, FD, 00, 01, 04, 00, 55, 80]"]%string.
Proof.
  do 3 eexists. cbv zeta. split; [constructor|]. split; [discriminate|]. split; [apply fresh_reach; lia|].
  split; [vm_compute; reflexivity|]. split; vm_compute; reflexivity.
Qed.

Example C91_example_garbage :
  let s := fresh true [RdData [x07; x08]; RdData ([x09] ++ frame x01 [STATUS; x80; x34; x12])] 32 32 in
  let c := CRead16 (MId x01) 132 in
  exists call s' es r, reach s /\ client_call c call /\ target c <> BROADCAST /\
  cli_verbose io_text time_text 5 c s = (Val (Ok r), s', es) /\
  screen 1 es = [" Reading a 16-bit value from motor 1 at address 132"; " skipping 2 bytes of leading garbage.";
                 " skipping 1 bytes of leading garbage.";
                 "Warning:  Alert bit set in response from motor!"; " 1.25ms: 4660 (0x1234)"]%string /\
  after "Trace:  skipped garbage: " (screen 2 es) = ["[07, 08]"; "[09]"]%string.
Proof.
  cbv zeta. do 4 eexists. split; [apply fresh_reach; lia|]. split; [apply cc_read16|]. split; [discriminate|].
  split; [vm_compute; reflexivity|]. split; vm_compute; reflexivity.
Qed.

(** A scan that finds one motor: the packet sent, the answer and the end of the scan. *)
Example C91_example_scan : exists s' es l,
  let s := fresh true [RdData (frame x01 [STATUS; x00; x06; x04; x26]); RdErr (IoTimeout 1); RdErr (IoTimeout 1)] 64 32 in
  reach s /\ 10 <= List.length (b_rbuf s) /\
  cli_verbose io_text time_text 5 (CPing MBroadcast) s = (Val (Ok (RepScan l)), s', es) /\
  screen 2 es = ["Trace:  sending packet: [FF, FF, FD, 00, FE, 03, 00, 01, 31, 42]";
                 "Trace:  read packet: [FF, FF, FD, 00, 01, 07, 00, 55, 00, 06, 04, 26]";
                 " Motor ID: 1"; "  ├─ Response time: 1.25ms"; "  ├─ Model: 1030"; "  └─ Firmware: 38";
                 "Trace:  Ping response timed out."; "Trace:  Ping response timed out."]%string.
Proof.
  do 3 eexists. cbv zeta. split; [apply fresh_reach; lia|]. split; [vm_compute; lia|]. split; [vm_compute; reflexivity|].
  vm_compute. reflexivity.
Qed.

(** The same, with a motor that reports an error. *)
Example C91_example_scan_each : exists s' es l r w1 m1 m2,
  let s := fresh true [RdData (frame x01 [STATUS; x00; x06; x04; x26] ++ frame x02 [STATUS; x04]); RdErr (IoTimeout 1);
                       RdErr (IoTimeout 1)] 64 32 in
  reach s /\ 10 <= List.length (b_rbuf s) /\
  cli_verbose io_text time_text 5 (CPing MBroadcast) s = (Val (Ok (RepScan l)), s', es) /\
  l = [Ok r; Err (RMotorError x04)] /\
  es = [Lib (LogSending w1); Lib (LogReadPacket m1); Own (LvInfo, "Motor ID: 1"); Own (LvInfo, " ├─ Response time: 1.25ms");
        Own (LvInfo, " ├─ Model: 1030"); Own (LvInfo, " └─ Firmware: 38"); Lib (LogReadPacket m2);
        Own (LvError, "Error pinging motor: " ++ read_error_text io_text (RMotorError x04))%string;
        Lib LogPingTimeout; Lib LogPingTimeout]%string.
Proof.
  do 7 eexists. cbv zeta. split; [apply fresh_reach; lia|]. split; [vm_compute; lia|]. split; [vm_compute; reflexivity|].
  split; [reflexivity|]. vm_compute. reflexivity.
Qed.

(** Rebooting all motors. *)
Example C91_example_broadcast : exists s' es r,
  let s := fresh true [] 32 32 in
  let c := CReboot MBroadcast in
  reach s /\ order_only c /\ target c = BROADCAST /\ cli_verbose io_text time_text 5 c s = (Val (Ok r), s', es) /\
  screen 2 es = [" Sending reboot command with motor ID 254";
                 "Trace:  sending packet: [FF, FF, FD, 00, FE, 03, 00, 08, 07, 42]"; " 1.25ms: Ok"]%string.
Proof.
  do 3 eexists. cbv zeta. split; [apply fresh_reach; lia|]. split; [exact I|]. split; [reflexivity|].
  split; [vm_compute; reflexivity|]. vm_compute. reflexivity.
Qed.

(** A command that fails: the packet is shown all the same. *)
Example C91_example_failed : exists s' es,
  cli_verbose io_text time_text 5 (CReboot (MId x01)) (fresh true [RdErr (IoTimeout 1)] 32 32) = (Val (Err tt), s', es) /\
  after "Trace:  sending packet: " (screen 3 es) = ["[FF, FF, FD, 00, 01, 03, 00, 08, 2F, 4E]"]%string /\
  after "Trace:  read packet: " (screen 3 es) = [] /\ after "Trace:  sending packet: " (screen 1 es) = [].
Proof. do 2 eexists. split; [vm_compute; reflexivity|]. repeat split; vm_compute; reflexivity. Qed.
