(** * Property C91: the tool shows the traffic when asked *)
From Coq Require Import ZArith Ascii String.
From Verif Require Import Base Endian Error Checksum Bytestuff Packet Time Bus Data Client Instructions Device Api CallSpec
  StreamSpec Cli Text TextSpec LogModel LogSpec CliOutput CliOutputSpec VerboseModel VerboseSpec CliSpec InstructionSpec Spec
  Demo DemoProofs VerboseTheorems VerboseScanTheorems.
Local Open Scope list_scope.

(** ** C91.  Without the records of the library it is the tool of C65. *)
@C91_same

(** The records of the library hide nothing the user is told, are not shown without -v, and are never marked as errors or
    warnings. *)
@C91_told_anyway

(** With -vv, and not with less, the screen shows the packets given to the serial port, all of them, in order, and no others;
    whatever comes of the command. *)
@C91_traffic

(** What is going to be done comes first, then the traffic, then what came of it. *)
@C91_order

(** A command that succeeds shows the packet sent and the message taken as answer. *)
@C91_answer

(** The packet shown is the one the command asks for. *)
@C91_request

(** The message shown says what the tool reports: of the motor asked, for commands that read; of some motor (see C26), for
    commands that change something. *)
@C91_reading

@C91_changing

(** Garbage before the answer: with one -v the screen shows, besides what it shows without, what is going to be done and
    how many bytes were skipped; with -vv also the bytes. *)
@C91_garbage

(** An order for all motors: a packet and no answer. *)
@C91_broadcast

(** A scan: one packet, and all messages that came. *)
@C91_scan

(** Each thing a scan reports comes right after the message that says it. *)
@C91_scan_each

(** Texts of errors and times for the examples. *)
Definition io_text (e : io_error) : string :=
  match e with IoTimeout n => ("timed out " ++ dec n)%string | IoOther n => ("error " ++ dec n)%string end.
Definition time_text (k : nat) : string := "1.25ms".

(** read16 with -vv, with garbage before the answer. *)
Example C91_example :
  let s := fresh true [RdData ([x07; x08] ++ frame x01 [STATUS; x80; x34; x12])] 32 32 in
  let c := CRead16 (MId x01) 132 in
  exists call s' es, reach s /\ client_call c call /\ target c <> BROADCAST /\
  cli_verbose io_text time_text 5 c s = (Val (Ok (RepValue (mkResponse x01 true 4660%Z))), s', es) /\
  screen 0 es = ["Warning:  Alert bit set in response from motor!"; " 1.25ms: 4660 (0x1234)"]%string /\
  screen 1 es = [" Reading a 16-bit value from motor 1 at address 132"; " skipping 2 bytes of leading garbage.";
                 "Warning:  Alert bit set in response from motor!"; " 1.25ms: 4660 (0x1234)"]%string /\
  screen 2 es = [" Reading a 16-bit value from motor 1 at address 132";
                 "Trace:  sending packet: [FF, FF, FD, 00, 01, 07, 00, 02, 84, 00, 02, 00, 1D, 01]";
                 " skipping 2 bytes of leading garbage.";
                 "Trace:  skipped garbage: [07, 08]";
                 "Trace:  read packet: [FF, FF, FD, 00, 01, 06, 00, 55, 80, 34, 12]";
                 "Warning:  Alert bit set in response from motor!"; " 1.25ms: 4660 (0x1234)"]%string.
Proof.
  cbv zeta. do 3 eexists. split; [apply fresh_reach; lia|]. split; [apply cc_read16|]. split; [discriminate|].
  split; [vm_compute; reflexivity|]. split; [vm_compute; reflexivity|]. split; vm_compute; reflexivity.
Qed.

Example C91_example_reading : exists s' es rep,
  let s := fresh true [RdData ([x07; x08] ++ frame x01 [STATUS; x80; x34; x12])] 32 32 in
  let c := CRead16 (MId x01) 132 in
  reading c x01 2 (fun alert data => RepValue (mkResponse x01 alert (DataSpec.le_value data))) /\ x01 <> BROADCAST /\
  command_request c x01 x02 (le16 132 ++ [x02; x00]) /\ plenty_of_room s 4 /\ reach s /\
  cli_verbose io_text time_text 5 c s = (Val (Ok rep), s', es) /\ rep = RepValue (mkResponse x01 true 4660%Z) /\
  after "Trace:  read packet: " (screen 2 es) = ["[FF, FF, FD, 00, 01, 06, 00, 55, 80, 34, 12]"]%string.
Proof.
  do 3 eexists. cbv zeta. split; [constructor|]. split; [discriminate|]. split; [constructor|].
  split; [split; vm_compute; try lia; reflexivity|]. split; [apply fresh_reach; lia|]. split; [vm_compute; reflexivity|].
  split; vm_compute; reflexivity.
Qed.

Example C91_example_changing : exists s' es rep,
  let s := fresh true [RdData (frame x01 [STATUS; x80])] 32 32 in
  let c := CWrite8 (MId x01) 64 1 in
  changing c (MId x01) /\ x01 <> BROADCAST /\ reach s /\
  cli_verbose io_text time_text 5 c s = (Val (Ok rep), s', es) /\ rep = RepDone (mkResponse x01 true tt) /\
  after "Trace:  read packet: " (screen 2 es) = ["[FF, FF, FD, 00, 01, 04, 00, 55, 80]"]%string.
Proof.
  do 3 eexists. cbv zeta. split; [constructor|]. split; [discriminate|]. split; [apply fresh_reach; lia|].
  split; [vm_compute; reflexivity|]. split; vm_compute; reflexivity.
Qed.

Example C91_example_garbage :
  let s := fresh true [RdData [x07; x08]; RdData ([x09] ++ frame x01 [STATUS; x80; x34; x12])] 32 32 in
  let c := CRead16 (MId x01) 132 in
  exists call s' es r, reach s /\ client_call c call /\ target c <> BROADCAST /\
  cli_verbose io_text time_text 5 c s = (Val (Ok r), s', es) /\
  screen 1 es = [" Reading a 16-bit value from motor 1 at address 132"; " skipping 2 bytes of leading garbage.";
                 " skipping 1 bytes of leading garbage.";
                 "Warning:  Alert bit set in response from motor!"; " 1.25ms: 4660 (0x1234)"]%string /\
  after "Trace:  skipped garbage: " (screen 2 es) = ["[07, 08]"; "[09]"]%string.
Proof.
  cbv zeta. do 4 eexists. split; [apply fresh_reach; lia|]. split; [apply cc_read16|]. split; [discriminate|].
  split; [vm_compute; reflexivity|]. split; vm_compute; reflexivity.
Qed.

(** A scan that finds one motor: the packet sent, the answer and the end of the scan. *)
Example C91_example_scan : exists s' es l,
  let s := fresh true [RdData (frame x01 [STATUS; x00; x06; x04; x26]); RdErr (IoTimeout 1); RdErr (IoTimeout 1)] 64 32 in
  reach s /\ 10 <= List.length (b_rbuf s) /\
  cli_verbose io_text time_text 5 (CPing MBroadcast) s = (Val (Ok (RepScan l)), s', es) /\
  screen 2 es = ["Trace:  sending packet: [FF, FF, FD, 00, FE, 03, 00, 01, 31, 42]";
                 "Trace:  read packet: [FF, FF, FD, 00, 01, 07, 00, 55, 00, 06, 04, 26]";
                 " Motor ID: 1"; "  ├─ Response time: 1.25ms"; "  ├─ Model: 1030"; "  └─ Firmware: 38";
                 "Trace:  Ping response timed out."; "Trace:  Ping response timed out."]%string.
Proof.
  do 3 eexists. cbv zeta. split; [apply fresh_reach; lia|]. split; [vm_compute; lia|]. split; [vm_compute; reflexivity|].
  vm_compute. reflexivity.
Qed.

(** The same, with a motor that reports an error. *)
Example C91_example_scan_each : exists s' es l r w1 m1 m2,
  let s := fresh true [RdData (frame x01 [STATUS; x00; x06; x04; x26] ++ frame x02 [STATUS; x04]); RdErr (IoTimeout 1);
                       RdErr (IoTimeout 1)] 64 32 in
  reach s /\ 10 <= List.length (b_rbuf s) /\
  cli_verbose io_text time_text 5 (CPing MBroadcast) s = (Val (Ok (RepScan l)), s', es) /\
  l = [Ok r; Err (RMotorError x04)] /\
  es = [Lib (LogSending w1); Lib (LogReadPacket m1); Own (LvInfo, "Motor ID: 1"); Own (LvInfo, " ├─ Response time: 1.25ms");
        Own (LvInfo, " ├─ Model: 1030"); Own (LvInfo, " └─ Firmware: 38"); Lib (LogReadPacket m2);
        Own (LvError, "Error pinging motor: " ++ read_error_text io_text (RMotorError x04))%string;
        Lib LogPingTimeout; Lib LogPingTimeout]%string.
Proof.
  do 7 eexists. cbv zeta. split; [apply fresh_reach; lia|]. split; [vm_compute; lia|]. split; [vm_compute; reflexivity|].
  split; [reflexivity|]. vm_compute. reflexivity.
Qed.

(** Rebooting all motors. *)
Example C91_example_broadcast : exists s' es r,
  let s := fresh true [] 32 32 in
  let c := CReboot MBroadcast in
  reach s /\ order_only c /\ target c = BROADCAST /\ cli_verbose io_text time_text 5 c s = (Val (Ok r), s', es) /\
  screen 2 es = [" Sending reboot command with motor ID 254";
                 "Trace:  sending packet: [FF, FF, FD, 00, FE, 03, 00, 08, 07, 42]"; " 1.25ms: Ok"]%string.
Proof.
  do 3 eexists. cbv zeta. split; [apply fresh_reach; lia|]. split; [exact I|]. split; [reflexivity|].
  split; [vm_compute; reflexivity|]. vm_compute. reflexivity.
Qed.

(** A command that fails: the packet is shown all the same. *)
Example C91_example_failed : exists s' es,
  cli_verbose io_text time_text 5 (CReboot (MId x01)) (fresh true [RdErr (IoTimeout 1)] 32 32) = (Val (Err tt), s', es) /\
  after "Trace:  sending packet: " (screen 3 es) = ["[FF, FF, FD, 00, 01, 03, 00, 08, 2F, 4E]"]%string /\
  after "Trace:  read packet: " (screen 3 es) = [] /\ after "Trace:  sending packet: " (screen 1 es) = [].
Proof. do 2 eexists. split; [vm_compute; reflexivity|]. repeat split; vm_compute; reflexivity. Qed.
