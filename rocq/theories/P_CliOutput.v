(** * Property C65: what the command line tool tells its user *)
From Coq Require Import ZArith Ascii String.
From Verif Require Import Base Endian Error Checksum Bytestuff Packet Time Bus Data Client
  Instructions Device Api Cli Text TextSpec CliOutput CliOutputSpec Demo DemoProofs CliOutputTheorems.
Local Open Scope list_scope.

(** ** C65 *)
Theorem C65_same : forall io el fuel c s,
  (let '(x, s') := cli_output io el fuel c s in
   (match x with Val (_, r) => Val r | Panic p => Panic p | Blocked => Blocked end, s')) = cli_command fuel c s.
Proof. exact L_C65_same. Qed.
Print Assumptions C65_same.

Theorem C65_main_same : forall io el path fuel dbg opened baud c,
  (let '(x, s') := main_output io el path fuel dbg opened baud c in
   (match x with Val (_, r) => Val r | Panic p => Panic p | Blocked => Blocked end, s')) = do_main fuel dbg opened baud c.
Proof. exact L_C65_main_same. Qed.
Print Assumptions C65_main_same.

Theorem C65_outcome : forall io el fuel c call s, client_call c call ->
  match call s with
  | (Val (Err e), s') => exists debug failed,
      cli_output io el fuel c s = (Val ([(LvDebug, debug); (LvError, failed ++ transfer_error_text io e)%string], Err tt), s')
  | (Val (Ok r), s') => exists debug text,
      cli_output io el fuel c s =
        (Val ((LvDebug, debug) :: (if report_alert r then [(LvWarn, "Alert bit set in response from motor!"%string)] else []) ++
              [(LvInfo, text)], Ok r), s')
  | (Panic p, s') => cli_output io el fuel c s = (Panic p, s')
  | (Blocked, s') => cli_output io el fuel c s = (Blocked, s')
  end.
Proof. exact L_C65_outcome. Qed.
Print Assumptions C65_outcome.

Theorem C65_refused : forall io el fuel c s, refused c -> exists debug,
  cli_output io el fuel c s =
    (Val ([(LvDebug, debug); (LvError, "Invalid motor ID: this command can not be broadcasted."%string)], Err tt), s).
Proof. exact L_C65_refused. Qed.
Print Assumptions C65_refused.

Theorem C65_exit : forall io el fuel c s lines r s', cli_output io el fuel c s = (Val (lines, r), s') ->
  match r with
  | Ok rep => exit_status r = 0%N /\ error_lines lines = failures rep
  | Err _ => exit_status r = 1%N /\ exists before text, lines = before ++ [(LvError, text)] /\ error_lines before = 0
  end.
Proof. exact L_C65_exit. Qed.
Print Assumptions C65_exit.

Theorem C65_open : forall io el path fuel dbg opened baud c,
  match client_open dbg opened baud with
  | Val (Err e) => main_output io el path fuel dbg opened baud c =
      (Val ([(LvError, "Failed to open serial port: " ++ path ++ ": " ++ io e)%string], Err tt), None)
  | Val (Ok s) => exists d, numeral 10 d baud /\ main_output io el path fuel dbg opened baud c =
      (let '(x, s') := cli_output io el fuel c s in
       (match x with
        | Val (lines, r) => Val ((LvDebug, "Using serial port " ++ path ++ " with baud rate " ++ d)%string :: lines, r)
        | Panic p => Panic p
        | Blocked => Blocked
        end, Some s'))
  | Panic p => main_output io el path fuel dbg opened baud c = (Panic p, None)
  | Blocked => main_output io el path fuel dbg opened baud c = (Blocked, None)
  end.
Proof. exact L_C65_open. Qed.
Print Assumptions C65_open.

Theorem C65_shown : forall io el fuel c s lines r s', cli_output io el fuel c s = (Val (lines, r), s') ->
  forall verbose, (verbose < 256)%N ->
  shown verbose lines = (if (verbose =? 0)%N then filter (fun x => match fst x with LvDebug => false | _ => true end) lines else lines).
Proof. exact L_C65_shown. Qed.
Print Assumptions C65_shown.

(** On the screen, errors and warnings begin with their mark and nothing else does. *)
Theorem C65_marked : forall io el fuel c s lines r s' verbose, cli_output io el fuel c s = (Val (lines, r), s') ->
  (verbose < 256)%N ->
  match r with
  | Ok rep => marked "Error: " (printed verbose lines) = failures rep /\
      marked "Warning: " (printed verbose lines) = (if report_alert rep then 1 else 0)
  | Err _ => marked "Error: " (printed verbose lines) = 1 /\ marked "Warning: " (printed verbose lines) = 0 /\
      exists before text, printed verbose lines = before ++ [("Error: " ++ text)%string]
  end.
Proof. exact L_C65_marked. Qed.
Print Assumptions C65_marked.

Theorem C65_announced : forall io el fuel c s lines r s', typed c -> c <> CPing MBroadcast ->
  cli_output io el fuel c s = (Val (lines, r), s') -> exists text rest, lines = (LvDebug, text) :: rest /\ announces c text.
Proof. exact L_C65_announced. Qed.
Print Assumptions C65_announced.

Theorem C65_told : forall io el fuel c call s r s', client_call c call -> call s = (Val (Ok r), s') ->
  exists before text, cli_output io el fuel c s = (Val (before ++ [(LvInfo, el O ++ ": " ++ text)%string], Ok r), s') /\
    tells c r text.
Proof. exact L_C65_told. Qed.
Print Assumptions C65_told.

Theorem C65_scan_told : forall io el fuel s lines r s', cli_output io el fuel (CPing MBroadcast) s = (Val (lines, r), s') ->
  (exists e s1, scan s = (Val (Err e), s1) /\ r = Err tt /\
     lines = [(LvError, "Command failed: " ++ write_error_text io e)%string]) \/
  (exists s1 l, scan s = (Val (Ok tt), s1) /\ r = Ok (RepScan l) /\ scan_lines io el 0 l lines).
Proof. exact L_C65_scan_told. Qed.
Print Assumptions C65_scan_told.

Theorem C65_unambiguous : forall io el1 el2 fuel1 fuel2 c call s1 s2 r1 r2 s1' s2' l1 l2 x1 x2 t1 t2 verbose,
  (forall x y, io x = io y -> x = y) -> plain el1 -> plain el2 -> (verbose < 256)%N -> client_call c call ->
  call s1 = (Val r1, s1') -> cli_output io el1 fuel1 c s1 = (Val (l1, x1), t1) ->
  call s2 = (Val r2, s2') -> cli_output io el2 fuel2 c s2 = (Val (l2, x2), t2) ->
  printed verbose l1 = printed verbose l2 -> same_answer r1 r2.
Proof. exact L_C65_unambiguous. Qed.
Print Assumptions C65_unambiguous.

Theorem C65_scan_unambiguous : forall io el1 el2 fuel1 fuel2 s1 s2 l1 l2 x1 x2 t1 t2 verbose,
  (forall x y, io x = io y -> x = y) -> (verbose < 256)%N ->
  cli_output io el1 fuel1 (CPing MBroadcast) s1 = (Val (l1, x1), t1) ->
  cli_output io el2 fuel2 (CPing MBroadcast) s2 = (Val (l2, x2), t2) ->
  printed verbose l1 = printed verbose l2 ->
  x1 = x2 /\ forall e1 e2, fst (scan s1) = Val (Err e1) -> fst (scan s2) = Val (Err e2) -> e1 = e2.
Proof. exact L_C65_scan_unambiguous. Qed.
Print Assumptions C65_scan_unambiguous.

(** Texts of errors of the serial port, and of times. *)
Definition io_text (e : io_error) : string :=
  match e with IoTimeout n => ("timed out " ++ dec n)%string | IoOther n => ("error " ++ dec n)%string end.
Definition time_text (k : nat) : string := "1.25ms".

Example C65_plain_example : plain time_text /\ no_colon "81µs".
Proof. split; [intro k|]; repeat split; discriminate. Qed.

(** read16 of motor 1, which has its alert bit set. *)
Example C65_read_example :
  let s := fresh true [RdData (frame x01 [STATUS; x80; x34; x12])] 32 32 in
  let c := CRead16 (MId x01) 132 in
  exists call s' lines, client_call c call /\ call s = (Val (Ok (RepValue (mkResponse x01 true 4660%Z))), s') /\
  cli_output io_text time_text 5 c s = (Val (lines, Ok (RepValue (mkResponse x01 true 4660%Z))), s') /\
  printed 0 lines = ["Warning:  Alert bit set in response from motor!"; " 1.25ms: 4660 (0x1234)"]%string /\
  printed 1 lines = [" Reading a 16-bit value from motor 1 at address 132";
                     "Warning:  Alert bit set in response from motor!"; " 1.25ms: 4660 (0x1234)"]%string.
Proof.
  cbv zeta. do 3 eexists. split; [apply cc_read16|]. split; [vm_compute; reflexivity|].
  split; [vm_compute; reflexivity|]. split; vm_compute; reflexivity.
Qed.

(** write32 of motor 3. *)
Example C65_write_example :
  let s := fresh true [RdData (frame x03 [STATUS; x00])] 32 32 in
  let c := CWrite32 (MId x03) 116 305419896 in
  typed c /\ c <> CPing MBroadcast /\ exists call s' lines, client_call c call /\
  call s = (Val (Ok (RepDone (mkResponse x03 false tt))), s') /\
  cli_output io_text time_text 5 c s = (Val (lines, Ok (RepDone (mkResponse x03 false tt))), s') /\
  lines = [(LvDebug, "Writing 32-bit value 305419896 (0x1234 5678) to motor 3 at address 116"); (LvInfo, "1.25ms: Ok")]%string.
Proof.
  cbv zeta. split; [reflexivity|]. split; [discriminate|]. do 3 eexists. split; [apply cc_write32|].
  split; [vm_compute; reflexivity|]. split; vm_compute; reflexivity.
Qed.

(** read of three bytes. *)
Example C65_bytes_example : exists s' lines x,
  cli_output io_text time_text 5 (CRead (MId x01) 132 3)
    (fresh true [RdData (frame x01 [STATUS; x00; x34; x00; xff])] 32 32) = (Val (lines, x), s') /\
  printed 0 lines = [" 1.25ms: [52, 0, 255]"]%string.
Proof. do 3 eexists. split; vm_compute; reflexivity. Qed.

(** The motor does not answer. *)
Example C65_failed_example : exists s' lines x,
  cli_output io_text time_text 5 (CWrite8 (MId x01) 64 1) (fresh true [RdErr (IoTimeout 1)] 32 32) = (Val (lines, x), s') /\
  exit_status x = 1%N /\
  printed 0 lines = ["Error:  Write failed: failed to read from serial port: timed out 1"]%string.
Proof. do 3 eexists. split; [vm_compute; reflexivity|]. split; vm_compute; reflexivity. Qed.

(** read8 of all motors. *)
Example C65_refused_example : refused (CRead8 MBroadcast 64) /\ exists s' lines x,
  cli_output io_text time_text 5 (CRead8 MBroadcast 64) (fresh true [] 32 32) = (Val (lines, x), s') /\
  exit_status x = 1%N /\ printed 0 lines = ["Error:  Invalid motor ID: this command can not be broadcasted."]%string.
Proof. split; [apply rf_read8|]. do 3 eexists. split; [vm_compute; reflexivity|]. split; vm_compute; reflexivity. Qed.

(** A scan with one motor and one motor that reports an error. *)
Example C65_scan_example : exists s' lines x,
  cli_output io_text time_text 5 (CPing MBroadcast)
    (fresh true [RdData (frame x01 [STATUS; x80; x06; x04; x26]); RdData (frame x02 [STATUS; x04; x06; x04; x26]);
                 RdErr (IoTimeout 1); RdErr (IoTimeout 1)] 64 32) = (Val (lines, x), s') /\
  exit_status x = 0%N /\ error_lines lines = 1 /\
  printed 2 lines = [" Motor ID: 1"; "  ├─ Response time: 1.25ms"; "  ├─ Alert: true"; "  ├─ Model: 1030"; "  └─ Firmware: 38";
                     "Error:  Error pinging motor: motor reported error status: 0x4"]%string.
Proof. do 3 eexists. split; [vm_compute; reflexivity|]. repeat split; vm_compute; reflexivity. Qed.

(** The serial port can not be opened. *)
Example C65_open_example : exists lines x,
  main_output io_text time_text "/dev/ttyUSB0" 5 true (Err (IoOther 2)) 57600 (CReboot (MId x01)) = (Val (lines, x), None) /\
  exit_status x = 1%N /\ printed 0 lines = ["Error:  Failed to open serial port: /dev/ttyUSB0: error 2"]%string.
Proof. do 2 eexists. split; [vm_compute; reflexivity|]. split; vm_compute; reflexivity. Qed.

Example C65_marked_example : exists s' lines x,
  cli_output io_text time_text 5 (CRead8 (MId x01) 64) (fresh true [RdData (frame x01 [STATUS; x80; x34])] 32 32) = (Val (lines, x), s') /\
  marked "Error: " (printed 3 lines) = 0 /\ marked "Warning: " (printed 3 lines) = 1 /\ List.length (printed 3 lines) = 3.
Proof. do 3 eexists. split; [vm_compute; reflexivity|]. repeat split; vm_compute; reflexivity. Qed.
