(** * Property C65: what the command line tool tells its user *)
From Coq Require Import ZArith Ascii String.
From Verif Require Import Base Endian Error Checksum Bytestuff Packet Time Bus Data Client
  Instructions Device Api Cli Text TextSpec CliOutput CliOutputSpec Demo DemoProofs CliOutputTheorems.
Local Open Scope list_scope.

(** ** C65 *)
@C65_same

@C65_main_same

@C65_outcome

@C65_refused

@C65_exit

@C65_open

@C65_shown

(** On the screen, errors and warnings begin with their mark and nothing else does. *)
@C65_marked

@C65_announced

@C65_told

@C65_scan_told

@C65_unambiguous

@C65_scan_unambiguous

(** Texts of errors of the serial port, and of times. *)
Definition io_text (e : io_error) : string :=
  match e with IoTimeout n => ("timed out " ++ dec n)%string | IoOther n => ("error " ++ dec n)%string end.
Definition time_text (k : nat) : string := "1.25ms".

Example C65_plain_example : plain time_text /\ no_colon "81µs".
Proof. split; [intro k|]; repeat split; discriminate. Qed.

(** read16 of motor 1, which has its alert bit set. *)
Example C65_read_example :
  let s := fresh true [RdData (frame x01 [STATUS; x80; x34; x12])] 32 32 in
  let c := CRead16 (MId x01) 132 in
  exists call s' lines, client_call c call /\ call s = (Val (Ok (RepValue (mkResponse x01 true 4660%Z))), s') /\
  cli_output io_text time_text 5 c s = (Val (lines, Ok (RepValue (mkResponse x01 true 4660%Z))), s') /\
  printed 0 lines = ["Warning:  Alert bit set in response from motor!"; " 1.25ms: 4660 (0x1234)"]%string /\
  printed 1 lines = [" Reading a 16-bit value from motor 1 at address 132";
                     "Warning:  Alert bit set in response from motor!"; " 1.25ms: 4660 (0x1234)"]%string.
Proof.
  cbv zeta. do 3 eexists. split; [apply cc_read16|]. split; [vm_compute; reflexivity|].
  split; [vm_compute; reflexivity|]. split; vm_compute; reflexivity.
Qed.

(** write32 of motor 3. *)
Example C65_write_example :
  let s := fresh true [RdData (frame x03 [STATUS; x00])] 32 32 in
  let c := CWrite32 (MId x03) 116 305419896 in
  typed c /\ c <> CPing MBroadcast /\ exists call s' lines, client_call c call /\
  call s = (Val (Ok (RepDone (mkResponse x03 false tt))), s') /\
  cli_output io_text time_text 5 c s = (Val (lines, Ok (RepDone (mkResponse x03 false tt))), s') /\
  lines = [(LvDebug, "Writing 32-bit value 305419896 (0x1234 5678) to motor 3 at address 116"); (LvInfo, "1.25ms: Ok")]%string.
Proof.
  cbv zeta. split; [reflexivity|]. split; [discriminate|]. do 3 eexists. split; [apply cc_write32|].
  split; [vm_compute; reflexivity|]. split; vm_compute; reflexivity.
Qed.

(** read of three bytes. *)
Example C65_bytes_example : exists s' lines x,
  cli_output io_text time_text 5 (CRead (MId x01) 132 3)
    (fresh true [RdData (frame x01 [STATUS; x00; x34; x00; xff])] 32 32) = (Val (lines, x), s') /\
  printed 0 lines = [" 1.25ms: [52, 0, 255]"]%string.
Proof. do 3 eexists. split; vm_compute; reflexivity. Qed.

(** The motor does not answer. *)
Example C65_failed_example : exists s' lines x,
  cli_output io_text time_text 5 (CWrite8 (MId x01) 64 1) (fresh true [RdErr (IoTimeout 1)] 32 32) = (Val (lines, x), s') /\
  exit_status x = 1%N /\
  printed 0 lines = ["Error:  Write failed: failed to read from serial port: timed out 1"]%string.
Proof. do 3 eexists. split; [vm_compute; reflexivity|]. split; vm_compute; reflexivity. Qed.

(** read8 of all motors. *)
Example C65_refused_example : refused (CRead8 MBroadcast 64) /\ exists s' lines x,
  cli_output io_text time_text 5 (CRead8 MBroadcast 64) (fresh true [] 32 32) = (Val (lines, x), s') /\
  exit_status x = 1%N /\ printed 0 lines = ["Error:  Invalid motor ID: this command can not be broadcasted."]%string.
Proof. split; [apply rf_read8|]. do 3 eexists. split; [vm_compute; reflexivity|]. split; vm_compute; reflexivity. Qed.

(** A scan with one motor and one motor that reports an error. *)
Example C65_scan_example : exists s' lines x,
  cli_output io_text time_text 5 (CPing MBroadcast)
    (fresh true [RdData (frame x01 [STATUS; x80; x06; x04; x26]); RdData (frame x02 [STATUS; x04; x06; x04; x26]);
                 RdErr (IoTimeout 1); RdErr (IoTimeout 1)] 64 32) = (Val (lines, x), s') /\
  exit_status x = 0%N /\ error_lines lines = 1 /\
  printed 2 lines = [" Motor ID: 1"; "  ├─ Response time: 1.25ms"; "  ├─ Alert: true"; "  ├─ Model: 1030"; "  └─ Firmware: 38";
                     "Error:  Error pinging motor: motor reported error status: 0x4"]%string.
Proof. do 3 eexists. split; [vm_compute; reflexivity|]. repeat split; vm_compute; reflexivity. Qed.

(** The serial port can not be opened. *)
Example C65_open_example : exists lines x,
  main_output io_text time_text "/dev/ttyUSB0" 5 true (Err (IoOther 2)) 57600 (CReboot (MId x01)) = (Val (lines, x), None) /\
  exit_status x = 1%N /\ printed 0 lines = ["Error:  Failed to open serial port: /dev/ttyUSB0: error 2"]%string.
Proof. do 2 eexists. split; [vm_compute; reflexivity|]. split; vm_compute; reflexivity. Qed.

Example C65_marked_example : exists s' lines x,
  cli_output io_text time_text 5 (CRead8 (MId x01) 64) (fresh true [RdData (frame x01 [STATUS; x80; x34])] 32 32) = (Val (lines, x), s') /\
  marked "Error: " (printed 3 lines) = 0 /\ marked "Warning: " (printed 3 lines) = 1 /\ List.length (printed 3 lines) = 3.
Proof. do 3 eexists. split; [vm_compute; reflexivity|]. repeat split; vm_compute; reflexivity. Qed.
