(** * CliOutput: what the command line tool prints
    (/repo/dynamixel2-cli/src/bin/dynamixel2: main.rs, logging.rs)

    [cli_output] repeats [cli_command] with the lines given to the log macros.
    Not modelled: the colours of the prefixes, the lines logged by the library
    itself (see [VerboseModel]), shell completions ([Completion]). *)
From Coq Require Import ZArith Ascii String.
From Verif Require Import Base Error Packet Bus Data Client Instructions Cli Text.
Local Open Scope list_scope.

(** [log::Level] *)
Inductive cli_level := LvError | LvWarn | LvInfo | LvDebug | LvTrace.
Definition line : Type := cli_level * string.

(** [{:?}] of [&\[u8\]] *)
Fixpoint dec_items (l : list byte) : string :=
  match l with
  | [] => ""
  | [b] => dec (b2n b)
  | b :: l' => (dec (b2n b) ++ ", " ++ dec_items l')%string
  end.
Definition dec_array (l : list byte) : string := ("[" ++ dec_items l ++ "]")%string.

(** [{:?}] of [Ping] (src/instructions/ping.rs:8-17, derived) *)
Definition ping_text (p : ping_data) : string :=
  ("Ping { model: " ++ dec (ping_model p) ++ ", firmware: " ++ dec (b2n (ping_firmware p)) ++ " }")%string.

(** ** Lines *)

Definition alert_line : line := (LvWarn, "Alert bit set in response from motor!")%string.
Definition unicast_line : line := (LvError, "Invalid motor ID: this command can not be broadcasted.")%string.

(** main.rs:192-200 [log_ping_response] *)
Definition ping_lines (elapsed : string) (r : response ping_data) : list line :=
  [(LvInfo, "Motor ID: " ++ dec (b2n (r_motor_id r))); (LvInfo, " ├─ Response time: " ++ elapsed)]%string ++
  (if r_alert r then [(LvInfo, " ├─ Alert: true")]%string else []) ++
  [(LvInfo, " ├─ Model: " ++ dec (ping_model (r_data r)));
   (LvInfo, " └─ Firmware: " ++ dec (b2n (ping_firmware (r_data r))))]%string.

(** main.rs:33-38, one round *)
Definition scan_item_lines (io : io_error -> string) (elapsed : string)
    (x : result (response ping_data) read_error) : list line :=
  match x with
  | Ok r => ping_lines elapsed r
  | Err e => [(LvError, "Error pinging motor: " ++ read_error_text io e)]%string
  end.

(** ** Commands

    [io] is the text of an error of the serial port, [elapsed k] the text of the
    time measured before the [k]-th report. *)

(** The common shape of main.rs:23-28, 44-50, 54-62, ...: the line before the
    command, then the error, or the warning and the report. *)
Definition single {A} (io : io_error -> string) (debug failed : string)
    (m : M (result (response A) transfer_error)) (text : A -> string) (rep : response A -> cli_report)
  : M (list line * result cli_report unit) :=
  r <- m ;;
  ret (match r with
       | Err e => ([(LvDebug, debug); (LvError, failed ++ transfer_error_text io e)%string], Err tt)
       | Ok r => ((LvDebug, debug) :: (if r_alert r then [alert_line] else []) ++ [(LvInfo, text (r_data r))], Ok (rep r))
       end).

(** options.rs:187-195: [assume_unicast()?] after the line before the command *)
Definition unicast (debug : string) (m : motor_id) (k : byte -> M (list line * result cli_report unit))
  : M (list line * result cli_report unit) :=
  match assume_unicast m with
  | Ok id => k id
  | Err _ => ret ([(LvDebug, debug); unicast_line], Err tt)
  end.

(** main.rs:33-38 *)
Fixpoint scan_output (io : io_error -> string) (elapsed : nat -> string) (fuel k : nat)
    (acc : list line * list (result (response ping_data) read_error))
  : M (option (list line * list (result (response ping_data) read_error))) :=
  match fuel with
  | O => ret None
  | S fuel' =>
      r <- scan_next ;;
      match r with
      | None => ret (Some acc)
      | Some x =>
          scan_output io elapsed fuel' (S k)
            (fst acc ++ scan_item_lines io (elapsed k) x, snd acc ++ [x])
      end
  end.

(** " motor {} at address {}" *)
Definition place (m : motor_id) (address : N) : string :=
  (" motor " ++ dec (b2n (motor_id_raw m)) ++ " at address " ++ dec address)%string.

(** main.rs:15-179 [do_main], once there is a client *)
Definition cli_output (io : io_error -> string) (elapsed : nat -> string) (fuel : nat) (c : command)
  : M (list line * result cli_report unit) :=
  let done := fun _ : unit => (elapsed O ++ ": Ok")%string in
  let failed := "Command failed: "%string in
  match c with
  | CPing (MId id) =>                                                            (* 21-29 *)
      single io ("Sending ping command to motor " ++ dec (b2n id)) failed (ping id)
        (fun p => elapsed O ++ ": " ++ ping_text p)%string RepPing
  | CPing MBroadcast =>                                                          (* 30-39 *)
      r <- scan ;;
      match r with
      | Err e => ret ([(LvError, failed ++ write_error_text io e)%string], Err tt)
      | Ok _ =>
          items <- scan_output io elapsed fuel O ([], []) ;;
          match items with
          | None => lift Blocked
          | Some (lines, l) =>
              ended <- scan_drop fuel ;;
              if (ended : bool) then ret (lines, Ok (RepScan l)) else lift Blocked
          end
      end
  | CReboot m =>                                                                 (* 42-51 *)
      single io ("Sending reboot command with motor ID " ++ dec (b2n (motor_id_raw m))) failed
        (reboot (motor_id_raw m)) done RepDone
  | CRead8 m a =>                                                                (* 52-63 *)
      let debug := ("Reading an 8-bit value from" ++ place m a)%string in
      unicast debug m (fun id =>
      single io debug failed (read (data_int false 1) id a) (fun v => read8_line (elapsed O) (Z.to_N v)) RepValue)
  | CRead16 m a =>                                                               (* 64-75 *)
      let debug := ("Reading a 16-bit value from" ++ place m a)%string in
      unicast debug m (fun id =>
      single io debug failed (read (data_int false 2) id a) (fun v => read16_line (elapsed O) (Z.to_N v)) RepValue)
  | CRead32 m a =>                                                               (* 76-93 *)
      let debug := ("Reading a 32-bit value from" ++ place m a)%string in
      unicast debug m (fun id =>
      single io debug failed (read (data_int false 4) id a) (fun v => read32_line (elapsed O) (Z.to_N v)) RepValue)
  | CRead m a n =>                                                               (* 94-105 *)
      let debug := ("Reading a " ++ dec n ++ " bytes from" ++ place m a)%string in
      unicast debug m (fun id =>
      single io debug failed (read_bytes id a n) (fun l => elapsed O ++ ": " ++ dec_array l)%string RepBytes)
  | CWrite8 m a v =>                                                             (* 106-123 *)
      single io ("Writing 8-bit value " ++ dec v ++ " (0x" ++ hex_padded 2 v ++ ") to" ++ place m a) "Write failed: "
        (write (data_int false 1) (motor_id_raw m) a (Z.of_N v)) done RepDone
  | CWrite16 m a v =>                                                            (* 124-141 *)
      single io ("Writing 16-bit value " ++ dec v ++ " (0x" ++ hex_padded 4 v ++ ") to" ++ place m a) failed
        (write (data_int false 2) (motor_id_raw m) a (Z.of_N v)) done RepDone
  | CWrite32 m a v =>                                                            (* 142-160 *)
      single io ("Writing 32-bit value " ++ dec v ++ " (0x" ++ hex_padded 4 (N.shiftr v 16) ++ " " ++
                 hex_padded 4 (N.land v 0xFFFF) ++ ") to" ++ place m a) failed
        (write (data_int false 4) (motor_id_raw m) a (Z.of_N v)) done RepDone
  | CWrite m a data =>                                                           (* 161-172 *)
      single io ("Writing " ++ dec_nat (List.length data) ++ " bytes to" ++ place m a) failed
        (write_bytes (motor_id_raw m) a data) done RepDone
  end.

(** main.rs:181-190 [open_client], then the command; [path] is the text of the
    path of the serial port.  main.rs:9-13 [main]: the exit status is 0 or 1. *)
Definition main_output (io : io_error -> string) (elapsed : nat -> string) (path : string) (fuel : nat) (dbg : bool)
    (opened : result port io_error) (baud : N) (c : command) : out (list line * result cli_report unit) * option bus :=
  match client_open dbg opened baud with
  | Panic p => (Panic p, None)
  | Blocked => (Blocked, None)
  | Val (Err e) => (Val ([(LvError, "Failed to open serial port: " ++ path ++ ": " ++ io e)%string], Err tt), None)
  | Val (Ok b) =>
      let '(r, b') := cli_output io elapsed fuel c b in
      (match r with
       | Val (lines, x) =>
           Val ((LvDebug, "Using serial port " ++ path ++ " with baud rate " ++ dec baud)%string :: lines, x)
       | Panic p => Panic p
       | Blocked => Blocked
       end, Some b')
  end.
Definition exit_status (r : result cli_report unit) : N := match r with Ok _ => 0%N | Err _ => 1%N end.

(** ** Which lines are shown (logging.rs) *)

(** [u8 as i8] (main.rs:16) *)
Definition as_i8 (n : N) : Z := if (n <? 128)%N then Z.of_N n else (Z.of_N n - 256)%Z.

(** logging.rs:4-8, and the order of [log::LevelFilter] *)
Definition level_rank (l : cli_level) : N :=
  match l with LvError => 1 | LvWarn => 2 | LvInfo => 3 | LvDebug => 4 | LvTrace => 5 end%N.
Definition log_filter (verbosity : Z) : N :=
  if (verbosity =? 0)%Z then 3%N else if (verbosity =? 1)%Z then 4%N else 5%N.

(** logging.rs:11-42: the lines of the tool with [verbose] options -v *)
Definition prefix (l : cli_level) : string :=
  match l with
  | LvTrace => "Trace: " | LvDebug => "" | LvInfo => "" | LvWarn => "Warning: " | LvError => "Error: "
  end%string.
Definition shown (verbose : N) (lines : list line) : list line :=
  filter (fun x => (level_rank (fst x) <=? log_filter (as_i8 verbose))%N) lines.
Definition printed (verbose : N) (lines : list line) : list string :=
  map (fun x => prefix (fst x) ++ " " ++ snd x)%string (shown verbose lines).
