(** * VerboseModel: everything the command line tool prints
    (/repo/dynamixel2-cli/src/bin/dynamixel2: main.rs, logging.rs)

    The tool uses the library with the feature [log] (dynamixel2-cli/Cargo.toml:18),
    and logging.rs:40-41 gives the records of the library the same filter as its own.
    [cli_verbose] repeats [cli_output] with both kinds of records in the order they
    are made.  Not modelled: the colours of the prefixes. *)
From Coq Require Import ZArith Ascii String.
From Verif Require Import Base Endian Error Packet Time Bus Data Client Instructions Cli Text LogModel CliOutput.
Local Open Scope list_scope.

(** ** The calls of the client the tool uses, with their log *)

(** instructions/mod.rs:106-123 [read_response_if_not_broadcast] *)
Definition read_response_if_not_broadcast_log (motor_id : byte) : T (result (response unit) read_error) :=
  if beq motor_id BROADCAST then quiet (ret (Ok (mkResponse BROADCAST false tt)))
  else
  ttry (fun e => e) (read_status_response_log 0) (fun p =>
  quiet (r <- lift (response_unit p) ;;
         ret (map_err RInvalidMessage r))).

(** As [instruct]: write.rs:15-35, reboot.rs:19-22. *)
Definition instruct_log (motor_id instruction_id : byte) (parameter_count : nat) (f : encoder)
  : T (result (response unit) transfer_error) :=
  ttry TWriteError (write_packet_log motor_id instruction_id parameter_count f) (fun _ =>
  ttry TReadError (read_response_if_not_broadcast_log motor_id) (fun r =>
  quiet (ret (Ok r)))).

(** reboot.rs:19-22 [reboot] *)
Definition reboot_log (motor_id : byte) := instruct_log motor_id REBOOT 0 no_params.

(** ping.rs:45-48 [ping] *)
Definition ping_log (motor_id : byte) : T (result (response ping_data) transfer_error) :=
  ttry (fun e => e) (transfer_single_log motor_id PING 0 3 no_params) (fun p =>
  quiet (r <- lift (response_ping p) ;;
         ret (map_err (fun e => TReadError (RInvalidMessage e)) r))).

(** ping.rs:51-54 [scan] *)
Definition scan_log : T (result unit write_error) := write_packet_log BROADCAST PING 0 no_params.

(** ping.rs:112-120 [Drop for Scan], as [scan_drop] *)
Fixpoint scan_drop_log (fuel : nat) : T bool :=
  match fuel with
  | O => quiet (ret false)
  | S fuel' =>
      r <~ scan_next_log ;;
      match r with
      | None => quiet (ret true)
      | Some _ => scan_drop_log fuel'
      end
  end.

(** read.rs:12-20 [read_raw] *)
Definition read_raw_log (motor_id : byte) (address count : N) : T (result packet transfer_error) :=
  ttry (fun e => e)
    (transfer_single_log motor_id READ 4 count
       (enc_ok (fun b => let* b := write_u16_at b 0 address in write_u16_at b 2 count)))
  (fun response =>
  quiet (ps <- lift (st_parameters response) ;;
         tryr (fun e => TReadError (RInvalidMessage e))
              (param_count_check (List.length ps) (N.to_nat count)) (fun _ =>
         ret (Ok response)))).

(** read.rs:26-32 [read_bytes] *)
Definition read_bytes_log (motor_id : byte) (address count : N)
  : T (result (response (list byte)) transfer_error) :=
  ttry (fun e => e) (read_raw_log motor_id address count) (fun status =>
  quiet (r <- lift (decode_status_packet_bytes status) ;;
         ret (map_err TReadError r))).

(** read.rs:40-46 [read] *)
Definition read_log {A} (D : data_impl A) (motor_id : byte) (address : N)
  : T (result (response A) transfer_error) :=
  ttry (fun e => e) (read_raw_log motor_id address (N.of_nat (d_size D))) (fun status =>
  quiet (r <- lift (decode_status_packet D status) ;;
         ret (map_err TReadError r))).

(** write.rs:15-22 [write], 28-35 [write_bytes] *)
Definition write_log {A} (D : data_impl A) (motor_id : byte) (address : N) (v : A) :=
  instruct_log motor_id WRITE (2 + d_size D) (address_and_value D address v).
Definition write_bytes_log (motor_id : byte) (address : N) (data : list byte) :=
  instruct_log motor_id WRITE (2 + List.length data) (address_and_bytes address data).

(** ** Records of the tool and of the library *)

Inductive entry := Own (x : line) | Lib (r : log_record).

Definition W (A : Type) : Type := bus -> out A * bus * list entry.

Definition wret {A} (a : A) : W A := fun s => (Val a, s, []).
Definition stuck {A} : W A := fun s => (Blocked, s, []).
Definition tell (l : list line) : W unit := fun s => (Val tt, s, map Own l).
Definition lib {A} (m : T A) : W A := fun s => let '(o, s', l) := m s in (o, s', map Lib l).
Definition wbind {A B} (m : W A) (k : A -> W B) : W B := fun s =>
  match m s with
  | (Val a, s', l) => let '(o, s'', l') := k a s' in (o, s'', l ++ l')
  | (Panic p, s', l) => (Panic p, s', l)
  | (Blocked, s', l) => (Blocked, s', l)
  end.

(** As [single]: the line before the call, the call, and what it led to. *)
Definition single_verbose {A} (io : io_error -> string) (debug failed : string)
    (m : T (result (response A) transfer_error)) (text : A -> string) (rep : response A -> cli_report)
  : W (result cli_report unit) :=
  wbind (tell [(LvDebug, debug)]) (fun _ =>
  wbind (lib m) (fun r =>
  match r with
  | Err e => wbind (tell [(LvError, failed ++ transfer_error_text io e)%string]) (fun _ => wret (Err tt))
  | Ok r =>
      wbind (if r_alert r then tell [alert_line] else wret tt) (fun _ =>
      wbind (tell [(LvInfo, text (r_data r))]) (fun _ => wret (Ok (rep r))))
  end)).

(** As [unicast] *)
Definition unicast_verbose (debug : string) (m : motor_id) (k : byte -> W (result cli_report unit))
  : W (result cli_report unit) :=
  match assume_unicast m with
  | Ok id => k id
  | Err _ => wbind (tell [(LvDebug, debug); unicast_line]) (fun _ => wret (Err tt))
  end.

(** main.rs:33-38, as [scan_output] *)
Fixpoint scan_verbose (io : io_error -> string) (elapsed : nat -> string) (fuel k : nat)
    (acc : list (result (response ping_data) read_error))
  : W (option (list (result (response ping_data) read_error))) :=
  match fuel with
  | O => wret None
  | S fuel' =>
      wbind (lib scan_next_log) (fun r =>
      match r with
      | None => wret (Some acc)
      | Some x =>
          wbind (tell (scan_item_lines io (elapsed k) x)) (fun _ =>
          scan_verbose io elapsed fuel' (S k) (acc ++ [x]))
      end)
  end.

(** main.rs:15-179 [do_main], once there is a client *)
Definition cli_verbose (io : io_error -> string) (elapsed : nat -> string) (fuel : nat) (c : command)
  : W (result cli_report unit) :=
  let done := fun _ : unit => (elapsed O ++ ": Ok")%string in
  let failed := "Command failed: "%string in
  match c with
  | CPing (MId id) =>                                                            (* 21-29 *)
      single_verbose io ("Sending ping command to motor " ++ dec (b2n id)) failed (ping_log id)
        (fun p => elapsed O ++ ": " ++ ping_text p)%string RepPing
  | CPing MBroadcast =>                                                          (* 30-39 *)
      wbind (lib scan_log) (fun r =>
      match r with
      | Err e => wbind (tell [(LvError, failed ++ write_error_text io e)%string]) (fun _ => wret (Err tt))
      | Ok _ =>
          wbind (scan_verbose io elapsed fuel O []) (fun items =>
          match items with
          | None => stuck
          | Some l =>
              wbind (lib (scan_drop_log fuel)) (fun ended =>
              if (ended : bool) then wret (Ok (RepScan l)) else stuck)
          end)
      end)
  | CReboot m =>                                                                 (* 42-51 *)
      single_verbose io ("Sending reboot command with motor ID " ++ dec (b2n (motor_id_raw m))) failed
        (reboot_log (motor_id_raw m)) done RepDone
  | CRead8 m a =>                                                                (* 52-63 *)
      let debug := ("Reading an 8-bit value from" ++ place m a)%string in
      unicast_verbose debug m (fun id =>
      single_verbose io debug failed (read_log (data_int false 1) id a) (fun v => read8_line (elapsed O) (Z.to_N v)) RepValue)
  | CRead16 m a =>                                                               (* 64-75 *)
      let debug := ("Reading a 16-bit value from" ++ place m a)%string in
      unicast_verbose debug m (fun id =>
      single_verbose io debug failed (read_log (data_int false 2) id a) (fun v => read16_line (elapsed O) (Z.to_N v)) RepValue)
  | CRead32 m a =>                                                               (* 76-93 *)
      let debug := ("Reading a 32-bit value from" ++ place m a)%string in
      unicast_verbose debug m (fun id =>
      single_verbose io debug failed (read_log (data_int false 4) id a) (fun v => read32_line (elapsed O) (Z.to_N v)) RepValue)
  | CRead m a n =>                                                               (* 94-105 *)
      let debug := ("Reading a " ++ dec n ++ " bytes from" ++ place m a)%string in
      unicast_verbose debug m (fun id =>
      single_verbose io debug failed (read_bytes_log id a n) (fun l => elapsed O ++ ": " ++ dec_array l)%string RepBytes)
  | CWrite8 m a v =>                                                             (* 106-123 *)
      single_verbose io ("Writing 8-bit value " ++ dec v ++ " (0x" ++ hex_padded 2 v ++ ") to" ++ place m a) "Write failed: "
        (write_log (data_int false 1) (motor_id_raw m) a (Z.of_N v)) done RepDone
  | CWrite16 m a v =>                                                            (* 124-141 *)
      single_verbose io ("Writing 16-bit value " ++ dec v ++ " (0x" ++ hex_padded 4 v ++ ") to" ++ place m a) failed
        (write_log (data_int false 2) (motor_id_raw m) a (Z.of_N v)) done RepDone
  | CWrite32 m a v =>                                                            (* 142-160 *)
      single_verbose io ("Writing 32-bit value " ++ dec v ++ " (0x" ++ hex_padded 4 (N.shiftr v 16) ++ " " ++
                 hex_padded 4 (N.land v 0xFFFF) ++ ") to" ++ place m a) failed
        (write_log (data_int false 4) (motor_id_raw m) a (Z.of_N v)) done RepDone
  | CWrite m a data =>                                                           (* 161-172 *)
      single_verbose io ("Writing " ++ dec_nat (List.length data) ++ " bytes to" ++ place m a) failed
        (write_bytes_log (motor_id_raw m) a data) done RepDone
  end.

(** ** The screen (logging.rs:10-42) *)

Definition entry_line (e : entry) : line :=
  match e with
  | Own x => x
  | Lib r => (match record_level r with LevelDebug => LvDebug | LevelTrace => LvTrace end, record_text r)
  end.
Definition screen (verbose : N) (es : list entry) : list string := printed verbose (map entry_line es).
