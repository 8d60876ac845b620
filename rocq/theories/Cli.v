(** * Cli: model of /repo/dynamixel2-cli/src/bin/dynamixel2 (options.rs, main.rs)

    Modelled: the motor id argument and what each command does to the bus.
    Not modelled: clap's own parsing of options, shell completions ([Completion]); what is
    printed is modelled in [CliOutput] (here the values are kept as [cli_report]). *)
From Coq Require Import ZArith.
From Verif Require Import Base Error Packet Bus Data Client Instructions.

(** options.rs:173-177 [MotorId] *)
Inductive motor_id := MId (raw : byte) | MBroadcast.

(** [u8::eq_ignore_ascii_case] *)
Definition to_ascii_lowercase (b : byte) : byte :=
  if (b2n x41 <=? b2n b)%N && (b2n b <=? b2n x5a)%N then n2b (b2n b + 32) else b.
Fixpoint eq_ignore_ascii_case (a b : list byte) : bool :=
  match a, b with
  | [], [] => true
  | x :: a', y :: b' =>
      beq (to_ascii_lowercase x) (to_ascii_lowercase y) && eq_ignore_ascii_case a' b'
  | _, _ => false
  end.

(** "broadcast" *)
Definition broadcast_word : list byte := [x62; x72; x6f; x61; x64; x63; x61; x73; x74].

(** [char::to_digit(10)] *)
Definition ascii_digit (b : byte) : option N :=
  if (b2n x30 <=? b2n b)%N && (b2n b <=? b2n x39)%N then Some (b2n b - 48)%N else None.

(** core::num [u8::from_str_radix(_, 10)], the digit loop with its checked
    multiplication and addition. *)
Fixpoint parse_u8_digits (acc : N) (digits : list byte) : option N :=
  match digits with
  | [] => Some acc
  | c :: rest =>
      match ascii_digit c with
      | None => None
      | Some d =>
          if (255 <? acc * 10)%N then None
          else if (255 <? acc * 10 + d)%N then None
          else parse_u8_digits (acc * 10 + d) rest
      end
  end.

(** [str::parse::<u8>()]: an empty string, a lone sign and (for an unsigned
    type) a leading minus are errors; one leading plus is allowed. *)
Definition parse_u8 (s : list byte) : option N :=
  match s with
  | [] => None
  | c :: rest =>
      if beq c x2b then (match rest with [] => None | _ => parse_u8_digits 0 rest end)
      else parse_u8_digits 0 s
  end.

(** options.rs:198-214 [MotorId::from_str] *)
Definition motor_id_from_str (data : list byte) : result motor_id unit :=
  if eq_ignore_ascii_case data broadcast_word then Ok MBroadcast
  else match parse_u8 data with
       | Some id => if beq (n2b id) BROADCAST then Ok MBroadcast else Ok (MId (n2b id))
       | None => Err tt
       end.

(** options.rs:180-185 [raw] *)
Definition motor_id_raw (m : motor_id) : byte :=
  match m with MId raw => raw | MBroadcast => BROADCAST end.

(** options.rs:187-195 [assume_unicast] *)
Definition assume_unicast (m : motor_id) : result byte unit :=
  match m with MId raw => Ok raw | MBroadcast => Err tt end.

(** options.rs:33-172 [Command], without [ShellCompletion] *)
Inductive command :=
| CPing (m : motor_id)
| CReboot (m : motor_id)
| CRead8 (m : motor_id) (address : N)
| CRead16 (m : motor_id) (address : N)
| CRead32 (m : motor_id) (address : N)
| CRead (m : motor_id) (address count : N)
| CWrite8 (m : motor_id) (address value : N)
| CWrite16 (m : motor_id) (address value : N)
| CWrite32 (m : motor_id) (address value : N)
| CWrite (m : motor_id) (address : N) (data : list byte).

(** What a successful command reports to the user. *)
Inductive cli_report :=
| RepPing (r : response ping_data)
| RepScan (l : list (result (response ping_data) read_error))
| RepValue (r : response Z)
| RepBytes (r : response (list byte))
| RepDone (r : response unit).

(** main.rs:33-38: [for s in scan].  At most [fuel] items ([None]: still going). *)
Fixpoint cli_scan_loop (fuel : nat) (acc : list (result (response ping_data) read_error))
  : M (option (list (result (response ping_data) read_error))) :=
  match fuel with
  | O => ret None
  | S fuel' =>
      r <- scan_next ;;
      match r with
      | None => ret (Some acc)
      | Some x => cli_scan_loop fuel' (acc ++ [x])
      end
  end.

(** [.map_err(|e| log::error!(..))?] *)
Definition or_log {A E} (m : M (result A E)) (k : A -> cli_report) : M (result cli_report unit) :=
  try_ (fun _ => tt) m (fun a => ret (Ok (k a))).

(** main.rs:15-179 [do_main], once [open_client] (main.rs:181-190) has returned a
    client.  [fuel] bounds the number of scan items; running out is reported as
    [Blocked].  When the [for] loop over the scan ends, the [Scan] is dropped,
    which polls the bus once more (ping.rs:117-119). *)
Definition cli_command (fuel : nat) (c : command) : M (result cli_report unit) :=
  match c with
  | CPing (MId id) => or_log (ping id) RepPing                                  (* 21-29 *)
  | CPing MBroadcast =>                                                          (* 30-39 *)
      try_ (fun _ => tt) scan (fun _ =>
      items <- cli_scan_loop fuel [] ;;
      match items with
      | None => lift Blocked
      | Some l =>
          ended <- scan_drop fuel ;;
          if (ended : bool) then ret (Ok (RepScan l)) else lift Blocked
      end)
  | CReboot m => or_log (reboot (motor_id_raw m)) RepDone                        (* 42-51 *)
  | CRead8 m a =>                                                                (* 52-63 *)
      tryr (fun e => e) (assume_unicast m) (fun id =>
      or_log (read (data_int false 1) id a) RepValue)
  | CRead16 m a =>                                                               (* 64-75 *)
      tryr (fun e => e) (assume_unicast m) (fun id =>
      or_log (read (data_int false 2) id a) RepValue)
  | CRead32 m a =>                                                               (* 76-93 *)
      tryr (fun e => e) (assume_unicast m) (fun id =>
      or_log (read (data_int false 4) id a) RepValue)
  | CRead m a n =>                                                               (* 94-105 *)
      tryr (fun e => e) (assume_unicast m) (fun id =>
      or_log (read_bytes id a n) RepBytes)
  | CWrite8 m a v =>                                                             (* 106-123 *)
      or_log (write (data_int false 1) (motor_id_raw m) a (Z.of_N v)) RepDone
  | CWrite16 m a v =>                                                            (* 124-141 *)
      or_log (write (data_int false 2) (motor_id_raw m) a (Z.of_N v)) RepDone
  | CWrite32 m a v =>                                                            (* 142-160 *)
      or_log (write (data_int false 4) (motor_id_raw m) a (Z.of_N v)) RepDone
  | CWrite m a data =>                                                           (* 161-172 *)
      or_log (write_bytes (motor_id_raw m) a data) RepDone
  end.

(** main.rs:181-190 [open_client] followed by the command; [opened] is the answer
    of [SerialPort::open]. *)
Definition do_main (fuel : nat) (dbg : bool) (opened : result port io_error) (baud : N)
    (c : command) : out (result cli_report unit) * option bus :=
  match client_open dbg opened baud with
  | Panic p => (Panic p, None)
  | Blocked => (Blocked, None)
  | Val (Err _) => (Val (Err tt), None)
  | Val (Ok b) => let '(r, b') := cli_command fuel c b in (r, Some b')
  end.
