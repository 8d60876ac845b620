(** * CliOutputSpec: what the user of the command line tool is told *)
From Coq Require Import ZArith Ascii String.
From Verif Require Import Base Error Packet Bus Data Client Instructions Cli Text TextSpec CliOutput.
Local Open Scope list_scope.

Definition as_report {A} (rep : response A -> cli_report) (m : M (result (response A) transfer_error))
  : M (result cli_report transfer_error) :=
  r <- m ;; ret (match r with Ok r => Ok (rep r) | Err e => Err e end).

(** The call of the library behind a command; all but the scan and the commands
    that are refused. *)
Inductive client_call : command -> M (result cli_report transfer_error) -> Prop :=
| cc_ping : forall id, client_call (CPing (MId id)) (as_report RepPing (ping id))
| cc_reboot : forall m, client_call (CReboot m) (as_report RepDone (reboot (motor_id_raw m)))
| cc_read8 : forall id a, client_call (CRead8 (MId id) a) (as_report RepValue (read (data_int false 1) id a))
| cc_read16 : forall id a, client_call (CRead16 (MId id) a) (as_report RepValue (read (data_int false 2) id a))
| cc_read32 : forall id a, client_call (CRead32 (MId id) a) (as_report RepValue (read (data_int false 4) id a))
| cc_read : forall id a n, client_call (CRead (MId id) a n) (as_report RepBytes (read_bytes id a n))
| cc_write8 : forall m a v,
    client_call (CWrite8 m a v) (as_report RepDone (write (data_int false 1) (motor_id_raw m) a (Z.of_N v)))
| cc_write16 : forall m a v,
    client_call (CWrite16 m a v) (as_report RepDone (write (data_int false 2) (motor_id_raw m) a (Z.of_N v)))
| cc_write32 : forall m a v,
    client_call (CWrite32 m a v) (as_report RepDone (write (data_int false 4) (motor_id_raw m) a (Z.of_N v)))
| cc_write : forall m a data,
    client_call (CWrite m a data) (as_report RepDone (write_bytes (motor_id_raw m) a data)).

(** A motor is asked for a value, but all of them are addressed. *)
Inductive refused : command -> Prop :=
| rf_read8 : forall a, refused (CRead8 MBroadcast a)
| rf_read16 : forall a, refused (CRead16 MBroadcast a)
| rf_read32 : forall a, refused (CRead32 MBroadcast a)
| rf_read : forall a n, refused (CRead MBroadcast a n).

(** The alert bit of the motor that answered; the items of a scan have their own. *)
Definition report_alert (r : cli_report) : bool :=
  match r with
  | RepPing r => r_alert r
  | RepScan _ => false
  | RepValue r => r_alert r
  | RepBytes r => r_alert r
  | RepDone r => r_alert r
  end.

Definition failures (r : cli_report) : nat :=
  match r with
  | RepScan l => List.length (filter (fun x => match x with Ok _ => false | Err _ => true end) l)
  | _ => O
  end.

Definition error_lines (l : list line) : nat :=
  List.length (filter (fun x => match fst x with LvError => true | _ => false end) l).

(** The same answer; the number of the motor is that of the command. *)
Definition same_response {A} (a b : response A) : Prop := r_alert a = r_alert b /\ r_data a = r_data b.
Definition same_answer (a b : result cli_report transfer_error) : Prop :=
  match a, b with
  | Err x, Err y => x = y
  | Ok (RepPing x), Ok (RepPing y) => same_response x y
  | Ok (RepValue x), Ok (RepValue y) => same_response x y
  | Ok (RepBytes x), Ok (RepBytes y) => same_response x y
  | Ok (RepDone x), Ok (RepDone y) => same_response x y
  | _, _ => False
  end.

(** The texts of times have no colon (1.25ms). *)
Fixpoint no_colon (s : string) : Prop :=
  match s with EmptyString => True | String c s' => c <> ":"%char /\ no_colon s' end.
Definition plain (elapsed : nat -> string) : Prop := forall k, no_colon (elapsed k).

(** ** The texts *)

Definition motor_number (m : motor_id) : N := match m with MId id => b2n id | MBroadcast => 254%N end.

(** "... motor 1 at address 132" *)
Definition names_place (what : string) (m : motor_id) (address : N) (text : string) : Prop :=
  exists d1 d2, text = (what ++ " motor " ++ d1 ++ " at address " ++ d2)%string /\
    numeral 10 d1 (motor_number m) /\ numeral 10 d2 address.

(** "4660 (0x1234)", with [w] hexadecimal digits *)
Definition names_value (w : nat) (v : N) (text : string) : Prop :=
  exists d h, text = (d ++ " (0x" ++ h ++ ")")%string /\ numeral 10 d v /\ denotes 16 h v /\ String.length h = w.
(** "305419896 (0x1234 5678)" *)
Definition names_long (v : N) (text : string) : Prop :=
  exists d h1 h2, text = (d ++ " (0x" ++ h1 ++ " " ++ h2 ++ ")")%string /\ numeral 10 d v /\ denotes 16 (h1 ++ h2) v /\
    String.length h1 = 4 /\ String.length h2 = 4.

(** The line before a command: what it does, with which motor, and where. *)
Definition announces (c : command) (text : string) : Prop :=
  match c with
  | CPing m => exists d, text = ("Sending ping command to motor " ++ d)%string /\ numeral 10 d (motor_number m)
  | CReboot m => exists d, text = ("Sending reboot command with motor ID " ++ d)%string /\ numeral 10 d (motor_number m)
  | CRead8 m a => names_place "Reading an 8-bit value from" m a text
  | CRead16 m a => names_place "Reading a 16-bit value from" m a text
  | CRead32 m a => names_place "Reading a 32-bit value from" m a text
  | CRead m a n => exists d, names_place ("Reading a " ++ d ++ " bytes from") m a text /\ numeral 10 d n
  | CWrite8 m a v => exists t, names_place ("Writing 8-bit value " ++ t ++ " to") m a text /\ names_value 2 v t
  | CWrite16 m a v => exists t, names_place ("Writing 16-bit value " ++ t ++ " to") m a text /\ names_value 4 v t
  | CWrite32 m a v => exists t, names_place ("Writing 32-bit value " ++ t ++ " to") m a text /\ names_long v t
  | CWrite m a data => exists d, names_place ("Writing " ++ d ++ " bytes to") m a text /\ numeral 10 d (N.of_nat (List.length data))
  end.

(** The arguments of a command are numbers of 8, 16 and 32 bits. *)
Definition typed (c : command) : Prop :=
  match c with
  | CWrite8 _ _ v => (v < 2 ^ 8)%N
  | CWrite16 _ _ v => (v < 2 ^ 16)%N
  | CWrite32 _ _ v => (v < 2 ^ 32)%N
  | _ => True
  end.

(** "52, 0, 255" *)
Inductive names_bytes : list byte -> string -> Prop :=
| nb_none : names_bytes [] ""
| nb_one : forall b d, numeral 10 d (b2n b) -> names_bytes [b] d
| nb_more : forall b d b2 l t, numeral 10 d (b2n b) -> names_bytes (b2 :: l) t ->
    names_bytes (b :: b2 :: l) (d ++ ", " ++ t)%string.

(** The line after a command: what the motor answered. *)
Definition tells (c : command) (r : cli_report) (text : string) : Prop :=
  match r with
  | RepPing r => exists d1 d2, text = ("Ping { model: " ++ d1 ++ ", firmware: " ++ d2 ++ " }")%string /\
      numeral 10 d1 (ping_model (r_data r)) /\ numeral 10 d2 (b2n (ping_firmware (r_data r)))
  | RepScan _ => False
  | RepValue r => exists v, r_data r = Z.of_N v /\
      match c with CRead8 _ _ => names_value 2 v text | CRead16 _ _ => names_value 4 v text | _ => names_long v text end
  | RepBytes r => exists t, text = ("[" ++ t ++ "]")%string /\ names_bytes (r_data r) t
  | RepDone _ => text = "Ok"%string
  end.

(** The lines of one item of a scan. *)
Definition item_lines (io : io_error -> string) (elapsed : string) (x : result (response ping_data) read_error)
    (lines : list line) : Prop :=
  match x with
  | Ok r => exists d1 d2 d3,
      lines = [(LvInfo, "Motor ID: " ++ d1); (LvInfo, " ├─ Response time: " ++ elapsed)]%string ++
              (if r_alert r then [(LvInfo, " ├─ Alert: true")]%string else []) ++
              [(LvInfo, " ├─ Model: " ++ d2); (LvInfo, " └─ Firmware: " ++ d3)]%string /\
      numeral 10 d1 (b2n (r_motor_id r)) /\ numeral 10 d2 (ping_model (r_data r)) /\
      numeral 10 d3 (b2n (ping_firmware (r_data r)))
  | Err e => lines = [(LvError, "Error pinging motor: " ++ read_error_text io e)]%string
  end.
Fixpoint scan_lines (io : io_error -> string) (elapsed : nat -> string) (k : nat)
    (l : list (result (response ping_data) read_error)) (lines : list line) : Prop :=
  match l with
  | [] => lines = []
  | x :: l' => exists a b, lines = a ++ b /\ item_lines io (elapsed k) x a /\ scan_lines io elapsed (S k) l' b
  end.

(** The number of lines on the screen that begin with [mark]. *)
Definition marked (mark : string) (screen : list string) : nat :=
  List.length (filter (String.prefix mark) screen).
