(** * CliRemoteSpec: the command line tool and simulated motors on one bus

    What the motors are and what operations do to them is taken from [RemoteSpec],
    what the user reads from [CliOutputSpec]. *)
From Coq Require Import ZArith Ascii String.
From Verif Require Import Base Error Packet Bus Data Client Instructions Cli Text TextSpec CliOutput CliOutputSpec
  Spec Api CallSpec StreamSpec InstructionSpec DataSpec RemoteSpec.
Local Open Scope list_scope.

(** ** Commands as operations *)

Definition whom (m : motor_id) : byte := match m with MId id => id | MBroadcast => xfe end.

(** The operation on the motors that a command stands for (all commands but reboot
    and those that are refused). *)
Inductive means : command -> op -> Prop :=
| mn_ping : forall id, means (CPing (MId id)) (OpPing id)
| mn_scan : means (CPing MBroadcast) OpScan
| mn_read8 : forall id a, means (CRead8 (MId id) a) (OpRead id a 1)
| mn_read16 : forall id a, means (CRead16 (MId id) a) (OpRead id a 2)
| mn_read32 : forall id a, means (CRead32 (MId id) a) (OpRead id a 4)
| mn_read : forall id a n, means (CRead (MId id) a n) (OpRead id a n)
| mn_write8 : forall m a v bytes, int_bytes false 1 (Z.of_N v) bytes -> means (CWrite8 m a v) (OpWrite (whom m) a bytes)
| mn_write16 : forall m a v bytes, int_bytes false 2 (Z.of_N v) bytes -> means (CWrite16 m a v) (OpWrite (whom m) a bytes)
| mn_write32 : forall m a v bytes, int_bytes false 4 (Z.of_N v) bytes -> means (CWrite32 m a v) (OpWrite (whom m) a bytes)
| mn_write : forall m a data, means (CWrite m a data) (OpWrite (whom m) a data).

(** The width of the value a command reads. *)
Inductive reads_width : command -> nat -> Prop :=
| rw_8 : forall m a, reads_width (CRead8 m a) 1
| rw_16 : forall m a, reads_width (CRead16 m a) 2
| rw_32 : forall m a, reads_width (CRead32 m a) 4.

(** ** What the user is told *)

Definition failure (r : reply) (e : transfer_error) : Prop :=
  r = RemoteSpec.RepPing (Err e) \/ r = RepData (Err e) \/ r = RemoteSpec.RepDone (Err e).

(** The lines and the exit status that report an answer: [report] is the answer as
    the command understands it. *)
Definition success_lines (el : nat -> string) (c : command) (report : cli_report) (lines : list line) : Prop :=
  exists debug text, announces c debug /\ tells c report text /\
    lines = (LvDebug, debug) :: (if report_alert report then [(LvWarn, "Alert bit set in response from motor!"%string)] else []) ++
            [(LvInfo, el O ++ ": " ++ text)%string].

Inductive told (io : io_error -> string) (el : nat -> string) (c : command) : reply -> list line -> N -> Prop :=
| told_ping : forall r lines, success_lines el c (Cli.RepPing r) lines ->
    told io el c (RemoteSpec.RepPing (Ok r)) lines 0
| told_value : forall w id alert data v lines, reads_width c w -> int_bytes false w v data ->
    success_lines el c (RepValue (mkResponse id alert v)) lines ->
    told io el c (RepData (Ok (mkResponse id alert data))) lines 0
| told_bytes : forall r m a n lines, c = CRead m a n -> success_lines el c (RepBytes r) lines ->
    told io el c (RepData (Ok r)) lines 0
| told_done : forall r lines, success_lines el c (Cli.RepDone r) lines ->
    told io el c (RemoteSpec.RepDone (Ok r)) lines 0
| told_found : forall l lines, scan_lines io el 0 l lines -> told io el c (RepFound (Ok l)) lines 0
| told_failed : forall r e debug what, failure r e -> announces c debug -> In what ["Command failed: "; "Write failed: "]%string ->
    told io el c r [(LvDebug, debug); (LvError, what ++ transfer_error_text io e)%string] 1.

(** ** Running the tool *)

(** One run of the tool with a new port that does not fail: what the tool transmits
    is what the motors receive; what they send is what it receives, and after that
    the line is silent. *)
Inductive run (io : io_error -> string) (el : nat -> string) (path : string) (fuel : nat) (c : command)
  : list node -> out (list line * result cli_report unit) -> list node -> Prop :=
| run_ : forall ds dbg baud setbauds sc es o b' rs ds1 ds',
    2 <= List.length es -> baud <> 0%N -> (baud < 2 ^ 32)%N ->
    main_output io el path fuel dbg (Ok (mkPort (sc ++ silence es) [] [] setbauds 0 [])) baud c = (o, Some b') ->
    reacts (transmitted (p_log (b_port b'))) ds rs ds1 ->
    items sc = map inl (concat rs) ->
    overhears [] ds1 rs ds' ->
    run io el path fuel c ds o ds'.

(** One run after the other; every run is a new process. *)
Inductive runs (io : io_error -> string) (el : nat -> string) (path : string) (fuel : nat)
  : list node -> list command -> list (out (list line * result cli_report unit)) -> list node -> Prop :=
| runs_nil : forall ds, runs io el path fuel ds [] [] ds
| runs_cons : forall c ds o ds1 cs os ds2,
    run io el path fuel c ds o ds1 -> runs io el path fuel ds1 cs os ds2 ->
    runs io el path fuel ds (c :: cs) (o :: os) ds2.

(** Motors with different ids that have nothing left to read, with room for messages
    of [cap] bytes. *)
Definition waiting (cap : nat) (ds : list node) (ms : list motor) : Prop :=
  16 <= cap /\ cap <= 128 /\ Forall (fun d => ready cap (n_bus d) /\ pending (n_bus d) = []) ds /\
  Forall2 is_motor ds ms /\ NoDup (map m_id ms) /\ ~ In xfe (map m_id ms).

(** The output of a run that reports [r]. *)
Definition reports (io : io_error -> string) (el : nat -> string) (path : string) (c : command) (r : reply)
    (o : out (list line * result cli_report unit)) : Prop :=
  exists opening lines x, o = Val ((LvDebug, "Using serial port " ++ path ++ " with baud rate " ++ opening)%string :: lines, x) /\
    told io el c r lines (exit_status x).

(** Pings, scans, the commands for values of 8, 16 and 32 bits, and those for up to
    five bytes to write or seven to read; with arguments of the right type. *)
Definition small_command (c : command) : Prop :=
  match c with
  | CPing (MId id) => id <> xfe
  | CPing MBroadcast => True
  | CRead8 (MId id) a | CRead16 (MId id) a | CRead32 (MId id) a => id <> xfe /\ is_u16 a
  | CRead (MId id) a n => id <> xfe /\ is_u16 a /\ (n <= 7)%N
  | CWrite8 _ a v => is_u16 a /\ (v < 2 ^ 8)%N
  | CWrite16 _ a v => is_u16 a /\ (v < 2 ^ 16)%N
  | CWrite32 _ a v => is_u16 a /\ (v < 2 ^ 32)%N
  | CWrite _ a data => is_u16 a /\ List.length data <= 5
  | _ => False
  end.

(** The commands that write and read a number of [w] bytes. *)
Inductive stores_number (id : byte) (a v : N) : nat -> command -> command -> Prop :=
| sn_8 : stores_number id a v 1 (CWrite8 (MId id) a v) (CRead8 (MId id) a)
| sn_16 : stores_number id a v 2 (CWrite16 (MId id) a v) (CRead16 (MId id) a)
| sn_32 : stores_number id a v 4 (CWrite32 (MId id) a v) (CRead32 (MId id) a).

(** "18 (0x12)", "4660 (0x1234)" or "305419896 (0x1234 5678)" *)
Definition shows_number (w : nat) (v : N) (text : string) : Prop :=
  if w =? 4 then names_long v text else names_value (2 * w) v text.
