(** * Property C83: the command line tool is a remote control for the motors *)
From Coq Require Import ZArith ZifyN ZifyNat ZifyBool Ascii String.
From Verif Require Import Base Error Packet Time Bus Data Client Instructions Device MockDevice Cli Text TextSpec TextTheorems
  CliOutput CliOutputSpec Spec Api CallSpec StreamSpec DeviceSpec InstructionSpec DataSpec
  RemoteSpec RemoteExtra CliRemoteSpec Demo DemoProofs CliRemoteTheorems.
Local Open Scope list_scope.

(** ** C83: every run of the tool has the effect its command stands for, and reports the
    answer.  Refuted because of long writes that the byte stuffing does not protect
    (finding 1). *)
Theorem C83_commands_refuted : ~ (forall io el path fuel cap ds ms cs os xs ds',
  waiting cap ds ms -> Forall2 means cs os -> all_possible (fun _ => True) cap ms os -> List.length ms < fuel ->
  runs io el path fuel ds cs xs ds' ->
  exists rs ms', remote ms os rs ms' /\ List.length rs = List.length cs /\
    Forall2 (fun cr x => reports io el path (fst cr) (snd cr) x) (combine cs rs) xs /\ Forall2 is_motor ds' ms').
Proof. exact L_C83_commands_refuted. Qed.
Print Assumptions C83_commands_refuted.

(** True when every message misses the pattern the stuffing overlooks. *)
Theorem C83_commands_partial : forall io el path fuel cap ds ms cs os xs ds',
  waiting cap ds ms -> Forall2 means cs os -> all_possible comes_back cap ms os -> List.length ms < fuel ->
  runs io el path fuel ds cs xs ds' ->
  exists rs ms', remote ms os rs ms' /\ List.length rs = List.length cs /\
    Forall2 (fun cr x => reports io el path (fst cr) (snd cr) x) (combine cs rs) xs /\ Forall2 is_motor ds' ms'.
Proof. exact L_C83_commands_partial. Qed.
Print Assumptions C83_commands_partial.

(** Such runs exist, for every sequence of commands. *)
Theorem C83_runs_exist : forall io el path fuel cap ds ms cs os,
  waiting cap ds ms -> Forall2 means cs os -> all_possible comes_back cap ms os -> List.length ms < fuel ->
  exists xs ds', runs io el path fuel ds cs xs ds'.
Proof. exact L_C83_runs_exist. Qed.
Print Assumptions C83_runs_exist.

(** Pings, scans, all commands for numbers of 8, 16 and 32 bits, and those for a few
    bytes need no condition: their messages are too short to be damaged. *)
Theorem C83_small_commands : forall io el path fuel cap ds ms cs os xs ds',
  waiting cap ds ms -> 21 <= cap -> Forall small_command cs -> Forall2 means cs os -> List.length ms < fuel ->
  runs io el path fuel ds cs xs ds' ->
  exists rs ms', remote ms os rs ms' /\ List.length rs = List.length cs /\
    Forall2 (fun cr x => reports io el path (fst cr) (snd cr) x) (combine cs rs) xs /\ Forall2 is_motor ds' ms'.
Proof. exact L_C83_small_commands. Qed.
Print Assumptions C83_small_commands.

Theorem C83_small_commands_mean : forall c, small_command c -> exists o, means c o.
Proof. exact L_C83_small_commands_mean. Qed.
Print Assumptions C83_small_commands_mean.

(** In particular a number written is the number shown afterwards. *)
Theorem C83_number_round_trip : forall io el path fuel cap ds ms m a v w c1 c2 xs ds',
  waiting cap ds ms -> 21 <= cap -> List.length ms < fuel -> In m ms -> is_u16 a -> (v < 2 ^ (8 * N.of_nat w))%N ->
  (a + N.of_nat w <= N.of_nat (List.length (m_memory m)))%N ->
  stores_number (m_id m) a v w c1 c2 -> runs io el path fuel ds [c1; c2] xs ds' ->
  exists lines1 x1 before text x2,
    xs = [Val (lines1, x1); Val (before ++ [(LvInfo, el O ++ ": " ++ text)%string], x2)] /\
    exit_status x1 = 0%N /\ exit_status x2 = 0%N /\ shows_number w v text.
Proof. exact L_C83_number_round_trip. Qed.
Print Assumptions C83_number_round_trip.

(** Ten runs of the tool beside two motors, one of them for a motor that does not exist. *)
Example C83_example : exists os xs ds', let m := repeat x07 8 in
  waiting 64 (two_motors m m) [mkMotor x01 m None; mkMotor x02 m None] /\ Forall small_command some_commands /\
  Forall2 means some_commands os /\ List.length some_commands = 10 /\
  runs (fun _ => "no answer"%string) (fun _ => "1.25ms"%string) "/dev/ttyUSB0" 3 (two_motors m m) some_commands xs ds'.
Proof.
  set (m := repeat x07 8).
  destruct (small_commands_run (fun _ => "no answer"%string) (fun _ => "1.25ms"%string) "/dev/ttyUSB0" (two_motors m m) _
    some_commands 64 (two_waiting m m) ltac:(lia) some_commands_small) as [os [M [xs [ds' R]]]].
  exists os, xs, ds'. cbv zeta. split; [apply two_waiting|]. split; [apply some_commands_small|]. split; [exact M|].
  split; [reflexivity|exact R].
Qed.

(** write16 1 2 4660; read16 1 2 *)
Example C83_number_example : exists xs ds', let mem := repeat x07 8 in let m := mkMotor x01 mem None in
  let ms := [m; mkMotor x02 mem None] in
  waiting 64 (two_motors mem mem) ms /\ In m ms /\
  stores_number (m_id m) 2 4660 2 (CWrite16 (MId x01) 2 4660) (CRead16 (MId x01) 2) /\
  runs (fun _ => "no answer"%string) (fun _ => "1.25ms"%string) "/dev/ttyUSB0" 3 (two_motors mem mem)
    [CWrite16 (MId x01) 2 4660; CRead16 (MId x01) 2] xs ds' /\
  shows_number 2 4660 "4660 (0x1234)".
Proof.
  set (mem := repeat x07 8). set (m := mkMotor x01 mem None).
  assert (Sm : Forall small_command [CWrite16 (MId x01) 2 4660; CRead16 (MId x01) 2])
    by (repeat (apply Forall_cons; [repeat split; discriminate|]); apply Forall_nil).
  destruct (small_commands_run (fun _ => "no answer"%string) (fun _ => "1.25ms"%string) "/dev/ttyUSB0" (two_motors mem mem) _
    _ 64 (two_waiting mem mem) ltac:(lia) Sm) as [os [M [xs [ds' R]]]].
  exists xs, ds'. cbv zeta. split; [apply two_waiting|]. split; [left; reflexivity|]. split; [constructor|].
  split; [exact R|]. exists "4660"%string, "1234"%string. split; [reflexivity|].
  split; [change "4660"%string with (dec 4660); apply digits_numeral; lia|]. split; [|reflexivity].
  change "1234"%string with (hex_padded 4 4660). apply padded_denotes; lia.
Qed.
