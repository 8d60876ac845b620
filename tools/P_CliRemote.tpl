(** * Property C83: the command line tool is a remote control for the motors *)
From Coq Require Import ZArith ZifyN ZifyNat ZifyBool Ascii String.
From Verif Require Import Base Error Packet Time Bus Data Client Instructions Device MockDevice Cli Text TextSpec TextTheorems
  CliOutput CliOutputSpec Spec Api CallSpec StreamSpec DeviceSpec InstructionSpec DataSpec
  RemoteSpec RemoteExtra CliRemoteSpec Demo DemoProofs CliRemoteTheorems.
Local Open Scope list_scope.

(** ** C83: every run of the tool has the effect its command stands for, and reports the
    answer.  Refuted because of long writes that the byte stuffing does not protect
    (finding 1). *)
@C83_commands_refuted

(** True when every message misses the pattern the stuffing overlooks. *)
@C83_commands_partial

(** Such runs exist, for every sequence of commands. *)
@C83_runs_exist

(** Pings, scans, all commands for numbers of 8, 16 and 32 bits, and those for a few
    bytes need no condition: their messages are too short to be damaged. *)
@C83_small_commands

@C83_small_commands_mean

(** In particular a number written is the number shown afterwards. *)
@C83_number_round_trip

(** Ten runs of the tool beside two motors, one of them for a motor that does not exist. *)
Example C83_example : exists os xs ds', let m := repeat x07 8 in
  waiting 64 (two_motors m m) [mkMotor x01 m None; mkMotor x02 m None] /\ Forall small_command some_commands /\
  Forall2 means some_commands os /\ List.length some_commands = 10 /\
  runs (fun _ => "no answer"%string) (fun _ => "1.25ms"%string) "/dev/ttyUSB0" 3 (two_motors m m) some_commands xs ds'.
Proof.
  set (m := repeat x07 8).
  destruct (small_commands_run (fun _ => "no answer"%string) (fun _ => "1.25ms"%string) "/dev/ttyUSB0" (two_motors m m) _
    some_commands 64 (two_waiting m m) ltac:(lia) some_commands_small) as [os [M [xs [ds' R]]]].
  exists os, xs, ds'. cbv zeta. split; [apply two_waiting|]. split; [apply some_commands_small|]. split; [exact M|].
  split; [reflexivity|exact R].
Qed.

(** write16 1 2 4660; read16 1 2 *)
Example C83_number_example : exists xs ds', let mem := repeat x07 8 in let m := mkMotor x01 mem None in
  let ms := [m; mkMotor x02 mem None] in
  waiting 64 (two_motors mem mem) ms /\ In m ms /\
  stores_number (m_id m) 2 4660 2 (CWrite16 (MId x01) 2 4660) (CRead16 (MId x01) 2) /\
  runs (fun _ => "no answer"%string) (fun _ => "1.25ms"%string) "/dev/ttyUSB0" 3 (two_motors mem mem)
    [CWrite16 (MId x01) 2 4660; CRead16 (MId x01) 2] xs ds' /\
  shows_number 2 4660 "4660 (0x1234)".
Proof.
  set (mem := repeat x07 8). set (m := mkMotor x01 mem None).
  assert (Sm : Forall small_command [CWrite16 (MId x01) 2 4660; CRead16 (MId x01) 2])
    by (repeat (apply Forall_cons; [repeat split; discriminate|]); apply Forall_nil).
  destruct (small_commands_run (fun _ => "no answer"%string) (fun _ => "1.25ms"%string) "/dev/ttyUSB0" (two_motors mem mem) _
    _ 64 (two_waiting mem mem) ltac:(lia) Sm) as [os [M [xs [ds' R]]]].
  exists xs, ds'. cbv zeta. split; [apply two_waiting|]. split; [left; reflexivity|]. split; [constructor|].
  split; [exact R|]. exists "4660"%string, "1234"%string. split; [reflexivity|].
  split; [change "4660"%string with (dec 4660); apply digits_numeral; lia|]. split; [|reflexivity].
  change "1234"%string with (hex_padded 4 4660). apply padded_denotes; lia.
Qed.
