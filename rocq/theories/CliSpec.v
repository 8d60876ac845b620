(** * CliSpec: what the commands of the command line tool are for *)
From Coq Require Import ZArith.
From Verif Require Import Base Endian Error Packet Bus Data Client Instructions Cli Spec CallSpec InstructionSpec DataSpec.

(** The packet a command asks for: id, instruction and parameters. *)
Inductive command_request : command -> byte -> byte -> list byte -> Prop :=
| cr_ping : forall id, command_request (CPing (MId id)) id x01 []
| cr_scan : command_request (CPing MBroadcast) xfe x01 []
| cr_reboot : forall m, command_request (CReboot m) (motor_id_raw m) x08 []
| cr_read8 : forall id a, command_request (CRead8 (MId id) a) id x02 (le16 a ++ [x01; x00])
| cr_read16 : forall id a, command_request (CRead16 (MId id) a) id x02 (le16 a ++ [x02; x00])
| cr_read32 : forall id a, command_request (CRead32 (MId id) a) id x02 (le16 a ++ [x04; x00])
| cr_read : forall id a n, command_request (CRead (MId id) a n) id x02 (le16 a ++ le16 n)
| cr_write8 : forall m a v bytes, int_bytes false 1 (Z.of_N v) bytes ->
    command_request (CWrite8 m a v) (motor_id_raw m) x03 (le16 a ++ bytes)
| cr_write16 : forall m a v bytes, int_bytes false 2 (Z.of_N v) bytes ->
    command_request (CWrite16 m a v) (motor_id_raw m) x03 (le16 a ++ bytes)
| cr_write32 : forall m a v bytes, int_bytes false 4 (Z.of_N v) bytes ->
    command_request (CWrite32 m a v) (motor_id_raw m) x03 (le16 a ++ bytes)
| cr_write : forall m a data, command_request (CWrite m a data) (motor_id_raw m) x03 (le16 a ++ data).

(** What a command that reads reports, when the motor answers [data]. *)
Inductive reading : command -> byte -> nat -> (bool -> list byte -> cli_report) -> Prop :=
| rd_read8 : forall id a, reading (CRead8 (MId id) a) id 1
    (fun alert data => RepValue (mkResponse id alert (le_value data)))
| rd_read16 : forall id a, reading (CRead16 (MId id) a) id 2
    (fun alert data => RepValue (mkResponse id alert (le_value data)))
| rd_read32 : forall id a, reading (CRead32 (MId id) a) id 4
    (fun alert data => RepValue (mkResponse id alert (le_value data)))
| rd_read : forall id a n, reading (CRead (MId id) a n) id (N.to_nat n)
    (fun alert data => RepBytes (mkResponse id alert data))
| rd_ping : forall id, reading (CPing (MId id)) id 3
    (fun alert data => RepPing (mkResponse id alert (mkPing (Z.to_N (le_value (firstn 2 data))) (nth 2 data x00)))).

(** The commands that change something on the motor [m]. *)
Inductive changing : command -> motor_id -> Prop :=
| ch_reboot : forall m, changing (CReboot m) m
| ch_write8 : forall m a v, changing (CWrite8 m a v) m
| ch_write16 : forall m a v, changing (CWrite16 m a v) m
| ch_write32 : forall m a v, changing (CWrite32 m a v) m
| ch_write : forall m a data, changing (CWrite m a data) m.
