(** * EchoSpec: a line that returns what the client transmits *)
From Coq Require Import ZArith.
From Verif Require Import Base Endian Error Packet Bus Data Client Instructions Spec Api CallSpec StreamSpec
  InstructionSpec RemoteSpec.

(** The calls that transmit the instruction [i] with the parameters [params] to
    one motor and wait for its answer. *)
Inductive asks : forall B, M (result B transfer_error) -> byte -> byte -> list byte -> Prop :=
| as_ping : forall id, asks _ (ping id) id x01 []
| as_read_bytes : forall id a n, is_u16 n -> asks _ (read_bytes id a n) id x02 (le16 a ++ le16 n)
| as_read : forall A (D : data_impl A) id a, is_u16 (N.of_nat (d_size D)) ->
    asks _ (read D id a) id x02 (le16 a ++ le16 (N.of_nat (d_size D)))
| as_write : forall A (D : data_impl A) id a v bytes, id <> xfe -> data_ok D -> encodes_as D v bytes ->
    asks _ (write D id a v) id x03 (le16 a ++ bytes)
| as_write_bytes : forall id a d, id <> xfe -> asks _ (write_bytes id a d) id x03 (le16 a ++ d)
(* values of one byte: for wider ones nothing is transmitted (C30) *)
| as_reg_write : forall A (D : data_impl A) id a v bytes, id <> xfe -> data_ok D -> d_size D = 1 -> encodes_as D v bytes ->
    asks _ (reg_write D id a v) id x04 (le16 a ++ bytes)
| as_reg_write_bytes : forall id a d, id <> xfe -> asks _ (reg_write_bytes id a d) id x04 (le16 a ++ d)
| as_action : forall id, id <> xfe -> asks _ (action id) id x05 []
| as_factory_reset : forall id k, id <> xfe -> asks _ (factory_reset id k) id x06 [reset_code k]
| as_reboot : forall id, id <> xfe -> asks _ (reboot id) id x08 []
| as_clear_revolution_counter : forall id, id <> xfe ->
    asks _ (clear_revolution_counter id) id x10 [x01; x44; x58; x4c; x22]
(* what is transmitted, not what should be (C29) *)
| as_clear_error : forall id, id <> xfe -> asks _ (clear_error id) id x10 [x01; x45; x52; x43; x4c].
Arguments asks {B}.

(** A message for which there is room. *)
Definition fits (cap : nat) (body : list byte) : Prop := passes (fun _ => True) cap body.

(** What the client reports if it receives its own instruction [i]. *)
Definition own_echo (i : byte) : read_error := RInvalidMessage (IMInstruction i x55).
