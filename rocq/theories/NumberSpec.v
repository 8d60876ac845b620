(** * NumberSpec: what can be exchanged with motors that follow the protocol *)
From Coq Require Import ZArith.
From Verif Require Import Base Error Packet Time Bus Data Client Instructions Spec Api CallSpec
  StreamSpec DeviceSpec InstructionSpec DataSpec.

(** The number of FF FF FD in [l] that the library overlooks. *)
Definition overlooked (l : list byte) : nat := patterns_from 0 l - noticed_from 0 l.

(** The next packet on its way to the client is this status packet of a motor that
    follows the protocol, and the read buffer can hold it. *)
Definition motor_sends (s : bus) (id e : byte) (params : list byte) (rest : list item) : Prop :=
  exists g w, ~ contains g header /\ is_frame id (x55 :: e :: params) w /\ length w <= length (b_rbuf s) /\
    incoming s = map inl (g ++ w) ++ rest.

(** The one number of four bytes with an overlooked FF FF FD: FF FF FF FD. *)
Definition awkward (signed : bool) (w : nat) (v : Z) : Prop :=
  w = 4 /\ v = (if signed then -33554433 else 4261412863)%Z.
