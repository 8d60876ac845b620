(** * CostSpec: how many bytes a call puts on the line *)
From Verif Require Import Base Endian Error Packet Time Bus Data Client Instructions Device Api CallSpec.

(** The number of bytes handed to the port. *)
Definition bytes_written (evs : list io_event) : nat :=
  list_sum (map (fun e => match e with LWrite w _ => length w | _ => 0 end) evs).

(** In some state the call hands [k] bytes to the port, and not nothing. *)
Definition costs {A} (m : M A) (k : nat) : Prop :=
  0 < k /\ exists s o s' evs, reach s /\ m s = (o, s') /\ calls s s' evs /\ bytes_written evs = k.

(** Ids of motors (253 to 255 are reserved), and addresses and sizes whose high byte is
    not one of FD, FE, FF. *)
Definition motor_id (id : byte) : Prop := (b2n id <= 252)%N.
Definition ordinary (n : N) : Prop := (n < 64768)%N.
