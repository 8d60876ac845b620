(** * NumberManySpec: what can be exchanged with many motors that follow the protocol *)
From Coq Require Import ZArith.
From Verif Require Import Base Error Packet Time Bus Data Client Instructions Spec Api CallSpec
  StreamSpec DeviceSpec InstructionSpec DataSpec NumberSpec.

(** Status packets (id, error, parameters) of motors that follow the protocol, one after the
    other, each perhaps after garbage; the read buffer can hold each of them. *)
Inductive motors_send (cap : nat) : list item -> list (byte * byte * list byte) -> list item -> Prop :=
| ms_nil : forall rest, motors_send cap rest [] rest
| ms_cons : forall g id e ps w line l rest,
    ~ contains g header -> is_frame id (x55 :: e :: ps) w -> length w <= cap -> motors_send cap line l rest ->
    motors_send cap (map inl (g ++ w) ++ line) ((id, e, ps) :: l) rest.

(** The motor that was asked answers with as many bytes as requested, without an error. *)
Definition answers (id : byte) (n : nat) (st : byte * byte * list byte) : Prop :=
  let '(id', e, ps) := st in id' = id /\ no_error e /\ length ps = n.

(** What the client may make of it: the data, or that there are too many parameters. *)
Definition received {A} (value : list byte -> A) (st : byte * byte * list byte)
    (x : option (result (response A) read_error)) : Prop :=
  let '(id, e, ps) := st in
  (ff_runs_ok ps -> x = Some (Ok (mkResponse id (alert_bit e) (value ps)))) /\
  (~ ff_runs_ok ps -> x = Some (Err (RInvalidMessage (IMParameterCount (length ps + overlooked ps) (Exact (length ps)))))).
