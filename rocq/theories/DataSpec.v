(** * DataSpec: how values are represented on the wire *)
From Coq Require Import ZArith.
From Verif Require Import Base Error Data.

(** The values of a [w]-byte integer type. *)
Definition int_range (signed : bool) (w : nat) (v : Z) : Prop :=
  if signed then (- 2 ^ (8 * Z.of_nat w - 1) <= v < 2 ^ (8 * Z.of_nat w - 1))%Z
  else (0 <= v < 2 ^ (8 * Z.of_nat w))%Z.

(** The number with these base 256 digits, least significant first. *)
Fixpoint le_value (l : list byte) : Z :=
  match l with
  | [] => 0
  | b :: t => Z.of_N (b2n b) + 256 * le_value t
  end%Z.

(** [l] is the two's complement, little-endian representation of [v]. *)
Definition int_bytes (signed : bool) (w : nat) (v : Z) (l : list byte) : Prop :=
  int_range signed w v /\ length l = w /\ exists k, (v = le_value l + k * 2 ^ (8 * Z.of_nat w))%Z.

(** The elements one after the other. *)
Definition array_bytes {A} (R : A -> list byte -> Prop) (n : nat) (v : list A) (l : list byte) : Prop :=
  length v = n /\ exists ls, Forall2 R v ls /\ l = concat ls.

(** The types of the crate that implement [Data], with their values and their
    representation. *)
Inductive crate_type : forall A, data_impl A -> (A -> Prop) -> (A -> list byte -> Prop) -> Prop :=
| ct_int : forall signed w, In w [1; 2; 4; 8; 16] ->
    crate_type Z (data_int signed w) (int_range signed w) (int_bytes signed w)
| ct_array : forall A (D : data_impl A) V R n, crate_type A D V R -> array_const_ok D n ->
    crate_type (list A) (data_array D n) (fun vs => length vs = n /\ Forall V vs) (array_bytes R n).
Arguments crate_type {A}.

(** Element [i] of an array that is decoded from [l]. *)
Definition element {A} (D : data_impl A) (l : list byte) (i : nat) : list byte :=
  firstn (d_size D) (skipn (i * d_size D) l).
