(** * MemorySpec: the elements an array is made of *)
From Coq Require Import ZArith.
From Verif Require Import Base Error Data DataSpec.

(** [vs] are the first elements of the array of [n] elements that [l] encodes, up to the first one that cannot be decoded. *)
Definition decodable {A} (D : data_impl A) (n : nat) (l : list byte) (vs : list A) : Prop :=
  length vs <= n /\
  (forall i v, nth_error vs i = Some v -> (i + 1) * d_size D <= length l /\ d_decode D (element D l i) = Val (Ok v)) /\
  (length vs < n -> (length vs + 1) * d_size D <= length l -> forall v, d_decode D (element D l (length vs)) <> Val (Ok v)).
