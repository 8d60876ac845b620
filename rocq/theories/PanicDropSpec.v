(** * PanicDropSpec: giving up an iterator before its end *)
From Verif Require Import Base Endian Error Packet Time Bus Data Client Instructions
  Device Spec Api CallSpec StreamSpec InstructionSpec TwinSpec SurviveSpec PanicSpec PanicExactSpec.

(** Dropping the iterator [it] is [drop]; its next element is [next it]; [due] answers are still to come. *)
Inductive given_up : forall I X, (I -> M (option X * I)) -> M unit -> I -> nat -> Prop :=
| gu_sync_read_bytes : forall n ids j, is_u16 n ->
    given_up _ _ srb_next (srb_drop (mkSRB n ids j)) (mkSRB n ids j) (length ids - j)
| gu_sync_read : forall A (D : data_impl A) ids j, is_u16 (N.of_nat (d_size D)) -> safe_decode D ->
    given_up _ _ (sr_next D) (sr_drop D (mkSR ids j)) (mkSR ids j) (length ids - j)
| gu_bulk_read : forall l j, Forall (fun q => is_u16 (br_count q)) l -> j <= length l ->
    given_up _ _ br_next (br_drop (mkBR l j)) (mkBR l j) (length l - j).
Arguments given_up {I X}.

(** Waiting panics. *)
Definition hopeless (s : bus) : Prop := b_baud s = 0%N \/ fatal_next s.
