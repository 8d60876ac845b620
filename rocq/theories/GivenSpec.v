(** * GivenSpec: commands that nobody gave *)
From Verif Require Import Base Bus Instructions InstructionSpec.

(** [n] bytes that lie in the write buffer from place [i] on, from whatever was sent before. *)
Definition leftover (s : bus) (i n : nat) : list byte := firstn n (skipn i (b_wbuf s)).

(** Commands with data of [c] bytes. *)
Definition of_size (c : nat) (l : list (sync_write_data (list byte))) : Prop :=
  Forall (fun x => length (sw_data x) = c) l.

(** The size of the parameters of a bulk write. *)
Definition bulk_size (l : list bulk_write_data) : nat := list_sum (map (fun w => 5 + length (bw_data w)) l).
