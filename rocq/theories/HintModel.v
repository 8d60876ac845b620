(** * HintModel: [Iterator::size_hint] of the read iterators
    (/repo/src/instructions/sync_read.rs:154-156, 281-283, bulk_read.rs:144-146) *)
From Verif Require Import Base Bus Client Instructions.

(** [(0, Some(self.remaining()))] *)
Definition hint_of (remaining : out nat) : out (nat * option nat) :=
  let* n := remaining in Val (0, Some n).
(** sync_read.rs:154-156 *)
Definition srb_size_hint (it : sync_read_bytes_it) : out (nat * option nat) := hint_of (srb_remaining it).
(** sync_read.rs:281-283 *)
Definition sr_size_hint (it : sync_read_it) : out (nat * option nat) := hint_of (sr_remaining it).
(** bulk_read.rs:144-146 *)
Definition br_size_hint (it : bulk_read_it) : out (nat * option nat) := hint_of (br_remaining it).
