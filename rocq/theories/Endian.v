(** * Endian: model of /repo/src/bus/endian.rs *)
From Verif Require Import Base.
Local Open Scope N_scope.

(** endian.rs:5-7 [write_u8_le] *)
Definition write_u8_le (buffer : list byte) (value : byte) : out (list byte) :=
  set buffer 0 value.

(** endian.rs:13-15 [read_u8_le] *)
Definition read_u8_le (buffer : list byte) : out byte := idx buffer 0.

(** endian.rs:18-21 [write_u16_le].  [value] is a [u16]. *)
Definition write_u16_le (buffer : list byte) (value : N) : out (list byte) :=
  let* b1 := set buffer 0 (n2b (N.land value 0xFF)) in
  set b1 1 (n2b (N.land (N.shiftr value 8) 0xFF)).

(** endian.rs:24-28 [read_u16_le] *)
Definition read_u16_le (buffer : list byte) : out N :=
  let* low := idx buffer 0 in
  let* high := idx buffer 1 in
  Val (N.lor (b2n low) (N.shiftl (b2n high) 8)).

(** [write_u16_le(&mut l\[a..\], v)], the form every caller uses. *)
Definition write_u16_at (l : list byte) (a : nat) (v : N) : out (list byte) :=
  let* '(l', _) := with_slice l a (length l)
    (fun s => let* s' := write_u16_le s v in Val (s', tt)) in
  Val l'.

(** [write_u8_le(&mut l\[a..\], v)] *)
Definition write_u8_at (l : list byte) (a : nat) (v : byte) : out (list byte) :=
  let* '(l', _) := with_slice l a (length l)
    (fun s => let* s' := write_u8_le s v in Val (s', tt)) in
  Val l'.
