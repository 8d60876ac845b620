(** * Base: the fragment of Rust semantics the model needs.

    Everything here models Rust itself (slices, panics, fixed-width integers),
    not a particular file of the crate.  Conventions used by every model file:

    - [u8] is Coq's [byte] (exactly 256 values);
    - [u16], [u32], [u64] are [N]; every place where the code can leave the
      range writes the wrap or the overflow panic explicitly;
    - [usize] lengths and indices are [nat]; [usize_bits] is 64, and the only
      additions on caller-supplied counts carry an explicit overflow check;
    - a slice is a [list byte]; a function taking [&mut \[u8\]] returns the new
      contents (of the same length);
    - a panic is the value [Panic p]; a call that is still waiting for the
      serial port is the value [Blocked]. *)
From Coq Require Export List NArith Arith Bool Lia Strings.Byte.
Export ListNotations.

Notation byte := Byte.byte.

(** ** Outcomes *)

(** Why a panic happened (Rust's panic message class). *)
Inductive panic_reason :=
| PIndex        (* slice index / range out of bounds *)
| POverflow     (* arithmetic overflow with overflow checks enabled *)
| PDivZero      (* division by zero *)
| PCopyLen      (* copy_from_slice: source and destination lengths differ *)
| PAssert       (* assert! / assert_eq! *)
| PDebugAssert  (* debug_assert! (only with debug assertions enabled) *)
| PUnwrap       (* unwrap() on None/Err *)
| PExplicit.    (* panic!() *)

(** The outcome of running code: a value, a panic, or "has not returned yet"
    (only ever produced by waiting on the serial port). *)
Inductive out (A : Type) :=
| Val (a : A)
| Panic (p : panic_reason)
| Blocked.
Arguments Val {A} a.
Arguments Panic {A} p.
Arguments Blocked {A}.

Definition obind {A B} (m : out A) (k : A -> out B) : out B :=
  match m with
  | Val a => k a
  | Panic p => Panic p
  | Blocked => Blocked
  end.

Notation "'let*' x ':=' m 'in' k" := (obind m (fun x => k))
  (at level 200, x name, m at level 100, k at level 200, right associativity).
Notation "'let*' ' p ':=' m 'in' k" :=
  (obind m (fun x => match x with p => k end))
  (at level 200, p pattern, m at level 100, k at level 200, right associativity).

(** Rust's [Result]. *)
Inductive result (A E : Type) :=
| Ok (a : A)
| Err (e : E).
Arguments Ok {A E} a.
Arguments Err {A E} e.

Definition map_err {A E F} (f : E -> F) (r : result A E) : result A F :=
  match r with Ok a => Ok a | Err e => Err (f e) end.

(** ** u8 *)

Definition b2n (b : byte) : N := Byte.to_N b.

(** [n as u8]: truncation. *)
Definition n2b (n : N) : byte :=
  match Byte.of_N (n mod 256) with Some b => b | None => x00 end.

Notation beq := Byte.eqb.

(** Slice equality [a == b] on [u8] slices. *)
Fixpoint bytes_eqb (a b : list byte) : bool :=
  match a, b with
  | [], [] => true
  | x :: a', y :: b' => beq x y && bytes_eqb a' b'
  | _, _ => false
  end.

(** ** usize *)

(** [usize] is 64 bits wide (the 32-bit targets are not modelled). *)
Definition usize_max : N := (2 ^ 64 - 1)%N.

(** [a - b] on [usize]: underflow panics with overflow checks; without them the
    wrapped value is out of range for every slice it is used to index, so the
    model always panics. *)
Definition usize_sub (a b : nat) : out nat :=
  if b <=? a then Val (a - b) else Panic POverflow.

(** ** Slices *)

(** [l\[i\]] *)
Definition idx (l : list byte) (i : nat) : out byte :=
  match nth_error l i with Some b => Val b | None => Panic PIndex end.

(** Replace element [i] (no effect out of range; only used in range). *)
Fixpoint list_set (l : list byte) (i : nat) (v : byte) : list byte :=
  match l, i with
  | [], _ => []
  | _ :: t, O => v :: t
  | h :: t, S j => h :: list_set t j v
  end.

(** [l\[i\] = v] *)
Definition set (l : list byte) (i : nat) (v : byte) : out (list byte) :=
  if i <? length l then Val (list_set l i v) else Panic PIndex.

(** [&l\[a..b\]] *)
Definition slice (l : list byte) (a b : nat) : out (list byte) :=
  if (a <=? b) && (b <=? length l) then Val (firstn (b - a) (skipn a l))
  else Panic PIndex.

(** [&l\[a..\]] *)
Definition slice_from (l : list byte) (a : nat) : out (list byte) :=
  slice l a (length l).

(** [&l\[..b\]] *)
Definition slice_to (l : list byte) (b : nat) : out (list byte) := slice l 0 b.

(** Overwrite the elements of [l] starting at [a] by [v] (length preserving
    when [a + length v <= length l]). *)
Definition splice (l : list byte) (a : nat) (v : list byte) : list byte :=
  firstn a l ++ v ++ skipn (a + length v) l.

(** [f(&mut l\[a..b\])] for an [f] that also returns a value. *)
Definition with_slice {R} (l : list byte) (a b : nat)
    (f : list byte -> out (list byte * R)) : out (list byte * R) :=
  let* s := slice l a b in
  let* '(s', r) := f s in
  Val (splice l a s', r).

(** [dst.copy_from_slice(src)] *)
Definition copy_from_slice (dst src : list byte) : out (list byte) :=
  if length dst =? length src then Val src else Panic PCopyLen.

(** [l\[a..b\].copy_from_slice(src)] *)
Definition copy_into (l : list byte) (a b : nat) (src : list byte) : out (list byte) :=
  let* d := slice l a b in
  let* d' := copy_from_slice d src in
  Val (splice l a d').

(** [l.starts_with(p)] *)
Fixpoint starts_with (l p : list byte) : bool :=
  match p, l with
  | [], _ => true
  | x :: p', y :: l' => beq x y && starts_with l' p'
  | _ :: _, [] => false
  end.
