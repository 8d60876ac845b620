(** * ArrayMemory: the storage of [ArrayInitializer] in /repo/src/bus/data.rs

    Data.v models which elements an array [decode] creates and drops.  Here is the same code with its memory: slots that
    may not be initialized, accessed by unsafe code.  What the compiler may assume never to happen is the value [MUB]. *)
From Coq Require Import ZArith.
From Verif Require Import Base Error Data.

Inductive ub :=
| UOutOfBounds      (* [get_unchecked_mut] past the end *)
| UUninitialized.   (* reading or dropping a slot that was never written *)

(** The result of code that uses unsafe operations. *)
Inductive mem (X : Type) :=
| MVal (x : X)
| MPanic (p : panic_reason)
| MUB (u : ub).
Arguments MVal {X} x.
Arguments MPanic {X} p.
Arguments MUB {X} u.

Definition mbind {X Y} (m : mem X) (k : X -> mem Y) : mem Y :=
  match m with MVal x => k x | MPanic p => MPanic p | MUB u => MUB u end.

(** data.rs:113-116 [ArrayInitializer]; a slot is [None] while it is uninitialized. *)
Record initializer (A : Type) := mkAI { in_data : list (option A); in_count : nat }.
Arguments mkAI {A}.
Arguments in_data {A}.
Arguments in_count {A}.

(** data.rs:119-124 [new] *)
Definition init_new {A} (n : nat) : initializer A := mkAI (repeat None n) 0.

Fixpoint slot_write {A} (l : list (option A)) (i : nat) (v : A) : list (option A) :=
  match l, i with
  | [], _ => []
  | _ :: t, O => Some v :: t
  | h :: t, S j => h :: slot_write t j v
  end.

(** data.rs:130-136 [push].  [MaybeUninit::write] does not drop what was there. *)
Definition init_push {A} (dbg : bool) (n : nat) (x : initializer A) (v : A) : mem (initializer A) :=
  if dbg && negb (in_count x <? n) then MPanic PDebugAssert
  else match nth_error (in_data x) (in_count x) with
       | None => MUB UOutOfBounds
       | Some _ => MVal (mkAI (slot_write (in_data x) (in_count x) v) (S (in_count x)))
       end.

(** Reading (or dropping) slots as values. *)
Fixpoint assume_init {A} (l : list (option A)) : mem (list A) :=
  match l with
  | [] => MVal []
  | None :: _ => MUB UUninitialized
  | Some v :: t => mbind (assume_init t) (fun r => MVal (v :: r))
  end.

(** data.rs:150-161 [Drop::drop]: the values dropped. *)
Definition init_drop {A} (x : initializer A) : mem (list A) :=
  if in_count x <=? length (in_data x) then assume_init (firstn (in_count x) (in_data x)) else MPanic PIndex.

(** data.rs:142-147 [finish]: the array, and what the drop of [self] at the end of the function drops. *)
Definition init_finish {A} (dbg : bool) (n : nat) (x : initializer A) : mem (list A * list A) :=
  if dbg && negb (in_count x =? n) then MPanic PDebugAssert
  else mbind (assume_init (in_data x)) (fun arr => mbind (init_drop x) (fun dropped => MVal (arr, dropped))).

(** The rest of a function that owns [x] does not run: it returns early with [o], or a panic unwinds it. *)
Definition leave {A R} (x : initializer A) (o : out R) : mem (out R * list A) :=
  mbind (init_drop x) (fun dropped => MVal (o, dropped)).

(** data.rs:96-110 [decode], with what was dropped when it has returned or panicked. *)
Fixpoint mem_decode_loop {A} (D : data_impl A) (dbg : bool) (n m i : nat) (buffer : list byte) (x : initializer A)
  : mem (out (result (list A) invalid_message) * list A) :=
  match m with
  | O => mbind (init_finish dbg n x) (fun r => MVal (Val (Ok (fst r)), snd r))
  | S m' =>
      match slice buffer (i * d_size D) (i * d_size D + d_size D) with
      | Panic p => leave x (Panic p)
      | Blocked => leave x Blocked
      | Val s =>
          match d_decode D s with
          | Panic p => leave x (Panic p)
          | Blocked => leave x Blocked
          | Val (Err e) => leave x (Val (Err e))
          | Val (Ok v) => mbind (init_push dbg n x v) (mem_decode_loop D dbg n m' (S i) buffer)
          end
      end
  end.

Definition mem_decode {A} (D : data_impl A) (dbg : bool) (n : nat) (buffer : list byte) :=
  mem_decode_loop D dbg n n 0 buffer (init_new n).
