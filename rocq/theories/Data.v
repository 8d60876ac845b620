(** * Data: model of /repo/src/bus/data.rs *)
From Coq Require Import ZArith.
From Verif Require Import Base Error.

(** data.rs:6-15, the trait [Data], as the record of its items.  Users can
    implement it themselves, so the instruction functions are modelled for an
    arbitrary [data_impl].  [d_size] is [ENCODED_SIZE] (a [u16]). *)
Record data_impl (A : Type) := mkData {
  d_size : nat;
  d_encode : A -> list byte -> out (list byte * result unit buffer_too_small);
  d_decode : list byte -> out (result A invalid_message);
}.
Arguments d_size {A}.
Arguments d_encode {A}.
Arguments d_decode {A}.

(** [to_le_bytes] of a [w]-byte integer with bit pattern [n]. *)
Fixpoint to_le (w : nat) (n : N) : list byte :=
  match w with
  | O => []
  | S w' => n2b n :: to_le w' (n / 256)
  end.

(** [from_le_bytes], as a bit pattern. *)
Fixpoint from_le (l : list byte) : N :=
  match l with
  | [] => 0
  | b :: t => b2n b + 256 * from_le t
  end%N.

(** The bit pattern of a [w]-byte integer, and the (un)signed value of one. *)
Definition int_bits (w : nat) (v : Z) : N := Z.to_N (v mod 2 ^ (8 * Z.of_nat w)).
Definition int_value (signed : bool) (w : nat) (bits : N) : Z :=
  if signed && (2 ^ (8 * Z.of_nat w - 1) <=? Z.of_N bits)%Z
  then (Z.of_N bits - 2 ^ (8 * Z.of_nat w))%Z
  else Z.of_N bits.

(** data.rs:51-71 [impl_data_for_number!]; instantiated at data.rs:73-82 for
    [w] in 1, 2, 4, 8, 16 bytes, unsigned and signed. *)
Definition data_int (signed : bool) (w : nat) : data_impl Z := {|
  d_size := w;
  d_encode := fun v buffer =>
    match bts_check w (length buffer) with
    | Err e => Val (buffer, Err e)
    | Ok _ =>
        let* b := copy_into buffer 0 w (to_le w (int_bits w v)) in
        Val (b, Ok tt)
    end;
  d_decode := fun buffer =>
    match param_count_check (length buffer) w with
    | Err e => Val (Err e)
    | Ok _ =>
        let* b := slice buffer 0 w in
        Val (Ok (int_value signed w (from_le b)))
    end;
|}.

(** data.rs:90-92, the loop of the array [encode]. *)
Fixpoint array_encode_loop {A} (D : data_impl A) (i : nat) (values : list A) (buffer : list byte)
  : out (list byte * result unit buffer_too_small) :=
  match values with
  | [] => Val (buffer, Ok tt)
  | v :: rest =>
      let* '(b, r) := with_slice buffer (i * d_size D) (i * d_size D + d_size D) (d_encode D v) in
      match r with
      | Err e => Val (b, Err e)
      | Ok _ => array_encode_loop D (S i) rest b
      end
  end.

(** data.rs:113-161 [ArrayInitializer]: the elements pushed so far ([initialized]
    is their number).  [MaybeUninit] storage is not modelled; what is modelled is
    which elements get dropped when the initializer itself is dropped
    (data.rs:150-161): exactly the initialized ones. *)
Record array_init (A : Type) := mkInit { ai_elems : list A }.
Arguments mkInit {A}.
Arguments ai_elems {A}.

Definition ai_new {A} : array_init A := mkInit [].
Definition ai_push {A} (x : array_init A) (v : A) : array_init A := mkInit (ai_elems x ++ [v]).
(** data.rs:150-161 [Drop::drop] *)
Definition ai_drop {A} (x : array_init A) : list A := ai_elems x.
(** data.rs:142-147 [finish]: reads the array out of [self] with [ptr::read];
    [self] is then dropped at the end of the function (it is taken by value and
    not forgotten).  Returns the array and the elements dropped. *)
Definition ai_finish {A} (x : array_init A) : list A * list A := (ai_elems x, ai_drop x).

(** data.rs:96-110, array [decode], with the list of elements dropped by the
    time it returns.  [m] iterations remain. *)
Fixpoint array_decode_loop {A} (D : data_impl A) (m i : nat) (buffer : list byte) (o : array_init A)
  : out (result (list A) invalid_message * list A) :=
  match m with
  | O => let '(arr, dropped) := ai_finish o in Val (Ok arr, dropped)
  | S m' =>
      let* s := slice buffer (i * d_size D) (i * d_size D + d_size D) in
      let* r := d_decode D s in
      match r with
      | Err e => Val (Err e, ai_drop o)
      | Ok v => array_decode_loop D m' (S i) buffer (ai_push o v)
      end
  end.

Definition array_decode_drops {A} (D : data_impl A) (n : nat) (buffer : list byte) :=
  array_decode_loop D n 0 buffer ai_new.

(** data.rs:84-111 [impl Data for \[T; N\]].  A value is a list of length [n].
    [ENCODED_SIZE] is computed at compile time with [checked_mul().unwrap()], so
    a program with [d_size D * n > 65535] does not compile ([array_const_ok]). *)
Definition array_const_ok {A} (D : data_impl A) (n : nat) : Prop :=
  (N.of_nat n <= 65535)%N /\ (N.of_nat (d_size D) * N.of_nat n <= 65535)%N.

Definition data_array {A} (D : data_impl A) (n : nat) : data_impl (list A) := {|
  d_size := d_size D * n;
  d_encode := fun v buffer =>
    match bts_check (d_size D * n) (length buffer) with
    | Err e => Val (buffer, Err e)
    | Ok _ => array_encode_loop D 0 v buffer
    end;
  d_decode := fun buffer =>
    let* '(r, _) := array_decode_drops D n buffer in Val r;
|}.
