(** * Spec: what the protocol and the documentation promise

    These definitions do not use the model files (only [byte], [N] and lists);
    the property theorems compare the model against them.

    Source: DYNAMIXEL Protocol 2.0 (https://emanual.robotis.com/docs/en/dxl/protocol2/)
    as quoted by the doc comments of /repo. *)
From Verif Require Import Base.

(** ** CRC-16

    Polynomials over GF(2) are numbers: bit [i] is the coefficient of x^i;
    addition is [N.lxor]. *)

(** Carry-less product (polynomial product) of [a] and [p]. *)
Fixpoint clmul_pos (a : positive) (p : N) : N :=
  match a with
  | xH => p
  | xO a' => 2 * clmul_pos a' p
  | xI a' => N.lxor (2 * clmul_pos a' p) p
  end%N.
Definition clmul (a p : N) : N := match a with N0 => 0%N | Npos a' => clmul_pos a' p end.

(** x^16 + x^15 + x^2 + 1 *)
Definition crc_poly : N := 0x18005%N.

(** A byte string as a polynomial, most significant bit of the first byte first. *)
Definition poly_of (data : list byte) : N :=
  fold_left (fun acc b => acc * 256 + b2n b)%N data 0%N.

(** [c] is the CRC-16 of [data] started from register value [initial]: the
    remainder of data(x) * x^16 (with [initial] added to the leading 16 bits)
    divided by [crc_poly]. *)
Definition is_crc16 (initial : N) (data : list byte) (c : N) : Prop :=
  (c < 2 ^ 16)%N /\
  exists q, N.lxor (initial * 2 ^ (8 * N.of_nat (length data))) (poly_of data * 2 ^ 16)
            = N.lxor (clmul q crc_poly) c.

(** Bits of a byte string in transmission order of the CRC (most significant
    bit of each byte first). *)
Definition bits_of_byte (b : byte) : list bool :=
  map (fun i => N.testbit (b2n b) i) [7; 6; 5; 4; 3; 2; 1; 0]%N.
Definition bits_of (l : list byte) : list bool := flat_map bits_of_byte l.

(** The positions where two equally long messages differ. *)
Definition diff_bits (a b : list byte) : list bool :=
  map (fun p => xorb (fst p) (snd p)) (combine (bits_of a) (bits_of b)).

Definition weight (l : list bool) : nat := length (filter (fun b => b) l).

(** All differing bits lie in a window of [w] consecutive positions (and there
    is at least one). *)
Definition burst (w : nat) (d : list bool) : Prop :=
  weight d <> 0 /\
  exists i, forall j, nth j d false = true -> i <= j < i + w.

(** ** Byte stuffing *)

(** Insert an FD after every FF FF FD. *)
Fixpoint pstuff (l : list byte) : list byte :=
  match l with
  | [] => []
  | a :: t =>
      match t with
      | b :: c :: t' =>
          if beq a xff && beq b xff && beq c xfd then a :: b :: c :: xfd :: pstuff t'
          else a :: pstuff t
      | _ => a :: pstuff t
      end
  end.

(** [p] occurs in [l]. *)
Definition contains (l p : list byte) : Prop := exists a b, l = a ++ p ++ b.

(** Every maximal run of [n] FF bytes that is directly followed by FD has
    [n < 2] or [n mod 3 = 2].  [run]: FF bytes seen directly before [l]. *)
Fixpoint ff_runs_ok_from (run : nat) (l : list byte) : Prop :=
  match l with
  | [] => True
  | b :: t =>
      if beq b xff then ff_runs_ok_from (S run) t
      else if beq b xfd then (run < 2 \/ run mod 3 = 2) /\ ff_runs_ok_from 0 t
      else ff_runs_ok_from 0 t
  end.
Definition ff_runs_ok (l : list byte) : Prop := ff_runs_ok_from 0 l.

(** Weaker: a run of the other kind may occur, but only before the first run
    with [n mod 3 = 2]. *)
Fixpoint misses_first_from (run : nat) (l : list byte) : Prop :=
  match l with
  | [] => True
  | b :: t =>
      if beq b xff then misses_first_from (S run) t
      else if beq b xfd && (run mod 3 =? 2) then ff_runs_ok_from 0 t
      else misses_first_from 0 t
  end.
Definition misses_first (l : list byte) : Prop := misses_first_from 0 l.

(** The number of FF FF FD in [l], and the number of those the library notices
    (an FD after a run of 2, 5, 8, ... FF). *)
Fixpoint patterns_from (run : nat) (l : list byte) : nat :=
  match l with
  | [] => 0
  | b :: t =>
      if beq b xff then patterns_from (S run) t
      else (if beq b xfd && (2 <=? run) then 1 else 0) + patterns_from 0 t
  end.
Fixpoint noticed_from (run : nat) (l : list byte) : nat :=
  match l with
  | [] => 0
  | b :: t =>
      if beq b xff then noticed_from (S run) t
      else (if beq b xfd && (run mod 3 =? 2) then 1 else 0) + noticed_from 0 t
  end.

(** The weakest condition under which data gets through.  The sender inserts as
    many FD as it notices patterns, from the end; the first [bare] patterns go
    without.  For a pattern with an inserted FD the receiver must count a run of
    2, 5, 8, ... FF; a bare pattern for which it does must not be followed by
    another FD, and the byte after it does not count for the next run.  [run]:
    FF bytes directly before [l], [seen]: those that the receiver counts. *)
Fixpoint comes_back_from (bare run seen : nat) (l : list byte) : Prop :=
  match l with
  | [] => True
  | b :: t =>
      if beq b xff then comes_back_from bare (S run) (S seen) t
      else if beq b xfd && (2 <=? run) then
        match bare with
        | O => seen mod 3 = 2 /\ comes_back_from 0 0 0 t
        | S bare' =>
            if seen mod 3 =? 2 then
              match t with
              | [] => True
              | c :: t' => c <> xfd /\ comes_back_from bare' (if beq c xff then 1 else 0) 0 t'
              end
            else comes_back_from bare' 0 0 t
        end
      else comes_back_from bare 0 0 t
  end.
Definition comes_back (l : list byte) : Prop :=
  comes_back_from (patterns_from 0 l - noticed_from 0 l) 0 0 l.

(** ** Frames *)

Definition le16 (n : N) : list byte := [n2b n; n2b (n / 256)].

Definition header : list byte := [xff; xff; xfd; x00].

(** A packet on the wire, given what follows the length field except the CRC. *)
Definition wire_of_body (id : byte) (stuffed_body : list byte) (crc : N) : list byte :=
  header ++ [id] ++ le16 (N.of_nat (length stuffed_body + 2)) ++ stuffed_body ++ le16 crc.

(** [w] is the packet with the given id, instruction byte and parameters, as
    the protocol prescribes it. *)
Definition is_frame (id : byte) (body : list byte) (w : list byte) : Prop :=
  exists crc,
    w = wire_of_body id (pstuff body) crc /\
    (N.of_nat (length (pstuff body) + 2) < 2 ^ 16)%N /\
    is_crc16 0 (header ++ [id] ++ le16 (N.of_nat (length (pstuff body) + 2)) ++ pstuff body) crc.
