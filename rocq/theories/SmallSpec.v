(** * SmallSpec: static buffers and command line arguments, independently of the code *)
From Verif Require Import Base StaticBuffer.

(** ** Static buffers *)

(** The evaluation has ended. *)
Definition finished (e : sb_pc) : Prop := e = SBGot \/ e = SBPanicked.

(** ** Motor ids on the command line *)

(** The value of a string of decimal digits. *)
Inductive digits_value : list byte -> N -> Prop :=
| dv_one : forall c d, (d < 10)%N -> b2n c = (48 + d)%N -> digits_value [c] d
| dv_more : forall l n c d, digits_value l n -> (d < 10)%N -> b2n c = (48 + d)%N ->
    digits_value (l ++ [c]) (10 * n + d).

(** A decimal number, perhaps with a plus sign and leading zeros. *)
Definition decimal (s : list byte) (n : N) : Prop :=
  digits_value s n \/ exists t, s = x2b :: t /\ digits_value t n.

(** The two letters are the same, except perhaps for the case. *)
Definition same_letter (c lower : byte) : Prop := c = lower \/ (b2n c + 32 = b2n lower)%N.

(** The word "broadcast" in any mixture of cases. *)
Definition is_word_broadcast (s : list byte) : Prop :=
  Forall2 same_letter s [x62; x72; x6f; x61; x64; x63; x61; x73; x74].
