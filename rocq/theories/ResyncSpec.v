(** * ResyncSpec: packets after arbitrary bytes *)
From Coq Require Import ZArith.
From Verif Require Import Base Endian Error Packet Bus Spec StreamSpec.

(** [w] is the packet [x] (id and body) of a conforming peer, in a form the library
    can receive with a read buffer of [cap] bytes, and has no second header in it. *)
Definition plain_packet (cap : nat) (x : byte * list byte) (w : list byte) : Prop :=
  is_frame (fst x) (snd x) w /\ snd x <> [] /\ ff_runs_ok (snd x) /\ length w <= cap /\
  ~ contains (tl w) header.

(** The message on which reading panics (C16) is not in [line]. *)
Definition no_empty_message (line : list byte) : Prop :=
  forall id w, framed id [] w -> ~ contains line w.

(** A status packet of motor 53 with the parameters 4A FF FF (C67 proves that it
    is one); together with the CRC (FD 00) it ends in a header. *)
Definition trap : list byte := [xff; xff; xfd; x00; x35; x07; x00; x55; x00; x4a; xff; xff; xfd; x00].
