(** * CrcSpec: a packet as a code word *)
From Verif Require Import Base Spec.

(** The bytes of a packet with those of the CRC, which travel least significant byte
    first, in the order of the division. *)
Definition in_crc_order (w : list byte) : list byte :=
  firstn (length w - 2) w ++ rev (skipn (length w - 2) w).
