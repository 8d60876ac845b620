(** * ProfileSpec: debug and release builds *)
From Verif Require Import Base Endian Error Packet Time Bus Data Client Instructions Device Api CallSpec TwinSpec.

(** The same bus in a release build: no debug assertions, no overflow checks. *)
Definition release (s : bus) : bus :=
  mkBus (b_port s) (b_baud s) (b_rbuf s) (b_rlen s) (b_used s) (b_wbuf s) false.

(** No packet can exceed what the length field can express, and the baud rate is
    a [u32]. *)
Definition moderate (s : bus) : Prop :=
  (b_baud s < 2 ^ 32)%N /\ (N.of_nat (length (b_wbuf s)) <= 65540)%N.
