(** * Property C80: serial ports that report a wrong count *)
From Coq Require Import ZArith.
From Verif Require Import Base Endian Error Packet Time Bus Data Client Instructions Device
  Spec Api CallSpec TwinSpec SurviveSpec FaultyPort FaultySpec Demo DemoProofs FaultyTheorems.

(** ** C80: the bookkeeping of every client and device is in order, and every call keeps it so. *)
@C80_orderly

(** Reading through a port that reports whatever counts it likes: either the bookkeeping stays in order, or the count
    went beyond the buffer and the call panics; nothing but the bytes said to be received is lost then. *)
@C80_read

(** As long as no count goes beyond the buffer, the call does what it does with an honest port that delivers as many
    bytes, namely those that are in the buffer. *)
@C80_as_delivered

(** With honest counts, these are the bytes the port filled in. *)
@C80_honest

Example C80_example : exists s', orderly (fresh true [] 64 64) /\
  Forall (fun f => ~ absurd_count 64 f) two_pieces /\ ~ Forall honest two_pieces /\
  f_read_packet two_pieces (fresh true [] 64 64) =
    (Val (Ok (mkPacket (header ++ [x01; x05; x00; x55; x00; x2a]))), s', []) /\ ~ overrun s'.
Proof. exact L_C80_example. Qed.

(** After a count beyond the buffer, every call that reads panics at once, without asking the port. *)
@C80_overrun

(** The next call that sends puts everything in order again: it does what it does on a client that has received
    nothing.  If it does not get as far as sending, it returns the same and has not used the port. *)
@C80_recovers

Example C80_overrun_example : exists s1 s2,
  f_read_packet [FdData ok_2a 200] (fresh true [RdData (frame x01 [STATUS; x00; x24; x04; x2a])] 64 64) = (Panic PIndex, s1, []) /\
  overrun s1 /\ orderly (emptied s1) /\ read_packet_deadline now s1 = (Panic PIndex, s1) /\
  ping x01 s1 = (Val (Ok (mkResponse x01 false (mkPing 1060 x2a))), s2).
Proof. exact L_C80_overrun_example. Qed.
