(** * Property C60: larger buffers *)
From Coq Require Import ZArith.
From Verif Require Import Base Endian Error Checksum Bytestuff Packet Time Bus Data Client
  Instructions Device Api Spec CallSpec StreamSpec InstructionSpec TwinSpec RoomSpec Demo DemoProofs ScanTheorems RoomTheorems.

(** ** C60.  A call that does not complain about a buffer does the same with larger
    buffers: same result, same calls on the port except for the division into
    reads, same bytes left to process. *)
@C60_larger_buffers_only_help

(** The calls that only listen need only the same bytes left to process, however they are
    divided between read buffer and port (so this applies again and again). *)
@C60_listening

(** With a read buffer of 65542 bytes they never complain. *)
@C60_enough_room

(** An 11 byte read buffer in which a 13 byte answer does not fit; with 13 bytes
    it does, and larger ones do not change anything. *)
Example C60_example :
  let line := [RdData [x00; xff]; RdData (frame x05 [STATUS; x00; x2a; x00])] in
  let s := fresh true line 13 14 in
  let t := fresh true [RdData (x00 :: xff :: frame x05 [STATUS; x00; x2a; x00])] 100 200 in
  attempt (read_bytes x05 64 2) (fails short_t) /\ reach s /\ reach t /\ roomier s t /\ incoming s = incoming t /\
  fst (read_bytes x05 64 2 s) = Val (Ok (mkResponse x05 false [x2a; x00])) /\
  fst (read_bytes x05 64 2 t) = Val (Ok (mkResponse x05 false [x2a; x00])) /\
  fst (read_bytes x05 64 2 (fresh true line 11 14)) = Val (Err (TReadError (RBufferFull (mkBTS 13 11)))).
Proof.
  cbv zeta. split; [apply at_read_bytes|]. split; [apply fresh_reach; lia|]. split; [apply fresh_reach; lia|].
  split; [constructor; vm_compute; try reflexivity; lia|]. split; [reflexivity|].
  repeat split; vm_compute; reflexivity.
Qed.

Example C60_listening_example :
  let s := fresh true [RdData (frame x05 [STATUS; x00; x2a; x00])] 13 14 in
  let t := fresh true [RdData (frame x05 [STATUS; x00; x2a; x00])] 100 200 in
  listening (srb_next (mkSRB 2 [x05] 0)) (yields_it short_r) /\ reach s /\ reach t /\ roomier s t /\
  fst (srb_next (mkSRB 2 [x05] 0) s) = Val (Some (Ok (mkResponse x05 false [x2a; x00])), mkSRB 2 [x05] 1).
Proof.
  cbv zeta. split; [apply ls_srb_next|]. split; [apply fresh_reach; lia|]. split; [apply fresh_reach; lia|].
  split; [constructor; vm_compute; try reflexivity; lia|]. vm_compute. reflexivity.
Qed.

Example C60_enough_room_example : exists s s', listening scan_next (yields short_r) /\ reach s /\
  (65542 <= N.of_nat (length (b_rbuf s)))%N /\ scan_next s = (Val None, s').
Proof.
  remember (N.to_nat 65542) as n eqn:En. assert (Hn : N.of_nat n = 65542%N) by (rewrite En; apply N2Nat.id). clear En.
  pose proof (fresh_reach true [RdErr (IoTimeout 0)] n 14 ltac:(lia)) as R.
  assert (L : length (b_rbuf (fresh true [RdErr (IoTimeout 0)] n 14)) = n) by (cbn [b_rbuf fresh]; apply repeat_length).
  destruct (scan_timeout_step (fresh true [RdErr (IoTimeout 0)] n 14) [] (IoTimeout 0) [] R) as [s' [g' [c [E _]]]];
    try reflexivity; try discriminate; [lia|intros [x [y H]]; destruct x; discriminate|].
  exists (fresh true [RdErr (IoTimeout 0)] n 14), s'. split; [apply ls_scan_next|]. split; [exact R|].
  split; [rewrite L; lia|exact E].
Qed.
