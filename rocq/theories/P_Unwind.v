(** * Properties C52 and C70: dropping a scan, and dropping a scan or typed sync read while a panic unwinds the stack *)
From Coq Require Import ZArith.
From Verif Require Import Base Endian Error Packet Time Bus Data Client Instructions Device
  Spec Api CallSpec StreamSpec DeviceSpec DataSpec InstructionSpec TwinSpec SurviveSpec PanicSpec Demo DemoProofs
  SurviveTheorems PanicTheorems UnwindTheorems.

(** ** C52: what is left of it.  Dropping a scan, finished or not, only listens: nothing is sent or discarded, and the baud
    rate is not changed. *)
Theorem C52_drop_only_listens_partial : forall n s o s', reach s -> scan_drop n s = (o, s') ->
  exists evs, calls s s' evs /\ Forall only_reads evs.
Proof. exact L_C52_drop_only_listens_partial. Qed.
Print Assumptions C52_drop_only_listens_partial.

Example C52_drop_example : let s := fresh true [RdErr (IoTimeout 1)] 32 32 in
  reach s /\ exists s', scan_drop 1 s = (Val true, s').
Proof. cbv zeta. split; [apply fresh_reach; lia|]. eexists. vm_compute. reflexivity. Qed.

(** ** C70: a scan *)
Theorem C70_unwinding_scan_partial : forall s k s1 n, survives s -> b_baud s <> 0%N -> (b_baud s < 2 ^ 32)%N ->
  scan_next s = (Panic k, s1) -> calm (pending s1) -> forall k' s2, scan_drop n s1 <> (Panic k', s2).
Proof. exact L_C70_unwinding_scan_partial. Qed.
Print Assumptions C70_unwinding_scan_partial.

(** A message with nothing in it, an answer to the ping, a timeout. *)
Example C70_unwinding_scan_example : exists k s1 s2,
  let s := fresh true [RdData (void_message ++ frame x01 [STATUS; x00; x2a]); RdErr (IoTimeout 1)] 64 64 in
  survives s /\ b_baud s = 57600%N /\ scan_next s = (Panic k, s1) /\ calm (pending s1) /\ scan_drop 2 s1 = (Val true, s2).
Proof. exact scan_unwinds. Qed.

(** A typed sync read decodes what it drops (C73): refuted for [Data] implementations of the user that can panic.  Two
    answers that [decode] does not like abort the process. *)
Theorem C70_unwinding_typed_refuted : ~ (forall A (D : data_impl A) it s k s1, survives s -> b_baud s <> 0%N ->
  (b_baud s < 2 ^ 32)%N -> is_u16 (N.of_nat (d_size D)) ->
  sr_next D it s = (Panic k, s1) -> calm (pending s1) ->
  forall k' s2, sr_drop D (snd (sr_pop it)) s1 <> (Panic k', s2)).
Proof. exact L_C70_unwinding_typed_refuted. Qed.
Print Assumptions C70_unwinding_typed_refuted.

Theorem C70_unwinding_typed_partial : forall A (D : data_impl A) it s k s1, survives s -> b_baud s <> 0%N ->
  (b_baud s < 2 ^ 32)%N -> is_u16 (N.of_nat (d_size D)) -> safe_decode D ->
  sr_next D it s = (Panic k, s1) -> calm (pending s1) ->
  forall k' s2, sr_drop D (snd (sr_pop it)) s1 <> (Panic k', s2).
Proof. exact L_C70_unwinding_typed_partial. Qed.
Print Assumptions C70_unwinding_typed_partial.

Example C70_unwinding_typed_example : exists k s1 s2,
  survives void_then_answer /\ b_baud void_then_answer = 57600%N /\ safe_decode (data_int false 1) /\
  sr_next (data_int false 1) (mkSR [x02; x01] 0) void_then_answer = (Panic k, s1) /\ calm (pending s1) /\
  sr_drop (data_int false 1) (mkSR [x02; x01] 1) s1 = (Val tt, s2).
Proof. exact typed_unwinds. Qed.
