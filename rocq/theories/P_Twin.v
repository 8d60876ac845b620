(** * Properties C11 (second half), C51: leftovers have no effect *)
From Coq Require Import ZArith.
From Verif Require Import Base Endian Error Checksum Bytestuff Packet Time Bus Data Client
  Instructions Device Api Spec CallSpec StreamSpec InstructionSpec DataSpec TwinSpec Demo DemoProofs TwinTheorems.

(** ** C11: whatever program runs after a rejected write behaves as without it. *)
Theorem C11_as_if_not_called : forall s id i n enc e s', reach s -> encoder_ok enc ->
  write_instruction id i n enc s = (Val (Err (WBufferTooSmall e)), s') ->
  forall R (p : program R) o evs s1, runs p s o evs s1 ->
  exists s2, runs p s' o evs s2 /\ twins s1 s2.
Proof. exact L_C11_as_if_not_called. Qed.
Print Assumptions C11_as_if_not_called.

Theorem C11_status_as_if_not_called : forall s id error n enc e s', reach s -> encoder_ok enc ->
  write_status id error n enc s = (Val (Err (WBufferTooSmall e)), s') ->
  forall R (p : program R) o evs s1, runs p s o evs s1 ->
  exists s2, runs p s' o evs s2 /\ twins s1 s2.
Proof. exact L_C11_status_as_if_not_called. Qed.
Print Assumptions C11_status_as_if_not_called.

(** A write is rejected, then a motor answers a read. *)
Example C11_program_example : exists s' evs s1,
  let s := fresh true [RdData (frame x01 [STATUS; x00; x2a])] 32 16 in
  let p := Call (read_bytes x01 64 1) (st_read_bytes _ _ _) (fun r => Done r) in
  reach s /\ encoder_ok (fill (repeat x07 9)) /\
  write_instruction x01 WRITE 9 (fill (repeat x07 9)) s = (Val (Err (WBufferTooSmall (mkBTS 19 16))), s') /\
  runs p s (Val (Ok (mkResponse x01 false [x2a]))) evs s1 /\ length evs = 4.
Proof.
  do 3 eexists. cbv zeta. split; [apply fresh_reach; lia|]. split; [apply fill_writes|].
  split; [vm_compute; reflexivity|]. split.
  - eapply runs_call; [vm_compute; reflexivity|vm_compute; reflexivity|apply runs_done].
  - reflexivity.
Qed.

(** ** C51.  Refuted: [reg_write] of an empty array sends a byte that was in the buffer
    before (the parameter count is always one byte of data). *)
Theorem C51_leftovers_refuted : ~ (forall A (D : data_impl A) V R id a v bytes s t, crate_type D V R -> R v bytes ->
  is_u16 a -> reach s -> reach t -> twins s t ->
  exists evs, calls s (snd (reg_write D id a v s)) evs /\ calls t (snd (reg_write D id a v t)) evs).
Proof. exact L_C51_leftovers_refuted. Qed.
Print Assumptions C51_leftovers_refuted.

(** True for all other calls, also with closures and [Data] implementations of the user
    that do not look at the old contents themselves. *)
Theorem C51_history_has_no_effect : forall R (p : program R) s t o evs s', reach s -> reach t -> twins s t ->
  runs p s o evs s' -> exists t', runs p t o evs t' /\ twins s' t'.
Proof. exact L_C51_history_has_no_effect. Qed.
Print Assumptions C51_history_has_no_effect.

Theorem C51_every_program_runs : forall R (p : program R) s, reach s -> exists o evs s', runs p s o evs s'.
Proof. exact L_C51_every_program_runs. Qed.
Print Assumptions C51_every_program_runs.

(** The types of the crate are such implementations. *)
Theorem C51_crate_types : forall A (D : data_impl A) V R v bytes n, crate_type D V R -> R v bytes -> n <= d_size D ->
  ignores_old_bytes n (d_encode D v).
Proof. exact L_C51_crate_types. Qed.
Print Assumptions C51_crate_types.

Example C51_example : exists o evs s',
  let s := stale x11 in
  let t := stale x22 in
  let p := Call (reg_write_bytes xfe 64 [x05]) (st_reg_write_bytes _ _ _) (fun _ =>
           Call broadcast_action st_broadcast_action (fun r => Done r)) in
  s <> t /\ reach s /\ reach t /\ twins s t /\ runs p s o evs s' /\ o = Val (Ok tt) /\ length evs = 4.
Proof.
  do 3 eexists. cbv zeta. split; [discriminate|]. split; [apply stale_reach|]. split; [apply stale_reach|].
  split; [constructor; reflexivity|]. split.
  - eapply runs_call; [vm_compute; reflexivity|vm_compute; reflexivity|].
    eapply runs_call; [vm_compute; reflexivity|vm_compute; reflexivity|apply runs_done].
  - split; reflexivity.
Qed.
