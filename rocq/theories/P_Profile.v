(** * Property C59: debug and release builds *)
From Coq Require Import ZArith.
From Verif Require Import Base Endian Error Checksum Bytestuff Packet Time Bus Data Client
  Instructions Device Api Spec CallSpec StreamSpec InstructionSpec TwinSpec ProfileSpec Demo DemoProofs ProfileTheorems.

(** ** C59.  Refuted: a packet that is too long for the length field panics in a debug
    build and is sent (with a wrong length field) by a release build. *)
Theorem C59_profiles_agree_refuted : ~ (forall A (m : M A) s o s', reach s -> api m -> b_dbg s = true ->
  (b_baud s < 2 ^ 32)%N -> m s = (o, s') -> m (release s) = (o, release s')).
Proof. exact L_C59_profiles_agree_refuted. Qed.
Print Assumptions C59_profiles_agree_refuted.

(** With a write buffer of at most 65540 bytes a call does the same in both. *)
Theorem C59_profiles_agree_partial : forall A (m : M A) s o s', reach s -> api m -> b_dbg s = true -> moderate s ->
  m s = (o, s') -> m (release s) = (o, release s').
Proof. exact L_C59_profiles_agree_partial. Qed.
Print Assumptions C59_profiles_agree_partial.

(** With larger ones, the only exception is that the debug build panics because of an
    arithmetic overflow. *)
Theorem C59_only_overflow_differs : forall A (m : M A) s o s', reach s -> api m -> b_dbg s = true ->
  m s = (o, s') -> o = Panic POverflow \/ m (release s) = (o, release s').
Proof. exact L_C59_only_overflow_differs. Qed.
Print Assumptions C59_only_overflow_differs.

Theorem C59_programs : forall R (p : program R) s o evs s', reach s -> b_dbg s = true -> runs p s o evs s' ->
  o = Panic POverflow \/ runs p (release s) o evs (release s').
Proof. exact L_C59_programs. Qed.
Print Assumptions C59_programs.

Example C59_example : exists s' t',
  let s := fresh true [RdData [x00; xff]; RdData (frame x05 [STATUS; x00; x2a; x00])] 32 32 in
  reach s /\ api (read_bytes x05 64 2) /\ b_dbg s = true /\ moderate s /\
  read_bytes x05 64 2 s = (Val (Ok (mkResponse x05 false [x2a; x00])), s') /\
  read_bytes x05 64 2 (release s) = (Val (Ok (mkResponse x05 false [x2a; x00])), t') /\ t' = release s'.
Proof.
  do 2 eexists. cbv zeta. split; [apply fresh_reach; lia|]. split; [apply api_read_bytes|]. split; [reflexivity|].
  split; [split; vm_compute; [reflexivity|discriminate]|]. split; [vm_compute; reflexivity|].
  split; [vm_compute; reflexivity|]. vm_compute. reflexivity.
Qed.

Example C59_program_example : exists evs s',
  let s := fresh true [RdData (frame x05 [STATUS; x00; x2a; x00])] 32 32 in
  let p := Call (client_set_baud_rate 9600) (st_set_baud_rate 9600)
             (fun _ => Call (read_bytes x05 64 2) (st_read_bytes x05 64 2) (fun r => Done r)) in
  reach s /\ b_dbg s = true /\ runs p s (Val (Ok (mkResponse x05 false [x2a; x00]))) evs s' /\ length evs = 5.
Proof.
  do 2 eexists. cbv zeta. split; [apply fresh_reach; lia|]. split; [reflexivity|]. split.
  - eapply runs_call; [vm_compute; reflexivity|vm_compute; reflexivity|].
    eapply runs_call; [vm_compute; reflexivity|vm_compute; reflexivity|apply runs_done].
  - reflexivity.
Qed.
