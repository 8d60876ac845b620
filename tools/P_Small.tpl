(** * Properties C47, C50: static buffers, the command line *)
From Verif Require Import Base Endian Error Checksum Bytestuff Packet Time Bus Data Client
  Instructions Device Api Spec CallSpec StreamSpec DeviceSpec InstructionSpec StaticBuffer Cli SmallSpec
  Demo DemoProofs SmallTheorems.

(** ** C47 *)
@C47_at_most_once

@C47_one_gets_it

@C47_panic_only_after_another

@C47_never_waits

(** Two evaluations overlap: both are started, the second swaps first. *)
Example C47_example : sb_reach (mkSB true [SBPanicked; SBGot]).
Proof.
  eapply sb_reach_step; [|apply (sb_panic true [SBSwapped true; SBGot] 0); reflexivity].
  eapply sb_reach_step; [|apply (sb_take true [SBSwapped true; SBSwapped false] 1); reflexivity].
  eapply sb_reach_step; [|apply (sb_swap true [SBStart; SBSwapped false] 0); reflexivity].
  eapply sb_reach_step; [|apply (sb_swap false [SBStart; SBStart] 1); reflexivity].
  eapply sb_reach_step; [|apply (sb_begin false [SBStart])].
  eapply sb_reach_step; [|apply (sb_begin false [])]. apply sb_reach_init.
Qed.

(** ** C50 *)
@C50_accepted

@C50_raw_id

@C50_reads_reject_broadcast

(** "12", "254", "BroadCast" and "256". *)
Example C50_example :
  motor_id_from_str [x31; x32] = Ok (MId x0c) /\
  motor_id_from_str [x32; x35; x34] = Ok MBroadcast /\
  motor_id_from_str [x42; x72; x6f; x61; x64; x43; x61; x73; x74] = Ok MBroadcast /\
  exists e, motor_id_from_str [x32; x35; x36] = Err e.
Proof. do 3 (split; [vm_compute; reflexivity|]). eexists. vm_compute. reflexivity. Qed.
