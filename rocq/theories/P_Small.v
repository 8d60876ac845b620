(** * Properties C47, C50: static buffers, the command line *)
From Verif Require Import Base Endian Error Checksum Bytestuff Packet Time Bus Data Client
  Instructions Device Api Spec CallSpec StreamSpec DeviceSpec InstructionSpec StaticBuffer Cli SmallSpec
  Demo DemoProofs SmallTheorems.

(** ** C47 *)
Theorem C47_at_most_once : forall s i j, sb_reach s ->
  nth_error (sb_evals s) i = Some SBGot -> nth_error (sb_evals s) j = Some SBGot -> i = j.
Proof. exact L_C47_at_most_once. Qed.
Print Assumptions C47_at_most_once.

Theorem C47_one_gets_it : forall s, sb_reach s -> sb_evals s <> [] -> Forall finished (sb_evals s) ->
  exists i, nth_error (sb_evals s) i = Some SBGot /\
    forall j, j < length (sb_evals s) -> j <> i -> nth_error (sb_evals s) j = Some SBPanicked.
Proof. exact L_C47_one_gets_it. Qed.
Print Assumptions C47_one_gets_it.

Theorem C47_panic_only_after_another : forall s i, sb_reach s -> nth_error (sb_evals s) i = Some SBPanicked ->
  exists j, j <> i /\ j < length (sb_evals s) /\
    (nth_error (sb_evals s) j = Some SBGot \/ nth_error (sb_evals s) j = Some (SBSwapped false)).
Proof. exact L_C47_panic_only_after_another. Qed.
Print Assumptions C47_panic_only_after_another.

Theorem C47_never_waits : forall s i e, sb_reach s -> nth_error (sb_evals s) i = Some e -> ~ finished e ->
  exists s', sb_step s s' /\ length (sb_evals s') = length (sb_evals s) /\
    (forall j, j <> i -> nth_error (sb_evals s') j = nth_error (sb_evals s) j) /\
    (e = SBStart -> exists b, nth_error (sb_evals s') i = Some (SBSwapped b)) /\
    (e <> SBStart -> exists e', nth_error (sb_evals s') i = Some e' /\ finished e').
Proof. exact L_C47_never_waits. Qed.
Print Assumptions C47_never_waits.

(** Two evaluations overlap: both are started, the second swaps first. *)
Example C47_example : sb_reach (mkSB true [SBPanicked; SBGot]).
Proof.
  eapply sb_reach_step; [|apply (sb_panic true [SBSwapped true; SBGot] 0); reflexivity].
  eapply sb_reach_step; [|apply (sb_take true [SBSwapped true; SBSwapped false] 1); reflexivity].
  eapply sb_reach_step; [|apply (sb_swap true [SBStart; SBSwapped false] 0); reflexivity].
  eapply sb_reach_step; [|apply (sb_swap false [SBStart; SBStart] 1); reflexivity].
  eapply sb_reach_step; [|apply (sb_begin false [SBStart])].
  eapply sb_reach_step; [|apply (sb_begin false [])]. apply sb_reach_init.
Qed.

(** ** C50 *)
Theorem C50_accepted : forall s m, motor_id_from_str s = Ok m <->
  (is_word_broadcast s /\ m = MBroadcast) \/
  (exists n, decimal s n /\ (n <= 255)%N /\ m = if (n =? 254)%N then MBroadcast else MId (n2b n)).
Proof. exact L_C50_accepted. Qed.
Print Assumptions C50_accepted.

Theorem C50_raw_id : forall s m, motor_id_from_str s = Ok m ->
  (m = MBroadcast <-> motor_id_raw m = xfe) /\
  (forall n, decimal s n -> b2n (motor_id_raw m) = n) /\ (is_word_broadcast s -> motor_id_raw m = xfe).
Proof. exact L_C50_raw_id. Qed.
Print Assumptions C50_raw_id.

Theorem C50_reads_reject_broadcast : forall fuel s c,
  (exists a, c = CRead8 MBroadcast a \/ c = CRead16 MBroadcast a \/ c = CRead32 MBroadcast a) \/
  (exists a n, c = CRead MBroadcast a n) ->
  cli_command fuel c s = (Val (Err tt), s).
Proof. exact L_C50_reads_reject_broadcast. Qed.
Print Assumptions C50_reads_reject_broadcast.

(** "12", "254", "BroadCast" and "256". *)
Example C50_example :
  motor_id_from_str [x31; x32] = Ok (MId x0c) /\
  motor_id_from_str [x32; x35; x34] = Ok MBroadcast /\
  motor_id_from_str [x42; x72; x6f; x61; x64; x43; x61; x73; x74] = Ok MBroadcast /\
  exists e, motor_id_from_str [x32; x35; x36] = Err e.
Proof. do 3 (split; [vm_compute; reflexivity|]). eexists. vm_compute. reflexivity. Qed.
