(** * Property C69: a remote control for motors that follow the protocol *)
From Coq Require Import ZArith Permutation.
From Verif Require Import Base Endian Error Packet Time Bus Data Client Instructions Device
  Spec Api CallSpec StreamSpec DeviceSpec InstructionSpec RemoteSpec TurnSpec ConformSpec Demo DemoProofs ConformTheorems.

(** The bytes on the line mean at most one thing to motors that follow the protocol. *)
@C69_unambiguous

Example C69_unambiguous_example :
  is_frame xfe (x83 :: le16 64 ++ le16 1 ++ [x01; xff; x02; x01]) (frame xfe (x83 :: le16 64 ++ le16 1 ++ [x01; xff; x02; x01])) /\
  spells xfe (x83 :: le16 64 ++ le16 1 ++ [x01; xff; x02; x01]) (ToEach [(x01, CmdWrite 64 [xff]); (x02, CmdWrite 64 [x01])]).
Proof.
  split; [apply frame_ok; reflexivity|]. apply (sp_sync_write 64 1 [mkSync x01 [xff]; mkSync x02 [x01]]);
    [reflexivity|reflexivity|repeat constructor|]. repeat constructor; cbn; intuition discriminate.
Qed.

(** ** C69.  Refuted: the stuffing error makes a motor store something else, and the client is told that all is well. *)
@C69_remote_control_refuted

Example C69_corrupted_example : exists c', controls notebook (KWrite x01 64 [xff; xff; xff; xfd; xfd]) (fresh true [] 64 64)
  [mkServo x01 []] (Val (Told (RepDone (Ok (mkResponse x01 false tt))))) c' [mkServo x01 [xff; xff; xff; xfd]].
Proof. exact corrupted_write. Qed.

(** Clearing errors reaches no motor at all. *)
@C69_clear_error_reaches_nobody

(** All other calls, if the message has no ill-stuffed run of FF bytes: the motors do what was meant,
    and the user is told what they answered. *)
@C69_remote_control_partial

(** Such an exchange exists for whatever the motors do, if the client can receive their answers. *)
@C69_possible

(** Motor 2 reports an error, motor 1 answers with an alert, motor 3 does not answer, motor 4 is not there. *)
Example C69_example : exists c', controls moody (KSyncRead [x02; x01; x03; x04] 132 2) (fresh true [] 64 64) three
  (Val (Turns (Ok [Some (Err (RMotorError x04)); Some (Ok (mkResponse x01 true [x2a; x07]));
    Some (Err (RIo (IoTimeout 7))); Some (Err (RIo (IoTimeout 8)))]))) c' three.
Proof. exact three_turns. Qed.

Example C69_example_hypotheses : ready 64 (fresh true [] 64 64) /\ sensible (KSyncRead [x02; x01; x03; x04] 132 2) /\
  ~ clears_error (KSyncRead [x02; x01; x03; x04] 132 2) /\ passes ff_runs_ok 64 (text (KSyncRead [x02; x01; x03; x04] 132 2)).
Proof.
  split; [|split; [|split]].
  - split; [apply fresh_reach; lia|]. split; [reflexivity|]. split; [reflexivity|]. split; [discriminate|].
    split; [reflexivity|]. split; vm_compute; lia.
  - split; [reflexivity|]. split; [reflexivity|]. repeat constructor; cbn; intuition discriminate.
  - intros [].
  - split; [cbn; lia|]. split; [reflexivity|]. cbn. repeat split.
Qed.

(** Any number of calls, one after the other. *)
@C69_session_partial

(** A write is carried out and the value is read back. *)
Example C69_session_example : exists os c', let vs := [mkServo x01 []] in
  steers notebook (fresh true [] 64 64) vs [KWrite x01 64 [x05; x06]; KRead x01 64 2] os c' [mkServo x01 [x05; x06]] /\
  commands notebook vs [KWrite x01 64 [x05; x06]; KRead x01 64 2] os [mkServo x01 [x05; x06]] /\
  os = [Val (Told (RepDone (Ok (mkResponse x01 false tt)))); Val (Told (RepData (Ok (mkResponse x01 true [x05; x06]))))].
Proof. exact write_read_session. Qed.
