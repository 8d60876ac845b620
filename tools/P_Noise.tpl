(** * Property C85: calls over a line on which messages are damaged or lost *)
From Coq Require Import ZArith.
From Verif Require Import Base Endian Error Packet Time Bus Data Client Instructions Device
  Spec Api CallSpec StreamSpec DeviceSpec InstructionSpec RemoteSpec TurnSpec ConformSpec CrcSpec Demo DemoProofs
  ConformTheorems NoiseSpec NoiseTheorems.

(** ** What counts as damage: among others every odd number of wrong bits, two wrong bits in a message of up to 4095 bytes,
    and bursts. *)
@C85_damage

Example C85_damage_example : damaged answer_05_06 answer_05_07 /\ answer_05_07 <> answer_05_06.
Proof. split; [exact answer_damaged|vm_compute; discriminate]. Qed.

(** ** Motors do nothing when they hear no intact message. *)
@C85_not_obeyed

Example C85_not_obeyed_example : react notebook answer_05_07 [mkServo x01 [x05; x06]] [mkServo x01 [x05; x06]] [].
Proof.
  apply react_ignore. intros id body p F. exfalso.
  exact (damaged_no_message _ _ answer_damaged _ _ (frame_framed _ _ _ F)).
Qed.

(** ** A call: the command has been carried out once and the user is told what the motor answered, or the user is told that
    the call failed, and the command has been carried out once or not at all. *)
@C85_truthful

(** One bit of the answer 05 06 is wrong: the read fails. *)
Example C85_truthful_example : exists e c', suffers notebook (KRead x01 64 2) (fresh true [] 64 64) [mkServo x01 [x05; x06]]
  (Val (Told (RepData (Err (TReadError (RInvalidMessage e)))))) c' [mkServo x01 [x05; x06]].
Proof. exact damaged_read. Qed.

Example C85_truthful_hypotheses : ready 64 (fresh true [] 64 64) /\ sensible (KRead x01 64 2) /\ single (KRead x01 64 2) /\
  passes ff_runs_ok 64 (text (KRead x01 64 2)).
Proof.
  split; [exact fresh_ready|]. split; [split; [discriminate|split; reflexivity]|]. split; [exact I|].
  split; [cbn; lia|]. split; [reflexivity|]. cbn. repeat split.
Qed.

(** Any number of calls. *)
@C85_session

(** ** Trying again until it works.  Refuted: the command is not always carried out exactly once, since the answer may be
    lost. *)
@C85_exactly_once_refuted

(** A motor that counts its commands: the first answer is lost, the second attempt succeeds, the motor has counted two. *)
Example C85_twice_example : exists c', suffers counter (KAction x01) (fresh true [] 64 64) [mkServo x01 0]
  (Val (Told (RepDone (Err (TReadError (RIo (IoTimeout 7))))))) c' [mkServo x01 1] /\
  suffers counter (KAction x01) c' [mkServo x01 1]
  (Val (Told (RepDone (Ok (mkResponse x01 false tt)))))
  (snd (issue (KAction x01) (set_script c' (RdData (frame x01 [x55; x00]) :: silence [7%N; 7%N])))) [mkServo x01 2].
Proof. exact lost_answer. Qed.

(** Commands for which twice is as good as once: as soon as one attempt has succeeded, the motors are as if the command
    had been carried out exactly once. *)
@C85_try_again_partial

Example C85_try_again_example : idempotent notebook (CmdWrite 64 [x05; x06]) /\ idempotent notebook CmdPing /\
  meaning (KWrite x01 64 [x05; x06]) = ToOne x01 (CmdWrite 64 [x05; x06]).
Proof. repeat split. Qed.
