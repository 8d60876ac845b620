(** * Property C70: life after a panic *)
From Coq Require Import ZArith.
From Verif Require Import Base Endian Error Packet Time Bus Data Client Instructions Device
  Spec Api CallSpec StreamSpec DeviceSpec InstructionSpec TwinSpec RemoteSpec ConformSpec SurviveSpec Demo DemoProofs SurviveTheorems.

(** ** C70: a panic that is caught does no harm. *)
@C70_bookkeeping

(** What the panic left in the buffers has no effect. *)
@C70_contents_have_no_effect

(** A call that panics while it prepares a message has had no effect at all. *)
@C70_panic_while_writing

@C70_panic_while_answering

Example C70_writing_example : exists k s', survives void_then_answer /\ encoder_ok (fun _ => Panic PExplicit) /\
  write_instruction x01 WRITE 3 (fun _ => Panic PExplicit) void_then_answer = (Panic k, s') /\ scribbled s' s'.
Proof.
  destruct panicking_closure as [k [s' [He E]]]. exists k, s'. split; [exact void_then_answer_survives|].
  split; [exact He|]. split; [exact E|apply scribbled_refl].
Qed.

(** A call that panics while it reads has consumed the message that made it panic and nothing else. *)
@C70_panic_while_reading

@C70_panic_of_a_device

(** The message after the one that makes the client panic is received. *)
Example C70_reading_example : exists k s1 p s2, survives void_then_answer /\
  read_status_response_timeout dur_34ms void_then_answer = (Panic k, s1) /\ scribbled s1 s1 /\ survives s1 /\ calm (pending s1) /\
  read_status_response_timeout dur_34ms s1 = (Val (Ok p), s2) /\ st_parameters p = Val [x2a].
Proof. exact life_goes_on. Qed.

(** The next calls do what C69 says. *)
@C70_still_in_control

(** ** Refuted: the panic can always be caught.  An iterator that is dropped while the panic of its own [next] unwinds the
    stack reads the other answers, and the process is aborted if that panics too. *)
@C70_unwinding_refuted

(** It does not happen if there is no other such message on the line. *)
@C70_unwinding_sync_partial

@C70_unwinding_bulk_partial

Example C70_unwinding_example : still_ready 64 void_then_answer /\ exists s1,
  srb_next (mkSRB 1 [x02; x01] 0) void_then_answer = (Panic PIndex, s1) /\ calm (pending s1) /\
  exists s2, srb_drop (mkSRB 1 [x02; x01] 1) s1 = (Val tt, s2).
Proof. split; [exact void_then_answer_ready|exact one_void]. Qed.
