(** * Property C70: life after a panic *)
From Coq Require Import ZArith.
From Verif Require Import Base Endian Error Packet Time Bus Data Client Instructions Device
  Spec Api CallSpec StreamSpec DeviceSpec InstructionSpec TwinSpec RemoteSpec ConformSpec SurviveSpec Demo DemoProofs SurviveTheorems.

(** ** C70: a panic that is caught does no harm. *)
Theorem C70_bookkeeping : forall s, survives s ->
  b_used s <= b_rlen s /\ b_rlen s <= length (b_rbuf s) /\ 10 <= length (b_wbuf s) /\ firstn 4 (b_wbuf s) = header.
Proof. exact L_C70_bookkeeping. Qed.
Print Assumptions C70_bookkeeping.

(** What the panic left in the buffers has no effect. *)
Theorem C70_contents_have_no_effect : forall R (p : program R) s t o evs s', survives s -> survives t -> twins s t ->
  TwinSpec.runs p s o evs s' -> exists t', TwinSpec.runs p t o evs t' /\ twins s' t'.
Proof. exact L_C70_contents_have_no_effect. Qed.
Print Assumptions C70_contents_have_no_effect.

(** A call that panics while it prepares a message has had no effect at all. *)
Theorem C70_panic_while_writing : forall s id i n enc k s' s1, survives s -> encoder_ok enc ->
  write_instruction id i n enc s = (Panic k, s') -> scribbled s' s1 ->
  calls s s1 [] /\ forall R (p : program R) o evs s2, TwinSpec.runs p s o evs s2 ->
    exists s3, TwinSpec.runs p s1 o evs s3 /\ twins s2 s3.
Proof. exact L_C70_panic_while_writing. Qed.
Print Assumptions C70_panic_while_writing.

Theorem C70_panic_while_answering : forall s id e n enc k s' s1, survives s -> encoder_ok enc ->
  device_write_status id e n enc s = (Panic k, s') -> scribbled s' s1 ->
  calls s s1 [] /\ forall R (p : program R) o evs s2, TwinSpec.runs p s o evs s2 ->
    exists s3, TwinSpec.runs p s1 o evs s3 /\ twins s2 s3.
Proof. exact L_C70_panic_while_answering. Qed.
Print Assumptions C70_panic_while_answering.

Example C70_writing_example : exists k s', survives void_then_answer /\ encoder_ok (fun _ => Panic PExplicit) /\
  write_instruction x01 WRITE 3 (fun _ => Panic PExplicit) void_then_answer = (Panic k, s') /\ scribbled s' s'.
Proof.
  destruct panicking_closure as [k [s' [He E]]]. exists k, s'. split; [exact void_then_answer_survives|].
  split; [exact He|]. split; [exact E|apply scribbled_refl].
Qed.

(** A call that panics while it reads has consumed the message that made it panic and nothing else. *)
Theorem C70_panic_while_reading : forall s t k s' s1, survives s -> 10 <= length (b_rbuf s) ->
  read_status_response_timeout t s = (Panic k, s') -> scribbled s' s1 ->
  exists g w rest, ~ contains g header /\ fatal w /\ pending s = map inl (g ++ w) ++ rest /\ pending s1 = rest.
Proof. exact L_C70_panic_while_reading. Qed.
Print Assumptions C70_panic_while_reading.

Theorem C70_panic_of_a_device : forall s t k s' s1, survives s -> 10 <= length (b_rbuf s) ->
  device_read t s = (Panic k, s') -> scribbled s' s1 ->
  exists line g id w rest, skips (length (b_rbuf s)) (pending s) line /\ ~ contains g header /\ framed id [] w /\
    line = map inl (g ++ w) ++ rest /\ pending s1 = rest.
Proof. exact L_C70_panic_of_a_device. Qed.
Print Assumptions C70_panic_of_a_device.

(** The message after the one that makes the client panic is received. *)
Example C70_reading_example : exists k s1 p s2, survives void_then_answer /\
  read_status_response_timeout dur_34ms void_then_answer = (Panic k, s1) /\ scribbled s1 s1 /\ survives s1 /\ calm (pending s1) /\
  read_status_response_timeout dur_34ms s1 = (Val (Ok p), s2) /\ st_parameters p = Val [x2a].
Proof. exact life_goes_on. Qed.

(** The next calls do what C69 says. *)
Theorem C70_still_in_control : forall St (b : behaviour St) cap k c vs o c' vs', 16 <= cap -> still_ready cap c -> sensible k ->
  ~ clears_error k -> passes ff_runs_ok cap (text k) -> controls b k c vs o c' vs' ->
  exists l x, ConformSpec.runs b (meaning k) vs vs' l /\ o = Val x /\ told k l x.
Proof. exact L_C70_still_in_control. Qed.
Print Assumptions C70_still_in_control.

(** ** Refuted: the panic can always be caught.  An iterator that is dropped while the panic of its own [next] unwinds the
    stack reads the other answers, and the process is aborted if that panics too. *)
Theorem C70_unwinding_refuted : ~ (forall cap it s k s1, 10 <= cap -> still_ready cap s -> is_u16 (srb_count it) ->
  srb_next it s = (Panic k, s1) -> forall k' s2, srb_drop (snd (srb_pop it)) s1 <> (Panic k', s2)).
Proof. exact L_C70_unwinding_refuted. Qed.
Print Assumptions C70_unwinding_refuted.

(** It does not happen if there is no other such message on the line. *)
Theorem C70_unwinding_sync_partial : forall cap it s k s1, 10 <= cap -> still_ready cap s -> is_u16 (srb_count it) ->
  srb_next it s = (Panic k, s1) -> calm (pending s1) ->
  forall k' s2, srb_drop (snd (srb_pop it)) s1 <> (Panic k', s2).
Proof. exact L_C70_unwinding_sync_partial. Qed.
Print Assumptions C70_unwinding_sync_partial.

Theorem C70_unwinding_bulk_partial : forall cap it s k s1, 10 <= cap -> still_ready cap s ->
  Forall (fun q => is_u16 (br_count q)) (br_reads it) -> br_next it s = (Panic k, s1) -> calm (pending s1) ->
  forall k' s2, br_drop (snd (br_pop it)) s1 <> (Panic k', s2).
Proof. exact L_C70_unwinding_bulk_partial. Qed.
Print Assumptions C70_unwinding_bulk_partial.

Example C70_unwinding_example : still_ready 64 void_then_answer /\ exists s1,
  srb_next (mkSRB 1 [x02; x01] 0) void_then_answer = (Panic PIndex, s1) /\ calm (pending s1) /\
  exists s2, srb_drop (mkSRB 1 [x02; x01] 1) s1 = (Val tt, s2).
Proof. split; [exact void_then_answer_ready|exact one_void]. Qed.
