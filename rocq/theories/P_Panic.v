(** * Property C81: no panic without a reason *)
From Coq Require Import ZArith.
From Verif Require Import Base Endian Error Packet Time Bus Data Client Instructions Device
  Spec Api CallSpec StreamSpec DeviceSpec DataSpec InstructionSpec TwinSpec SurviveSpec PanicSpec Demo SurviveTheorems PanicTheorems.

(** ** C81: a call whose arguments respect the documentation does not panic, whatever the port does. *)
Theorem C81_no_panics : forall A (m : M A) s o s', careful (length (b_wbuf s)) m -> survives s -> b_baud s <> 0%N ->
  (b_baud s < 2 ^ 32)%N -> calm (pending s) -> m s = (o, s') -> ~ panics o.
Proof. exact L_C81_no_panics. Qed.
Print Assumptions C81_no_panics.

(** Neither does any sequence of such calls on a new client or device. *)
Theorem C81_never : forall dbg p rb wb baud s0 s A (m : M A) o s', with_buffers_and_baud_rate dbg p rb wb baud = Val s0 ->
  baud <> 0%N -> (baud < 2 ^ 32)%N -> calm (pending s0) -> carefully s0 s -> careful (length wb) m ->
  m s = (o, s') -> ~ panics o.
Proof. exact L_C81_never. Qed.
Print Assumptions C81_never.

(** Numbers and arrays of numbers meet the conditions on [Data]. *)
Theorem C81_crate_types : forall A (D : data_impl A) V R, crate_type D V R ->
  safe_decode D /\ forall v, V v -> safe_closure (d_size D) (d_encode D v) /\ safe_closure 1 (d_encode D v).
Proof. exact L_C81_crate_types. Qed.
Print Assumptions C81_crate_types.

Example C81_calls_example : careful 64 (write (data_int false 4) x01 116 1024%Z) /\ careful 64 (read (data_int true 4) x01 132) /\
  careful 64 (ping x01) /\ careful 64 (bulk_read_bytes [mkBulkRead x01 132 4; mkBulkRead x02 132 4]) /\
  careful 64 (write_bytes x01 116 (repeat xff 60)).
Proof. exact careful_calls. Qed.

Example C81_run_example : exists s', survives answered /\ calm (pending answered) /\
  read (data_int false 1) x01 132 answered = (Val (Ok (mkResponse x01 false 42%Z)), s') /\ carefully answered s'.
Proof. exact careful_example. Qed.

Example C81_sizes_example : safe_size 64 30 /\ ~ safe_size 64 53 /\ safe_size 64 55.
Proof. exact tight_roomy. Qed.

(** ** The conditions are needed: without any one of them a call can panic although the others hold. *)
Theorem C81_conditions_needed :
  (* no room for the stuffing of a message that fits otherwise *)
  panics_in (write_bytes x01 100 tight_data) healthy /\
  (* the closure or the [Data] implementation of the user panics *)
  panics_in (write_instruction x01 WRITE 3 (fun _ => Panic PExplicit)) healthy /\
  panics_in (write rude x01 100 tt) healthy /\ panics_in (reg_write rude x01 100 tt) healthy /\
  panics_in (sync_write rude 100 [mkSync x01 tt]) healthy /\ panics_in (read rude x01 100) answered /\
  (* the documented panics *)
  panics_in (sync_write_bytes 100 2 [mkSync x01 [x00]]) healthy /\
  (forall d, (65535 < N.of_nat (length d))%N -> panics_in (bulk_write [mkBulkWrite x01 100 d]) healthy) /\
  panics_in (bulk_read_bytes [mkBulkRead x01 100 2; mkBulkRead x01 200 2]) healthy /\
  (* the baud rate is zero *)
  (exists s, survives s /\ b_baud s = 0%N /\ calm (pending s) /\ panics (fst (ping x01 s))) /\
  (* a fatal message *)
  (exists s, survives s /\ b_baud s <> 0%N /\ (b_baud s < 2 ^ 32)%N /\ panics (fst (read_status_response_timeout dur_34ms s))).
Proof. exact L_C81_conditions_needed. Qed.
Print Assumptions C81_conditions_needed.
