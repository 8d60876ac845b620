(** * Property C81: when exactly a call panics *)
From Coq Require Import ZArith.
From Verif Require Import Base Endian Error Packet Time Bus Data Client Instructions Device
  Spec Api CallSpec StreamSpec DeviceSpec DataSpec InstructionSpec TwinSpec SurviveSpec PanicSpec Demo SurviveTheorems PanicTheorems
  DataTheorems PanicExactSpec PanicExactTheorems.

(** ** C81: a function that sends a message panics exactly when its length causes trouble. *)
Theorem C81_exactly_when_sending_panics : forall s m id i params, survives s -> sends m id i params ->
  (panics (fst (m s)) <-> write_trouble (b_dbg s) (length (b_wbuf s)) (i :: params)).
Proof. exact L_C81_exactly_when_sending_panics. Qed.
Print Assumptions C81_exactly_when_sending_panics.

(** The message is transmitted exactly when there is room and the port accepts it. *)
Theorem C81_exactly_when_a_message_goes_out : forall s m id i params, survives s -> sends m id i params ->
  (fst (m s) = Val (Ok tt) <-> goes_out s (i :: params)).
Proof. exact L_C81_exactly_when_a_message_goes_out. Qed.
Print Assumptions C81_exactly_when_a_message_goes_out.

(** The calls that wait for nothing. *)
Theorem C81_exactly_when_telling_panics : forall B E (m : M (result B E)) body s, survives s -> tells m body ->
  (panics (fst (m s)) <-> write_trouble (b_dbg s) (length (b_wbuf s)) body).
Proof. exact L_C81_exactly_when_telling_panics. Qed.
Print Assumptions C81_exactly_when_telling_panics.

(** The calls that wait for one answer: sending panics, or the message is sent and then the baud rate is zero or the first
    message to come in lacks the bytes the client looks at. *)
Theorem C81_exactly_when_a_call_panics : forall B (m : M (result B transfer_error)) id i params s, survives s ->
  waits m id i params ->
  (panics (fst (m s)) <->
   write_trouble (b_dbg s) (length (b_wbuf s)) (i :: params) \/
   goes_out s (i :: params) /\ (b_baud s = 0%N \/ fatal_answer s)).
Proof. exact L_C81_exactly_when_a_call_panics. Qed.
Print Assumptions C81_exactly_when_a_call_panics.

(** The calls that only wait, among them the iterators. *)
Theorem C81_exactly_when_waiting_panics : forall B (m : M B) due s, survives s -> (b_baud s < 2 ^ 32)%N -> listens_once m due ->
  (panics (fst (m s)) <-> due = true /\ (b_baud s = 0%N \/ fatal_next s)).
Proof. exact L_C81_exactly_when_waiting_panics. Qed.
Print Assumptions C81_exactly_when_waiting_panics.

Example C81_trouble_example : survives healthy /\ waits (write_bytes x01 100 tight_data) x01 x03 (le16 100 ++ tight_data) /\
  write_trouble (b_dbg healthy) (length (b_wbuf healthy)) (x03 :: le16 100 ++ tight_data) /\
  ~ write_trouble (b_dbg healthy) (length (b_wbuf healthy)) (x03 :: le16 100 ++ repeat x00 51) /\
  tells (sync_write_bytes 100 2 [mkSync x01 [x01; x02]]) [x83; x64; x00; x02; x00; x01; x01; x02] /\
  goes_out healthy [x83; x64; x00; x02; x00; x01; x01; x02].
Proof. exact tight_trouble. Qed.

Example C81_fatal_example : survives two_voids /\ waits (ping x01) x01 x01 [] /\ goes_out two_voids [x01] /\
  fatal_answer two_voids /\ ~ fatal_answer healthy.
Proof. exact void_trouble. Qed.

Example C81_waiting_example : (b_baud two_voids < 2 ^ 32)%N /\ fatal_next two_voids /\
  listens_once (srb_next (mkSRB 4 [x01; x02] 1)) true /\ listens_once (srb_next (mkSRB 4 [x01; x02] 2)) false.
Proof. exact waiting_trouble. Qed.

(** Values of one byte. *)
Example C81_typed_example :
  waits (reg_write (data_int false 1) x01 64 1%Z) x01 x04 (le16 64 ++ [x01]) /\
  tells (sync_write (data_int false 1) 64 [mkSync x05 1%Z]) (x83 :: le16 64 ++ le16 1 ++ sync_entries [mkSync x05 [x01]]).
Proof.
  assert (En : encodes_as (data_int false 1) 1%Z [x01])
    by (split; [reflexivity|]; intros [|b [|]] L; try discriminate L; reflexivity).
  assert (Ok : data_ok (data_int false 1)) by (apply (crate_data_ok _ _ _ _ (ct_int false 1 (or_introl eq_refl)))).
  split; [apply wa_reg_write; [discriminate|exact Ok|reflexivity|exact En]|].
  apply te_sync_write; [exact Ok|reflexivity|]. constructor; [split; [reflexivity|exact En]|constructor].
Qed.
