(** * Property C74: bulk writes and simulated motors *)
From Coq Require Import ZArith.
From Verif Require Import Base Endian Error Packet Time Bus Data Client Instructions Device MockDevice
  Spec Api CallSpec StreamSpec DeviceSpec InstructionSpec RemoteSpec RemoteExtra Demo DemoProofs BulkSpec BulkTheorems.

(** ** C74.  Refuted: only the first motor of the list is written. *)
@C74_reaches_all_refuted

(** The client has sent the bulk write ... *)
@C74_sent_partial

(** ... and the motor of the first entry obeys it. *)
@C74_first_motor_partial

Example C74_example : exists c' d1 d2,
  let c := fresh true [] 64 64 in let mem := repeat x07 8 in
  exchange (bulk_write two_writes) c (two_motors mem mem) (Val (Ok tt)) c' [d1; d2] /\
  n_state d1 = Val (mkMock [x07; x07; x07; x11; x12; x07; x07; x07] None) /\ (exists k, n_state d2 = Panic k).
Proof. exact bulk_two. Qed.

Example C74_example_proper : proper_bulk two_writes /\ passes comes_back 64 (bulk_write_message two_writes).
Proof. exact two_writes_proper. Qed.

(** A motor the bulk write does not mention is not left alone: it panics or never comes out of its loop. *)
@C74_unnamed_motor_stops

Example C74_hangs_example : exists c' d1 d2,
  let c := fresh true [] 64 64 in let mem := repeat x07 8 in
  exchange (bulk_write [mkBulkWrite x01 3 []]) c (two_motors mem mem) (Val (Ok tt)) c' [d1; d2] /\ n_state d2 = Blocked /\
  proper_bulk [mkBulkWrite x01 3 []] /\ passes comes_back 64 (bulk_write_message [mkBulkWrite x01 3 []]) /\
  ~ In x02 (bulk_write_entries [mkBulkWrite x01 3 []]).
Proof. exact bulk_hangs. Qed.
