(** * Property C74: bulk writes and simulated motors *)
From Coq Require Import ZArith.
From Verif Require Import Base Endian Error Packet Time Bus Data Client Instructions Device MockDevice
  Spec Api CallSpec StreamSpec DeviceSpec InstructionSpec RemoteSpec RemoteExtra Demo DemoProofs BulkSpec BulkTheorems.

(** ** C74.  Refuted: only the first motor of the list is written. *)
Theorem C74_reaches_all_refuted : ~ (forall cap c ds ms l x c' ds', connected cap c ds ms -> proper_bulk l ->
  incl (map bw_id l) (map m_id ms) -> passes comes_back cap (bulk_write_message l) -> exchange (bulk_write l) c ds x c' ds' ->
  x = Val (Ok tt) /\ Forall2 is_motor ds' (map (bulk_touched l) ms)).
Proof. exact L_C74_reaches_all_refuted. Qed.
Print Assumptions C74_reaches_all_refuted.

(** The client has sent the bulk write ... *)
Theorem C74_sent_partial : forall cap c ds ms l x c' ds', connected cap c ds ms -> proper_bulk l ->
  passes comes_back cap (bulk_write_message l) -> exchange (bulk_write l) c ds x c' ds' -> x = Val (Ok tt).
Proof. exact L_C74_sent_partial. Qed.
Print Assumptions C74_sent_partial.

(** ... and the motor of the first entry obeys it. *)
Theorem C74_first_motor_partial : forall cap c ds ms m e l x c' ds', connected cap c ds ms -> proper_bulk (e :: l) ->
  passes comes_back cap (bulk_write_message (e :: l)) -> exchange (bulk_write (e :: l)) c ds x c' ds' ->
  In m ms -> bw_id e = m_id m -> exists d, In d ds' /\ is_motor d (bulk_touched (e :: l) m).
Proof. exact L_C74_first_motor_partial. Qed.
Print Assumptions C74_first_motor_partial.

Example C74_example : exists c' d1 d2,
  let c := fresh true [] 64 64 in let mem := repeat x07 8 in
  exchange (bulk_write two_writes) c (two_motors mem mem) (Val (Ok tt)) c' [d1; d2] /\
  n_state d1 = Val (mkMock [x07; x07; x07; x11; x12; x07; x07; x07] None) /\ (exists k, n_state d2 = Panic k).
Proof. exact bulk_two. Qed.

Example C74_example_proper : proper_bulk two_writes /\ passes comes_back 64 (bulk_write_message two_writes).
Proof. exact two_writes_proper. Qed.

(** A motor the bulk write does not mention is not left alone: it panics or never comes out of its loop. *)
Theorem C74_unnamed_motor_stops : forall cap c ds ms m l x c' ds', connected cap c ds ms -> proper_bulk l ->
  passes comes_back cap (bulk_write_message l) -> exchange (bulk_write l) c ds x c' ds' ->
  In m ms -> ~ In (m_id m) (bulk_write_entries l) ->
  exists d, In d ds' /\ n_id d = m_id m /\ forall st, n_state d <> Val st.
Proof. exact L_C74_unnamed_motor_stops. Qed.
Print Assumptions C74_unnamed_motor_stops.

Example C74_hangs_example : exists c' d1 d2,
  let c := fresh true [] 64 64 in let mem := repeat x07 8 in
  exchange (bulk_write [mkBulkWrite x01 3 []]) c (two_motors mem mem) (Val (Ok tt)) c' [d1; d2] /\ n_state d2 = Blocked /\
  proper_bulk [mkBulkWrite x01 3 []] /\ passes comes_back 64 (bulk_write_message [mkBulkWrite x01 3 []]) /\
  ~ In x02 (bulk_write_entries [mkBulkWrite x01 3 []]).
Proof. exact bulk_hangs. Qed.
