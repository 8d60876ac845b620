(** * Property C68: reading from several motors at once *)
From Coq Require Import ZArith.
From Verif Require Import Base Endian Error Packet Time Bus Data Client Instructions Device MockDevice
  Spec Api CallSpec StreamSpec DeviceSpec InstructionSpec RemoteSpec RemoteExtra TurnSpec Demo DemoProofs TurnTheorems.

(** ** C68.  Refuted: the second motor never answers. *)
@C68_takes_turns_refuted

(** The first motor answers, and the client reports a timeout for each of the others. *)
@C68_only_first_sync_partial

Example C68_sync_example : exists xs c' ds', let c := fresh true [] 64 64 in let mem := repeat x07 8 in
  let m := mkMotor x01 mem None in let ms := [m; mkMotor x02 mem None] in
  connected 64 c (two_motors mem mem) ms /\ In m ms /\ is_u16 3 /\ is_u16 2 /\
  passes comes_back 64 (sync_read_message (m_id m :: [x02]) 3 2) /\ answer_passes 64 m 3 2 /\
  exchange_for (length [x02]) (sync_read_all (m_id m :: [x02]) 3 2) c (two_motors mem mem) (Val (Ok xs)) c' ds' /\
  xs = [Some (Ok (mkResponse x01 false [x07; x07])); Some (Err (RIo (IoTimeout 0)))].
Proof. exact turn_example. Qed.

@C68_only_first_bulk_partial

Example C68_bulk_example : exists xs c' ds', let c := fresh true [] 64 64 in let mem := repeat x07 8 in
  let m := mkMotor x02 mem None in let ms := [mkMotor x01 mem None; m] in
  let q := mkBulkRead x02 3 2 in let qs := [mkBulkRead x01 0 1] in
  connected 64 c (two_motors mem mem) ms /\ In m ms /\ br_id q = m_id m /\ NoDup (map br_id (q :: qs)) /\
  Forall (fun r => is_u16 (br_address r) /\ is_u16 (br_count r)) (q :: qs) /\
  passes comes_back 64 (bulk_read_message (q :: qs)) /\ answer_passes 64 m 3 2 /\
  exchange_for (length qs) (bulk_read_all (q :: qs)) c (two_motors mem mem) (Val (Ok xs)) c' ds' /\
  xs = [Some (Ok (mkResponse x02 false [x07; x07])); Some (Err (RIo (IoTimeout 0)))].
Proof. exact turn_bulk_example. Qed.

(** The reason: a device does not notice status packets of others. *)
@C68_deaf

(** A motor that is not the first sends nothing, whatever follows the request. *)
@C68_waits_forever

(** Also if what follows is the answer it waits for. *)
Example C68_deaf_example : exists o s' evs,
  let s := fresh true [RdData (frame xfe (sync_read_message [x01; x02] 3 2) ++ frame x01 [STATUS; x00; x07; x07])] 64 64 in
  mock_iteration x02 (mkMock (repeat x07 8) None) s = (o, s') /\ calls s s' evs /\ transmitted evs = [] /\ o = Blocked.
Proof. exact deaf_example. Qed.
