(** * Property C68: reading from several motors at once *)
From Coq Require Import ZArith.
From Verif Require Import Base Endian Error Packet Time Bus Data Client Instructions Device MockDevice
  Spec Api CallSpec StreamSpec DeviceSpec InstructionSpec RemoteSpec RemoteExtra TurnSpec Demo DemoProofs TurnTheorems.

(** ** C68.  Refuted: the second motor never answers. *)
Theorem C68_takes_turns_refuted : ~ (forall cap c ds ms ids a n x c' ds', connected cap c ds ms ->
  is_u16 a -> is_u16 n -> NoDup ids -> incl ids (map m_id ms) ->
  passes comes_back cap (sync_read_message ids a n) -> (forall m, In m ms -> answer_passes cap m a n) ->
  exchange_for (length ids) (sync_read_all ids a n) c ds x c' ds' ->
  exists xs, x = Val (Ok xs) /\
    Forall2 (fun id y => exists m, In m ms /\ m_id m = id /\ y = Some (asked_for m a n)) ids xs).
Proof. exact L_C68_takes_turns_refuted. Qed.
Print Assumptions C68_takes_turns_refuted.

(** The first motor answers, and the client reports a timeout for each of the others. *)
Theorem C68_only_first_sync_partial : forall cap c ds ms m ids a n x c' ds', connected cap c ds ms -> In m ms ->
  is_u16 a -> is_u16 n -> passes comes_back cap (sync_read_message (m_id m :: ids) a n) -> answer_passes cap m a n ->
  exchange_for (length ids) (sync_read_all (m_id m :: ids) a n) c ds x c' ds' ->
  exists xs, x = Val (Ok (Some (asked_for m a n) :: xs)) /\ length xs = length ids /\ Forall timed_out xs.
Proof. exact L_C68_only_first_sync_partial. Qed.
Print Assumptions C68_only_first_sync_partial.

Example C68_sync_example : exists xs c' ds', let c := fresh true [] 64 64 in let mem := repeat x07 8 in
  let m := mkMotor x01 mem None in let ms := [m; mkMotor x02 mem None] in
  connected 64 c (two_motors mem mem) ms /\ In m ms /\ is_u16 3 /\ is_u16 2 /\
  passes comes_back 64 (sync_read_message (m_id m :: [x02]) 3 2) /\ answer_passes 64 m 3 2 /\
  exchange_for (length [x02]) (sync_read_all (m_id m :: [x02]) 3 2) c (two_motors mem mem) (Val (Ok xs)) c' ds' /\
  xs = [Some (Ok (mkResponse x01 false [x07; x07])); Some (Err (RIo (IoTimeout 0)))].
Proof. exact turn_example. Qed.

Theorem C68_only_first_bulk_partial : forall cap c ds ms m q qs x c' ds', connected cap c ds ms -> In m ms ->
  br_id q = m_id m -> NoDup (map br_id (q :: qs)) ->
  Forall (fun r => is_u16 (br_address r) /\ is_u16 (br_count r)) (q :: qs) ->
  passes comes_back cap (bulk_read_message (q :: qs)) -> answer_passes cap m (br_address q) (br_count q) ->
  exchange_for (length qs) (bulk_read_all (q :: qs)) c ds x c' ds' ->
  exists xs, x = Val (Ok (Some (asked_for m (br_address q) (br_count q)) :: xs)) /\
    length xs = length qs /\ Forall timed_out xs.
Proof. exact L_C68_only_first_bulk_partial. Qed.
Print Assumptions C68_only_first_bulk_partial.

Example C68_bulk_example : exists xs c' ds', let c := fresh true [] 64 64 in let mem := repeat x07 8 in
  let m := mkMotor x02 mem None in let ms := [mkMotor x01 mem None; m] in
  let q := mkBulkRead x02 3 2 in let qs := [mkBulkRead x01 0 1] in
  connected 64 c (two_motors mem mem) ms /\ In m ms /\ br_id q = m_id m /\ NoDup (map br_id (q :: qs)) /\
  Forall (fun r => is_u16 (br_address r) /\ is_u16 (br_count r)) (q :: qs) /\
  passes comes_back 64 (bulk_read_message (q :: qs)) /\ answer_passes 64 m 3 2 /\
  exchange_for (length qs) (bulk_read_all (q :: qs)) c (two_motors mem mem) (Val (Ok xs)) c' ds' /\
  xs = [Some (Ok (mkResponse x02 false [x07; x07])); Some (Err (RIo (IoTimeout 0)))].
Proof. exact turn_bulk_example. Qed.

(** The reason: a device does not notice status packets of others. *)
Theorem C68_deaf : forall t s u, reach s -> reach u -> 10 <= length (b_rbuf s) ->
  length (b_rbuf u) = length (b_rbuf s) -> skips (length (b_rbuf s)) (pending s) (pending u) ->
  fst (device_read t s) = fst (device_read t u) /\
  pending (snd (device_read t s)) = pending (snd (device_read t u)).
Proof. exact L_C68_deaf. Qed.
Print Assumptions C68_deaf.

(** A motor that is not the first sends nothing, whatever follows the request. *)
Theorem C68_waits_forever : forall s id st first i params w rest o s' evs, reach s ->
  (exists a n ids, is_u16 a /\ is_u16 n /\ i :: params = sync_read_message (first :: ids) a n) \/
  (exists q qs, br_id q = first /\ i :: params = bulk_read_message (q :: qs)) ->
  first <> id -> is_frame xfe (i :: params) w -> ff_runs_ok (i :: params) -> length w <= length (b_rbuf s) ->
  pending s = map inl w ++ rest ->
  mock_iteration id st s = (o, s') -> calls s s' evs -> transmitted evs = [].
Proof. exact L_C68_waits_forever. Qed.
Print Assumptions C68_waits_forever.

(** Also if what follows is the answer it waits for. *)
Example C68_deaf_example : exists o s' evs,
  let s := fresh true [RdData (frame xfe (sync_read_message [x01; x02] 3 2) ++ frame x01 [STATUS; x00; x07; x07])] 64 64 in
  mock_iteration x02 (mkMock (repeat x07 8) None) s = (o, s') /\ calls s s' evs /\ transmitted evs = [] /\ o = Blocked.
Proof. exact deaf_example. Qed.
