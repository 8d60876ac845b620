(** * InstructionSpec: what each instruction function is documented to send *)
From Verif Require Import Base Error Packet Time Bus Data Client Instructions Device Spec Api CallSpec
  StreamSpec DeviceSpec.

(** The call only waits for input. *)
Definition only_reads (e : io_event) : Prop :=
  match e with LDeadline _ | LRead _ _ _ | LReadWait _ _ => True | _ => False end.

(** The calls on the port transmit one packet and then at most read.  The packet is
    the one the protocol prescribes whenever the code's stuffing is right (see C04). *)
Definition sent (id i : byte) (params : list byte) (evs : list io_event) : Prop :=
  exists w r evs', evs = LDiscard None :: LWrite w r :: evs' /\ is_packet id i params w /\
    (ff_runs_ok (i :: params) -> (N.of_nat (length (pstuff (i :: params)) + 2) < 2 ^ 16)%N ->
     is_frame id (i :: params) w) /\
    Forall only_reads evs'.

(** Nothing was written, and nothing was read. *)
Definition nothing_sent (evs : list io_event) : Prop :=
  evs = [] \/ exists e, evs = [LDiscard (Some e)].

(** The write buffer has room for [n] parameters, even if as many bytes as
    possible must be stuffed. *)
Definition plenty_of_room (s : bus) (n : nat) : Prop :=
  10 + n + (n + 1) / 3 <= length (b_wbuf s) /\ (N.of_nat (n + (n + 1) / 3 + 3) < 2 ^ 16)%N.

(** The function [m] sends the packet with these contents, once; it sends
    nothing only if it fails, and never when there is room and the port lets it. *)
Definition transmits {B E} (m : M (result B E)) (id i : byte) (params : list byte) : Prop :=
  forall s o s', reach s -> m s = (o, s') ->
  exists evs, calls s s' evs /\
    (sent id i params evs \/ nothing_sent evs /\ forall b, o <> Val (Ok b)) /\
    (plenty_of_room s (length params) -> hd None (p_discards (b_port s)) = None -> sent id i params evs).

(** An implementation of [Data] encodes [v] as [bytes]. *)
Definition encodes_as {A} (D : data_impl A) (v : A) (bytes : list byte) : Prop :=
  length bytes = d_size D /\ forall buf, length buf = d_size D -> d_encode D v buf = Val (bytes, Ok tt).

Definition reset_code (k : factory_reset_kind) : byte :=
  match k with ResetAll => xff | KeepId => x01 | KeepIdAndBaudRate => x02 end.
Definition reset_meaning (k : factory_reset_kind) : dev_factory_reset :=
  match k with ResetAll => FRAll | KeepId => FRExceptId | KeepIdAndBaudRate => FRExceptIdBaudRate end.

(** One entry per motor. *)
Definition sync_entries (l : list (sync_write_data (list byte))) : list byte :=
  flat_map (fun c => sw_id c :: sw_data c) l.
Definition bulk_write_entries (l : list bulk_write_data) : list byte :=
  flat_map (fun c => bw_id c :: le16 (bw_address c) ++ le16 (N.of_nat (length (bw_data c))) ++ bw_data c) l.
Definition bulk_read_entries (l : list bulk_read_data) : list byte :=
  flat_map (fun c => br_id c :: le16 (br_address c) ++ le16 (br_count c)) l.

Definition is_u16 (n : N) : Prop := (n < 2 ^ 16)%N.

(** The table of the protocol: function, packet id, instruction byte, parameters,
    and what a device should make of them. *)
Inductive request : forall B E, M (result B E) -> byte -> byte -> list byte -> instructions -> Prop :=
| rq_ping : forall id, request _ _ (ping id) id x01 [] IPing
| rq_scan : request _ _ scan xfe x01 [] IPing
| rq_read_bytes : forall id a n, is_u16 a -> is_u16 n ->
    request _ _ (read_bytes id a n) id x02 (le16 a ++ le16 n) (IRead a n)
| rq_read : forall A (D : data_impl A) id a, is_u16 a -> is_u16 (N.of_nat (d_size D)) ->
    request _ _ (read D id a) id x02 (le16 a ++ le16 (N.of_nat (d_size D))) (IRead a (N.of_nat (d_size D)))
| rq_write : forall A (D : data_impl A) id a v bytes, is_u16 a -> data_ok D -> encodes_as D v bytes ->
    request _ _ (write D id a v) id x03 (le16 a ++ bytes) (IWrite a bytes)
| rq_write_bytes : forall id a d, is_u16 a ->
    request _ _ (write_bytes id a d) id x03 (le16 a ++ d) (IWrite a d)
| rq_reg_write_bytes : forall id a d, is_u16 a ->
    request _ _ (reg_write_bytes id a d) id x04 (le16 a ++ d) (IRegWrite a d)
| rq_action : forall id, request _ _ (action id) id x05 [] IAction
| rq_broadcast_action : request _ _ broadcast_action xfe x05 [] IAction
| rq_factory_reset : forall id k,
    request _ _ (factory_reset id k) id x06 [reset_code k] (IFactoryReset (reset_meaning k))
| rq_broadcast_factory_reset : forall k,
    request _ _ (broadcast_factory_reset k) xfe x06 [reset_code k] (IFactoryReset (reset_meaning k))
| rq_reboot : forall id, request _ _ (reboot id) id x08 [] IReboot
| rq_broadcast_reboot : request _ _ broadcast_reboot xfe x08 [] IReboot
| rq_clear_revolution_counter : forall id,
    request _ _ (clear_revolution_counter id) id x10 [x01; x44; x58; x4c; x22] (IClear ClearMultiTurns)
| rq_broadcast_clear_revolution_counter :
    request _ _ broadcast_clear_revolution_counter xfe x10 [x01; x44; x58; x4c; x22] (IClear ClearMultiTurns)
| rq_sync_read_bytes : forall ids a n, is_u16 a -> is_u16 n ->
    request _ _ (sync_read_bytes ids a n) xfe x82 (le16 a ++ le16 n ++ ids) (ISyncRead a n ids)
| rq_sync_read : forall A (D : data_impl A) ids a, is_u16 a -> is_u16 (N.of_nat (d_size D)) ->
    request _ _ (sync_read D ids a) xfe x82 (le16 a ++ le16 (N.of_nat (d_size D)) ++ ids)
      (ISyncRead a (N.of_nat (d_size D)) ids)
| rq_sync_write_bytes : forall a n l, is_u16 a -> is_u16 n ->
    Forall (fun c => length (sw_data c) = N.to_nat n) l ->
    request _ _ (sync_write_bytes a n l) xfe x83 (le16 a ++ le16 n ++ sync_entries l)
      (ISyncWrite a n (sync_entries l))
| rq_bulk_read_bytes : forall l, NoDup (map br_id l) ->
    request _ _ (bulk_read_bytes l) xfe x92 (bulk_read_entries l) (IBulkRead (bulk_read_entries l))
| rq_bulk_write : forall l, Forall (fun c => is_u16 (N.of_nat (length (bw_data c)))) l ->
    request _ _ (bulk_write l) xfe x93 (bulk_write_entries l) (IBulkWrite (bulk_write_entries l)).
Arguments request {B E}.

(** The parameters the protocol prescribes for clearing the error state. *)
Definition clear_error_code : list byte := [x02; x45; x52; x43; x4c].

(** The functions that wait for an acknowledgement of one motor. *)
Inductive acknowledged : (byte -> M (result (response unit) transfer_error)) -> Prop :=
| ak_write : forall A (D : data_impl A) a v, data_ok D -> acknowledged (fun id => write D id a v)
| ak_write_bytes : forall a d, acknowledged (fun id => write_bytes id a d)
| ak_reg_write : forall A (D : data_impl A) a v, data_ok D -> acknowledged (fun id => reg_write D id a v)
| ak_reg_write_bytes : forall a d, acknowledged (fun id => reg_write_bytes id a d)
| ak_action : acknowledged action
| ak_reboot : acknowledged reboot
| ak_factory_reset : forall k, acknowledged (fun id => factory_reset id k)
| ak_clear_revolution_counter : acknowledged clear_revolution_counter
| ak_clear_error : acknowledged clear_error.

(** [k] calls of an iterator's [next]. *)
Fixpoint nexts {I X} (next : I -> M (option X * I)) (k : nat) (it : I) : M (list (option X) * I) :=
  match k with
  | O => ret ([], it)
  | S k' =>
      '(x, it') <- next it ;;
      '(xs, it'') <- nexts next k' it' ;;
      ret (x :: xs, it'')
  end.

(** The number of status reads (each makes one deadline). *)
Definition status_reads (evs : list io_event) : nat :=
  length (filter (fun e => match e with LDeadline _ => true | _ => false end) evs).

(** The port will accept the next transmission. *)
Definition port_ready (s : bus) : Prop :=
  hd None (p_discards (b_port s)) = None /\ hd None (p_writes (b_port s)) = None.

(** The error byte reports no error (the alert bit does not count). *)
Definition no_error (e : byte) : Prop := (b2n e mod 128 = 0)%N.
Definition alert_bit (e : byte) : bool := N.testbit (b2n e) 7.

(** The next packet on its way to the client is the status packet with these contents,
    sent by a conforming device, in a form the client can receive. *)
Definition status_comes (s : bus) (id e : byte) (params : list byte) (rest : list item) : Prop :=
  exists g w, ~ contains g header /\ is_frame id (x55 :: e :: params) w /\
    ff_runs_ok (x55 :: e :: params) /\ length w <= length (b_rbuf s) /\
    incoming s = map inl (g ++ w) ++ rest.

(** The call only discards input and transmits. *)
Definition only_writes (e : io_event) : Prop :=
  match e with LDiscard _ | LWrite _ _ => True | _ => False end.

(** Status packets (id, error, parameters) of conforming devices that arrive one
    after the other, each perhaps after garbage, in a form a client with a read
    buffer of [cap] bytes can receive; [rest] comes after them. *)
Inductive statuses (cap : nat) : list item -> list (byte * byte * list byte) -> list item -> Prop :=
| sts_nil : forall rest, statuses cap rest [] rest
| sts_cons : forall g id e ps w line l rest,
    ~ contains g header -> is_frame id (x55 :: e :: ps) w -> ff_runs_ok (x55 :: e :: ps) ->
    length w <= cap -> statuses cap line l rest ->
    statuses cap (map inl (g ++ w) ++ line) ((id, e, ps) :: l) rest.

(** What a client that expects a status of motor [id] with [n] parameters makes of one. *)
Definition judge (id : byte) (n : nat) (status : byte * byte * list byte)
  : result (response (list byte)) read_error :=
  let '(id', e, ps) := status in
  if negb (b2n e mod 128 =? 0)%N then Err (RMotorError e)
  else if negb (beq id' id) then Err (RInvalidMessage (IMPacketId id' (Some id)))
  else if negb (length ps =? n) then Err (RInvalidMessage (IMParameterCount (length ps) (Exact n)))
  else Ok (mkResponse id (alert_bit e) ps).

(** The same, for a client that decodes the parameters. *)
Definition judge_value {A} (decode : list byte -> result A invalid_message) (id : byte) (n : nat)
    (status : byte * byte * list byte) : result (response A) read_error :=
  match judge id n status with
  | Err e => Err e
  | Ok r =>
      match decode (r_data r) with
      | Ok v => Ok (mkResponse (r_motor_id r) (r_alert r) v)
      | Err e => Err (RInvalidMessage e)
      end
  end.

(** Take [k] items, then drop the iterator. *)
Definition take_then_drop {I X} (next : I -> M (option X * I)) (drop : I -> M unit) (k : nat) (it : I)
  : M (list (option X)) :=
  '(xs, it') <- nexts next k it ;;
  drop it' ;;;
  ret xs.

(** [k] calls of [Scan::next]. *)
Fixpoint scan_nexts (k : nat) : M (list (option (result (response ping_data) read_error))) :=
  match k with
  | O => ret []
  | S k' => x <- scan_next ;; xs <- scan_nexts k' ;; ret (x :: xs)
  end.

(** What a scan makes of a status packet. *)
Definition judge_ping (status : byte * byte * list byte) : result (response ping_data) read_error :=
  let '(id, e, ps) := status in
  if negb (b2n e mod 128 =? 0)%N then Err (RMotorError e)
  else match ps with
       | [m0; m1; f] => Ok (mkResponse id (alert_bit e) (mkPing (b2n m0 + 256 * b2n m1) f))
       | _ => Err (RInvalidMessage (IMParameterCount (length ps) (Exact 3)))
       end.
