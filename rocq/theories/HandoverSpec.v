(** * HandoverSpec: using the serial port behind the back of a client or device *)
From Verif Require Import Base Endian Error Packet Time Bus Data Client Instructions Device Api CallSpec TwinSpec.

(** Whether the result of a call says that the message was handed to the port:
    all results but "does not fit the write buffer". *)
Definition sent_w {X} (r : result X write_error) : bool :=
  match r with Err (WBufferTooSmall _) => false | _ => true end.
Definition sent_t {X} (r : result X transfer_error) : bool :=
  match r with Err (TWriteError (WBufferTooSmall _)) => false | _ => true end.

(** The calls that begin with sending something, with the reading of their result. *)
Inductive request : forall A, M A -> (A -> bool) -> Prop :=
| rq_transfer_single : forall id i n e enc, encoder_ok enc -> ignores_old_bytes n enc ->
    request _ (transfer_single id i n e enc) sent_t
| rq_write_instruction : forall id i n enc, encoder_ok enc -> ignores_old_bytes n enc ->
    request _ (write_instruction id i n enc) sent_w
| rq_device_write_status : forall id e n enc, encoder_ok enc -> ignores_old_bytes n enc ->
    request _ (device_write_status id e n enc) sent_w
| rq_device_write_status_error : forall id e, request _ (device_write_status_error id e) sent_w
| rq_device_write_status_ok : forall id, request _ (device_write_status_ok id) sent_w
| rq_ping : forall id, request _ (ping id) sent_t
| rq_scan : request _ scan sent_w
| rq_read_bytes : forall id a n, request _ (read_bytes id a n) sent_t
| rq_read : forall A (D : data_impl A) id a, request _ (read D id a) sent_t
| rq_write : forall A (D : data_impl A) id a v, data_ok D -> ignores_old_bytes (d_size D) (d_encode D v) ->
    request _ (write D id a v) sent_t
| rq_write_bytes : forall id a d, request _ (write_bytes id a d) sent_t
| rq_reg_write : forall A (D : data_impl A) id a v, data_ok D -> ignores_old_bytes 1 (d_encode D v) ->
    request _ (reg_write D id a v) sent_t
| rq_reg_write_bytes : forall id a d, request _ (reg_write_bytes id a d) sent_t
| rq_action : forall id, request _ (action id) sent_t
| rq_broadcast_action : request _ broadcast_action sent_w
| rq_reboot : forall id, request _ (reboot id) sent_t
| rq_broadcast_reboot : request _ broadcast_reboot sent_w
| rq_factory_reset : forall id k, request _ (factory_reset id k) sent_t
| rq_broadcast_factory_reset : forall k, request _ (broadcast_factory_reset k) sent_w
| rq_clear_revolution_counter : forall id, request _ (clear_revolution_counter id) sent_t
| rq_broadcast_clear_revolution_counter : request _ broadcast_clear_revolution_counter sent_w
| rq_clear_error : forall id, request _ (clear_error id) sent_t
| rq_broadcast_clear_error : request _ broadcast_clear_error sent_w
| rq_sync_write : forall A (D : data_impl A) a l, data_ok D ->
    (forall x, In x l -> ignores_old_bytes 1 (d_encode D (sw_data x))) -> request _ (sync_write D a l) sent_w
| rq_sync_write_bytes : forall a n l, request _ (sync_write_bytes a n l) sent_w
| rq_bulk_write : forall l, request _ (bulk_write l) sent_w
| rq_sync_read_bytes : forall ids a n, request _ (sync_read_bytes ids a n) sent_w
| rq_sync_read : forall A (D : data_impl A) ids a, request _ (sync_read D ids a) sent_w
| rq_bulk_read_bytes : forall l, request _ (bulk_read_bytes l) sent_w.
Arguments request {A} m w.

(** A program that sends something before it listens.  What it does afterwards is
    free; a request that did not fit the write buffer does not count, and the baud
    rate may be set before. *)
Inductive asks_first {R} : program R -> Prop :=
| af_done : forall r, asks_first (Done r)
| af_request : forall A (m : M A) (H : steady m) k sent, request m sent ->
    (forall a, sent a = false -> asks_first (k a)) -> asks_first (Call m H k)
| af_set_baud_rate : forall baud (H : steady (client_set_baud_rate baud)) k,
    (forall a, asks_first (k a)) -> asks_first (Call (client_set_baud_rate baud) H k).

(** A client or device made new from the port [p], with buffers of the same sizes and
    the same baud rate as [s]. *)
Definition anew (s : bus) (p : port) (t : bus) : Prop :=
  exists rb wb, length rb = length (b_rbuf s) /\ length wb = length (b_wbuf s) /\
    with_buffers_and_baud_rate (b_dbg s) p rb wb (b_baud s) = Val t.

(** The same client or device after the port has been used directly ([serial_port()]):
    the port is in any other state, nothing else has changed. *)
Definition port_used (s : bus) (p : port) : bus := set_port s p.

(** The bytes read from the port but not handed out yet. *)
Definition read_ahead (s : bus) : list byte := skipn (b_used s) (firstn (b_rlen s) (b_rbuf s)).

(** Two runs that look the same from outside. *)
Definition same_runs {R} (p : program R) (s t : bus) : Prop :=
  forall o evs, (exists s', runs p s o evs s') <-> (exists t', runs p t o evs t').
