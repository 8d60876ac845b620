(** * RoomSpec: the same bus with larger buffers *)
From Verif Require Import Base Endian Error Packet Time Bus Data Client Instructions Device Api
  CallSpec StreamSpec TwinSpec.

(** [t] is in the same situation as [s], except that its buffers may be larger. *)
Record roomier (s t : bus) : Prop := mkRoomier {
  rm_baud : b_baud s = b_baud t;
  rm_dbg : b_dbg s = b_dbg t;
  rm_rcap : length (b_rbuf s) <= length (b_rbuf t);
  rm_wcap : length (b_wbuf s) <= length (b_wbuf t);
  rm_pending : pending s = pending t;
  rm_discards : p_discards (b_port s) = p_discards (b_port t);
  rm_writes : p_writes (b_port s) = p_writes (b_port t);
  rm_setbauds : p_setbauds (b_port s) = p_setbauds (b_port t);
  rm_deadlines : p_deadlines (b_port s) = p_deadlines (b_port t);
}.

(** The error says that a buffer is too small. *)
Definition short_w (e : write_error) : bool := match e with WBufferTooSmall _ => true | _ => false end.
Definition short_r (e : read_error) : bool := match e with RBufferFull _ => true | _ => false end.
Definition short_t (e : transfer_error) : bool :=
  match e with TWriteError e => short_w e | TReadError e => short_r e end.
Definition short_io (e : io_error) : bool := false.

Definition fails {X E} (c : E -> bool) (r : result X E) : bool := match r with Err e => c e | Ok _ => false end.
Definition yields {X E} (c : E -> bool) (x : option (result X E)) : bool :=
  match x with Some r => fails c r | None => false end.
Definition yields_it {X E I} (c : E -> bool) (x : option (result X E) * I) : bool := yields c (fst x).

(** The calls that return a result, with the test whether a result complains about
    a buffer.  (The calls that return nothing, dropping an iterator, are not
    here: they throw errors away.) *)
Inductive attempt : forall A, M A -> (A -> bool) -> Prop :=
| at_set_baud_rate : forall baud, attempt _ (client_set_baud_rate baud) (fails short_io)
| at_transfer_single : forall id i n e enc, encoder_ok enc -> ignores_old_bytes n enc ->
    attempt _ (transfer_single id i n e enc) (fails short_t)
| at_write_instruction : forall id i n enc, encoder_ok enc -> ignores_old_bytes n enc ->
    attempt _ (write_instruction id i n enc) (fails short_w)
| at_read_status_response_timeout : forall t, attempt _ (read_status_response_timeout t) (fails short_r)
| at_read_status_response : forall n, attempt _ (read_status_response n) (fails short_r)
| at_device_read : forall t, attempt _ (device_read t) (fails short_r)
| at_device_read_owned : forall t, attempt _ (device_read_owned t) (fails short_r)
| at_read_raw_instruction_timeout : forall t, attempt _ (read_raw_instruction_timeout t) (fails short_r)
| at_device_write_status : forall id e n enc, encoder_ok enc -> ignores_old_bytes n enc ->
    attempt _ (device_write_status id e n enc) (fails short_w)
| at_device_write_status_error : forall id e, attempt _ (device_write_status_error id e) (fails short_w)
| at_device_write_status_ok : forall id, attempt _ (device_write_status_ok id) (fails short_w)
| at_ping : forall id, attempt _ (ping id) (fails short_t)
| at_scan : attempt _ scan (fails short_w)
| at_scan_next : attempt _ scan_next (yields short_r)
| at_read_bytes : forall id a n, attempt _ (read_bytes id a n) (fails short_t)
| at_read : forall A (D : data_impl A) id a, attempt _ (read D id a) (fails short_t)
| at_write : forall A (D : data_impl A) id a v, data_ok D -> ignores_old_bytes (d_size D) (d_encode D v) ->
    attempt _ (write D id a v) (fails short_t)
| at_write_bytes : forall id a d, attempt _ (write_bytes id a d) (fails short_t)
| at_reg_write : forall A (D : data_impl A) id a v, data_ok D -> ignores_old_bytes 1 (d_encode D v) ->
    attempt _ (reg_write D id a v) (fails short_t)
| at_reg_write_bytes : forall id a d, attempt _ (reg_write_bytes id a d) (fails short_t)
| at_action : forall id, attempt _ (action id) (fails short_t)
| at_broadcast_action : attempt _ broadcast_action (fails short_w)
| at_reboot : forall id, attempt _ (reboot id) (fails short_t)
| at_broadcast_reboot : attempt _ broadcast_reboot (fails short_w)
| at_factory_reset : forall id k, attempt _ (factory_reset id k) (fails short_t)
| at_broadcast_factory_reset : forall k, attempt _ (broadcast_factory_reset k) (fails short_w)
| at_clear_revolution_counter : forall id, attempt _ (clear_revolution_counter id) (fails short_t)
| at_broadcast_clear_revolution_counter : attempt _ broadcast_clear_revolution_counter (fails short_w)
| at_clear_error : forall id, attempt _ (clear_error id) (fails short_t)
| at_broadcast_clear_error : attempt _ broadcast_clear_error (fails short_w)
| at_sync_write : forall A (D : data_impl A) a l, data_ok D ->
    (forall x, In x l -> ignores_old_bytes 1 (d_encode D (sw_data x))) ->
    attempt _ (sync_write D a l) (fails short_w)
| at_sync_write_bytes : forall a n l, attempt _ (sync_write_bytes a n l) (fails short_w)
| at_bulk_write : forall l, attempt _ (bulk_write l) (fails short_w)
| at_sync_read_bytes : forall ids a n, attempt _ (sync_read_bytes ids a n) (fails short_w)
| at_srb_next : forall it, attempt _ (srb_next it) (yields_it short_r)
| at_sync_read : forall A (D : data_impl A) ids a, attempt _ (sync_read D ids a) (fails short_w)
| at_sr_next : forall A (D : data_impl A) it, attempt _ (sr_next D it) (yields_it short_r)
| at_bulk_read_bytes : forall l, attempt _ (bulk_read_bytes l) (fails short_w)
| at_br_next : forall it, attempt _ (br_next it) (yields_it short_r).
Arguments attempt {A} m c.

(** The calls on the port that are not reads (how many reads it takes to receive
    some bytes depends on the buffer). *)
Definition other_calls (evs : list io_event) : list io_event :=
  filter (fun e => match e with LRead _ _ _ | LReadWait _ _ => false | _ => true end) evs.

(** The calls that only listen. *)
Inductive listening : forall A, M A -> (A -> bool) -> Prop :=
| ls_read_status_response_timeout : forall t, listening _ (read_status_response_timeout t) (fails short_r)
| ls_read_status_response : forall n, listening _ (read_status_response n) (fails short_r)
| ls_device_read : forall t, listening _ (device_read t) (fails short_r)
| ls_device_read_owned : forall t, listening _ (device_read_owned t) (fails short_r)
| ls_read_raw_instruction_timeout : forall t, listening _ (read_raw_instruction_timeout t) (fails short_r)
| ls_scan_next : listening _ scan_next (yields short_r)
| ls_srb_next : forall it, listening _ (srb_next it) (yields_it short_r)
| ls_sr_next : forall A (D : data_impl A) it, listening _ (sr_next D it) (yields_it short_r)
| ls_br_next : forall it, listening _ (br_next it) (yields_it short_r).
Arguments listening {A} m c.
