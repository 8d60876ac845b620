(** * FaultySpec: what a port with wrong counts can do *)
From Verif Require Import Base Error Packet Time Bus Data Client Instructions Device Api Spec CallSpec SurviveSpec FaultyPort.

(** The bookkeeping is in order: what is said to be in the read buffer is in the
    read buffer, and the write buffer has room for a message and starts with the
    header. *)
Definition orderly (s : bus) : Prop :=
  (b_used s <= b_rlen s /\ b_rlen s <= length (b_rbuf s)) /\
  (10 <= length (b_wbuf s) /\ firstn 4 (b_wbuf s) = header).

(** The bookkeeping of the read buffer is off: more bytes than the buffer has. *)
Definition overrun (s : bus) : Prop := length (b_rbuf s) < b_rlen s.

(** As [s], but with nothing received. *)
Definition emptied (s : bus) : bus := set_used (set_rlen s 0) 0.

(** As [s], with a port that is going to answer [sc]. *)
Definition fed (s : bus) (sc : list rd_event) : bus :=
  let p := b_port s in
  set_port s (mkPort sc (p_discards p) (p_writes p) (p_setbauds p) (p_deadlines p) (p_log p)).

(** An honest answer that the client cannot tell from the given one: as many
    bytes as were reported, and as far as bytes were filled in, those. *)
Definition shows (f : fd_event) (r : rd_event) : Prop :=
  match f, r with
  | FdData bs count, RdData l =>
      length l = N.to_nat count /\ firstn (length bs) l = firstn (N.to_nat count) bs
  | FdErr e, RdErr e' => e = e'
  | _, _ => False
  end.

(** A count so large that the sum with the bytes in the buffer overflows. *)
Definition absurd_count (cap : nat) (f : fd_event) : Prop :=
  match f with FdData _ count => (usize_max < N.of_nat cap + count)%N | FdErr _ => False end.

(** A port that reports what it filled in. *)
Definition honest (f : fd_event) : Prop :=
  match f with FdData bs count => count = N.of_nat (length bs) | FdErr _ => True end.

(** The calls of the API that begin by sending a message. *)
Inductive sends : forall A E, M (result A E) -> Prop :=
| sends_write_instruction : forall id i n enc, encoder_ok enc -> sends _ _ (write_instruction id i n enc)
| sends_transfer_single : forall id i n e enc, encoder_ok enc -> sends _ _ (transfer_single id i n e enc)
| sends_status : forall id e n enc, encoder_ok enc -> sends _ _ (device_write_status id e n enc)
| sends_status_error : forall id e, sends _ _ (device_write_status_error id e)
| sends_status_ok : forall id, sends _ _ (device_write_status_ok id)
| sends_ping : forall id, sends _ _ (ping id)
| sends_scan : sends _ _ scan
| sends_read_bytes : forall id a n, sends _ _ (read_bytes id a n)
| sends_read : forall A (D : data_impl A) id a, sends _ _ (read D id a)
| sends_write : forall A (D : data_impl A) id a v, data_ok D -> sends _ _ (write D id a v)
| sends_write_bytes : forall id a d, sends _ _ (write_bytes id a d)
| sends_reg_write : forall A (D : data_impl A) id a v, data_ok D -> sends _ _ (reg_write D id a v)
| sends_reg_write_bytes : forall id a d, sends _ _ (reg_write_bytes id a d)
| sends_action : forall id, sends _ _ (action id)
| sends_broadcast_action : sends _ _ broadcast_action
| sends_reboot : forall id, sends _ _ (reboot id)
| sends_broadcast_reboot : sends _ _ broadcast_reboot
| sends_factory_reset : forall id k, sends _ _ (factory_reset id k)
| sends_broadcast_factory_reset : forall k, sends _ _ (broadcast_factory_reset k)
| sends_clear_revolution_counter : forall id, sends _ _ (clear_revolution_counter id)
| sends_broadcast_clear_revolution_counter : sends _ _ broadcast_clear_revolution_counter
| sends_clear_error : forall id, sends _ _ (clear_error id)
| sends_broadcast_clear_error : sends _ _ broadcast_clear_error
| sends_sync_write : forall A (D : data_impl A) a l, data_ok D -> sends _ _ (sync_write D a l)
| sends_sync_write_bytes : forall a n l, sends _ _ (sync_write_bytes a n l)
| sends_bulk_write : forall l, sends _ _ (bulk_write l)
| sends_sync_read_bytes : forall ids a n, sends _ _ (sync_read_bytes ids a n)
| sends_sync_read : forall A (D : data_impl A) ids a, sends _ _ (sync_read D ids a)
| sends_bulk_read_bytes : forall l, sends _ _ (bulk_read_bytes l).
Arguments sends {A E}.
