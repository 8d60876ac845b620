(** * Api: every way a user can drive a [Client] or [Device]

    [api] lists the public functions of the crate that touch the bus; [reach]
    is the set of bus states any sequence of them can lead to.  The theorems of
    the [P_*] files quantify over [reach]. *)
From Verif Require Import Base Endian Error Packet Time Bus Data Client Instructions Device.

(** A closure or a [Data] implementation gets a [&mut \[u8\]] and cannot change
    its length. *)
Definition encoder_ok (enc : encoder) : Prop :=
  forall s s' r, enc s = Val (s', r) -> length s' = length s.
Definition data_ok {A} (D : data_impl A) : Prop := forall v, encoder_ok (d_encode D v).

Inductive api : forall A, M A -> Prop :=
(* client.rs, device.rs *)
| api_set_baud_rate : forall baud, api _ (client_set_baud_rate baud)
| api_transfer_single : forall id i n e enc, encoder_ok enc -> api _ (transfer_single id i n e enc)
| api_write_instruction : forall id i n enc, encoder_ok enc -> api _ (write_instruction id i n enc)
| api_read_status_response_timeout : forall t, api _ (read_status_response_timeout t)
| api_read_status_response : forall n, api _ (read_status_response n)
| api_device_read : forall t, api _ (device_read t)
| api_device_read_owned : forall t, api _ (device_read_owned t)
| api_read_raw_instruction_timeout : forall t, api _ (read_raw_instruction_timeout t)
| api_device_write_status : forall id e n enc, encoder_ok enc -> api _ (device_write_status id e n enc)
| api_device_write_status_error : forall id e, api _ (device_write_status_error id e)
| api_device_write_status_ok : forall id, api _ (device_write_status_ok id)
(* instructions/*.rs *)
| api_ping : forall id, api _ (ping id)
| api_scan : api _ scan
| api_scan_next : api _ scan_next
| api_scan_drop : forall n, api _ (scan_drop n)
| api_read_bytes : forall id a n, api _ (read_bytes id a n)
| api_read : forall A (D : data_impl A) id a, api _ (read D id a)
| api_write : forall A (D : data_impl A) id a v, data_ok D -> api _ (write D id a v)
| api_write_bytes : forall id a d, api _ (write_bytes id a d)
| api_reg_write : forall A (D : data_impl A) id a v, data_ok D -> api _ (reg_write D id a v)
| api_reg_write_bytes : forall id a d, api _ (reg_write_bytes id a d)
| api_action : forall id, api _ (action id)
| api_broadcast_action : api _ broadcast_action
| api_reboot : forall id, api _ (reboot id)
| api_broadcast_reboot : api _ broadcast_reboot
| api_factory_reset : forall id k, api _ (factory_reset id k)
| api_broadcast_factory_reset : forall k, api _ (broadcast_factory_reset k)
| api_clear_revolution_counter : forall id, api _ (clear_revolution_counter id)
| api_broadcast_clear_revolution_counter : api _ broadcast_clear_revolution_counter
| api_clear_error : forall id, api _ (clear_error id)
| api_broadcast_clear_error : api _ broadcast_clear_error
| api_sync_write : forall A (D : data_impl A) a l, data_ok D -> api _ (sync_write D a l)
| api_sync_write_bytes : forall a n l, api _ (sync_write_bytes a n l)
| api_bulk_write : forall l, api _ (bulk_write l)
| api_sync_read_bytes : forall ids a n, api _ (sync_read_bytes ids a n)
| api_srb_next : forall it, api _ (srb_next it)
| api_srb_drop : forall it, api _ (srb_drop it)
| api_sync_read : forall A (D : data_impl A) ids a, api _ (sync_read D ids a)
| api_sr_next : forall A (D : data_impl A) it, api _ (sr_next D it)
| api_sr_drop : forall A (D : data_impl A) it, api _ (sr_drop D it)
| api_bulk_read_bytes : forall l, api _ (bulk_read_bytes l)
| api_br_next : forall it, api _ (br_next it)
| api_br_drop : forall it, api _ (br_drop it).
Arguments api {A} m.

(** A state some sequence of returning calls can lead to, starting from a
    fresh client or device over any port and any buffers. *)
Inductive reach : bus -> Prop :=
| reach_new : forall dbg p rb wb baud s,
    with_buffers_and_baud_rate dbg p rb wb baud = Val s -> reach s
| reach_call : forall A (m : M A) s a s',
    reach s -> api m -> m s = (Val a, s') -> reach s'.
