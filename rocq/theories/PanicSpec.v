(** * PanicSpec: calls that cannot panic *)
From Verif Require Import Base Endian Error Packet Time Bus Data Client Instructions Device
  Spec Api CallSpec StreamSpec InstructionSpec TwinSpec SurviveSpec.

Definition panics {A} (o : out A) : Prop := exists k, o = Panic k.

(** A message with [n] parameters is safe to send through a write buffer of [room] bytes: either it does not fit even if
    nothing has to be stuffed (the call then returns an error), or it fits even if as many bytes as possible have to be
    stuffed, and then its length can also be written in the message. *)
Definition safe_size (room n : nat) : Prop :=
  room < n + 10 /\ (N.of_nat (n + 10) < 2 ^ 64)%N \/
  10 + n + (n + 1) / 3 <= room /\ (N.of_nat (n + (n + 1) / 3 + 3) < 2 ^ 16)%N.

(** A closure or a [Data] implementation of the user that does not panic on [n] bytes to fill, ... *)
Definition safe_closure (n : nat) (enc : encoder) : Prop := forall b, length b = n -> ~ panics (enc b).
(** ... or when it is given as many bytes as it asked for. *)
Definition safe_decode {A} (D : data_impl A) : Prop := forall b, length b = d_size D -> ~ panics (d_decode D b).

(** The calls of the API, with arguments that respect what the functions ask for; [room] is the size of the write buffer.
    Every value of the argument types of Rust is allowed if not excluded here. *)
Inductive careful (room : nat) : forall A, M A -> Prop :=
| ca_set_baud_rate : forall baud, baud <> 0%N -> (baud < 2 ^ 32)%N -> careful room _ (client_set_baud_rate baud)
| ca_transfer_single : forall id i n e enc, encoder_ok enc -> safe_closure n enc -> safe_size room n -> is_u16 e ->
    careful room _ (transfer_single id i n e enc)
| ca_write_instruction : forall id i n enc, encoder_ok enc -> safe_closure n enc -> safe_size room n ->
    careful room _ (write_instruction id i n enc)
| ca_read_status_response_timeout : forall t, careful room _ (read_status_response_timeout t)
| ca_read_status_response : forall n, is_u16 n -> careful room _ (read_status_response n)
| ca_device_read : forall t, careful room _ (device_read t)
| ca_device_read_owned : forall t, careful room _ (device_read_owned t)
| ca_read_raw_instruction_timeout : forall t, careful room _ (read_raw_instruction_timeout t)
| ca_device_write_status : forall id e n enc, encoder_ok enc -> safe_closure n enc -> safe_size room (1 + n) ->
    careful room _ (device_write_status id e n enc)
| ca_device_write_status_error : forall id e, careful room _ (device_write_status_error id e)
| ca_device_write_status_ok : forall id, careful room _ (device_write_status_ok id)
| ca_ping : forall id, careful room _ (ping id)
| ca_scan : careful room _ scan
| ca_scan_next : careful room _ scan_next
| ca_scan_drop : forall n, careful room _ (scan_drop n)
| ca_read_bytes : forall id a n, is_u16 n -> safe_size room 4 -> careful room _ (read_bytes id a n)
| ca_read : forall A (D : data_impl A) id a, is_u16 (N.of_nat (d_size D)) -> safe_decode D -> safe_size room 4 ->
    careful room _ (read D id a)
| ca_write : forall A (D : data_impl A) id a v, data_ok D -> safe_closure (d_size D) (d_encode D v) ->
    safe_size room (2 + d_size D) -> careful room _ (write D id a v)
| ca_write_bytes : forall id a d, safe_size room (2 + length d) -> careful room _ (write_bytes id a d)
| ca_reg_write : forall A (D : data_impl A) id a v, data_ok D -> safe_closure 1 (d_encode D v) -> safe_size room 3 ->
    careful room _ (reg_write D id a v)
| ca_reg_write_bytes : forall id a d, safe_size room (2 + length d) -> careful room _ (reg_write_bytes id a d)
| ca_action : forall id, careful room _ (action id)
| ca_broadcast_action : careful room _ broadcast_action
| ca_reboot : forall id, careful room _ (reboot id)
| ca_broadcast_reboot : careful room _ broadcast_reboot
| ca_factory_reset : forall id k, careful room _ (factory_reset id k)
| ca_broadcast_factory_reset : forall k, careful room _ (broadcast_factory_reset k)
| ca_clear_revolution_counter : forall id, careful room _ (clear_revolution_counter id)
| ca_broadcast_clear_revolution_counter : careful room _ broadcast_clear_revolution_counter
| ca_clear_error : forall id, careful room _ (clear_error id)
| ca_broadcast_clear_error : careful room _ broadcast_clear_error
| ca_sync_write : forall A (D : data_impl A) a l, data_ok D -> Forall (fun c => safe_closure 1 (d_encode D (sw_data c))) l ->
    safe_size room (4 + 2 * length l) -> careful room _ (sync_write D a l)
| ca_sync_write_bytes : forall a n l, Forall (fun c => length (sw_data c) = N.to_nat n) l ->
    safe_size room (4 + length l * (1 + N.to_nat n)) -> careful room _ (sync_write_bytes a n l)
| ca_bulk_write : forall l, Forall (fun c => is_u16 (N.of_nat (length (bw_data c)))) l ->
    safe_size room (list_sum (map (fun c => 5 + length (bw_data c)) l)) -> careful room _ (bulk_write l)
| ca_sync_read_bytes : forall ids a n, safe_size room (4 + length ids) -> careful room _ (sync_read_bytes ids a n)
| ca_srb_next : forall it, is_u16 (srb_count it) -> careful room _ (srb_next it)
| ca_srb_drop : forall it, is_u16 (srb_count it) -> careful room _ (srb_drop it)
| ca_sync_read : forall A (D : data_impl A) ids a, safe_size room (4 + length ids) -> careful room _ (sync_read D ids a)
| ca_sr_next : forall A (D : data_impl A) it, is_u16 (N.of_nat (d_size D)) -> safe_decode D -> careful room _ (sr_next D it)
| ca_sr_drop : forall A (D : data_impl A) it, is_u16 (N.of_nat (d_size D)) -> safe_decode D -> careful room _ (sr_drop D it)
| ca_bulk_read_bytes : forall l, NoDup (map br_id l) -> safe_size room (5 * length l) -> careful room _ (bulk_read_bytes l)
| ca_br_next : forall it, Forall (fun q => is_u16 (br_count q)) (br_reads it) -> careful room _ (br_next it)
| ca_br_drop : forall it, Forall (fun q => is_u16 (br_count q)) (br_reads it) -> br_index it <= length (br_reads it) ->
    careful room _ (br_drop it).
Arguments careful room {A} m.

(** Where such calls lead, starting from [s0]. *)
Inductive carefully (s0 : bus) : bus -> Prop :=
| cf_start : carefully s0 s0
| cf_call : forall A (m : M A) s a s', carefully s0 s -> careful (length (b_wbuf s0)) m -> m s = (Val a, s') -> carefully s0 s'.
