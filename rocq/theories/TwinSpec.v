(** * TwinSpec: what the behaviour of a client or device may depend on *)
From Verif Require Import Base Endian Error Packet Time Bus Data Client Instructions Device Api CallSpec.

(** Two buses that differ at most in leftovers: the old contents of the buffers,
    where in the read buffer the unread bytes are, and the log of past calls.
    Equal are the settings, the capacities of the buffers, the bytes received
    but not yet handed out, and what the port is going to answer. *)
Record twins (s t : bus) : Prop := mkTwins {
  tw_baud : b_baud s = b_baud t;
  tw_dbg : b_dbg s = b_dbg t;
  tw_rcap : length (b_rbuf s) = length (b_rbuf t);
  tw_wcap : length (b_wbuf s) = length (b_wbuf t);
  tw_unread : skipn (b_used s) (firstn (b_rlen s) (b_rbuf s)) = skipn (b_used t) (firstn (b_rlen t) (b_rbuf t));
  tw_script : p_script (b_port s) = p_script (b_port t);
  tw_discards : p_discards (b_port s) = p_discards (b_port t);
  tw_writes : p_writes (b_port s) = p_writes (b_port t);
  tw_setbauds : p_setbauds (b_port s) = p_setbauds (b_port t);
  tw_deadlines : p_deadlines (b_port s) = p_deadlines (b_port t);
}.

(** A closure that, given [n] bytes to fill, does not look at what they were. *)
Definition ignores_old_bytes (n : nat) (enc : encoder) : Prop :=
  forall l l', length l = n -> length l' = n ->
  match enc l, enc l' with
  | Val (p, r), Val (p', r') => r = r' /\ (r = Ok tt -> p = p')
  | Panic a, Panic b => a = b
  | Blocked, Blocked => True
  | _, _ => False
  end.

(** The calls of the API, with closures and [Data] implementations of the user
    that do not look at the old bytes of the buffer they are to fill. *)
Inductive steady : forall A, M A -> Prop :=
| st_set_baud_rate : forall baud, steady _ (client_set_baud_rate baud)
| st_transfer_single : forall id i n e enc, encoder_ok enc -> ignores_old_bytes n enc ->
    steady _ (transfer_single id i n e enc)
| st_write_instruction : forall id i n enc, encoder_ok enc -> ignores_old_bytes n enc ->
    steady _ (write_instruction id i n enc)
| st_read_status_response_timeout : forall t, steady _ (read_status_response_timeout t)
| st_read_status_response : forall n, steady _ (read_status_response n)
| st_device_read : forall t, steady _ (device_read t)
| st_device_read_owned : forall t, steady _ (device_read_owned t)
| st_read_raw_instruction_timeout : forall t, steady _ (read_raw_instruction_timeout t)
| st_device_write_status : forall id e n enc, encoder_ok enc -> ignores_old_bytes n enc ->
    steady _ (device_write_status id e n enc)
| st_device_write_status_error : forall id e, steady _ (device_write_status_error id e)
| st_device_write_status_ok : forall id, steady _ (device_write_status_ok id)
| st_ping : forall id, steady _ (ping id)
| st_scan : steady _ scan
| st_scan_next : steady _ scan_next
| st_scan_drop : forall n, steady _ (scan_drop n)
| st_read_bytes : forall id a n, steady _ (read_bytes id a n)
| st_read : forall A (D : data_impl A) id a, steady _ (read D id a)
| st_write : forall A (D : data_impl A) id a v, data_ok D -> ignores_old_bytes (d_size D) (d_encode D v) ->
    steady _ (write D id a v)
| st_write_bytes : forall id a d, steady _ (write_bytes id a d)
| st_reg_write : forall A (D : data_impl A) id a v, data_ok D -> ignores_old_bytes 1 (d_encode D v) ->
    steady _ (reg_write D id a v)
| st_reg_write_bytes : forall id a d, steady _ (reg_write_bytes id a d)
| st_action : forall id, steady _ (action id)
| st_broadcast_action : steady _ broadcast_action
| st_reboot : forall id, steady _ (reboot id)
| st_broadcast_reboot : steady _ broadcast_reboot
| st_factory_reset : forall id k, steady _ (factory_reset id k)
| st_broadcast_factory_reset : forall k, steady _ (broadcast_factory_reset k)
| st_clear_revolution_counter : forall id, steady _ (clear_revolution_counter id)
| st_broadcast_clear_revolution_counter : steady _ broadcast_clear_revolution_counter
| st_clear_error : forall id, steady _ (clear_error id)
| st_broadcast_clear_error : steady _ broadcast_clear_error
| st_sync_write : forall A (D : data_impl A) a l, data_ok D ->
    (forall x, In x l -> ignores_old_bytes 1 (d_encode D (sw_data x))) -> steady _ (sync_write D a l)
| st_sync_write_bytes : forall a n l, steady _ (sync_write_bytes a n l)
| st_bulk_write : forall l, steady _ (bulk_write l)
| st_sync_read_bytes : forall ids a n, steady _ (sync_read_bytes ids a n)
| st_srb_next : forall it, steady _ (srb_next it)
| st_srb_drop : forall it, steady _ (srb_drop it)
| st_sync_read : forall A (D : data_impl A) ids a, steady _ (sync_read D ids a)
| st_sr_next : forall A (D : data_impl A) it, steady _ (sr_next D it)
| st_sr_drop : forall A (D : data_impl A) it, steady _ (sr_drop D it)
| st_bulk_read_bytes : forall l, steady _ (bulk_read_bytes l)
| st_br_next : forall it, steady _ (br_next it)
| st_br_drop : forall it, steady _ (br_drop it).
Arguments steady {A} m.

(** Any number of calls in a row, each chosen from the results of the ones
    before: what a program using the crate does. *)
Inductive program (R : Type) : Type :=
| Done : R -> program R
| Call : forall A (m : M A), steady m -> (A -> program R) -> program R.
Arguments Done {R} r.
Arguments Call {R A} m H k.

(** How a program ends, with which calls on the port, and in which state. *)
Inductive runs {R} : program R -> bus -> out R -> list io_event -> bus -> Prop :=
| runs_done : forall r s, runs (Done r) s (Val r) [] s
| runs_call : forall A (m : M A) (H : steady m) k s a s1 evs o evs' s2,
    m s = (Val a, s1) -> calls s s1 evs -> runs (k a) s1 o evs' s2 ->
    runs (Call m H k) s o (evs ++ evs') s2
| runs_panic : forall A (m : M A) (H : steady m) k s p s1 evs,
    m s = (Panic p, s1) -> calls s s1 evs -> runs (Call m H k) s (Panic p) evs s1
| runs_blocked : forall A (m : M A) (H : steady m) k s s1 evs,
    m s = (Blocked, s1) -> calls s s1 evs -> runs (Call m H k) s Blocked evs s1.
