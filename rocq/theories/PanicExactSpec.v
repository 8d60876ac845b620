(** * PanicExactSpec: when exactly a call panics *)
From Verif Require Import Base Endian Error Packet Time Bus Data Client Instructions
  Device Spec Api CallSpec StreamSpec InstructionSpec TwinSpec SurviveSpec PanicSpec RemoteSpec.

(** The length of the body of a message (the instruction and its parameters, or 55, the error byte and the parameters)
    with the bytes that are inserted for stuffing. *)
Definition inflated (body : list byte) : nat := length body + noticed_from 0 body.

(** Sending a message with this body through a write buffer of [room] bytes panics: its length does not fit in a [usize];
    or its unstuffed and its stuffed bytes fit, but not the two bytes of the checksum; or the 16 bits of the length overflow
    in a build that checks for it. *)
Definition write_trouble (dbg : bool) (room : nat) (body : list byte) : Prop :=
  (usize_max < N.of_nat (length body + 9))%N \/
  length body + 9 <= room /\ 7 + inflated body <= room /\
    (room < 9 + inflated body \/ dbg = true /\ (2 ^ 16 <= N.of_nat (inflated body) mod 2 ^ 16 + 2)%N).

(** The message is transmitted: there is room for it, and the port accepts it. *)
Definition goes_out (s : bus) (body : list byte) : Prop :=
  ~ write_trouble (b_dbg s) (length (b_wbuf s)) body /\
  length body + 9 <= length (b_wbuf s) /\ 9 + inflated body <= length (b_wbuf s) /\ port_ready s.

(** The first message that comes in is one that lacks the bytes the client looks at. *)
Definition fatal_answer (s : bus) : Prop :=
  10 <= length (b_rbuf s) /\
  exists g w rest, ~ contains g header /\ fatal w /\ incoming s = map inl (g ++ w) ++ rest.

(** The same for a client that waits already: bytes it has received before count as well. *)
Definition fatal_next (s : bus) : Prop :=
  10 <= length (b_rbuf s) /\
  exists g w rest, ~ contains g header /\ fatal w /\ pending s = map inl (g ++ w) ++ rest.

(** The calls that transmit the instruction [i] with the parameters [params] and wait for one answer. *)
Inductive waits : forall B, M (result B transfer_error) -> byte -> byte -> list byte -> Prop :=
| wa_transfer_single : forall id i k enc params, writes_parameters enc params -> is_u16 k ->
    waits _ (transfer_single id i (length params) k enc) id i params
| wa_ping : forall id, waits _ (ping id) id x01 []
| wa_read_bytes : forall id a n, is_u16 n -> waits _ (read_bytes id a n) id x02 (le16 a ++ le16 n)
| wa_read : forall A (D : data_impl A) id a, is_u16 (N.of_nat (d_size D)) -> safe_decode D ->
    waits _ (read D id a) id x02 (le16 a ++ le16 (N.of_nat (d_size D)))
| wa_write : forall A (D : data_impl A) id a v bytes, id <> xfe -> data_ok D -> encodes_as D v bytes ->
    waits _ (write D id a v) id x03 (le16 a ++ bytes)
| wa_write_bytes : forall id a d, id <> xfe -> waits _ (write_bytes id a d) id x03 (le16 a ++ d)
(* values of one byte: for wider ones nothing is transmitted (C30, C31) *)
| wa_reg_write : forall A (D : data_impl A) id a v bytes, id <> xfe -> data_ok D -> d_size D = 1 -> encodes_as D v bytes ->
    waits _ (reg_write D id a v) id x04 (le16 a ++ bytes)
| wa_reg_write_bytes : forall id a d, id <> xfe -> waits _ (reg_write_bytes id a d) id x04 (le16 a ++ d)
| wa_action : forall id, id <> xfe -> waits _ (action id) id x05 []
| wa_factory_reset : forall id k, id <> xfe -> waits _ (factory_reset id k) id x06 [reset_code k]
| wa_reboot : forall id, id <> xfe -> waits _ (reboot id) id x08 []
| wa_clear_revolution_counter : forall id, id <> xfe ->
    waits _ (clear_revolution_counter id) id x10 [x01; x44; x58; x4c; x22]
| wa_clear_error : forall id, id <> xfe -> waits _ (clear_error id) id x10 [x01; x45; x52; x43; x4c].
Arguments waits {B}.

(** The calls that transmit one message (this is its body) and wait for nothing.  Those for one motor are among them if they
    are used with the id that addresses all motors. *)
Inductive tells : forall B E, M (result B E) -> list byte -> Prop :=
| te_write_instruction : forall id i enc params, writes_parameters enc params ->
    tells _ _ (write_instruction id i (length params) enc) (i :: params)
| te_device_write_status : forall id e enc params, writes_parameters enc params ->
    tells _ _ (device_write_status id e (length params) enc) (x55 :: e :: params)
| te_device_write_status_error : forall id e, tells _ _ (device_write_status_error id e) [x55; e]
| te_device_write_status_ok : forall id, tells _ _ (device_write_status_ok id) [x55; x00]
| te_scan : tells _ _ scan [x01]
| te_broadcast_action : tells _ _ broadcast_action [x05]
| te_broadcast_factory_reset : forall k, tells _ _ (broadcast_factory_reset k) [x06; reset_code k]
| te_broadcast_reboot : tells _ _ broadcast_reboot [x08]
| te_broadcast_clear_revolution_counter :
    tells _ _ broadcast_clear_revolution_counter [x10; x01; x44; x58; x4c; x22]
| te_broadcast_clear_error : tells _ _ broadcast_clear_error [x10; x01; x45; x52; x43; x4c]
| te_sync_write_bytes : forall a n l, Forall (fun c => length (sw_data c) = N.to_nat n) l ->
    tells _ _ (sync_write_bytes a n l) (x83 :: le16 a ++ le16 n ++ sync_entries l)
| te_sync_write : forall A (D : data_impl A) a l l', data_ok D -> d_size D = 1 ->
    Forall2 (fun c c' => sw_id c = sw_id c' /\ encodes_as D (sw_data c) (sw_data c')) l l' ->
    tells _ _ (sync_write D a l) (x83 :: le16 a ++ le16 1 ++ sync_entries l')
| te_bulk_write : forall l, Forall (fun c => is_u16 (N.of_nat (length (bw_data c)))) l ->
    tells _ _ (bulk_write l) (x93 :: bulk_write_entries l)
| te_sync_read_bytes : forall ids a n, tells _ _ (sync_read_bytes ids a n) (x82 :: le16 a ++ le16 n ++ ids)
| te_sync_read : forall A (D : data_impl A) ids a,
    tells _ _ (sync_read D ids a) (x82 :: le16 a ++ le16 (N.of_nat (d_size D)) ++ ids)
| te_bulk_read_bytes : forall l, NoDup (map br_id l) -> tells _ _ (bulk_read_bytes l) (x92 :: bulk_read_entries l)
| te_write : forall A (D : data_impl A) a v bytes, data_ok D -> encodes_as D v bytes ->
    tells _ _ (write D xfe a v) (x03 :: le16 a ++ bytes)
| te_write_bytes : forall a d, tells _ _ (write_bytes xfe a d) (x03 :: le16 a ++ d)
| te_reg_write : forall A (D : data_impl A) a v bytes, data_ok D -> d_size D = 1 -> encodes_as D v bytes ->
    tells _ _ (reg_write D xfe a v) (x04 :: le16 a ++ bytes)
| te_reg_write_bytes : forall a d, tells _ _ (reg_write_bytes xfe a d) (x04 :: le16 a ++ d)
| te_action : tells _ _ (action xfe) [x05]
| te_factory_reset : forall k, tells _ _ (factory_reset xfe k) [x06; reset_code k]
| te_reboot : tells _ _ (reboot xfe) [x08]
| te_clear_revolution_counter : tells _ _ (clear_revolution_counter xfe) [x10; x01; x44; x58; x4c; x22]
| te_clear_error : tells _ _ (clear_error xfe) [x10; x01; x45; x52; x43; x4c].
Arguments tells {B E}.

(** The calls that only wait for one message.  The iterators do so as long as answers are due (then the flag is [true]). *)
Inductive listens_once : forall B, M B -> bool -> Prop :=
| lo_read_status_response : forall k, is_u16 k -> listens_once _ (read_status_response k) true
| lo_scan_next : listens_once _ scan_next true
| lo_srb_next : forall n ids j, is_u16 n -> listens_once _ (srb_next (mkSRB n ids j)) (j <? length ids)
| lo_sr_next : forall A (D : data_impl A) ids j, is_u16 (N.of_nat (d_size D)) -> safe_decode D ->
    listens_once _ (sr_next D (mkSR ids j)) (j <? length ids)
| lo_br_next : forall l j, Forall (fun q => is_u16 (br_count q)) l ->
    listens_once _ (br_next (mkBR l j)) (j <? length l).
Arguments listens_once {B}.
