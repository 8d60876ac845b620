(** * Instructions: model of /repo/src/instructions/*.rs

    One definition per public function.  Addresses and counts are [u16] ([N]),
    motor ids are bytes. *)
From Verif Require Import Base Endian Error Packet Time Bus Data Client.

Definition no_params : encoder := fun b => Val (b, Ok tt).

(** Lift an infallible encoder ([...; Ok(())]). *)
Definition enc_ok (f : list byte -> out (list byte)) : encoder :=
  fun b => let* b' := f b in Val (b', Ok tt).

(** instructions/mod.rs:106-123 [read_response_if_not_broadcast] *)
Definition read_response_if_not_broadcast (motor_id : byte)
  : M (result (response unit) read_error) :=
  if beq motor_id BROADCAST then ret (Ok (mkResponse BROADCAST false tt))
  else
  try_ (fun e => e) (read_status_response 0) (fun p =>
  r <- lift (response_unit p) ;;
  ret (map_err RInvalidMessage r)).

(** The common shape "write_instruction, then read_response_if_not_broadcast"
    of write.rs, reg_write.rs, action.rs, reboot.rs, factory_reset.rs, clear.rs. *)
Definition instruct (motor_id instruction_id : byte) (parameter_count : nat) (f : encoder)
  : M (result (response unit) transfer_error) :=
  try_ TWriteError (write_instruction motor_id instruction_id parameter_count f) (fun _ =>
  try_ TReadError (read_response_if_not_broadcast motor_id) (fun r =>
  ret (Ok r))).

(** ** action.rs *)

(** action.rs:15-18 *)
Definition action (motor_id : byte) := instruct motor_id ACTION 0 no_params.
(** action.rs:21-23 *)
Definition broadcast_action : M (result unit write_error) :=
  write_instruction BROADCAST ACTION 0 no_params.

(** ** reboot.rs *)

(** reboot.rs:19-22 *)
Definition reboot (motor_id : byte) := instruct motor_id REBOOT 0 no_params.
(** reboot.rs:25-27 *)
Definition broadcast_reboot : M (result unit write_error) :=
  write_instruction BROADCAST REBOOT 0 no_params.

(** ** factory_reset.rs *)

(** factory_reset.rs:7-16 [FactoryResetKind] *)
Inductive factory_reset_kind := ResetAll | KeepId | KeepIdAndBaudRate.
Definition factory_reset_kind_u8 (k : factory_reset_kind) : byte :=
  match k with ResetAll => xff | KeepId => x01 | KeepIdAndBaudRate => x02 end.

Definition factory_reset_params (k : factory_reset_kind) : encoder :=
  enc_ok (fun b => set b 0 (factory_reset_kind_u8 k)).

(** factory_reset.rs:40-46 *)
Definition factory_reset (motor_id : byte) (k : factory_reset_kind) :=
  instruct motor_id FACTORY_RESET 1 (factory_reset_params k).
(** factory_reset.rs:59-65 *)
Definition broadcast_factory_reset (k : factory_reset_kind) : M (result unit write_error) :=
  write_instruction BROADCAST FACTORY_RESET 1 (factory_reset_params k).

(** ** clear.rs *)

(** clear.rs:5 *)
Definition CLEAR_REVOLUTION_COUNT : list byte := [x01; x44; x58; x4c; x22].
(** clear.rs:10 *)
Definition CLEAR_ERROR : list byte := [x01; x45; x52; x43; x4c].

(** clear.rs:80-83 *)
Definition clear_revolution_count_parameters : encoder :=
  enc_ok (fun b => copy_from_slice b CLEAR_REVOLUTION_COUNT).
(** clear.rs:85-88 *)
Definition clear_error_parameters : encoder :=
  enc_ok (fun b => copy_from_slice b CLEAR_ERROR).

(** clear.rs:27-35 *)
Definition clear_revolution_counter (motor_id : byte) :=
  instruct motor_id CLEAR (length CLEAR_REVOLUTION_COUNT) clear_revolution_count_parameters.
(** clear.rs:42-50 *)
Definition broadcast_clear_revolution_counter : M (result unit write_error) :=
  write_instruction BROADCAST CLEAR (length CLEAR_REVOLUTION_COUNT) clear_revolution_count_parameters.
(** clear.rs:58-61 *)
Definition clear_error (motor_id : byte) :=
  instruct motor_id CLEAR (length CLEAR_ERROR) clear_error_parameters.
(** clear.rs:69-77 *)
Definition broadcast_clear_error : M (result unit write_error) :=
  write_instruction BROADCAST CLEAR (length CLEAR_ERROR) clear_error_parameters.

(** ** ping.rs *)

(** ping.rs:9-17 [Ping] *)
Record ping_data := mkPing { ping_model : N; ping_firmware : byte }.

(** ping.rs:19-34 [TryFrom<StatusPacket> for Response<Ping>] *)
Definition response_ping (p : packet) : out (result (response ping_data) invalid_message) :=
  let* ps := st_parameters p in
  match param_count_check (length ps) 3 with
  | Err e => Val (Err e)
  | Ok _ =>
      let* id := pk_id p in
      let* alert := st_alert p in
      let* m := slice_from ps 0 in
      let* model := read_u16_le m in
      let* f := slice_from ps 2 in
      let* firmware := read_u8_le f in
      Val (Ok (mkResponse id alert (mkPing model firmware)))
  end.

(** ping.rs:45-48 [ping] *)
Definition ping (motor_id : byte) : M (result (response ping_data) transfer_error) :=
  try_ (fun e => e) (transfer_single motor_id PING 0 3 no_params) (fun p =>
  r <- lift (response_ping p) ;;
  ret (map_err (fun e => TReadError (RInvalidMessage e)) r)).

(** ping.rs:51-54 [scan]; the [Scan] object is only a reference to the client. *)
Definition scan : M (result unit write_error) := write_instruction BROADCAST PING 0 no_params.

(** ping.rs:104-105, the timeout of one scan step *)
Definition scan_timeout (dbg : bool) (baud : N) : out duration :=
  let* t := message_transfer_time dbg 14 baud in
  let* t := dur_mul t 253 in
  dur_add t dur_34ms.

(** ping.rs:103-109 [Scan::next_response] *)
Definition scan_next_response : M (result (response ping_data) read_error) :=
  s <- get ;;
  timeout <- lift (scan_timeout (b_dbg s) (b_baud s)) ;;
  try_ (fun e => e) (read_status_response_timeout timeout) (fun p =>
  r <- lift (response_ping p) ;;
  ret (map_err RInvalidMessage r)).

(** ping.rs:91-101 [Scan::scan_next], 129-131 [Iterator::next] *)
Definition scan_next : M (option (result (response ping_data) read_error)) :=
  r <- scan_next_response ;;
  ret (match r with
       | Ok response => Some (Ok response)
       | Err (RIo e) => if is_timeout_error e then None else Some (Err (RIo e))
       | Err e => Some (Err e)
       end).

(** ping.rs:112-120 [Drop for Scan]: [while self.next().is_some() {}].  Run for
    at most [fuel] iterations; the result says whether the loop has ended. *)
Fixpoint scan_drop (fuel : nat) : M bool :=
  match fuel with
  | O => ret false
  | S fuel' =>
      r <- scan_next ;;
      match r with
      | None => ret true
      | Some _ => scan_drop fuel'
      end
  end.

(** ** read.rs *)

(** read.rs:12-20 [read_raw] *)
Definition read_raw (motor_id : byte) (address count : N) : M (result packet transfer_error) :=
  try_ (fun e => e)
    (transfer_single motor_id READ 4 count
       (enc_ok (fun b => let* b := write_u16_at b 0 address in write_u16_at b 2 count)))
  (fun response =>
  ps <- lift (st_parameters response) ;;
  tryr (fun e => TReadError (RInvalidMessage e))
       (param_count_check (length ps) (N.to_nat count)) (fun _ =>
  ret (Ok response))).

(** read.rs:26-32 [read_bytes] *)
Definition read_bytes (motor_id : byte) (address count : N)
  : M (result (response (list byte)) transfer_error) :=
  try_ (fun e => e) (read_raw motor_id address count) (fun status =>
  r <- lift (decode_status_packet_bytes status) ;;
  ret (map_err TReadError r)).

(** read.rs:40-46 [read] *)
Definition read {A} (D : data_impl A) (motor_id : byte) (address : N)
  : M (result (response A) transfer_error) :=
  try_ (fun e => e) (read_raw motor_id address (N.of_nat (d_size D))) (fun status =>
  r <- lift (decode_status_packet D status) ;;
  ret (map_err TReadError r)).

(** ** write.rs *)

(** write.rs:16-20, the parameters of [write] and (reg_write.rs:39-42) [reg_write] *)
Definition address_and_value {A} (D : data_impl A) (address : N) (v : A) : encoder := fun b =>
  let* b := write_u16_at b 0 address in
  with_slice b 2 (length b) (d_encode D v).

(** write.rs:29-33 and reg_write.rs:21-25 *)
Definition address_and_bytes (address : N) (data : list byte) : encoder :=
  enc_ok (fun b => let* b := write_u16_at b 0 address in copy_into b 2 (length b) data).

(** write.rs:15-22 [write] *)
Definition write {A} (D : data_impl A) (motor_id : byte) (address : N) (v : A) :=
  instruct motor_id WRITE (2 + d_size D) (address_and_value D address v).

(** write.rs:28-35 [write_bytes] *)
Definition write_bytes (motor_id : byte) (address : N) (data : list byte) :=
  instruct motor_id WRITE (2 + length data) (address_and_bytes address data).

(** ** reg_write.rs *)

(** reg_write.rs:20-27 [reg_write_bytes] *)
Definition reg_write_bytes (motor_id : byte) (address : N) (data : list byte) :=
  instruct motor_id REG_WRITE (2 + length data) (address_and_bytes address data).

(** reg_write.rs:38-44 [reg_write] (the parameter count is the literal [2 + 1]) *)
Definition reg_write {A} (D : data_impl A) (motor_id : byte) (address : N) (v : A) :=
  instruct motor_id REG_WRITE (2 + 1) (address_and_value D address v).

(** ** sync_write.rs *)

(** instructions/mod.rs:50-56 [SyncWriteData] *)
Record sync_write_data (A : Type) := mkSync { sw_id : byte; sw_data : A }.
Arguments mkSync {A}.
Arguments sw_id {A}.
Arguments sw_data {A}.

(** sync_write.rs:60-66 *)
Fixpoint sync_write_bytes_loop (count i : nat) (data : list (sync_write_data (list byte)))
    (buffer : list byte) : out (list byte) :=
  match data with
  | [] => Val buffer
  | command :: rest =>
      if negb (length (sw_data command) =? count) then Panic PAssert
      else
        let stride := 1 + count in
        let* '(buffer, _) := with_slice buffer (4 + i * stride) (4 + i * stride + stride)
          (fun b => let* b := set b 0 (sw_id command) in
                    let* b := copy_into b 1 (length b) (sw_data command) in
                    Val (b, tt)) in
        sync_write_bytes_loop count (S i) rest buffer
  end.

(** sync_write.rs:41-69 [sync_write_bytes]; the iterator is the list of its items. *)
Definition sync_write_bytes (address count : N) (data : list (sync_write_data (list byte)))
  : M (result unit write_error) :=
  let c := N.to_nat count in
  write_instruction BROADCAST SYNC_WRITE (4 + length data * (1 + c))
    (enc_ok (fun b =>
       let* b := write_u16_at b 0 address in
       let* b := write_u16_at b 2 count in
       sync_write_bytes_loop c 0 data b)).

(** sync_write.rs:90-96 *)
Fixpoint sync_write_loop {A} (D : data_impl A) (count i : nat) (data : list (sync_write_data A))
    (buffer : list byte) : out (list byte * result unit buffer_too_small) :=
  match data with
  | [] => Val (buffer, Ok tt)
  | command :: rest =>
      let stride := 1 + count in
      let* '(buffer, r) := with_slice buffer (4 + i * stride) (4 + i * stride + stride)
        (fun b => let* b := set b 0 (sw_id command) in
                  with_slice b 1 (length b) (d_encode D (sw_data command))) in
      match r with
      | Err e => Val (buffer, Err e)
      | Ok _ => sync_write_loop D count (S i) rest buffer
      end
  end.

(** sync_write.rs:75-98 [sync_write].  [count] is [size_of::<u8>()], whatever
    the data type. *)
Definition sync_write {A} (D : data_impl A) (address : N) (data : list (sync_write_data A))
  : M (result unit write_error) :=
  let count := 1 in
  write_instruction BROADCAST SYNC_WRITE (4 + length data * (1 + count))
    (fun b =>
       let* b := write_u16_at b 0 address in
       let* b := write_u16_at b 2 (N.of_nat count mod 2 ^ 16) in
       sync_write_loop D count 0 data b).

(** ** bulk_write.rs *)

(** instructions/mod.rs:71-80 [BulkWriteData] *)
Record bulk_write_data := mkBulkWrite { bw_id : byte; bw_address : N; bw_data : list byte }.

(** bulk_write.rs:58-71: the panic on too much data, and the parameter count *)
Fixpoint bulk_write_count (writes : list bulk_write_data) (parameter_count : nat) : out nat :=
  match writes with
  | [] => Val parameter_count
  | w :: rest =>
      if (65535 <? N.of_nat (length (bw_data w)))%N then Panic PExplicit
      else bulk_write_count rest (parameter_count + (5 + length (bw_data w)))
  end.

(** bulk_write.rs:74-84 *)
Fixpoint bulk_write_loop (offset : nat) (writes : list bulk_write_data) (buffer : list byte)
  : out (list byte) :=
  match writes with
  | [] => Val buffer
  | w :: rest =>
      let n := length (bw_data w) in
      let* '(buffer, _) := with_slice buffer offset (length buffer)
        (fun b => let* b := write_u8_at b 0 (bw_id w) in
                  let* b := write_u16_at b 1 (bw_address w) in
                  let* b := write_u16_at b 3 (N.of_nat n mod 2 ^ 16) in
                  let* b := copy_into b 5 (5 + n) (bw_data w) in
                  Val (b, tt)) in
      bulk_write_loop (offset + (5 + n)) rest buffer
  end.

(** bulk_write.rs:48-87 [bulk_write] *)
Definition bulk_write (writes : list bulk_write_data) : M (result unit write_error) :=
  parameter_count <- lift (bulk_write_count writes 0) ;;
  write_instruction BROADCAST BULK_WRITE parameter_count (enc_ok (bulk_write_loop 0 writes)).

(** ** sync_read.rs *)

(** sync_read.rs:24-29, 50-55, 73-78 *)
Definition write_sync_read (motor_ids : list byte) (address count : N)
  : M (result unit write_error) :=
  write_instruction BROADCAST SYNC_READ (4 + length motor_ids)
    (enc_ok (fun b =>
       let* b := write_u16_at b 0 address in
       let* b := write_u16_at b 2 count in
       copy_into b 4 (length b) motor_ids)).

(** sync_read.rs:92-103 [SyncReadBytes] (the client is threaded separately) *)
Record sync_read_bytes_it := mkSRB { srb_count : N; srb_ids : list byte; srb_index : nat }.

(** sync_read.rs:15-38 [sync_read_bytes], 41-64 [sync_read_bytes_borrow] *)
Definition sync_read_bytes (motor_ids : list byte) (address count : N)
  : M (result sync_read_bytes_it write_error) :=
  try_ (fun e => e) (write_sync_read motor_ids address count) (fun _ =>
  ret (Ok (mkSRB count motor_ids 0))).

(** sync_read.rs:166-168 [remaining] *)
Definition srb_remaining (it : sync_read_bytes_it) : out nat :=
  usize_sub (length (srb_ids it)) (srb_index it).

(** sync_read.rs:188-192 [pop_motor_id] *)
Definition srb_pop (it : sync_read_bytes_it) : option byte * sync_read_bytes_it :=
  match nth_error (srb_ids it) (srb_index it) with
  | None => (None, it)
  | Some id => (Some id, mkSRB (srb_count it) (srb_ids it) (S (srb_index it)))
  end.

(** sync_read.rs:198-203, 210-215 and bulk_read.rs:187-193, 200-205: read one
    response and check that it is the one expected. *)
Definition expect_response (motor_id : byte) (count : N)
  : M (result (response (list byte)) read_error) :=
  try_ (fun e => e) (read_status_response count) (fun p =>
  rid <- lift (pk_id p) ;;
  tryr RInvalidMessage (packet_id_check rid motor_id) (fun _ =>
  ps <- lift (st_parameters p) ;;
  tryr RInvalidMessage (param_count_check (length ps) (N.to_nat count)) (fun _ =>
  lift (decode_status_packet_bytes p)))).

(** sync_read.rs:171-177 [read_next], 180-186 [read_next_borrow], 150-152 [next] *)
Definition srb_next (it : sync_read_bytes_it)
  : M (option (result (response (list byte)) read_error) * sync_read_bytes_it) :=
  match srb_pop it with
  | (None, it') => ret (None, it')
  | (Some id, it') =>
      r <- expect_response id (srb_count it) ;;
      ret (Some r, it')
  end.

(** sync_read.rs:135-139 [Drop]: [while pop().is_some() { read_status_response } ].
    [n]: at most that many iterations ([srb_drop] passes the number of ids left). *)
Fixpoint srb_drop_loop (n : nat) (it : sync_read_bytes_it) : M unit :=
  match n with
  | O => ret tt
  | S n' =>
      match srb_pop it with
      | (None, _) => ret tt
      | (Some _, it') => read_status_response (srb_count it) ;;; srb_drop_loop n' it'
      end
  end.
Definition srb_drop (it : sync_read_bytes_it) : M unit :=
  srb_drop_loop (length (srb_ids it) - srb_index it) it.

(** sync_read.rs:221-231 [SyncRead] *)
Record sync_read_it := mkSR { sr_ids : list byte; sr_index : nat }.

(** sync_read.rs:67-86 [sync_read] *)
Definition sync_read {A} (D : data_impl A) (motor_ids : list byte) (address : N)
  : M (result sync_read_it write_error) :=
  try_ (fun e => e) (write_sync_read motor_ids address (N.of_nat (d_size D))) (fun _ =>
  ret (Ok (mkSR motor_ids 0))).

(** sync_read.rs:293-295 [remaining] *)
Definition sr_remaining (it : sync_read_it) : out nat :=
  usize_sub (length (sr_ids it)) (sr_index it).

(** sync_read.rs:306-310 [pop_motor_id] *)
Definition sr_pop (it : sync_read_it) : option byte * sync_read_it :=
  match nth_error (sr_ids it) (sr_index it) with
  | None => (None, it)
  | Some id => (Some id, mkSR (sr_ids it) (S (sr_index it)))
  end.

(** sync_read.rs:312-320 [next_response] *)
Definition expect_value {A} (D : data_impl A) (motor_id : byte)
  : M (result (response A) read_error) :=
  try_ (fun e => e) (read_status_response (N.of_nat (d_size D))) (fun p =>
  rid <- lift (pk_id p) ;;
  tryr RInvalidMessage (packet_id_check rid motor_id) (fun _ =>
  ps <- lift (st_parameters p) ;;
  tryr RInvalidMessage (param_count_check (length ps) (d_size D)) (fun _ =>
  lift (decode_status_packet D p)))).

(** sync_read.rs:298-304 [read_next], 277-279 [next] *)
Definition sr_next {A} (D : data_impl A) (it : sync_read_it)
  : M (option (result (response A) read_error) * sync_read_it) :=
  match sr_pop it with
  | (None, it') => ret (None, it')
  | (Some id, it') =>
      r <- expect_value D id ;;
      ret (Some r, it')
  end.

(** sync_read.rs:264-266 [Drop]: [while self.read_next().is_some() {}] *)
Fixpoint sr_drop_loop {A} (D : data_impl A) (n : nat) (it : sync_read_it) : M unit :=
  match n with
  | O => ret tt
  | S n' =>
      '(r, it') <- sr_next D it ;;
      match r with
      | None => ret tt
      | Some _ => sr_drop_loop D n' it'
      end
  end.
Definition sr_drop {A} (D : data_impl A) (it : sync_read_it) : M unit :=
  sr_drop_loop D (length (sr_ids it) - sr_index it) it.

(** ** bulk_read.rs *)

(** instructions/mod.rs:92-101 [BulkReadData] *)
Record bulk_read_data := mkBulkRead { br_id : byte; br_address : N; br_count : N }.

(** bulk_read.rs:72-81: some motor id occurs at two indices (the nested index
    loops as a recursion over the suffixes). *)
Fixpoint bulk_read_dup (reads : list bulk_read_data) : bool :=
  match reads with
  | [] => false
  | r :: rest => existsb (fun r' => beq (br_id r) (br_id r')) rest || bulk_read_dup rest
  end.

(** bulk_read.rs:83-88 *)
Fixpoint bulk_read_loop (i : nat) (reads : list bulk_read_data) (buffer : list byte)
  : out (list byte) :=
  match reads with
  | [] => Val buffer
  | r :: rest =>
      let* '(buffer, _) := with_slice buffer (i * 5) (i * 5 + 5)
        (fun b => let* b := write_u8_at b 0 (br_id r) in
                  let* b := write_u16_at b 1 (br_address r) in
                  let* b := write_u16_at b 3 (br_count r) in
                  Val (b, tt)) in
      bulk_read_loop (S i) rest buffer
  end.

(** bulk_read.rs:64-91 [write_bulk_read_instruction] *)
Definition write_bulk_read_instruction (reads : list bulk_read_data)
  : M (result unit write_error) :=
  if bulk_read_dup reads then lift (Panic PExplicit)
  else write_instruction BROADCAST BULK_READ (5 * length reads)
         (enc_ok (bulk_read_loop 0 reads)).

(** bulk_read.rs:94-103 [BulkReadBytes] *)
Record bulk_read_it := mkBR { br_reads : list bulk_read_data; br_index : nat }.

(** bulk_read.rs:18-33 [bulk_read_bytes], 42-57 [bulk_read_bytes_borrow] *)
Definition bulk_read_bytes (reads : list bulk_read_data) : M (result bulk_read_it write_error) :=
  try_ (fun e => e) (write_bulk_read_instruction reads) (fun _ =>
  ret (Ok (mkBR reads 0))).

(** bulk_read.rs:155-157 [remaining] *)
Definition br_remaining (it : bulk_read_it) : out nat :=
  usize_sub (length (br_reads it)) (br_index it).

(** bulk_read.rs:177-181 [pop_bulk_read_data] *)
Definition br_pop (it : bulk_read_it) : option bulk_read_data * bulk_read_it :=
  match nth_error (br_reads it) (br_index it) with
  | None => (None, it)
  | Some d => (Some d, mkBR (br_reads it) (S (br_index it)))
  end.

(** bulk_read.rs:160-166 [read_next], 169-175 [read_next_borrow], 140-142 [next] *)
Definition br_next (it : bulk_read_it)
  : M (option (result (response (list byte)) read_error) * bulk_read_it) :=
  match br_pop it with
  | (None, it') => ret (None, it')
  | (Some d, it') =>
      r <- expect_response (br_id d) (br_count d) ;;
      ret (Some r, it')
  end.

(** bulk_read.rs:125-129 [Drop]; slicing with [index > len] would panic *)
Fixpoint br_drop_loop (l : list bulk_read_data) : M unit :=
  match l with
  | [] => ret tt
  | d :: rest => read_status_response (br_count d) ;;; br_drop_loop rest
  end.
Definition br_drop (it : bulk_read_it) : M unit :=
  if br_index it <=? length (br_reads it) then br_drop_loop (skipn (br_index it) (br_reads it))
  else lift (Panic PIndex).
