(** * Client: model of /repo/src/client.rs, /repo/src/response.rs and the
    response decoding helpers of /repo/src/bus/data.rs.

    [Client] is a newtype around [Bus]; a client method is a computation on the
    bus.  The accessors [serial_port], [into_serial_port], [baud_rate] are the
    fields of the bus record. *)
From Verif Require Import Base Endian Error Packet Time Bus Data.

(** response.rs:8-20 [Response] *)
Record response (A : Type) := mkResponse { r_motor_id : byte; r_alert : bool; r_data : A }.
Arguments mkResponse {A}.
Arguments r_motor_id {A}.
Arguments r_alert {A}.
Arguments r_data {A}.

(** client.rs:133-135 [Client::set_baud_rate], device.rs:135-138 [Device::set_baud_rate] *)
Definition client_set_baud_rate (baud : N) : M (result unit io_error) := set_baud_rate baud.

(** client.rs:177-193 [read_status_response_timeout] *)
Definition read_status_response_timeout (timeout : duration) : M (result packet read_error) :=
  d <- port_make_deadline timeout ;;
  try_ (fun e => e) (read_packet_deadline d) (fun p =>
  st <- lift (as_status p) ;;
  match st with
  | None =>
      i <- lift (pk_instruction p) ;;
      ret (Err (RInvalidMessage (IMInstruction i STATUS)))
  | Some status =>
      e <- lift (st_error status) ;;
      tryr RMotorError (motor_error_check e) (fun _ =>
      ret (Ok status))
  end).

(** client.rs:200-201, the automatic timeout; [expected_parameters] is a [u16]. *)
Definition response_timeout (dbg : bool) (baud expected_parameters : N) : out duration :=
  let message_size := (N.of_nat (st_message_len (N.to_nat expected_parameters)) mod 2 ^ 32)%N in
  let* t := message_transfer_time dbg message_size baud in
  dur_add t dur_34ms.

(** client.rs:198-203 [read_status_response] *)
Definition read_status_response (expected_parameters : N) : M (result packet read_error) :=
  s <- get ;;
  timeout <- lift (response_timeout (b_dbg s) (b_baud s) expected_parameters) ;;
  read_status_response_timeout timeout.

(** client.rs:144-159 [transfer_single] *)
Definition transfer_single (packet_id instruction_id : byte) (parameter_count : nat)
    (expected_response_parameters : N) (encode_parameters : encoder)
  : M (result packet transfer_error) :=
  try_ TWriteError (write_instruction packet_id instruction_id parameter_count encode_parameters)
  (fun _ =>
  try_ TReadError (read_status_response expected_response_parameters) (fun response =>
  rid <- lift (pk_id response) ;;
  tryr (fun e => TReadError (RInvalidMessage e)) (packet_id_check rid packet_id) (fun _ =>
  ret (Ok response)))).

(** response.rs:22-33 [TryFrom<StatusPacket> for Response<()>] *)
Definition response_unit (p : packet) : out (result (response unit) invalid_message) :=
  let* ps := st_parameters p in
  match param_count_check (length ps) 0 with
  | Err e => Val (Err e)
  | Ok _ =>
      let* id := pk_id p in
      let* alert := st_alert p in
      Val (Ok (mkResponse id alert tt))
  end.

(** response.rs:35-43 [From<StatusPacket> for Response<&\[u8\]>] *)
Definition response_bytes (p : packet) : out (response (list byte)) :=
  let* id := pk_id p in
  let* alert := st_alert p in
  let* ps := st_parameters p in
  Val (mkResponse id alert ps).

(** bus/data.rs:17-24 [decode_status_packet] *)
Definition decode_status_packet {A} (D : data_impl A) (p : packet)
  : out (result (response A) read_error) :=
  let* e := st_error p in
  match motor_error_check e with
  | Err raw => Val (Err (RMotorError raw))
  | Ok _ =>
      let* id := pk_id p in
      let* alert := st_alert p in
      let* ps := st_parameters p in
      let* r := d_decode D ps in
      match r with
      | Err e => Val (Err (RInvalidMessage e))
      | Ok v => Val (Ok (mkResponse id alert v))
      end
  end.

(** bus/data.rs:26-36 [decode_status_packet_bytes] and 38-49
    [decode_status_packet_bytes_borrow].  The target type [T: From<&\[u8\]>] (or
    borrowed [T]) is the byte string itself; the user's conversion is not
    modelled. *)
Definition decode_status_packet_bytes (p : packet)
  : out (result (response (list byte)) read_error) :=
  let* e := st_error p in
  match motor_error_check e with
  | Err raw => Val (Err (RMotorError raw))
  | Ok _ =>
      let* id := pk_id p in
      let* alert := st_alert p in
      let* ps := st_parameters p in
      Val (Ok (mkResponse id alert ps))
  end.

(** client.rs:99-104 [Client::with_buffers], device.rs:106-109 [Device::with_buffers] *)
Definition client_with_buffers (dbg : bool) (p : port) (baud_answer : result N io_error)
    (read_buffer write_buffer : list byte) : out (result bus io_error) :=
  with_buffers dbg p baud_answer read_buffer write_buffer.

(** client.rs:86-89 [Client::new], device.rs:93-96 [Device::new] *)
Definition client_new (dbg : bool) (p : port) (baud_answer : result N io_error)
  : out (result bus io_error) :=
  with_buffers dbg p baud_answer (repeat x00 128) (repeat x00 128).

(** client.rs:69-73 [Client::open_with_buffers], device.rs:70-79.  [opened] is the
    answer of [serial2::SerialPort::open]. *)
Definition client_open_with_buffers (dbg : bool) (opened : result port io_error) (baud_rate : N)
    (read_buffer write_buffer : list byte) : out (result bus io_error) :=
  match opened with
  | Err e => Val (Err e)
  | Ok p =>
      let* b := with_buffers_and_baud_rate dbg p read_buffer write_buffer baud_rate in
      Val (Ok b)
  end.

(** client.rs:54-58 [Client::open], device.rs:54-58 [Device::open] *)
Definition client_open (dbg : bool) (opened : result port io_error) (baud_rate : N)
  : out (result bus io_error) :=
  client_open_with_buffers dbg opened baud_rate (repeat x00 128) (repeat x00 128).
