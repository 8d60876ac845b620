(** * Error: model of /repo/src/error.rs

    The error types and their [check] constructors.  The [From] impls
    (error.rs:312-448, see also ErrorFrom.v) are the constructor functions themselves
    ([WBufferTooSmall], [RInvalidMessage (IM...)], [TReadError], ...) and are
    applied explicitly wherever the Rust code uses [?] or [.into()].
    The [Display] impls are in Text.v; [Debug] and [std::error::Error] are not
    modelled. *)
From Verif Require Import Base.
Local Open Scope N_scope.

(** The error type of the serial port ([SerialPort::Error],
    serial_port/mod.rs:13): an arbitrary error value which
    [SerialPort::is_timeout_error] (serial_port/mod.rs:37) classifies. *)
Inductive io_error :=
| IoTimeout (code : N)
| IoOther (code : N).

(** serial_port/mod.rs:37 [is_timeout_error] *)
Definition is_timeout_error (e : io_error) : bool :=
  match e with IoTimeout _ => true | IoOther _ => false end.

(** error.rs:32-38 *)
Record buffer_too_small := mkBTS { required_size : nat; total_size : nat }.

(** error.rs:16-25 *)
Inductive write_error :=
| WBufferTooSmall (e : buffer_too_small)
| WDiscardBuffer (e : io_error)
| WWrite (e : io_error).

(** error.rs:157-166 *)
Inductive expected_count := Exact (n : nat) | Max (n : nat) | Min (n : nat).

(** error.rs:63-78, with the payload structs error.rs:117-176 inlined. *)
Inductive invalid_message :=
| IMHeaderPrefix (actual expected : list byte)
| IMChecksum (message computed : N)
| IMPacketId (actual : byte) (expected : option byte)
| IMInstruction (actual expected : byte)
| IMParameterCount (actual : nat) (expected : expected_count).

(** error.rs:42-59; [RMotorError raw] carries [MotorError { raw }]. *)
Inductive read_error :=
| RBufferFull (e : buffer_too_small)
| RIo (e : io_error)
| RInvalidMessage (m : invalid_message)
| RMotorError (raw : byte).

(** error.rs:6-12 *)
Inductive transfer_error :=
| TWriteError (e : write_error)
| TReadError (e : read_error).

(** error.rs:180-186 [BufferTooSmallError::check] *)
Definition bts_check (required total : nat) : result unit buffer_too_small :=
  if (required <=? total)%nat then Ok tt else Err (mkBTS required total).

(** error.rs:194-202 [MotorError::check].  [raw & !0x80]: [!0x80] is 0x7F. *)
Definition motor_error_check (raw : byte) : result unit byte :=
  if N.land (b2n raw) 0x7F =? 0 then Ok tt else Err raw.

(** error.rs:91-93 [MotorError::error_number] *)
Definition motor_error_number (raw : byte) : byte := n2b (N.land (b2n raw) 0x7F).

(** error.rs:101-103 [MotorError::alert] *)
Definition motor_error_alert (raw : byte) : bool := negb (N.land (b2n raw) 0x80 =? 0).

(** error.rs:207-216 [InvalidHeaderPrefix::check] (public, unused by the crate).
    Panics when the prefixes differ and [actual] has fewer than four bytes. *)
Definition header_prefix_check (actual expected : list byte) : out (result unit invalid_message) :=
  if bytes_eqb actual expected then Val (Ok tt)
  else
    let* a0 := idx actual 0 in
    let* a1 := idx actual 1 in
    let* a2 := idx actual 2 in
    let* a3 := idx actual 3 in
    Val (Err (IMHeaderPrefix [a0; a1; a2; a3] expected)).

(** error.rs:221-230 [InvalidPacketId::check] *)
Definition packet_id_check (actual expected : byte) : result unit invalid_message :=
  if beq actual expected then Ok tt else Err (IMPacketId actual (Some expected)).

(** error.rs:233-239 [InvalidPacketId::check_ignore_broadcast] (public, unused
    by the crate).  0xFE is [packet_id::BROADCAST]. *)
Definition packet_id_check_ignore_broadcast (actual expected : byte) : result unit invalid_message :=
  if beq expected xfe then Ok tt else packet_id_check actual expected.

(** error.rs:244-250 [InvalidInstruction::check] (public, unused by the crate) *)
Definition instruction_check (actual expected : byte) : result unit invalid_message :=
  if beq actual expected then Ok tt else Err (IMInstruction actual expected).

(** error.rs:255-264 [InvalidParameterCount::check] *)
Definition param_count_check (actual expected : nat) : result unit invalid_message :=
  if (actual =? expected)%nat then Ok tt else Err (IMParameterCount actual (Exact expected)).

(** error.rs:267-276 [InvalidParameterCount::check_max] (public, unused) *)
Definition param_count_check_max (actual max : nat) : result unit invalid_message :=
  if (actual <=? max)%nat then Ok tt else Err (IMParameterCount actual (Max max)).

(** error.rs:279-288 [InvalidParameterCount::check_min] *)
Definition param_count_check_min (actual min : nat) : result unit invalid_message :=
  if (min <=? actual)%nat then Ok tt else Err (IMParameterCount actual (Min min)).
