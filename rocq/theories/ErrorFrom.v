(** * ErrorFrom: model of the [From] impls of /repo/src/error.rs

    Elsewhere in the model the payload structs are inlined in the variants and the
    conversions are applied as constructors. *)
From Verif Require Import Base Error.

(** error.rs:116-123, 126-133, 136-143, 146-153, 169-176, 82-85 *)
Record invalid_header_prefix := mkHeaderPrefix { hp_actual : list byte; hp_expected : list byte }.
Record invalid_checksum := mkChecksum { cs_message : N; cs_computed : N }.
Record invalid_packet_id := mkPacketId { pi_actual : byte; pi_expected : option byte }.
Record invalid_instruction := mkInstruction { in_actual : byte; in_expected : byte }.
Record invalid_parameter_count := mkCount { pc_actual : nat; pc_expected : expected_count }.
Record motor_error := mkMotorError { me_raw : byte }.

(** error.rs:420-448, for [InvalidMessage] *)
Definition message_of_header_prefix (x : invalid_header_prefix) : invalid_message := IMHeaderPrefix (hp_actual x) (hp_expected x).
Definition message_of_checksum (x : invalid_checksum) : invalid_message := IMChecksum (cs_message x) (cs_computed x).
Definition message_of_packet_id (x : invalid_packet_id) : invalid_message := IMPacketId (pi_actual x) (pi_expected x).
Definition message_of_instruction (x : invalid_instruction) : invalid_message := IMInstruction (in_actual x) (in_expected x).
Definition message_of_count (x : invalid_parameter_count) : invalid_message := IMParameterCount (pc_actual x) (pc_expected x).

(** error.rs:366-370, for [WriteError] *)
Definition write_of_small (x : buffer_too_small) : write_error := WBufferTooSmall x.

(** error.rs:372-418, for [ReadError] *)
Definition read_of_small (x : buffer_too_small) : read_error := RBufferFull x.
Definition read_of_message (x : invalid_message) : read_error := RInvalidMessage x.
Definition read_of_motor_error (x : motor_error) : read_error := RMotorError (me_raw x).
Definition read_of_header_prefix (x : invalid_header_prefix) : read_error := RInvalidMessage (message_of_header_prefix x).
Definition read_of_checksum (x : invalid_checksum) : read_error := RInvalidMessage (message_of_checksum x).
Definition read_of_packet_id (x : invalid_packet_id) : read_error := RInvalidMessage (message_of_packet_id x).
Definition read_of_instruction (x : invalid_instruction) : read_error := RInvalidMessage (message_of_instruction x).
Definition read_of_count (x : invalid_parameter_count) : read_error := RInvalidMessage (message_of_count x).

(** error.rs:312-364, for [TransferError] *)
Definition transfer_of_write (x : write_error) : transfer_error := TWriteError x.
Definition transfer_of_read (x : read_error) : transfer_error := TReadError x.
Definition transfer_of_message (x : invalid_message) : transfer_error := TReadError (read_of_message x).
Definition transfer_of_motor_error (x : motor_error) : transfer_error := TReadError (read_of_motor_error x).
Definition transfer_of_header_prefix (x : invalid_header_prefix) : transfer_error := TReadError (read_of_header_prefix x).
Definition transfer_of_checksum (x : invalid_checksum) : transfer_error := TReadError (read_of_checksum x).
Definition transfer_of_packet_id (x : invalid_packet_id) : transfer_error := TReadError (read_of_packet_id x).
Definition transfer_of_instruction (x : invalid_instruction) : transfer_error := TReadError (read_of_instruction x).
Definition transfer_of_count (x : invalid_parameter_count) : transfer_error := TReadError (read_of_count x).
