(** * Packet: model of /repo/src/bus/packet.rs

    A packet is its [data] slice: the unstuffed message without the CRC.
    The borrow of the read buffer is modelled as a copy (the borrow checker
    guarantees the buffer does not change while the packet is alive). *)
From Verif Require Import Base Error.
Local Open Scope N_scope.

(** bus/mod.rs:20 [HEADER_PREFIX] *)
Definition HEADER_PREFIX : list byte := [xff; xff; xfd; x00].

(** bus/mod.rs:25 [HEADER_SIZE] *)
Definition HEADER_SIZE : nat := 7.

(** instructions/mod.rs:7-21 [instruction_id] *)
Definition PING : byte := x01.
Definition READ : byte := x02.
Definition WRITE : byte := x03.
Definition REG_WRITE : byte := x04.
Definition ACTION : byte := x05.
Definition FACTORY_RESET : byte := x06.
Definition REBOOT : byte := x08.
Definition CLEAR : byte := x10.
Definition SYNC_READ : byte := x82.
Definition SYNC_WRITE : byte := x83.
Definition BULK_READ : byte := x92.
Definition BULK_WRITE : byte := x93.
Definition STATUS : byte := x55.

(** instructions/mod.rs:26 [packet_id::BROADCAST] *)
Definition BROADCAST : byte := xfe.

(** packet.rs:3-8 [Packet]; packet.rs:45-47 [StatusPacket] and 97-99
    [InstructionPacket] are newtypes around it. *)
Record packet := mkPacket { pk_data : list byte }.

(** packet.rs:12-14, 73-75, 103-105 [packet_id] *)
Definition pk_id (p : packet) : out byte := idx (pk_data p) 4.

(** packet.rs:17-19, 78-80, 108-110 [instruction_id] *)
Definition pk_instruction (p : packet) : out byte := idx (pk_data p) 7.

(** packet.rs:22-28 [as_status] *)
Definition as_status (p : packet) : out (option packet) :=
  let* i := pk_instruction p in
  Val (if beq i STATUS then Some p else None).

(** packet.rs:31-37 [as_instruction] *)
Definition as_instruction (p : packet) : out (option packet) :=
  let* i := pk_instruction p in
  Val (if negb (beq i STATUS) then Some p else None).

(** packet.rs:51-53 [StatusPacket::error] *)
Definition st_error (p : packet) : out byte := idx (pk_data p) 8.

(** packet.rs:58-60 [StatusPacket::error_number] *)
Definition st_error_number (p : packet) : out byte :=
  let* e := st_error p in Val (n2b (N.land (b2n e) 0x7F)).

(** packet.rs:68-70 [StatusPacket::alert] *)
Definition st_alert (p : packet) : out bool :=
  let* e := st_error p in Val (negb (N.land (b2n e) 0x80 =? 0)).

(** packet.rs:83-85 [StatusPacket::parameters] *)
Definition st_parameters (p : packet) : out (list byte) :=
  slice_from (pk_data p) (HEADER_SIZE + 2).

(** packet.rs:88-90 [StatusPacket::message_len] *)
Definition st_message_len (parameters : nat) : nat := HEADER_SIZE + 2 + parameters + 2.

(** packet.rs:113-115 [InstructionPacket::parameters] *)
Definition in_parameters (p : packet) : out (list byte) :=
  slice_from (pk_data p) (HEADER_SIZE + 1).

(** packet.rs:118-120 [InstructionPacket::message_len] *)
Definition in_message_len (parameters : nat) : nat := HEADER_SIZE + 1 + parameters + 2.
