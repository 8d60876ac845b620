(** * ErrorSpec: what an error says, however deep it is wrapped *)
From Verif Require Import Base Error ErrorFrom.

Inductive detail :=
| SaysTooSmall (x : buffer_too_small)
| SaysDiscard (e : io_error) | SaysWrite (e : io_error) | SaysRead (e : io_error)
| SaysHeaderPrefix (x : invalid_header_prefix) | SaysChecksum (x : invalid_checksum)
| SaysPacketId (x : invalid_packet_id) | SaysInstruction (x : invalid_instruction)
| SaysCount (x : invalid_parameter_count) | SaysMotorError (x : motor_error).

Definition message_says (m : invalid_message) : detail :=
  match m with
  | IMHeaderPrefix a e => SaysHeaderPrefix (mkHeaderPrefix a e)
  | IMChecksum m c => SaysChecksum (mkChecksum m c)
  | IMPacketId a e => SaysPacketId (mkPacketId a e)
  | IMInstruction a e => SaysInstruction (mkInstruction a e)
  | IMParameterCount a e => SaysCount (mkCount a e)
  end.
Definition write_says (w : write_error) : detail :=
  match w with WBufferTooSmall x => SaysTooSmall x | WDiscardBuffer e => SaysDiscard e | WWrite e => SaysWrite e end.
Definition read_says (r : read_error) : detail :=
  match r with
  | RBufferFull x => SaysTooSmall x
  | RIo e => SaysRead e
  | RInvalidMessage m => message_says m
  | RMotorError raw => SaysMotorError (mkMotorError raw)
  end.
Definition transfer_says (t : transfer_error) : detail :=
  match t with TWriteError w => write_says w | TReadError r => read_says r end.

(** [t] came from the writing half of a transfer. *)
Definition while_writing (t : transfer_error) : Prop := exists w, t = TWriteError w.
