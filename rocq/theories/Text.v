(** * Text: model of the [Display] implementations in /repo/src/error.rs:450-575

    What [core::fmt] does with numbers is modelled by [dec], [hex] and [hex2].
    The text of an error of the serial port is that of its own [Display]
    implementation, a parameter. *)
From Coq Require Import Ascii String.
From Verif Require Import Base Error.
Local Open Scope string_scope.
Local Open Scope N_scope.

(** The digits of a number, upper case ([core::fmt]). *)
Definition digit (d : N) : ascii := ascii_of_N (if d <? 10 then 48 + d else 55 + d).

Fixpoint digits (fuel : nat) (base n : N) (rest : string) : string :=
  match fuel with
  | O => rest
  | S fuel' =>
      if n <? base then String (digit n) rest
      else digits fuel' base (n / base) (String (digit (n mod base)) rest)
  end.

(** [{}] and [{:?}] of an unsigned integer *)
Definition dec (n : N) : string := digits (S (N.size_nat n)) 10 n "".
Definition dec_nat (n : nat) : string := dec (N.of_nat n).

(** [{:#02X}]: the width 2 counts the "0x", so nothing is padded. *)
Definition hex (n : N) : string := "0x" ++ digits (S (N.size_nat n)) 16 n "".

(** [{:02X}] of a byte *)
Definition hex2 (b : byte) : string :=
  String (digit (b2n b / 16)) (String (digit (b2n b mod 16)) "").

(** [{:02X?}] of an array of bytes *)
Fixpoint hex2_items (l : list byte) : string :=
  match l with
  | [] => ""
  | [b] => hex2 b
  | b :: l' => hex2 b ++ ", " ++ hex2_items l'
  end.
Definition hex2_array (l : list byte) : string := "[" ++ hex2_items l ++ "]".

(** error.rs:479-487 [Display for BufferTooSmallError] *)
Definition bts_text (e : buffer_too_small) : string :=
  "buffer is too small: need " ++ dec_nat (required_size e) ++ " bytes, but the size is " ++ dec_nat (total_size e).

(** error.rs:462-477 [Display for WriteError] *)
Definition write_error_text (io : io_error -> string) (e : write_error) : string :=
  match e with
  | WBufferTooSmall e =>
      "write buffer is too small: need " ++ dec_nat (required_size e) ++ " bytes, but the size is " ++ dec_nat (total_size e)
  | WDiscardBuffer e => "failed to discard input buffer: " ++ io e
  | WWrite e => "failed to write to serial port: " ++ io e
  end.

(** error.rs:561-569 [Display for ExpectedCount] *)
Definition expected_count_text (c : expected_count) : string :=
  match c with
  | Exact x => "exactly " ++ dec_nat x
  | Max x => "at most " ++ dec_nat x
  | Min x => "at least " ++ dec_nat x
  end.

(** error.rs:507-517 [Display for InvalidMessage], with 525-559 and 571-575, those
    of the structs in it *)
Definition invalid_message_text (m : invalid_message) : string :=
  match m with
  | IMHeaderPrefix actual expected =>
      "invalid header prefix, expected " ++ hex2_array expected ++ ", got " ++ hex2_array actual
  | IMChecksum message computed =>
      "invalid checksum, message claims " ++ hex message ++ ", computed " ++ hex computed
  | IMPacketId actual (Some expected) =>
      "invalid packet ID, expected " ++ hex (b2n expected) ++ ", got " ++ hex (b2n actual)
  | IMPacketId actual None => "invalid packet ID: " ++ hex (b2n actual)
  | IMInstruction actual expected =>
      "invalid instruction ID, expected " ++ dec (b2n expected) ++ ", got " ++ dec (b2n actual)
  | IMParameterCount actual expected =>
      "invalid parameter count, expected " ++ expected_count_text expected ++ ", got " ++ dec_nat actual
  end.

(** error.rs:519-523 [Display for MotorError] *)
Definition motor_error_text (raw : byte) : string := "motor reported error status: " ++ hex (b2n raw).

(** error.rs:489-505 [Display for ReadError] *)
Definition read_error_text (io : io_error -> string) (e : read_error) : string :=
  match e with
  | RBufferFull e =>
      "read buffer is too small: need " ++ dec_nat (required_size e) ++ " bytes, but the size is " ++ dec_nat (total_size e)
  | RIo e => "failed to read from serial port: " ++ io e
  | RInvalidMessage m => invalid_message_text m
  | RMotorError raw => motor_error_text raw
  end.

(** error.rs:450-460 [Display for TransferError] *)
Definition transfer_error_text (io : io_error -> string) (e : transfer_error) : string :=
  match e with
  | TWriteError e => write_error_text io e
  | TReadError e => read_error_text io e
  end.

(** [{:02X}] and [{:04X}] of a number: zeros in front up to the width *)
Fixpoint zeros (n : nat) : string := match n with O => "" | S n' => String "0" (zeros n') end.
Definition hex_padded (width : nat) (n : N) : string :=
  let d := digits (S (N.size_nat n)) 16 n "" in zeros (width - String.length d) ++ d.

(** dynamixel2-cli main.rs:62, 74, 86-92: what is printed after reading an 8, 16
    or 32-bit value; [elapsed] is the text of the duration *)
Definition read8_line (elapsed : string) (v : N) : string :=
  elapsed ++ ": " ++ dec v ++ " (0x" ++ hex_padded 2 v ++ ")".
Definition read16_line (elapsed : string) (v : N) : string :=
  elapsed ++ ": " ++ dec v ++ " (0x" ++ hex_padded 4 v ++ ")".
Definition read32_line (elapsed : string) (v : N) : string :=
  elapsed ++ ": " ++ dec v ++ " (0x" ++ hex_padded 4 (N.land (N.shiftr v 16) 0xFFFF) ++ " " ++
  hex_padded 4 (N.land v 0xFFFF) ++ ")".
