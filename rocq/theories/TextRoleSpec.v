(** * TextRoleSpec: what the text of an error says about each number in it *)
From Coq Require Import Ascii String.
From Verif Require Import Base Error TextSpec.
Local Open Scope string_scope.
Local Open Scope N_scope.

(** In the text, [d] stands right behind the words [label] and no digit follows it. *)
Definition behind (label text d : string) : Prop :=
  exists before after, text = before ++ label ++ d ++ after /\
    (after = "" \/ exists c after', after = String c after' /\ digit_value c = None).

(** The number behind the words [label] is [n], in decimal or hexadecimal. *)
Definition names (text label : string) (n : N) : Prop :=
  exists d, behind label text d /\ (numeral 10 d n \/ exists h, d = "0x" ++ h /\ numeral 16 h n).

Fixpoint listed (ds : list string) : string :=
  match ds with
  | [] => ""
  | [d] => d
  | d :: ds' => d ++ ", " ++ listed ds'
  end.

(** The list behind the words [label] is that of the bytes [bs], two hexadecimal digits each. *)
Definition lists (text label : string) (bs : list byte) : Prop :=
  exists ds, behind label text ("[" ++ listed ds ++ "]") /\
    Forall2 (fun d b => denotes 16 d (b2n b) /\ String.length d = 2%nat) ds bs.

(** What the text of an error must say.  [io] is the text of an error of the port. *)
Definition says (io : io_error -> string) (e : transfer_error) (text : string) : Prop :=
  match e with
  | TWriteError (WBufferTooSmall b) | TReadError (RBufferFull b) =>
      names text "buffer is too small: need " (N.of_nat (required_size b)) /\ names text "the size is " (N.of_nat (total_size b))
  | TWriteError (WDiscardBuffer x) => text = "failed to discard input buffer: " ++ io x
  | TWriteError (WWrite x) => text = "failed to write to serial port: " ++ io x
  | TReadError (RIo x) => text = "failed to read from serial port: " ++ io x
  | TReadError (RMotorError raw) => names text "motor reported error status: " (b2n raw)
  | TReadError (RInvalidMessage (IMHeaderPrefix got wanted)) =>
      lists text "header prefix, expected " wanted /\ lists text ", got " got
  | TReadError (RInvalidMessage (IMChecksum claimed computed)) =>
      names text "checksum, message claims " claimed /\ names text ", computed " computed
  | TReadError (RInvalidMessage (IMPacketId got (Some wanted))) =>
      names text "packet ID, expected " (b2n wanted) /\ names text ", got " (b2n got)
  | TReadError (RInvalidMessage (IMPacketId got None)) => names text "invalid packet ID: " (b2n got)
  | TReadError (RInvalidMessage (IMInstruction got wanted)) =>
      names text "instruction ID, expected " (b2n wanted) /\ names text ", got " (b2n got)
  | TReadError (RInvalidMessage (IMParameterCount got wanted)) =>
      match wanted with
      | Exact n => names text "parameter count, expected exactly " (N.of_nat n)
      | Max n => names text "parameter count, expected at most " (N.of_nat n)
      | Min n => names text "parameter count, expected at least " (N.of_nat n)
      end /\ names text ", got " (N.of_nat got)
  end.
