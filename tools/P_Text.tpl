(** * Property C62: texts *)
From Coq Require Import Ascii String.
From Verif Require Import Base Error Text TextSpec TextTheorems TextRoleSpec TextRoleTheorems.
Local Open Scope string_scope.
Local Open Scope N_scope.

(** ** C62: different errors have different texts (if the errors of the serial port do). *)
@C62_write_error

@C62_invalid_message

@C62_read_error

@C62_transfer_error

(** Each number in a text stands behind the words that say what it is. *)
@C62_says

(** The same for the errors that are printed on their own. *)
@C62_small_buffer

@C62_expected_count

(** What the command line prints after reading a value denotes the value, in decimal
    and in hexadecimal of the right width. *)
@C62_read_lines

(** A way to print the errors of the port that fulfils the hypothesis, and two similar errors. *)
Example C62_example :
  let io := fun e => match e with IoTimeout c => "timed out " ++ dec c | IoOther c => "error " ++ dec c end in
  (forall x y, io x = io y -> x = y) /\
  transfer_error_text io (TReadError (RInvalidMessage (IMHeaderPrefix [xff; xff; xfd; x01] [xff; xff; xfd; x00]))) =
    "invalid header prefix, expected [FF, FF, FD, 00], got [FF, FF, FD, 01]" /\
  transfer_error_text io (TReadError (RInvalidMessage (IMPacketId x02 (Some x1f)))) =
    "invalid packet ID, expected 0x1F, got 0x2" /\
  transfer_error_text io (TReadError (RIo (IoTimeout 110))) = "failed to read from serial port: timed out 110".
Proof.
  cbv zeta. split; [|repeat split; vm_compute; reflexivity].
  intros [x|x] [y|y] E; cbn [append] in E; try discriminate E; literal E; apply dec_inj_end in E; subst; reflexivity.
Qed.

Example C62_says_example : forall io, names (transfer_error_text io (TReadError (RInvalidMessage (IMChecksum 4660 31)))) "message claims " 4660 /\
  ~ names "invalid checksum, message claims 0x1F, computed 0x1234" "message claims " 4660.
Proof.
  intro io. split; [exact says_checksum_right|exact says_checksum_wrong].
Qed.

Example C62_parts_example :
  bts_text (mkBTS 13 12) = "buffer is too small: need 13 bytes, but the size is 12" /\
  expected_count_text (Min 4) = "at least 4".
Proof. split; vm_compute; reflexivity. Qed.

Example C62_lines_example :
  read8_line "1ms" 7 = "1ms: 7 (0x07)" /\ read16_line "1ms" 2748 = "1ms: 2748 (0x0ABC)" /\
  read32_line "1ms" 305419896 = "1ms: 305419896 (0x1234 5678)".
Proof. repeat split; vm_compute; reflexivity. Qed.
