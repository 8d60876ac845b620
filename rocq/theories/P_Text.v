(** * Property C62: texts *)
From Coq Require Import Ascii String.
From Verif Require Import Base Error Text TextSpec TextTheorems TextRoleSpec TextRoleTheorems.
Local Open Scope string_scope.
Local Open Scope N_scope.

(** ** C62: different errors have different texts (if the errors of the serial port do). *)
Theorem C62_write_error : forall io, (forall x y, io x = io y -> x = y) ->
  unambiguous (write_error_text io).
Proof. exact L_C62_write_error. Qed.
Print Assumptions C62_write_error.

Theorem C62_invalid_message : unambiguous invalid_message_text.
Proof. exact L_C62_invalid_message. Qed.
Print Assumptions C62_invalid_message.

Theorem C62_read_error : forall io, (forall x y, io x = io y -> x = y) ->
  unambiguous (read_error_text io).
Proof. exact L_C62_read_error. Qed.
Print Assumptions C62_read_error.

Theorem C62_transfer_error : forall io, (forall x y, io x = io y -> x = y) ->
  unambiguous (transfer_error_text io).
Proof. exact L_C62_transfer_error. Qed.
Print Assumptions C62_transfer_error.

(** Each number in a text stands behind the words that say what it is. *)
Theorem C62_says : forall io e, says io e (transfer_error_text io e).
Proof. exact L_C62_says. Qed.
Print Assumptions C62_says.

(** The same for the errors that are printed on their own. *)
Theorem C62_small_buffer : unambiguous bts_text /\ forall e,
  names (bts_text e) "buffer is too small: need " (N.of_nat (required_size e)) /\
  names (bts_text e) "the size is " (N.of_nat (total_size e)).
Proof. exact L_C62_small_buffer. Qed.
Print Assumptions C62_small_buffer.

Theorem C62_expected_count : unambiguous expected_count_text /\ forall c,
  match c with
  | Exact n => names (expected_count_text c) "exactly " (N.of_nat n)
  | Max n => names (expected_count_text c) "at most " (N.of_nat n)
  | Min n => names (expected_count_text c) "at least " (N.of_nat n)
  end.
Proof. exact L_C62_expected_count. Qed.
Print Assumptions C62_expected_count.

(** What the command line prints after reading a value denotes the value, in decimal
    and in hexadecimal of the right width. *)
Theorem C62_read_lines : forall elapsed v,
  (v < 2 ^ 8 -> exists d h, read8_line elapsed v = elapsed ++ ": " ++ d ++ " (0x" ++ h ++ ")" /\
     numeral 10 d v /\ denotes 16 h v /\ String.length h = 2%nat) /\
  (v < 2 ^ 16 -> exists d h, read16_line elapsed v = elapsed ++ ": " ++ d ++ " (0x" ++ h ++ ")" /\
     numeral 10 d v /\ denotes 16 h v /\ String.length h = 4%nat) /\
  (v < 2 ^ 32 -> exists d h1 h2, read32_line elapsed v = elapsed ++ ": " ++ d ++ " (0x" ++ h1 ++ " " ++ h2 ++ ")" /\
     numeral 10 d v /\ denotes 16 (h1 ++ h2) v /\ String.length h1 = 4%nat /\ String.length h2 = 4%nat).
Proof. exact L_C62_read_lines. Qed.
Print Assumptions C62_read_lines.

(** A way to print the errors of the port that fulfils the hypothesis, and two similar errors. *)
Example C62_example :
  let io := fun e => match e with IoTimeout c => "timed out " ++ dec c | IoOther c => "error " ++ dec c end in
  (forall x y, io x = io y -> x = y) /\
  transfer_error_text io (TReadError (RInvalidMessage (IMHeaderPrefix [xff; xff; xfd; x01] [xff; xff; xfd; x00]))) =
    "invalid header prefix, expected [FF, FF, FD, 00], got [FF, FF, FD, 01]" /\
  transfer_error_text io (TReadError (RInvalidMessage (IMPacketId x02 (Some x1f)))) =
    "invalid packet ID, expected 0x1F, got 0x2" /\
  transfer_error_text io (TReadError (RIo (IoTimeout 110))) = "failed to read from serial port: timed out 110".
Proof.
  cbv zeta. split; [|repeat split; vm_compute; reflexivity].
  intros [x|x] [y|y] E; cbn [append] in E; try discriminate E; literal E; apply dec_inj_end in E; subst; reflexivity.
Qed.

Example C62_says_example : forall io, names (transfer_error_text io (TReadError (RInvalidMessage (IMChecksum 4660 31)))) "message claims " 4660 /\
  ~ names "invalid checksum, message claims 0x1F, computed 0x1234" "message claims " 4660.
Proof.
  intro io. split; [exact says_checksum_right|exact says_checksum_wrong].
Qed.

Example C62_parts_example :
  bts_text (mkBTS 13 12) = "buffer is too small: need 13 bytes, but the size is 12" /\
  expected_count_text (Min 4) = "at least 4".
Proof. split; vm_compute; reflexivity. Qed.

Example C62_lines_example :
  read8_line "1ms" 7 = "1ms: 7 (0x07)" /\ read16_line "1ms" 2748 = "1ms: 2748 (0x0ABC)" /\
  read32_line "1ms" 305419896 = "1ms: 305419896 (0x1234 5678)".
Proof. repeat split; vm_compute; reflexivity. Qed.
