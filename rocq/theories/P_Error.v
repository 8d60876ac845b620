(** * Property C79: the checks and conversions of the error types *)
From Verif Require Import Base Error ErrorFrom ErrorSpec ErrorTheorems.

(** ** C79.  A wrapped error says what the error inside says. *)
Theorem C79_conversions : 
  (* nothing is lost *)
  (forall x, message_says (message_of_header_prefix x) = SaysHeaderPrefix x /\ read_says (read_of_header_prefix x) = SaysHeaderPrefix x /\
             transfer_says (transfer_of_header_prefix x) = SaysHeaderPrefix x) /\
  (forall x, message_says (message_of_checksum x) = SaysChecksum x /\ read_says (read_of_checksum x) = SaysChecksum x /\
             transfer_says (transfer_of_checksum x) = SaysChecksum x) /\
  (forall x, message_says (message_of_packet_id x) = SaysPacketId x /\ read_says (read_of_packet_id x) = SaysPacketId x /\
             transfer_says (transfer_of_packet_id x) = SaysPacketId x) /\
  (forall x, message_says (message_of_instruction x) = SaysInstruction x /\ read_says (read_of_instruction x) = SaysInstruction x /\
             transfer_says (transfer_of_instruction x) = SaysInstruction x) /\
  (forall x, message_says (message_of_count x) = SaysCount x /\ read_says (read_of_count x) = SaysCount x /\
             transfer_says (transfer_of_count x) = SaysCount x) /\
  (forall x, read_says (read_of_motor_error x) = SaysMotorError x /\ transfer_says (transfer_of_motor_error x) = SaysMotorError x) /\
  (forall x, write_says (write_of_small x) = SaysTooSmall x /\ read_says (read_of_small x) = SaysTooSmall x) /\
  (forall m, read_says (read_of_message m) = message_says m /\ transfer_says (transfer_of_message m) = message_says m) /\
  (forall r, transfer_says (transfer_of_read r) = read_says r /\ ~ while_writing (transfer_of_read r)) /\
  (forall w, transfer_says (transfer_of_write w) = write_says w /\ while_writing (transfer_of_write w)).
Proof. exact L_C79_conversions. Qed.
Print Assumptions C79_conversions.

(** It does not matter how [?] got there. *)
Theorem C79_conversions_commute :
  (forall x, transfer_of_read (read_of_message (message_of_header_prefix x)) = transfer_of_header_prefix x /\
             transfer_of_message (message_of_header_prefix x) = transfer_of_header_prefix x /\
             transfer_of_read (read_of_header_prefix x) = transfer_of_header_prefix x) /\
  (forall x, transfer_of_read (read_of_message (message_of_checksum x)) = transfer_of_checksum x /\
             transfer_of_message (message_of_checksum x) = transfer_of_checksum x /\
             transfer_of_read (read_of_checksum x) = transfer_of_checksum x) /\
  (forall x, transfer_of_read (read_of_message (message_of_packet_id x)) = transfer_of_packet_id x /\
             transfer_of_message (message_of_packet_id x) = transfer_of_packet_id x /\
             transfer_of_read (read_of_packet_id x) = transfer_of_packet_id x) /\
  (forall x, transfer_of_read (read_of_message (message_of_instruction x)) = transfer_of_instruction x /\
             transfer_of_message (message_of_instruction x) = transfer_of_instruction x /\
             transfer_of_read (read_of_instruction x) = transfer_of_instruction x) /\
  (forall x, transfer_of_read (read_of_message (message_of_count x)) = transfer_of_count x /\
             transfer_of_message (message_of_count x) = transfer_of_count x /\
             transfer_of_read (read_of_count x) = transfer_of_count x) /\
  (forall x, transfer_of_read (read_of_motor_error x) = transfer_of_motor_error x) /\
  (forall x, transfer_of_read (read_of_message x) = transfer_of_message x).
Proof. exact L_C79_conversions_commute. Qed.
Print Assumptions C79_conversions_commute.

(** The public checks accept exactly what they should, and report the values that they compared. *)
Theorem C79_checks : forall a e n m,
  (bts_check n m = Ok tt <-> n <= m) /\ (bts_check n m <> Ok tt -> bts_check n m = Err (mkBTS n m)) /\
  (packet_id_check a e = Ok tt <-> a = e) /\
  (packet_id_check a e <> Ok tt -> packet_id_check a e = Err (message_of_packet_id (mkPacketId a (Some e)))) /\
  (packet_id_check_ignore_broadcast a e = Ok tt <-> a = e \/ e = xfe) /\
  (packet_id_check_ignore_broadcast a e <> Ok tt ->
     packet_id_check_ignore_broadcast a e = Err (message_of_packet_id (mkPacketId a (Some e)))) /\
  (instruction_check a e = Ok tt <-> a = e) /\
  (instruction_check a e <> Ok tt -> instruction_check a e = Err (message_of_instruction (mkInstruction a e))) /\
  (param_count_check n m = Ok tt <-> n = m) /\
  (param_count_check n m <> Ok tt -> param_count_check n m = Err (message_of_count (mkCount n (Exact m)))) /\
  (param_count_check_max n m = Ok tt <-> n <= m) /\
  (param_count_check_max n m <> Ok tt -> param_count_check_max n m = Err (message_of_count (mkCount n (Max m)))) /\
  (param_count_check_min n m = Ok tt <-> m <= n) /\
  (param_count_check_min n m <> Ok tt -> param_count_check_min n m = Err (message_of_count (mkCount n (Min m)))).
Proof. exact L_C79_checks. Qed.
Print Assumptions C79_checks.

(** They do not panic.  Not true of the check of the header prefix, when fewer than four bytes are given. *)
Theorem C79_header_check_refuted : ~ forall actual expected, length expected = 4 -> exists r, header_prefix_check actual expected = Val r.
Proof. exact L_C79_header_check_refuted. Qed.
Print Assumptions C79_header_check_refuted.
Theorem C79_header_check_partial : forall actual expected, length expected = 4 ->
  (header_prefix_check actual expected = Val (Ok tt) <-> actual = expected) /\
  (actual <> expected -> 4 <= length actual -> header_prefix_check actual expected =
     Val (Err (message_of_header_prefix (mkHeaderPrefix (firstn 4 actual) expected)))) /\
  (length actual < 4 -> header_prefix_check actual expected = Panic PIndex).
Proof. exact L_C79_header_check_partial. Qed.
Print Assumptions C79_header_check_partial.

Example C79_example :
  header_prefix_check [xff; xff; xfd; x01; x02] [xff; xff; xfd; x00] =
    Val (Err (IMHeaderPrefix [xff; xff; xfd; x01] [xff; xff; xfd; x00])) /\
  packet_id_check_ignore_broadcast x01 xfe = Ok tt /\
  packet_id_check_ignore_broadcast xfe x01 = Err (IMPacketId xfe (Some x01)) /\
  transfer_says (TReadError (RInvalidMessage (IMChecksum 1 2))) = SaysChecksum (mkChecksum 1 2).
Proof. repeat split. Qed.
