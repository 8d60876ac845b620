(** * ErrorTheorems: checks and conversions of errors *)
From Coq Require Import ZArith ZifyN ZifyNat ZifyBool.
From Verif Require Import Base Error ErrorFrom ErrorSpec Lib StuffProofs.

Lemma L_C79_conversions : 
  (* nothing is lost *)
  (forall x, message_says (message_of_header_prefix x) = SaysHeaderPrefix x /\ read_says (read_of_header_prefix x) = SaysHeaderPrefix x /\
             transfer_says (transfer_of_header_prefix x) = SaysHeaderPrefix x) /\
  (forall x, message_says (message_of_checksum x) = SaysChecksum x /\ read_says (read_of_checksum x) = SaysChecksum x /\
             transfer_says (transfer_of_checksum x) = SaysChecksum x) /\
  (forall x, message_says (message_of_packet_id x) = SaysPacketId x /\ read_says (read_of_packet_id x) = SaysPacketId x /\
             transfer_says (transfer_of_packet_id x) = SaysPacketId x) /\
  (forall x, message_says (message_of_instruction x) = SaysInstruction x /\ read_says (read_of_instruction x) = SaysInstruction x /\
             transfer_says (transfer_of_instruction x) = SaysInstruction x) /\
  (forall x, message_says (message_of_count x) = SaysCount x /\ read_says (read_of_count x) = SaysCount x /\
             transfer_says (transfer_of_count x) = SaysCount x) /\
  (forall x, read_says (read_of_motor_error x) = SaysMotorError x /\ transfer_says (transfer_of_motor_error x) = SaysMotorError x) /\
  (forall x, write_says (write_of_small x) = SaysTooSmall x /\ read_says (read_of_small x) = SaysTooSmall x) /\
  (forall m, read_says (read_of_message m) = message_says m /\ transfer_says (transfer_of_message m) = message_says m) /\
  (forall r, transfer_says (transfer_of_read r) = read_says r /\ ~ while_writing (transfer_of_read r)) /\
  (forall w, transfer_says (transfer_of_write w) = write_says w /\ while_writing (transfer_of_write w)).
Proof.
  repeat split; try (destruct x; reflexivity); try reflexivity; try (destruct w; reflexivity).
  - intros [w E]. discriminate E.
  - exists w. reflexivity.
Qed.

(** Converting in one step or in several. *)
Lemma L_C79_conversions_commute :
  (forall x, transfer_of_read (read_of_message (message_of_header_prefix x)) = transfer_of_header_prefix x /\
             transfer_of_message (message_of_header_prefix x) = transfer_of_header_prefix x /\
             transfer_of_read (read_of_header_prefix x) = transfer_of_header_prefix x) /\
  (forall x, transfer_of_read (read_of_message (message_of_checksum x)) = transfer_of_checksum x /\
             transfer_of_message (message_of_checksum x) = transfer_of_checksum x /\
             transfer_of_read (read_of_checksum x) = transfer_of_checksum x) /\
  (forall x, transfer_of_read (read_of_message (message_of_packet_id x)) = transfer_of_packet_id x /\
             transfer_of_message (message_of_packet_id x) = transfer_of_packet_id x /\
             transfer_of_read (read_of_packet_id x) = transfer_of_packet_id x) /\
  (forall x, transfer_of_read (read_of_message (message_of_instruction x)) = transfer_of_instruction x /\
             transfer_of_message (message_of_instruction x) = transfer_of_instruction x /\
             transfer_of_read (read_of_instruction x) = transfer_of_instruction x) /\
  (forall x, transfer_of_read (read_of_message (message_of_count x)) = transfer_of_count x /\
             transfer_of_message (message_of_count x) = transfer_of_count x /\
             transfer_of_read (read_of_count x) = transfer_of_count x) /\
  (forall x, transfer_of_read (read_of_motor_error x) = transfer_of_motor_error x) /\
  (forall x, transfer_of_read (read_of_message x) = transfer_of_message x).
Proof. repeat split. Qed.

(** ** Checks *)

Lemma L_C79_checks : forall a e n m,
  (bts_check n m = Ok tt <-> n <= m) /\ (bts_check n m <> Ok tt -> bts_check n m = Err (mkBTS n m)) /\
  (packet_id_check a e = Ok tt <-> a = e) /\
  (packet_id_check a e <> Ok tt -> packet_id_check a e = Err (message_of_packet_id (mkPacketId a (Some e)))) /\
  (packet_id_check_ignore_broadcast a e = Ok tt <-> a = e \/ e = xfe) /\
  (packet_id_check_ignore_broadcast a e <> Ok tt ->
     packet_id_check_ignore_broadcast a e = Err (message_of_packet_id (mkPacketId a (Some e)))) /\
  (instruction_check a e = Ok tt <-> a = e) /\
  (instruction_check a e <> Ok tt -> instruction_check a e = Err (message_of_instruction (mkInstruction a e))) /\
  (param_count_check n m = Ok tt <-> n = m) /\
  (param_count_check n m <> Ok tt -> param_count_check n m = Err (message_of_count (mkCount n (Exact m)))) /\
  (param_count_check_max n m = Ok tt <-> n <= m) /\
  (param_count_check_max n m <> Ok tt -> param_count_check_max n m = Err (message_of_count (mkCount n (Max m)))) /\
  (param_count_check_min n m = Ok tt <-> m <= n) /\
  (param_count_check_min n m <> Ok tt -> param_count_check_min n m = Err (message_of_count (mkCount n (Min m)))).
Proof.
  intros a e n m.
  unfold bts_check, packet_id_check_ignore_broadcast, packet_id_check, instruction_check, param_count_check, param_count_check_max,
    param_count_check_min.
  destruct (n <=? m) eqn:L1; destruct (m <=? n) eqn:L2; destruct (n =? m) eqn:L3;
    destruct (beq a e) eqn:B; destruct (beq e xfe) eqn:F;
    repeat match goal with H : beq _ _ = true |- _ => apply beq_true in H end;
    repeat split; intros; try lia; try congruence; try discriminate; auto;
    try (subst; rewrite beq_refl in *; discriminate);
    try (destruct H as [H|H]; subst; rewrite beq_refl in *; discriminate).
Qed.

(** A prefix that differs and has fewer than four bytes panics. *)
Lemma L_C79_header_check_refuted : ~ forall actual expected, length expected = 4 -> exists r, header_prefix_check actual expected = Val r.
Proof. intro H. destruct (H [xff] [xff; xff; xfd; x00] eq_refl) as [r E]. discriminate E. Qed.

Lemma L_C79_header_check_partial : forall actual expected, length expected = 4 ->
  (header_prefix_check actual expected = Val (Ok tt) <-> actual = expected) /\
  (actual <> expected -> 4 <= length actual -> header_prefix_check actual expected =
     Val (Err (message_of_header_prefix (mkHeaderPrefix (firstn 4 actual) expected)))) /\
  (length actual < 4 -> header_prefix_check actual expected = Panic PIndex).
Proof.
  intros actual expected L. unfold header_prefix_check. destruct (bytes_eqb actual expected) eqn:B.
  - apply bytes_eqb_true in B. subst. split; [split; auto|]. split; [congruence|lia].
  - assert (N : actual <> expected). { intro K. apply bytes_eqb_true in K. congruence. }
    split; [|split].
    + split; [|contradiction]. destruct actual as [|a [|b [|c [|d r]]]]; discriminate.
    + intros _ L4. destruct actual as [|a [|b [|c [|d r]]]]; cbn in L4; try lia. reflexivity.
    + intro L4. destruct actual as [|a [|b [|c [|d r]]]]; cbn in L4; try lia; reflexivity.
Qed.
