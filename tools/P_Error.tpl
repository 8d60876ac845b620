(** * Property C79: the checks and conversions of the error types *)
From Verif Require Import Base Error ErrorFrom ErrorSpec ErrorTheorems.

(** ** C79.  A wrapped error says what the error inside says. *)
@C79_conversions

(** It does not matter how [?] got there. *)
@C79_conversions_commute

(** The public checks accept exactly what they should, and report the values that they compared. *)
@C79_checks

(** They do not panic.  Not true of the check of the header prefix, when fewer than four bytes are given. *)
@C79_header_check_refuted
@C79_header_check_partial

Example C79_example :
  header_prefix_check [xff; xff; xfd; x01; x02] [xff; xff; xfd; x00] =
    Val (Err (IMHeaderPrefix [xff; xff; xfd; x01] [xff; xff; xfd; x00])) /\
  packet_id_check_ignore_broadcast x01 xfe = Ok tt /\
  packet_id_check_ignore_broadcast xfe x01 = Err (IMPacketId xfe (Some x01)) /\
  transfer_says (TReadError (RInvalidMessage (IMChecksum 1 2))) = SaysChecksum (mkChecksum 1 2).
Proof. repeat split. Qed.
