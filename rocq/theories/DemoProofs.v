(** * DemoProofs: concrete packets for the examples beside the theorems *)
From Verif Require Import Base Error Checksum Packet Time Bus Data Client Instructions Device Spec Api CallSpec StreamSpec Demo Lib
  ChecksumProofs CrcErrorProofs.

(** The packet with the given id and body. *)
Definition frame (id : byte) (body : list byte) : list byte :=
  wire_of_body id (pstuff body)
    (calculate_checksum 0 (header ++ [id] ++ le16 (N.of_nat (length (pstuff body) + 2)) ++ pstuff body)).

Lemma frame_ok : forall id body, (N.of_nat (length (pstuff body) + 2) < 2 ^ 16)%N ->
  is_frame id body (frame id body).
Proof. intros id body H. eexists. split; [reflexivity|]. split; [exact H|]. apply checksum_iff_crc16; reflexivity. Qed.

(** The message with the given id and (stuffed) body. *)
Definition raw_frame (id : byte) (body : list byte) : list byte :=
  message id body (calculate_checksum 0 (header ++ [id] ++ le16 (N.of_nat (length body + 2)) ++ body)).

Lemma raw_frame_ok : forall id body, (N.of_nat (length body + 2) < 2 ^ 16)%N ->
  framed id body (raw_frame id body).
Proof. intros id body H. eexists. split; [reflexivity|]. split; [exact H|]. apply checksum_iff_crc16; reflexivity. Qed.

Fixpoint header_in (l : list byte) : bool :=
  match l with
  | [] => false
  | a :: t =>
      match t with
      | b :: c :: d :: _ => (beq a xff && beq b xff && beq c xfd && beq d x00) || header_in t
      | _ => false
      end
  end.

Lemma header_in_false : forall l, header_in l = false -> ~ contains l header.
Proof.
  intros l H [a [b ->]]. revert H. induction a as [|x a IH]; intro H.
  - discriminate.
  - apply IH. clear IH. cbn [app header_in] in H.
    destruct a as [|y a]; [exact (proj2 (proj1 (orb_false_iff _ _) H))|].
    destruct a as [|z a]; [exact (proj2 (proj1 (orb_false_iff _ _) H))|].
    destruct a as [|u a]; [exact (proj2 (proj1 (orb_false_iff _ _) H))|].
    exact (proj2 (proj1 (orb_false_iff _ _) H)).
Qed.

Definition now : deadline := mkDeadline 0 dur_34ms.

Ltac demo :=
  repeat match goal with
  | |- _ /\ _ => split
  | |- reach (fresh _ _ _ _) => apply fresh_reach
  | |- is_frame _ _ (frame _ _) => apply frame_ok
  | |- framed _ _ (raw_frame _ _) => apply raw_frame_ok
  | |- ~ contains _ header => apply header_in_false
  | |- sends _ _ _ _ => constructor
  | |- writes_parameters (fill _) _ => apply fill_writes
  | |- _ <> _ => discriminate
  | |- _ => solve [vm_compute; reflexivity | vm_compute; lia | vm_compute; intuition lia]
  end.
