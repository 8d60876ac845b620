(** * Demo: concrete buses and encoders for examples and counterexamples *)
From Verif Require Import Base Error Packet Bus Client Device Spec Api CallSpec StreamSpec Lib.

(** A freshly made bus: port answers [script], buffers of the given sizes. *)
Definition fresh (dbg : bool) (script : list rd_event) (rcap wcap : nat) : bus :=
  mkBus (mkPort script [] [] [] 0 []) 57600 (repeat x00 rcap) 0 0
        (header ++ repeat x00 (wcap - 4)) dbg.

Lemma fresh_reach : forall dbg script rcap wcap, 10 <= wcap -> reach (fresh dbg script rcap wcap).
Proof.
  intros dbg script rcap wcap H.
  apply (reach_new dbg (mkPort script [] [] [] 0 []) (repeat x00 rcap) (repeat x00 wcap) 57600).
  unfold with_buffers_and_baud_rate. rewrite repeat_length.
  replace (HEADER_SIZE + 3 <=? wcap) with true by (symmetry; apply Nat.leb_le; exact H).
  replace (repeat x00 wcap) with ([] ++ repeat x00 4 ++ repeat x00 (wcap - 4))
    by (cbn [app]; rewrite <- repeat_app; f_equal; lia).
  rewrite copy_into_val by (rewrite ?repeat_length; reflexivity). reflexivity.
Qed.

(** [buffer.copy_from_slice(params)] *)
Definition fill (params : list byte) : encoder :=
  fun b => let* b' := copy_from_slice b params in Val (b', Ok tt).

Lemma fill_writes : forall params, writes_parameters (fill params) params.
Proof.
  intro params. split.
  - intros s s' r H. unfold fill, copy_from_slice in H.
    destruct (length s =? length params) eqn:E; [|discriminate].
    injection H as <- <-. symmetry. apply Nat.eqb_eq, E.
  - intros s H. unfold fill, copy_from_slice.
    rewrite (proj2 (Nat.eqb_eq _ _) H). reflexivity.
Qed.
