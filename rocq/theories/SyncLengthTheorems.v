(** * SyncLengthTheorems: synchronous writes of the wrong length, C58 *)
From Coq Require Import ZArith ZifyN ZifyNat ZifyBool.
From Verif Require Import Base Endian Error Checksum Bytestuff Packet Time Bus Data Client
  Instructions Device Api Spec CallSpec StreamSpec InstructionSpec TwinSpec Lib
  WriteProofs SendProofs StatusProofs ApiProofs SendTheorems InstructionProofs GenericTheorems TwinProofs.

Lemma L_C58_wrong_length : forall a n l s o s', reach s -> ~ Forall (fun e => length (sw_data e) = N.to_nat n) l ->
  sync_write_bytes a n l s = (o, s') ->
  calls s s' [] /\ (forall r, o <> Val (Ok r)) /\
  (14 + length l * (1 + N.to_nat n) <= length (b_wbuf s) ->
   (N.of_nat (length (b_wbuf s)) <= usize_max)%N -> o = Panic PAssert).
Proof.
  intros a n l s o s' R F E. unfold sync_write_bytes, write_instruction in E. cbv zeta in E.
  pose proof (reach_inv _ R) as [_ Hw].
  rewrite write_packet_gen in E by (try exact Hw; auto with enc). unfold write_gen in E. cbv zeta in E.
  set (k := 4 + length l * (1 + N.to_nat n)) in *.
  destruct (usize_max <? N.of_nat (k + 10))%N eqn:U.
  { injection E as <- <-. split; [unfold calls; rewrite app_nil_r; reflexivity|]. split; [discriminate|]. intros L1 L2. unfold k in *. lia. }
  destruct (length (b_wbuf s) <? k + 10) eqn:B.
  { injection E as <- <-. split; [unfold calls; rewrite app_nil_r; reflexivity|]. split; [discriminate|]. intros L1 L2. unfold k in *. lia. }
  assert (L : length (firstn k (skipn 8 (b_wbuf s))) = 4 + length l * (1 + N.to_nat n)).
  { rewrite firstn_length, skipn_length. unfold k in *. lia. }
  destruct (four_bytes _ _ L) as [x [y [z [u [r [Eq Lr]]]]]]. rewrite Eq in E, L. unfold enc_ok in E.
  rewrite u16_at0 in E. cbn [obind] in E. rewrite u16_at2 in E. cbn [obind] in E.
  rewrite sync_write_bytes_loop_panics in E; [| |exact F].
  - cbn [obind] in E. injection E as <- <-. split; [unfold calls; rewrite app_nil_r; reflexivity|]. split; [discriminate|]. reflexivity.
  - cbn [length] in *. lia.
Qed.

Lemma L_C58_right_length : forall a n l s, reach s -> Forall (fun e => length (sw_data e) = N.to_nat n) l ->
  plenty_of_room s (4 + length l * (1 + N.to_nat n)) -> exists r s', sync_write_bytes a n l s = (Val r, s').
Proof.
  intros a n l s R F P. unfold sync_write_bytes. cbv zeta.
  apply (write_no_panic s BROADCAST SYNC_WRITE _ _ _ R (sync_write_bytes_writes a n l F)); [|exact P].
  rewrite !app_length, sync_entries_length with (c := N.to_nat n) by exact F. cbn [length le16]. lia.
Qed.
