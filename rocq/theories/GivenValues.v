(** * GivenValues: C90 for typed calls *)
From Coq Require Import ZArith ZifyN ZifyNat ZifyBool.
From Verif Require Import Base Endian Error Checksum Bytestuff Packet Time Bus Data Client
  Instructions Device Api Spec CallSpec StreamSpec DeviceSpec InstructionSpec CallerIter GivenSpec Demo Lib StuffProofs
  WriteProofs SendProofs StatusProofs ApiProofs SendTheorems InstructionProofs GenericTheorems TwinProofs GivenTheorems.

Lemma instruct_filled : forall s id i enc enc' n params, reach s -> encoder_ok enc -> writes_parameters enc' params -> n = length params ->
  (n + 10 <= length (b_wbuf s) -> enc (leftover s 8 n) = Val (params, Ok tt)) ->
  instruct id i n enc s = instruct id i n enc' s.
Proof.
  intros. unfold instruct, try_, bind at 1 3. rewrite (write_filled s id i enc enc' n params) by assumption. reflexivity.
Qed.

Lemma value_filled : forall A (D : data_impl A) id i a v n bytes s, reach s -> data_ok D -> 12 + n <= length (b_wbuf s) ->
  d_encode D v (leftover s 10 n) = Val (bytes, Ok tt) ->
  instruct id i (2 + n) (address_and_value D a v) s = instruct id i (2 + length bytes) (address_and_bytes a bytes) s.
Proof.
  intros A D id i a v n bytes s R HD L E. pose proof (HD v _ _ _ E) as Lb. rewrite leftover_length in Lb by lia. rewrite Lb.
  apply (instruct_filled s id i _ _ _ (le16 a ++ bytes) R (address_and_value_ok A D a v HD) (address_and_bytes_writes a bytes)).
  - rewrite app_length, Lb. reflexivity.
  - intros _. rewrite leftover_split. assert (L2 : length (leftover s 8 2) = 2) by (apply leftover_length; lia).
    destruct (leftover s 8 2) as [|x [|y [|z t]]]; try discriminate L2. unfold address_and_value. cbn [app]. rewrite u16_at0.
    cbn [obind]. change (8 + 2) with 10.
    apply (with_slice_tail _ [n2b a; n2b (a / 256)] (leftover s 10 n) (d_encode D v) bytes (Ok tt) E). rewrite leftover_length by lia. exact Lb.
Qed.

Lemma L_C90_unfilled_write : forall A (D : data_impl A) id a v bytes s, reach s -> data_ok D -> 12 + d_size D <= length (b_wbuf s) ->
  d_encode D v (leftover s 10 (d_size D)) = Val (bytes, Ok tt) -> write D id a v s = write_bytes id a bytes s.
Proof. intros A D id a v bytes s. apply value_filled. Qed.

Lemma L_C90_unfilled_reg_write : forall A (D : data_impl A) id a v bytes s, reach s -> data_ok D -> 13 <= length (b_wbuf s) ->
  d_encode D v (leftover s 10 1) = Val (bytes, Ok tt) -> reg_write D id a v s = reg_write_bytes id a bytes s.
Proof. intros A D id a v bytes s. apply value_filled. Qed.

Lemma typed_loop : forall A (D : data_impl A) l l' i b, d_size D = 1 ->
  Forall2 (fun c c' => sw_id c = sw_id c' /\ encodes_as D (sw_data c) (sw_data c')) l l' ->
  sync_write_loop D 1 i l b = (let* b := sync_write_bytes_loop 1 i l' b in Val (b, Ok tt)).
Proof.
  intros A D l l' i b H1 F. revert i b. induction F as [|c c' l l' [Ei [Le Ee]] F IH]; intros i b; [reflexivity|].
  cbn [sync_write_loop sync_write_bytes_loop]. rewrite Le, H1. cbn [Nat.eqb negb]. cbv zeta. rewrite <- Ei.
  unfold with_slice at 1 3. destruct (slice b (4 + i * (1 + 1)) (4 + i * (1 + 1) + (1 + 1))) as [m|p|] eqn:S; cbn [obind]; [|reflexivity|reflexivity].
  assert (Lm : length m = 2).
  { unfold slice in S. destruct ((4 + i * (1 + 1) <=? 4 + i * (1 + 1) + (1 + 1)) && (4 + i * (1 + 1) + (1 + 1) <=? length b)) eqn:B; [|discriminate].
    assert (Em : m = firstn (4 + i * (1 + 1) + (1 + 1) - (4 + i * (1 + 1))) (skipn (4 + i * (1 + 1)) b)) by congruence.
    rewrite Em, firstn_length, skipn_length. lia. }
  destruct m as [|x [|y [|z m]]]; try discriminate Lm.
  destruct (sw_data c') as [|d [|d2 ds]] eqn:Ed; try (cbn [length] in Le; lia).
  unfold set. cbn [length Nat.ltb Nat.leb obind list_set].
  pose proof (with_slice_tail _ [sw_id c] [y] (d_encode D (sw_data c)) [d] (Ok tt) (Ee [y] (eq_sym H1)) eq_refl) as W. cbn [app length] in W.
  rewrite W. cbn [obind].
  pose proof (copy_tail [sw_id c] [y] [d] eq_refl) as K. cbn [app length] in K. rewrite K. cbn [obind]. apply IH.
Qed.

Lemma L_C90_typed_sync_write : forall A (D : data_impl A) motors a l l' s, reach s -> data_ok D -> d_size D = 1 ->
  Forall2 (fun c c' => sw_id c = sw_id c' /\ encodes_as D (sw_data c) (sw_data c')) l l' ->
  sync_write_iter D motors a l s = sync_write_bytes_iter motors a 1 l' s.
Proof.
  intros A D motors a l l' s R HD H1 F. rewrite iter_unfold. unfold sync_write_iter, bind, get, lift. cbv zeta.
  change (1 + N.of_nat 1)%N with (1 + 1)%N. destruct (usize_mul (b_dbg s) motors (1 + 1)) as [x|p|]; cbn [obind]; try reflexivity.
  destruct (usize_add (b_dbg s) 4 x) as [k|p|]; try reflexivity. unfold write_instruction.
  pose proof (reach_inv _ R) as [_ Hw].
  rewrite !write_packet_gen by (try exact Hw; try apply sync_write_bytes_params_ok; apply sync_write_params_ok; exact HD).
  unfold write_gen. cbv zeta. destruct (usize_max <? N.of_nat (N.to_nat k + 10))%N; [reflexivity|].
  destruct (length (b_wbuf s) <? N.to_nat k + 10); [reflexivity|].
  generalize (firstn (N.to_nat k) (skipn 8 (b_wbuf s))) as b. intro b. unfold enc_ok.
  destruct (write_u16_at b 0 a) as [b1|p|]; cbn [obind]; try reflexivity.
  change (N.of_nat 1 mod 2 ^ 16)%N with 1%N. change (N.to_nat 1) with 1.
  destruct (write_u16_at b1 2 1) as [b2|p|]; cbn [obind]; try reflexivity.
  rewrite (typed_loop A D l l' 0 b2 H1 F). reflexivity.
Qed.

(** A type of two bytes whose [encode] writes only the first. *)
Definition half_written : data_impl byte := mkData byte 2 (fun v b => let* b := set b 0 v in Val (b, Ok tt)) (fun b => Val (Ok (hd x00 b))).

Lemma half_written_ok : data_ok half_written.
Proof.
  intros v b b' r E. cbn [d_encode half_written] in E. unfold set in E. destruct (0 <? length b) eqn:L; [|discriminate].
  cbn [obind] in E. injection E as <- _. destruct b as [|x b]; [discriminate|]. reflexivity.
Qed.

(** ** Closures *)

Lemma L_C90_unfilled_instruction : forall id i n enc enc' params s, reach s -> encoder_ok enc -> 10 + n <= length (b_wbuf s) ->
  enc (leftover s 8 n) = Val (params, Ok tt) -> writes_parameters enc' params ->
  write_instruction id i n enc s = write_instruction id i (length params) enc' s.
Proof.
  intros id i n enc enc' params s R O L E W. pose proof (O _ _ _ E) as Lp. rewrite leftover_length in Lp by lia. rewrite Lp.
  apply (write_filled s id i enc enc' n params R O W (eq_sym Lp)). auto.
Qed.

Lemma L_C90_unfilled_status : forall id e n enc enc' params s, reach s -> encoder_ok enc -> 11 + n <= length (b_wbuf s) ->
  enc (leftover s 9 n) = Val (params, Ok tt) -> writes_parameters enc' params ->
  device_write_status id e n enc s = device_write_status id e (length params) enc' s.
Proof.
  intros id e n enc enc' params s R O L E [O' W]. pose proof (O _ _ _ E) as Lp. rewrite leftover_length in Lp by lia. rewrite Lp.
  pose proof (reach_inv _ R) as [_ Hw]. unfold device_write_status. rewrite !write_status_gen_ok by assumption.
  unfold write_status_gen. cbv zeta. unfold leftover in E. rewrite E, W; [reflexivity|]. rewrite firstn_length, skipn_length. lia.
Qed.
