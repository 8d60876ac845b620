(** * TypedTheorems: typed and untyped calls *)
From Coq Require Import ZArith ZifyN ZifyNat ZifyBool.
From Verif Require Import Base Endian Error Checksum Bytestuff Packet Time Bus Data Client
  Instructions Device Api DataSpec Spec CallSpec StreamSpec DeviceSpec InstructionSpec TypedSpec Demo Lib ChecksumProofs
  CrcErrorProofs StuffProofs WriteProofs ReadProofs ApiProofs StreamProofs MessageProofs SendProofs
  SendTheorems ReadTheorems StatusProofs DeviceTheorems InstructionProofs DemoProofs TransferTheorems DataTheorems GenericTheorems.

(** ** Reading *)

Lemma decode_packet : forall A (D : data_impl A) p,
  decode_status_packet D p = decode_outcome D RInvalidMessage (decode_status_packet_bytes p).
Proof.
  intros A D p. unfold decode_status_packet, decode_status_packet_bytes.
  destruct (st_error p) as [e|?|]; try reflexivity. cbn [obind].
  destruct (motor_error_check e); [|reflexivity].
  destruct (pk_id p) as [i|?|]; try reflexivity. cbn [obind].
  destruct (st_alert p) as [al|?|]; try reflexivity. cbn [obind].
  destruct (st_parameters p) as [ps|?|]; try reflexivity. cbn [obind decode_outcome]. unfold decode_response. cbn [r_data r_motor_id r_alert].
  destruct (d_decode D ps) as [[v|e']|?|]; reflexivity.
Qed.

Lemma L_C73_read : forall A (D : data_impl A) id a s o s',
  read_bytes id a (N.of_nat (d_size D)) s = (o, s') ->
  read D id a s = (decode_outcome D (fun e => TReadError (RInvalidMessage e)) o, s').
Proof.
  intros A D id a s o s' E. unfold read_bytes in E. unfold read, try_, bind in *.
  destruct (read_raw id a (N.of_nat (d_size D)) s) as [[[p|e]|k|] s1]; try (injection E as <- <-; reflexivity).
  unfold lift in *. rewrite decode_packet.
  destruct (decode_status_packet_bytes p) as [[r|e]|k|]; try (injection E as <- <-; reflexivity).
  injection E as <- <-. cbn [decode_outcome map_err].
  destruct (decode_response D r) as [[v|e]|k|]; reflexivity.
Qed.

Lemma L_C73_sync_read : forall A (D : data_impl A) ids a s o s',
  sync_read_bytes ids a (N.of_nat (d_size D)) s = (o, s') ->
  match o with
  | Val (Ok itb) => exists it, sync_read D ids a s = (Val (Ok it), s') /\ same_position D it itb
  | Val (Err e) => sync_read D ids a s = (Val (Err e), s')
  | Panic k => sync_read D ids a s = (Panic k, s')
  | Blocked => sync_read D ids a s = (Blocked, s')
  end.
Proof.
  intros A D ids a s o s' E. unfold sync_read_bytes in E. unfold sync_read, try_, bind in *.
  destruct (write_sync_read ids a (N.of_nat (d_size D)) s) as [[[[]|e]|k|] s1]; injection E as <- <-; try reflexivity.
  eexists. split; [reflexivity|]. repeat split.
Qed.

Lemma expect_same : forall A (D : data_impl A) id s,
  expect_value D id s =
  (decode_outcome D RInvalidMessage (fst (expect_response id (N.of_nat (d_size D)) s)), snd (expect_response id (N.of_nat (d_size D)) s)).
Proof.
  intros A D id s. unfold expect_value, expect_response, try_, bind.
  destruct (read_status_response (N.of_nat (d_size D)) s) as [[[p|e]|k|] s1]; try reflexivity.
  unfold lift. destruct (pk_id p) as [i|k|]; try reflexivity. unfold tryr.
  destruct (packet_id_check i id); [|reflexivity].
  destruct (st_parameters p) as [ps|k|]; try reflexivity. rewrite Nat2N.id.
  destruct (param_count_check (length ps) (d_size D)); [|reflexivity]. cbn [fst snd]. rewrite decode_packet. reflexivity.
Qed.

Lemma pop_same : forall A (D : data_impl A) it itb, same_position D it itb ->
  fst (sr_pop it) = fst (srb_pop itb) /\ same_position D (snd (sr_pop it)) (snd (srb_pop itb)).
Proof.
  intros A D [ids i] [c ids' i'] [E1 [E2 E3]]. cbn [sr_ids sr_index srb_ids srb_index srb_count] in *. subst ids' i' c.
  unfold sr_pop, srb_pop. cbn [sr_ids sr_index srb_ids srb_index srb_count].
  destruct (nth_error ids i); (split; [reflexivity|]); repeat split.
Qed.

Lemma L_C73_sync_read_next : forall A (D : data_impl A) it itb s o s',
  same_position D it itb -> srb_next itb s = (o, s') ->
  match o with
  | Val (None, itb') => exists it', sr_next D it s = (Val (None, it'), s') /\ same_position D it' itb'
  | Val (Some r, itb') =>
      match decode_outcome D RInvalidMessage (Val r) with
      | Val v => exists it', sr_next D it s = (Val (Some v, it'), s') /\ same_position D it' itb'
      | Panic k => sr_next D it s = (Panic k, s')
      | Blocked => sr_next D it s = (Blocked, s')
      end
  | Panic k => sr_next D it s = (Panic k, s')
  | Blocked => sr_next D it s = (Blocked, s')
  end.
Proof.
  intros A D it itb s o s' P E. destruct (pop_same A D it itb P) as [P1 P2]. unfold srb_next in E. unfold sr_next.
  destruct (sr_pop it) as [x it'], (srb_pop itb) as [y itb']. cbn [fst snd] in P1, P2. subst y.
  destruct x as [id|].
  - unfold bind in *. rewrite expect_same. destruct P as [_ [_ Pc]]. rewrite Pc in E.
    destruct (expect_response id (N.of_nat (d_size D)) s) as [[r|k|] s1]; try (injection E as <- <-; reflexivity).
    injection E as <- <-. cbn [fst snd]. destruct (decode_outcome D RInvalidMessage (Val r)) as [v|k|]; try reflexivity.
    exists it'. split; [reflexivity|exact P2].
  - injection E as <- <-. exists it'. split; [reflexivity|exact P2].
Qed.

(** ** Dropping *)

Lemma status_parts : forall n s p s', read_status_response n s = (Val (Ok p), s') ->
  exists e ps i, st_error p = Val e /\ motor_error_check e = Ok tt /\ st_parameters p = Val ps /\ pk_id p = Val i.
Proof.
  intros n s p s' E. unfold read_status_response, bind, get, lift in E.
  destruct (response_timeout (b_dbg s) (b_baud s) n) as [t|k|]; try discriminate E.
  unfold read_status_response_timeout, try_, bind in E.
  destruct (port_make_deadline t s) as [[d|k|] s1]; try discriminate E.
  destruct (read_packet_deadline d s1) as [[[q|e]|k|] s2]; try discriminate E.
  unfold lift in E. destruct (as_status q) as [[st|]|k|] eqn:Eq; try discriminate E.
  2:{ destruct (pk_instruction q); discriminate E. }
  destruct (st_error st) as [e|k|] eqn:Ee; try discriminate E. unfold tryr in E.
  destruct (motor_error_check e) as [[]|] eqn:Em; [|discriminate E]. injection E as <- <-.
  unfold st_error, idx in Ee. destruct (nth_error (pk_data st) 8) as [x|] eqn:En; [|discriminate Ee].
  assert (L : 8 < length (pk_data st)) by (apply nth_error_Some; congruence).
  destruct (nth_error (pk_data st) 4) as [i|] eqn:E4; [|apply nth_error_None in E4; lia].
  eexists. eexists. exists i. split; [unfold st_error, idx; rewrite En; reflexivity|].
  split; [injection Ee as ->; exact Em|]. split; [|unfold pk_id, idx; rewrite E4; reflexivity].
  unfold st_parameters, slice_from. rewrite slice_val; [reflexivity|unfold HEADER_SIZE; lia|lia].
Qed.

Lemma decode_calm : forall A (D : data_impl A) n s p s' ps, decodes_calmly D ->
  read_status_response n s = (Val (Ok p), s') -> st_parameters p = Val ps -> length ps = d_size D ->
  exists r, decode_status_packet D p = Val r.
Proof.
  intros A D n s p s' ps C E Ep L. destruct (status_parts _ _ _ _ E) as [e [ps' [i [E1 [E2 [E3 E4]]]]]].
  unfold decode_status_packet. rewrite E1. cbn [obind]. rewrite E2, E4. cbn [obind]. unfold st_alert. rewrite E1. cbn [obind].
  rewrite Ep. cbn [obind]. destruct (C ps L) as [[v|e'] ->]; eexists; reflexivity.
Qed.

Lemma drop_loop_same : forall A (D : data_impl A), decodes_calmly D -> forall n it itb s,
  same_position D it itb -> sr_drop_loop D n it s = srb_drop_loop n itb s.
Proof.
  intros A D C. induction n as [|n IH]; intros it itb s P; [reflexivity|].
  destruct (pop_same A D it itb P) as [P1 P2]. cbn [sr_drop_loop srb_drop_loop]. unfold sr_next.
  destruct (sr_pop it) as [x it'], (srb_pop itb) as [y itb']. cbn [fst snd] in P1, P2. subst y.
  destruct x as [id|]; [|reflexivity]. destruct P as [_ [_ Pc]]. rewrite Pc. unfold bind.
  assert (K : (exists r s1, expect_value D id s = (Val r, s1) /\ exists r', read_status_response (N.of_nat (d_size D)) s = (Val r', s1)) \/
    (exists k s1, expect_value D id s = (Panic k, s1) /\ read_status_response (N.of_nat (d_size D)) s = (Panic k, s1)) \/
    (exists s1, expect_value D id s = (Blocked, s1) /\ read_status_response (N.of_nat (d_size D)) s = (Blocked, s1))).
  { unfold expect_value, try_, bind. destruct (read_status_response (N.of_nat (d_size D)) s) as [[[p|e]|k|] s1] eqn:E.
    - left. destruct (status_parts _ _ _ _ E) as [e [ps [i [E1 [E2 [E3 E4]]]]]]. unfold lift. rewrite E4. unfold tryr.
      destruct (packet_id_check i id); [|unfold ret; eauto 6]. rewrite E3. unfold param_count_check.
      destruct (length ps =? d_size D) eqn:L; [|unfold ret; eauto 6].
      destruct (decode_calm A D _ _ _ _ ps C E E3 ltac:(lia)) as [r ->]; eauto 6.
    - left. unfold ret. eauto 6.
    - right. left. eauto.
    - right. right. eauto. }
  destruct K as [[r [s1 [-> [r' ->]]]]|[[k [s1 [-> ->]]]|[s1 [-> ->]]]]; try reflexivity.
  unfold ret. apply IH, P2.
Qed.

Lemma L_C73_sync_read_drop_partial : forall A (D : data_impl A) it itb s,
  decodes_calmly D -> same_position D it itb -> sr_drop D it s = srb_drop itb s.
Proof.
  intros A D it itb s C P. unfold sr_drop, srb_drop. destruct P as [E1 [E2 E3]]. rewrite E1, E2.
  apply (drop_loop_same A D C). repeat split; assumption.
Qed.

Lemma L_C73_crate_types_decode : forall A (D : data_impl A) V R, crate_type D V R -> decodes_calmly D.
Proof. intros A D V R H l L. destruct (L_C36_decode_encode A D V R l H L) as [v [E _]]. eauto. Qed.

(** A type for which zero is not a valid value, with a decoder that says so by panicking. *)
Definition nonzero : data_impl Z := mkData Z 1 (fun _ b => Val (b, Ok tt)) (fun b =>
  if beq (hd x00 b) x00 then Panic PUnwrap else Val (Ok (Z.of_N (b2n (hd x00 b))))).

Definition zero_arrives : bus := fresh true [RdData (frame x01 [x55; x00; x00])] 32 32.

Lemma zero_drop : (exists k s', sr_drop nonzero (mkSR [x01] 0) zero_arrives = (Panic k, s')) /\
  (exists s', srb_drop (mkSRB 1 [x01] 0) zero_arrives = (Val tt, s')).
Proof. split; [do 2 eexists|eexists]; vm_compute; reflexivity. Qed.

Lemma L_C73_sync_read_drop_refuted : ~ (forall A (D : data_impl A) it itb s,
  data_ok D -> reach s -> same_position D it itb -> sr_drop D it s = srb_drop itb s).
Proof.
  intro H. destruct zero_drop as [[k [s1 E1]] [s2 E2]].
  rewrite (H Z nonzero (mkSR [x01] 0) (mkSRB 1 [x01] 0) zero_arrives) in E1.
  - rewrite E1 in E2. discriminate E2.
  - intros v b b' r E. injection E as <- _. reflexivity.
  - apply fresh_reach. lia.
  - repeat split.
Qed.

(** ** Writing *)

Lemma write_same : forall s id i n enc enc' params, inv s -> n = length params ->
  writes_parameters enc params -> writes_parameters enc' params ->
  write_instruction id i n enc s = write_instruction id i n enc' s.
Proof.
  intros s id i n enc enc' params [_ Hw] -> [O W] [O' W']. unfold write_instruction. rewrite !write_packet_gen by assumption.
  unfold write_gen. cbv zeta. destruct (usize_max <? N.of_nat (length params + 10))%N; [reflexivity|].
  destruct (length (b_wbuf s) <? length params + 10) eqn:L; [reflexivity|].
  rewrite W, W' by (rewrite firstn_length, skipn_length; lia). reflexivity.
Qed.

Lemma instruct_same : forall s id i n enc enc' params, inv s -> n = length params ->
  writes_parameters enc params -> writes_parameters enc' params -> instruct id i n enc s = instruct id i n enc' s.
Proof.
  intros. unfold instruct, try_, bind at 1 3. rewrite (write_same s id i n enc enc' params) by assumption. reflexivity.
Qed.

Lemma L_C73_write : forall A (D : data_impl A) id a v bytes s,
  reach s -> data_ok D -> encodes_as D v bytes -> write D id a v s = write_bytes id a bytes s.
Proof.
  intros A D id a v bytes s R HD He. unfold write, write_bytes. rewrite <- (proj1 He).
  apply (instruct_same s id WRITE _ _ _ (le16 a ++ bytes)).
  - apply reach_inv, R.
  - rewrite app_length. reflexivity.
  - apply address_and_value_writes; assumption.
  - apply address_and_bytes_writes.
Qed.

Lemma L_C73_reg_write_one_byte_partial : forall A (D : data_impl A) id a v bytes s,
  reach s -> data_ok D -> encodes_as D v bytes -> d_size D = 1 -> reg_write D id a v s = reg_write_bytes id a bytes s.
Proof.
  intros A D id a v bytes s R HD He H1. unfold reg_write, reg_write_bytes. rewrite (proj1 He), H1.
  apply (instruct_same s id REG_WRITE _ _ _ (le16 a ++ bytes)).
  - apply reach_inv, R.
  - rewrite app_length, (proj1 He), H1. reflexivity.
  - apply address_and_value_writes; assumption.
  - apply address_and_bytes_writes.
Qed.

Lemma two_bytes_4660 : int_bytes false 2 4660 [x34; x12].
Proof.
  split; [vm_compute; split; [discriminate|reflexivity]|]. split; [reflexivity|]. exists 0%Z. reflexivity.
Qed.

Lemma L_C73_crate_types_encode : forall A (D : data_impl A) V R v bytes, crate_type D V R -> R v bytes ->
  data_ok D /\ encodes_as D v bytes.
Proof. intros A D V R v bytes H Hv. split; [exact (crate_data_ok A D V R H)|exact (crate_encodes_as A D V R v bytes H Hv)]. Qed.

Lemma L_C73_reg_write_refuted : ~ (forall A (D : data_impl A) V R id a v bytes s,
  crate_type D V R -> R v bytes -> is_u16 a -> reach s -> reg_write D id a v s = reg_write_bytes id a bytes s).
Proof.
  intro H. pose proof (H _ (data_int false 2) _ _ x01 100%N 4660%Z [x34; x12] (fresh true [] 32 32)
    (ct_int false 2 (or_intror (or_introl eq_refl))) two_bytes_4660 eq_refl (fresh_reach true [] 32 32 ltac:(lia))) as E.
  apply (f_equal (fun x => p_log (b_port (snd x)))) in E. vm_compute in E. discriminate E.
Qed.

Lemma L_C73_sync_write_one_byte_partial : forall A (D : data_impl A) a l l' s,
  reach s -> data_ok D -> d_size D = 1 ->
  Forall2 (fun c c' => sw_id c = sw_id c' /\ encodes_as D (sw_data c) (sw_data c')) l l' ->
  sync_write D a l s = sync_write_bytes a 1 l' s.
Proof.
  intros A D a l l' s R HD H1 F.
  assert (Ll : length (sync_entries l') = 2 * length l /\ length l = length l' /\ Forall (fun x => length (sw_data x) = N.to_nat 1) l').
  { clear HD. induction F as [|c c' l l' [_ [He _]] _ IH]; [repeat split; constructor|]. destruct IH as [I1 [I2 I3]].
    split; [|split].
    - cbn [sync_entries flat_map length]. rewrite app_length. fold (sync_entries l'). rewrite I1. cbn [length]. rewrite He, H1. lia.
    - cbn [length]. lia.
    - constructor; [rewrite He, H1; reflexivity|exact I3]. }
  destruct Ll as [L1 [L2 L3]].
  pose proof (sync_write_bytes_writes a 1 l' L3) as W.
  unfold sync_write, sync_write_bytes. cbv zeta. rewrite <- L2. change (N.to_nat 1) with 1 in *.
  apply (write_same s BROADCAST SYNC_WRITE _ _ _ (le16 a ++ le16 1 ++ sync_entries l')).
  - apply reach_inv, R.
  - rewrite !app_length, L1. cbn [length le16]. lia.
  - split; [apply sync_write_params_ok; exact HD|]. intros b L.
    rewrite !app_length, L1 in L. cbn [length le16] in L.
    destruct (four_bytes b (2 * length l) ltac:(lia)) as [x [y [z [u [r [-> Lr]]]]]].
    rewrite u16_at0. cbn [obind]. rewrite u16_at2. cbn [obind].
    change (N.of_nat 1 mod 2 ^ 16)%N with 1%N.
    change (n2b a :: n2b (a / 256) :: n2b 1 :: n2b (1 / 256) :: r) with ([n2b a; n2b (a / 256); n2b 1; n2b (1 / 256)] ++ r).
    rewrite (sync_write_loop_val A D l l' H1 F 0) by (try reflexivity; lia). reflexivity.
  - exact W.
Qed.

Lemma L_C73_sync_write_refuted : ~ (forall A (D : data_impl A) V R a l l' s,
  crate_type D V R -> Forall2 (fun c c' => sw_id c = sw_id c' /\ R (sw_data c) (sw_data c')) l l' -> is_u16 a -> reach s ->
  sync_write D a l s = sync_write_bytes a (N.of_nat (d_size D)) l' s).
Proof.
  intro H. pose proof (H _ (data_int false 2) _ _ 100%N [mkSync x01 4660%Z] [mkSync x01 [x34; x12]] (fresh true [] 64 64)
    (ct_int false 2 (or_intror (or_introl eq_refl)))) as E.
  assert (F : Forall2 (fun c c' => sw_id c = sw_id c' /\ int_bytes false 2 (sw_data c) (sw_data c')) [mkSync x01 4660%Z] [mkSync x01 [x34; x12]]).
  { constructor; [exact (conj eq_refl two_bytes_4660)|constructor]. }
  specialize (E F eq_refl (fresh_reach true [] 64 64 ltac:(lia))).
  apply (f_equal (fun x => p_log (b_port (snd x)))) in E. vm_compute in E. discriminate E.
Qed.

(** ** Cases *)

Definition word_arrives : bus := fresh true [RdData (frame x01 [x55; x00; x34; x12])] 32 32.

Lemma word_read : exists s1 s2,
  read_bytes x01 100 2 word_arrives = (Val (Ok (mkResponse x01 false [x34; x12])), s1) /\
  read (data_int false 2) x01 100 word_arrives = (Val (Ok (mkResponse x01 false 4660%Z)), s2).
Proof. do 2 eexists. split; vm_compute; reflexivity. Qed.
