(** * GenericTheorems: reg_write, sync_write and the checks of bulk instructions *)
From Coq Require Import ZArith ZifyN ZifyNat ZifyBool.
From Verif Require Import Base Endian Error Checksum Bytestuff Packet Time Bus Data Client
  Instructions Device Api DataSpec Spec CallSpec StreamSpec DeviceSpec InstructionSpec Demo Lib ChecksumProofs
  CrcErrorProofs StuffProofs WriteProofs ReadProofs ApiProofs StreamProofs MessageProofs SendProofs
  SendTheorems ReadTheorems StatusProofs DeviceTheorems InstructionProofs DemoProofs TransferTheorems DataTheorems.

(** ** Encoders that run out of room *)

Lemma write_fails : forall s id i n enc, inv s -> encoder_ok enc ->
  (forall b, length b = n -> exists b' e, enc b = Val (b', Err e)) -> (N.of_nat (n + 10) <= usize_max)%N ->
  exists e s', write_instruction id i n enc s = (Val (Err (WBufferTooSmall e)), s') /\ calls s s' [].
Proof.
  intros s id i n enc [H1 H2] He Hf Hu. unfold write_instruction. rewrite write_packet_gen by assumption.
  unfold write_gen. cbv zeta. replace (usize_max <? N.of_nat (n + 10))%N with false by lia.
  destruct (length (b_wbuf s) <? n + 10) eqn:L.
  - eexists. eexists. split; [reflexivity|]. apply eq_sym, app_nil_r.
  - destruct (Hf (firstn n (skipn 8 (b_wbuf s)))) as [b' [e ->]].
    { rewrite firstn_length, skipn_length. lia. }
    eexists. eexists. split; [reflexivity|]. apply eq_sym, app_nil_r.
Qed.

Lemma crate_encodes_as : forall A (D : data_impl A) V R v l, crate_type D V R -> R v l -> encodes_as D v l.
Proof.
  intros A D V R v l H Hv. split; [apply (proj1 (crate_good _ _ _ _ H) v l Hv)|].
  intros buf L. rewrite <- (app_nil_r buf), (L_C36_encode A D V R v l buf [] H Hv L), app_nil_r. reflexivity.
Qed.

(** ** C30 *)

Lemma L_C30_reg_write_refuted : ~ (forall A (D : data_impl A) V R id a v bytes,
  crate_type D V R -> R v bytes -> is_u16 a ->
  transmits (reg_write D id a v) id x04 (le16 a ++ bytes)).
Proof.
  intro H. set (s := fresh true [] 32 32).
  assert (B : int_bytes false 2 4660 [x34; x12]).
  { split; [vm_compute; split; [discriminate|reflexivity]|]. split; [reflexivity|]. exists 0%Z. reflexivity. }
  pose proof (H _ (data_int false 2) _ _ x01 100%N 4660%Z [x34; x12] (ct_int false 2 (or_intror (or_introl eq_refl))) B eq_refl) as T.
  destruct (T s _ _ (fresh_reach true [] 32 32 ltac:(lia)) (surjective_pairing _)) as [evs [C [_ S]]].
  assert (P : plenty_of_room s (length (le16 100 ++ [x34; x12]))) by (split; vm_compute; [lia|reflexivity]).
  destruct (S P eq_refl) as [w [r [evs' [E _]]]]. rewrite E in C. vm_compute in C. discriminate C.
Qed.

Lemma L_C30_one_byte_partial : forall A (D : data_impl A) id a v bytes,
  data_ok D -> encodes_as D v bytes -> d_size D = 1 ->
  transmits (reg_write D id a v) id x04 (le16 a ++ bytes).
Proof.
  intros A D id a v bytes HD He H1. apply transmits_of, transmits_instruct.
  - apply address_and_value_writes; assumption.
  - rewrite app_length, (proj1 He), H1. reflexivity.
Qed.

Lemma addr_value_fails : forall A (D : data_impl A) a v b, length b = 3 ->
  (forall buf, length buf = 1 -> exists b' e, d_encode D v buf = Val (b', Err e)) ->
  exists b' e, address_and_value D a v b = Val (b', Err e).
Proof.
  intros A D a v b L H. destruct b as [|x [|y [|z [|]]]]; try discriminate.
  unfold address_and_value. rewrite u16_at0. cbn [obind].
  destruct (H [z] eq_refl) as [b' [e E]].
  unfold with_slice. cbn [length]. rewrite slice_val by (cbn; lia). cbn [obind skipn firstn Nat.sub]. rewrite E.
  cbn [obind]. eauto.
Qed.

Lemma L_C30_wider_always_fails : forall A (D : data_impl A) V R id a v s,
  crate_type D V R -> 1 < d_size D -> reach s ->
  exists e s', reg_write D id a v s = (Val (Err (TWriteError (WBufferTooSmall e))), s') /\ calls s s' [].
Proof.
  intros A D V R id a v s H L Rs.
  destruct (write_fails s id REG_WRITE 3 (address_and_value D a v) (reach_inv _ Rs)) as [e [s' [E C]]].
  - apply address_and_value_ok, (crate_data_ok _ _ _ _ H).
  - intros b Lb. apply addr_value_fails; [exact Lb|]. intros buf Lbuf.
    rewrite (L_C36_too_small A D V R v buf H) by lia. eauto.
  - vm_compute. discriminate.
  - exists e, s'. split; [|exact C]. unfold reg_write, instruct, try_, bind. change (2 + 1) with 3. rewrite E. reflexivity.
Qed.

(** ** C31 *)

Lemma L_C31_sync_write_refuted : ~ (forall A (D : data_impl A) V R a l l',
  crate_type D V R -> is_u16 a ->
  Forall2 (fun c c' => sw_id c = sw_id c' /\ R (sw_data c) (sw_data c')) l l' ->
  transmits (sync_write D a l) xfe x83 (le16 a ++ le16 (N.of_nat (d_size D)) ++ sync_entries l')).
Proof.
  intro H. set (s := fresh true [] 64 64).
  assert (B : int_bytes false 2 4660 [x34; x12]).
  { split; [vm_compute; split; [discriminate|reflexivity]|]. split; [reflexivity|]. exists 0%Z. reflexivity. }
  pose proof (H _ (data_int false 2) _ _ 100%N [mkSync x01 4660%Z] [mkSync x01 [x34; x12]]
    (ct_int false 2 (or_intror (or_introl eq_refl))) eq_refl) as T.
  specialize (T ltac:(constructor; [split; [reflexivity|exact B]|constructor])).
  destruct (T s _ _ (fresh_reach true [] 64 64 ltac:(lia)) (surjective_pairing _)) as [evs [C [_ S]]].
  assert (P : plenty_of_room s (length (le16 100 ++ le16 2 ++ sync_entries [mkSync x01 [x34; x12]])))
    by (split; vm_compute; [lia|reflexivity]).
  destruct (S P eq_refl) as [w [r [evs' [E _]]]]. rewrite E in C. vm_compute in C. discriminate C.
Qed.

Lemma sync_write_loop_val : forall A (D : data_impl A) l l', d_size D = 1 ->
  Forall2 (fun c c' => sw_id c = sw_id c' /\ encodes_as D (sw_data c) (sw_data c')) l l' ->
  forall i done rest, length done = 4 + i * 2 -> length rest = 2 * length l ->
  sync_write_loop D 1 i l (done ++ rest) = Val (done ++ sync_entries l', Ok tt).
Proof.
  intros A D l l' H1 F. induction F as [|c c' l l' [Hid He] _ IH]; intros i done rest L1 L2.
  - destruct rest; [|cbn in L2; discriminate]. reflexivity.
  - destruct rest as [|x [|y rest]]; cbn [length] in L2; try lia.
    cbn [sync_write_loop]. change (x :: y :: rest) with ([x; y] ++ rest).
    rewrite with_slice_app3; [|lia|cbn [length]; lia].
    change (set [x; y] 0 (sw_id c)) with (Val [sw_id c; y]). cbn [obind].
    unfold with_slice. cbn [length]. rewrite slice_val by (cbn; lia). cbn [obind skipn firstn Nat.sub].
    destruct He as [Le He]. rewrite He by (cbn; lia). cbn [obind].
    rewrite H1 in Le. destruct (sw_data c') as [|z [|]] eqn:Ed; try discriminate.
    change (splice [sw_id c; y] 1 [z]) with [sw_id c; z].
    rewrite splice_app by reflexivity. rewrite app_assoc. rewrite IH.
    + cbn [sync_entries flat_map]. rewrite Ed, Hid, <- app_assoc. reflexivity.
    + rewrite app_length. cbn. lia.
    + lia.
Qed.

Lemma L_C31_one_byte_partial : forall A (D : data_impl A) a l l',
  data_ok D -> d_size D = 1 -> 
  Forall2 (fun c c' => sw_id c = sw_id c' /\ encodes_as D (sw_data c) (sw_data c')) l l' ->
  transmits (sync_write D a l) xfe x83 (le16 a ++ le16 1 ++ sync_entries l').
Proof.
  intros A D a l l' HD H1 F.
  assert (Ll : length (sync_entries l') = 2 * length l).
  { clear HD. induction F as [|c c' l l' [_ [He _]] _ IH]; [reflexivity|].
    cbn [sync_entries flat_map length]. rewrite app_length. fold (sync_entries l'). rewrite IH. cbn [length]. rewrite He, H1. lia. }
  apply transmits_of, transmits_write.
  - split; [apply sync_write_params_ok; exact HD|]. intros b L.
    rewrite !app_length, Ll in L. cbn [length le16] in L.
    destruct (four_bytes b (2 * length l) ltac:(lia)) as [x [y [z [u [r [-> Lr]]]]]].
    rewrite u16_at0. cbn [obind]. rewrite u16_at2. cbn [obind].
    change (N.of_nat 1 mod 2 ^ 16)%N with 1%N.
    change (n2b a :: n2b (a / 256) :: n2b 1 :: n2b (1 / 256) :: r) with ([n2b a; n2b (a / 256); n2b 1; n2b (1 / 256)] ++ r).
    rewrite (sync_write_loop_val A D l l' H1 F 0) by (try reflexivity; lia). reflexivity.
  - rewrite !app_length, Ll. cbn [length le16]. lia.
Qed.

Lemma L_C31_wider_always_fails : forall A (D : data_impl A) V R a c l s,
  crate_type D V R -> 1 < d_size D -> reach s -> (N.of_nat (14 + 2 * length (c :: l)) <= usize_max)%N ->
  exists e s', sync_write D a (c :: l) s = (Val (Err (WBufferTooSmall e)), s') /\ calls s s' [].
Proof.
  intros A D V R a c l s H L Rs U. unfold sync_write. apply write_fails.
  - apply reach_inv, Rs.
  - apply sync_write_params_ok, (crate_data_ok _ _ _ _ H).
  - intros b Lb. destruct (four_bytes b (length (c :: l) * 2) ltac:(lia)) as [x [y [z [u [r [-> Lr]]]]]].
    rewrite u16_at0. cbn [obind]. rewrite u16_at2. cbn [obind sync_write_loop].
    destruct r as [|p [|q r]]; cbn [length] in Lr; try lia.
    match goal with |- context [with_slice ?l _ _ _] =>
      match l with ?a1 :: ?a2 :: ?a3 :: ?a4 :: _ => change l with ([a1; a2; a3; a4] ++ [p; q] ++ r) end end.
    rewrite with_slice_app3 by reflexivity.
    change (set [p; q] 0 (sw_id c)) with (Val [sw_id c; q]). cbn [obind].
    unfold with_slice. cbn [length]. rewrite slice_val by (cbn; lia). cbn [obind skipn firstn Nat.sub].
    rewrite (L_C36_too_small A D V R _ [q] H) by (cbn; lia). cbn [obind]. eauto.
  - lia.
Qed.

(** ** C32 *)

Lemma write_no_panic : forall s id i n enc params, reach s -> writes_parameters enc params -> n = length params ->
  plenty_of_room s n -> exists r s1, write_instruction id i n enc s = (Val r, s1).
Proof.
  intros s id i n enc params R Hw -> P.
  pose proof (sends_effect _ id i params s (sends_instruction id i params _ Hw) (reach_inv _ R)) as X.
  pose proof (room_fcount s i params P) as [F1 F2].
  destruct (write_instruction id i (length params) enc s) as [o s1] eqn:E.
  remember (o, s1) as os eqn:Eo.
  destruct X as [X|e w' X1 X2 X3|p X1 X2 X3|e w' X1 X2 X3 X4|w' X1 X2 X3 X4 X5]; injection Eo as <- <-; eauto.
  - exfalso. destruct P as [_ P]. rewrite usize_max_val in X. change (2 ^ 16)%N with 65536%N in P. lia.
  - exfalso. destruct X3 as [[_ [_ X3]]|[_ X3]]; [|lia].
    rewrite N.mod_small in X3; [lia|]. change (2 ^ 16)%N with 65536%N in *. lia.
Qed.

Lemma L_C32_bulk_read : forall l s,
  (~ NoDup (map br_id l) -> bulk_read_bytes l s = (Panic PExplicit, s)) /\
  (NoDup (map br_id l) -> reach s -> plenty_of_room s (5 * length l) ->
     exists r s', bulk_read_bytes l s = (Val r, s')).
Proof.
  intros l s. unfold bulk_read_bytes, write_bulk_read_instruction, try_, bind. split.
  - intro H. destruct (bulk_read_dup l) eqn:E; [reflexivity|]. apply bulk_read_dup_iff in E. contradiction.
  - intros H R P. rewrite (proj2 (bulk_read_dup_iff l) H).
    destruct (write_no_panic s BROADCAST BULK_READ (5 * length l) _ _ R (bulk_read_writes l)) as [r [s1 E]].
    + symmetry. apply bulk_read_entries_length.
    + exact P.
    + rewrite E. destruct r as [[]|e]; eexists; eexists; reflexivity.
Qed.

Lemma L_C32_bulk_write_too_much_data : forall l c s, In c l -> ~ is_u16 (N.of_nat (length (bw_data c))) ->
  bulk_write l s = (Panic PExplicit, s).
Proof.
  intros l c s Hin Hc. unfold bulk_write, bind, lift.
  assert (K : forall k, bulk_write_count l k = Panic PExplicit).
  { induction l as [|x l IH]; [destruct Hin|]. intro k. cbn [bulk_write_count].
    destruct (65535 <? N.of_nat (length (bw_data x)))%N eqn:E; [reflexivity|].
    destruct Hin as [->|Hin]; [|apply IH; exact Hin].
    exfalso. apply Hc. unfold is_u16. change (2 ^ 16)%N with 65536%N. lia. }
  rewrite K. reflexivity.
Qed.

Lemma L_C32_bulk_write_refuted : ~ (forall l s, reach s -> ~ NoDup (map bw_id l) ->
  exists p s', bulk_write l s = (Panic p, s')).
Proof.
  intro H.
  destruct (H [mkBulkWrite x01 100 [x00]; mkBulkWrite x01 100 [x01]] (fresh true [] 64 64)) as [p [s' E]].
  - apply fresh_reach. lia.
  - intro K. inversion K as [|? ? N _]. apply N. left. reflexivity.
  - apply (f_equal fst) in E. vm_compute in E. discriminate E.
Qed.

Lemma L_C32_bulk_write_partial : forall l s, Forall (fun c => is_u16 (N.of_nat (length (bw_data c)))) l ->
  reach s -> plenty_of_room s (length (bulk_write_entries l)) -> exists r s', bulk_write l s = (Val r, s').
Proof.
  intros l s Hl R P. unfold bulk_write, bind, lift. rewrite (bulk_write_count_val l 0 Hl).
  apply (write_no_panic s BROADCAST BULK_WRITE _ _ _ R (bulk_write_writes l Hl)); [reflexivity|exact P].
Qed.
