(** * SendTheorems: proofs of the properties of stuffing and writing *)
From Coq Require Import ZArith ZifyN ZifyNat ZifyBool.
From Verif Require Import Base Endian Error Checksum Bytestuff Packet Time Bus Data Client
  Instructions Device Api Spec CallSpec StreamSpec Demo Lib ChecksumProofs CrcErrorProofs StuffProofs
  WriteProofs ReadProofs ApiProofs StreamProofs MessageProofs SendProofs.

(** ** The wire *)

Lemma code_wire_body : forall id body, body_of (code_wire id body) = code_stuff body.
Proof.
  intros id body. unfold body_of. rewrite code_wire_length.
  rewrite code_wire_wire_of_body. unfold wire_of_body. cbn [header le16 app skipn].
  replace (9 + length body + fcount 0 body - 9) with (length (code_stuff body))
    by (rewrite code_stuff_length; lia).
  rewrite firstn_app_le, firstn_all by lia. reflexivity.
Qed.

Lemma code_wire_packet : forall id i params, is_packet id i params (code_wire id (i :: params)).
Proof.
  intros id i params. exists (code_stuff (i :: params)), (calculate_checksum 0 (covered id (i :: params))).
  split; [|split].
  - rewrite code_wire_wire_of_body. reflexivity.
  - apply code_stuff_some.
  - apply covered_crc.
Qed.

Lemma code_wire_length_field : forall id body,
  length_field (code_wire id body) = (N.of_nat (length (code_wire id body) - 7) mod 2 ^ 16)%N.
Proof.
  intros id body. unfold length_field. rewrite code_wire_length.
  unfold code_wire, covered. cbn [header le16 app nth]. rewrite !b2n_n2b, code_stuff_length.
  change (2 ^ 16)%N with 65536%N. lia.
Qed.

(** What a successful transmitting call did. *)
Lemma sends_ok : forall m id i params s s', reach s -> sends m id i params ->
  m s = (Val (Ok tt), s') ->
  calls s s' [LDiscard None; LWrite (code_wire id (i :: params)) None] /\
  10 + length params + fcount 0 (i :: params) <= length (b_wbuf s).
Proof.
  intros m id i params s s' R H E. pose proof (sends_effect m id i params s H (reach_inv _ R)) as X.
  rewrite E in X. remember (Val (Ok tt), s') as o eqn:Eo. destruct X; try discriminate Eo.
  destruct (hd None (p_writes (b_port s))) eqn:W; [discriminate Eo|].
  injection Eo as Es. subst s'. unfold calls. cbn [b_port p_log].
  split; [reflexivity|assumption].
Qed.

Lemma calls_inj : forall s s' a b, calls s s' a -> calls s s' b -> a = b.
Proof. intros s s' a b A B. unfold calls in *. rewrite A in B. apply app_inv_head in B. exact B. Qed.

(** Running a transmission on a fresh bus. *)
Lemma fresh_send : forall id i params dbg script rcap wcap,
  10 <= wcap -> (N.of_nat (length params + 10) <= usize_max)%N ->
  10 + length params + fcount 0 (i :: params) <= wcap ->
  (dbg = true -> N.of_nat (length (code_stuff (i :: params))) mod 2 ^ 16 + 2 < 2 ^ 16)%N ->
  exists s', write_instruction id i (length params) (fill params) (fresh dbg script rcap wcap) = (Val (Ok tt), s').
Proof.
  intros id i params dbg script rcap wcap H1 H2 H3 H4.
  pose proof (sends_effect _ _ _ _ (fresh dbg script rcap wcap)
    (sends_instruction id i params _ (fill_writes params))
    (reach_inv _ (fresh_reach dbg script rcap wcap H1))) as X.
  destruct (write_instruction id i (length params) (fill params) (fresh dbg script rcap wcap)) as [o s'].
  assert (L : length (b_wbuf (fresh dbg script rcap wcap)) = wcap).
  { cbn [fresh b_wbuf]. rewrite app_length, repeat_length. cbn [length header]. lia. }
  exists s'. f_equal.
  remember (o, s') as os eqn:Eo. destruct X as [X|e w' X1 X2 X3|p X1 X2 X3|e w' X1 X2 X3 X4|w' X1 X2 X3 X4 X5];
    injection Eo as <- <-.
  - lia.
  - rewrite L in X3. lia.
  - rewrite L in X3. change (b_dbg (fresh dbg script rcap wcap)) with dbg in X3.
    destruct X3 as [[_ [D X3]]|[_ X3]]; [specialize (H4 D)|]; lia.
  - discriminate X4.
  - reflexivity.
Qed.

(** ** C04 *)

Lemma L_C04_stuffing_refuted :
  ~ (forall s m id i params s', reach s -> sends m id i params -> m s = (Val (Ok tt), s') ->
     exists w, calls s s' [LDiscard None; LWrite w None] /\ body_of w = pstuff (i :: params)).
Proof.
  intro H. set (params := [xff; xff; xff; xfd]).
  destruct (fresh_send x01 WRITE params true [] 32 32) as [s' E];
    [lia|vm_compute; discriminate|vm_compute; lia|intros _; vm_compute; reflexivity|].
  pose proof (fresh_reach true [] 32 32 ltac:(lia)) as R.
  pose proof (sends_instruction x01 WRITE params _ (fill_writes params)) as S.
  destruct (H _ _ _ _ _ _ R S E) as [w [C B]].
  destruct (sends_ok _ _ _ _ _ _ R S E) as [C' _].
  assert (W : w = code_wire x01 (WRITE :: params)).
  { pose proof (calls_inj _ _ _ _ C C') as K. congruence. }
  rewrite W, code_wire_body in B. vm_compute in B. discriminate.
Qed.

Lemma L_C04_stuffing_partial : forall s m id i params s',
  reach s -> sends m id i params -> m s = (Val (Ok tt), s') ->
  exists w, calls s s' [LDiscard None; LWrite w None] /\
    some_stuffed (i :: params) (body_of w) /\
    (body_of w = pstuff (i :: params) <-> ff_runs_ok (i :: params)).
Proof.
  intros s m id i params s' R S E. destruct (sends_ok _ _ _ _ _ _ R S E) as [C _].
  exists (code_wire id (i :: params)). rewrite code_wire_body.
  split; [exact C|]. split; [apply code_stuff_some|apply code_stuff_correct_iff].
Qed.

(** ** C05 *)

Lemma L_C05_no_header_in_body_refuted :
  ~ (forall s m id i params s', reach s -> sends m id i params -> m s = (Val (Ok tt), s') ->
     exists w, calls s s' [LDiscard None; LWrite w None] /\ ~ contains (body_of w) header).
Proof.
  intro H. set (params := [xff; xff; xff; xfd; x00]).
  destruct (fresh_send x01 WRITE params true [] 32 32) as [s' E];
    [lia|vm_compute; discriminate|vm_compute; lia|intros _; vm_compute; reflexivity|].
  pose proof (fresh_reach true [] 32 32 ltac:(lia)) as R.
  pose proof (sends_instruction x01 WRITE params _ (fill_writes params)) as S.
  destruct (H _ _ _ _ _ _ R S E) as [w [C B]].
  destruct (sends_ok _ _ _ _ _ _ R S E) as [C' _].
  assert (W : w = code_wire x01 (WRITE :: params)).
  { pose proof (calls_inj _ _ _ _ C C') as K. congruence. }
  rewrite W, code_wire_body in B. apply B. exists [WRITE; xff], []. reflexivity.
Qed.

Lemma L_C05_no_header_in_body_partial : forall s m id i params s',
  reach s -> sends m id i params -> m s = (Val (Ok tt), s') -> ff_runs_ok (i :: params) ->
  exists w, calls s s' [LDiscard None; LWrite w None] /\ ~ contains (body_of w) header.
Proof.
  intros s m id i params s' R S E F. destruct (sends_ok _ _ _ _ _ _ R S E) as [C _].
  exists (code_wire id (i :: params)). rewrite code_wire_body.
  split; [exact C|]. apply code_stuff_correct_iff in F. rewrite F. apply pstuff_no_header.
Qed.

Lemma L_C05_exactly_when_header_in_body : forall s m id i params s',
  reach s -> sends m id i params -> m s = (Val (Ok tt), s') ->
  exists w, calls s s' [LDiscard None; LWrite w None] /\
    (contains (body_of w) header <->
     exists a c, i :: params = a ++ header ++ c /\
       patterns_from 0 a < patterns_from 0 (i :: params) - noticed_from 0 (i :: params)).
Proof.
  intros s m id i params s' R S E. destruct (sends_ok _ _ _ _ _ _ R S E) as [C _].
  exists (code_wire id (i :: params)). rewrite code_wire_body.
  split; [exact C|]. apply code_stuff_header_iff.
Qed.

(** ** C06 *)

Lemma L_C06_unstuff_stuff_refuted :
  ~ (forall dbg l rest buf n, stuff_inplace dbg (l ++ rest) (length l) = Val (buf, Ok n) ->
     exists junk, unstuff_inplace (firstn n buf) = Val (l ++ junk, length l)).
Proof.
  intro H. specialize (H true [xff; xff; xfd; x00; xff; xff; xff; xfd] [x00]).
  specialize (H [xff; xff; xfd; x00; xff; xff; xff; xfd; xfd] 9 ltac:(vm_compute; reflexivity)).
  destruct H as [junk H]. vm_compute in H. discriminate.
Qed.

Lemma L_C06_unstuff_stuff_partial : forall dbg l rest buf n,
  stuff_inplace dbg (l ++ rest) (length l) = Val (buf, Ok n) ->
  ((exists junk, unstuff_inplace (firstn n buf) = Val (l ++ junk, length l)) <-> comes_back l).
Proof.
  intros dbg l rest buf n E. rewrite stuff_inplace_spec in E.
  destruct (fcount 0 l <=? length rest); [|discriminate].
  assert (Eb : buf = code_stuff l ++ skipn (fcount 0 l) rest) by congruence.
  assert (En : n = length (code_stuff l)) by (rewrite code_stuff_length; congruence).
  subst buf n. rewrite firstn_app_le, firstn_all by lia.
  destruct (unstuff_inplace_spec (code_stuff l)) as [junk [U _]].
  rewrite <- unst_code_stuff_iff. split.
  - intros [junk' K]. rewrite U in K.
    assert (K1 : unst 0 (code_stuff l) ++ junk = l ++ junk') by congruence.
    assert (K2 : length (unst 0 (code_stuff l)) = length l) by congruence.
    apply (f_equal (firstn (length l))) in K1.
    rewrite <- K2 in K1 at 1. rewrite !firstn_app_le, !firstn_all in K1 by lia. exact K1.
  - intro H. rewrite H in U. exists junk. exact U.
Qed.

Lemma L_C06_misses_first_suffices : forall l, misses_first l -> comes_back l.
Proof. exact misses_first_comes_back. Qed.

Lemma L_C06_runs_ok_suffices : forall l, ff_runs_ok l -> comes_back l.
Proof. intros l H. apply misses_first_comes_back, runs_ok_misses_first, H. Qed.

(** ** C08 *)

Lemma L_C08_packet_on_wire_refuted :
  ~ (forall s m id i params s', reach s -> sends m id i params -> m s = (Val (Ok tt), s') ->
     exists w, calls s s' [LDiscard None; LWrite w None] /\ is_frame id (i :: params) w).
Proof.
  intro H. apply L_C04_stuffing_refuted. intros s m id i params s' R S E.
  destruct (H _ _ _ _ _ _ R S E) as [w [C F]]. exists w. split; [exact C|].
  destruct (sends_ok _ _ _ _ _ _ R S E) as [C' _].
  assert (W : w = code_wire id (i :: params)).
  { pose proof (calls_inj _ _ _ _ C C') as K. congruence. }
  subst w. apply code_wire_frame_iff in F. destruct F as [F _].
  rewrite code_wire_body. apply code_stuff_correct_iff, F.
Qed.

Lemma L_C08_packet_on_wire_partial : forall s m id i params s',
  reach s -> sends m id i params -> m s = (Val (Ok tt), s') ->
  exists w, calls s s' [LDiscard None; LWrite w None] /\
    is_packet id i params w /\
    (is_frame id (i :: params) w <->
     ff_runs_ok (i :: params) /\ (N.of_nat (length (pstuff (i :: params)) + 2) < 2 ^ 16)%N).
Proof.
  intros s m id i params s' R S E. destruct (sends_ok _ _ _ _ _ _ R S E) as [C _].
  exists (code_wire id (i :: params)). split; [exact C|].
  split; [apply code_wire_packet|apply code_wire_frame_iff].
Qed.

Lemma L_C08_every_call_writes_packets : forall A (m : M A) s o s', reach s -> api m -> m s = (o, s') ->
  exists evs, calls s s' evs /\
    calls_ok (fun w => exists id i params, is_packet id i params w) evs.
Proof.
  intros A m s o s' R H E. destruct (api_keeps _ _ H _ _ _ (reach_inv _ R) E) as [_ _ _ _ [evs [L K]]].
  exists evs. split; [exact L|]. clear L.
  induction K; constructor; try assumption.
  destruct H0 as [id [i [params ->]]]. exists id, i, params. apply code_wire_packet.
Qed.

(** ** C09 *)


Lemma pstuff_len_runs : forall l, ff_runs_ok l -> length (pstuff l) = length l + fcount 0 l.
Proof. intros l H. rewrite pstuff_length. apply runs_ok_counts in H. lia. Qed.

Lemma sends_not_too_small : forall m id i params s, reach s -> sends m id i params ->
  (N.of_nat (length params + 10) <= usize_max)%N ->
  (N.of_nat (length (code_stuff (i :: params)) + 2) < 2 ^ 16)%N ->
  10 + length params + fcount 0 (i :: params) <= length (b_wbuf s) ->
  exists r s', m s = (Val r, s') /\ not_too_small r.
Proof.
  intros m id i params s R S O T F. pose proof (sends_effect _ _ _ _ _ S (reach_inv _ R)) as X.
  destruct X as [X|e w' X1 X2 X3|p X1 X2 X3|e w' X1 X2 X3 X4|w' X1 X2 X3 X4 X5].
  - lia.
  - lia.
  - exfalso. destruct X3 as [[_ [_ X3]]|[_ X3]]; [|lia].
    rewrite N.mod_small in X3 by lia. lia.
  - eexists _, _. split; [reflexivity|exact I].
  - eexists _, _. split; [reflexivity|]. destruct (hd None (p_writes (b_port s))); exact I.
Qed.

Lemma L_C09_no_panic_refuted :
  ~ (forall s m id i params, reach s -> sends m id i params ->
     (N.of_nat (length (pstuff (i :: params)) + 9) < 2 ^ 16)%N ->
     if 9 + length (pstuff (i :: params)) <=? length (b_wbuf s)
     then exists r s', m s = (Val r, s') /\ not_too_small r
     else exists e s', m s = (Val (Err (WBufferTooSmall e)), s')).
Proof.
  intro H. set (params := [xff; xff; xfd]).
  specialize (H _ _ _ _ _ (fresh_reach true [] 32 13 ltac:(lia))
                (sends_instruction x01 WRITE params _ (fill_writes params)) ltac:(vm_compute; reflexivity)).
  vm_compute in H. destruct H as [e [s' H]]. discriminate.
Qed.

Lemma L_C09_outcome_partial : forall s m id i params, reach s -> sends m id i params ->
  let room := length (b_wbuf s) in
  let stuffed := length (i :: params) + noticed_from 0 (i :: params) in
  (N.of_nat (stuffed + 2) < 2 ^ 16)%N ->
  (9 + stuffed <= room -> exists r s', m s = (Val r, s') /\ not_too_small r) /\
  (room < 7 + stuffed \/ room < length params + 10 ->
     exists e s', m s = (Val (Err (WBufferTooSmall e)), s')) /\
  (7 + stuffed <= room < 9 + stuffed /\ length params + 10 <= room ->
     m s = (Panic PIndex, s)).
Proof.
  intros s m id i params R S. cbv zeta. rewrite (noticed_fcount _ 0). change (0 mod 3) with 0. cbn [length].
  intro L.
  assert (O : (N.of_nat (length params + 10) <= usize_max)%N).
  { rewrite usize_max_val. change (2 ^ 16)%N with 65536%N in L. lia. }
  assert (T : (N.of_nat (length (code_stuff (i :: params))) + 2 < 2 ^ 16)%N).
  { rewrite code_stuff_length. cbn [length]. lia. }
  split; [|split].
  - intro H. apply (sends_not_too_small m id i params s R S O); lia.
  - intro H. pose proof (sends_effect _ _ _ _ _ S (reach_inv _ R)) as X.
    destruct X as [X|e w' X1 X2 X3|p X1 X2 X3|e w' X1 X2 X3 X4|w' X1 X2 X3 X4 X5]; try lia.
    eauto.
  - intro H. pose proof (sends_effect _ _ _ _ _ S (reach_inv _ R)) as X.
    destruct X as [X|e w' X1 X2 X3|p X1 X2 X3|e w' X1 X2 X3 X4|w' X1 X2 X3 X4 X5]; try lia.
    destruct X3 as [[_ [_ X3]]|[-> X3]]; [|reflexivity].
    rewrite N.mod_small in X3 by lia. lia.
Qed.

Lemma L_C09_enough_room_never_panics : forall s m id i params, reach s -> sends m id i params ->
  let n := length params in
  10 + n + (n + 1) / 3 <= length (b_wbuf s) ->
  (N.of_nat (n + (n + 1) / 3 + 3) < 2 ^ 16)%N ->
  exists r s', m s = (Val r, s') /\ not_too_small r.
Proof.
  intros s m id i params R S. cbv zeta. intros H L.
  pose proof (fcount_third (i :: params)) as T. cbn [length] in T.
  assert (O : (N.of_nat (length params + 10) <= usize_max)%N).
  { rewrite usize_max_val. change (2 ^ 16)%N with 65536%N in L. lia. }
  apply (sends_not_too_small m id i params s R S O).
  - rewrite code_stuff_length. cbn [length]. lia.
  - lia.
Qed.

(** ** C10 *)

Lemma fcount_zeros : forall n s, fcount s (repeat x00 n) = 0.
Proof.
  induction n as [|n IH]; intro s; cbn [repeat fcount]; [reflexivity|]. rewrite IH.
  unfold fhit. rewrite andb_false_r. reflexivity.
Qed.

Lemma L_C10_length_field_refuted : forall dbg,
  ~ (forall s m id i params s', b_dbg s = dbg -> reach s -> sends m id i params ->
     m s = (Val (Ok tt), s') ->
     exists w, calls s s' [LDiscard None; LWrite w None] /\
       length_field w = N.of_nat (length w - 7)).
Proof.
  intros dbg H. set (n := N.to_nat 65536). set (params := repeat x00 n).
  assert (F : fcount 0 (WRITE :: params) = 0).
  { unfold params. cbn [fcount]. rewrite fcount_zeros. reflexivity. }
  assert (LP : length params = n) by apply repeat_length.
  destruct (fresh_send x01 WRITE params dbg [] 32 (n + 10)) as [s' E].
  - lia.
  - rewrite LP, usize_max_val. lia.
  - rewrite LP, F. lia.
  - intros _. rewrite code_stuff_length, F. cbn [length]. rewrite LP.
    replace (N.of_nat (S n + 0)) with 65537%N by lia. reflexivity.
  - pose proof (fresh_reach dbg [] 32 (n + 10) ltac:(lia)) as R.
    pose proof (sends_instruction x01 WRITE params _ (fill_writes params)) as Sd.
    destruct (H (fresh dbg [] 32 (n + 10)) _ _ _ _ _ eq_refl R Sd E) as [w [C B]].
    destruct (sends_ok _ _ _ _ _ _ R Sd E) as [C' _].
    assert (W : w = code_wire x01 (WRITE :: params)).
    { pose proof (calls_inj _ _ _ _ C C') as K. congruence. }
    rewrite W, code_wire_length_field, code_wire_length, F in B. cbn [length] in B. rewrite LP in B.
    replace (N.of_nat (9 + S n + 0 - 7)) with 65539%N in B by lia. discriminate.
Qed.

Lemma L_C10_length_field_modulo : forall s m id i params s',
  reach s -> sends m id i params -> m s = (Val (Ok tt), s') ->
  exists w, calls s s' [LDiscard None; LWrite w None] /\
    length_field w = (N.of_nat (length w - 7) mod 2 ^ 16)%N.
Proof.
  intros s m id i params s' R S E. destruct (sends_ok _ _ _ _ _ _ R S E) as [C _].
  exists (code_wire id (i :: params)). split; [exact C|apply code_wire_length_field].
Qed.

Lemma L_C10_length_field_partial : forall s m id i params s',
  (N.of_nat (length (b_wbuf s)) <= 65542)%N ->
  reach s -> sends m id i params -> m s = (Val (Ok tt), s') ->
  exists w, calls s s' [LDiscard None; LWrite w None] /\
    length_field w = N.of_nat (length w - 7).
Proof.
  intros s m id i params s' L R S E. destruct (sends_ok _ _ _ _ _ _ R S E) as [C F].
  exists (code_wire id (i :: params)). split; [exact C|].
  rewrite code_wire_length_field. apply N.mod_small. rewrite code_wire_length. cbn [length].
  change (2 ^ 16)%N with 65536%N. lia.
Qed.

(** ** C11 *)

Lemma L_C11_rejected_write_changes_nothing : forall s id i n enc e s', reach s -> encoder_ok enc ->
  write_instruction id i n enc s = (Val (Err (WBufferTooSmall e)), s') ->
  calls s s' [] /\ pending s' = pending s /\
  exists w', s' = set_wbuf s w' /\ length w' = length (b_wbuf s) /\ firstn 4 w' = header.
Proof.
  intros s id i n enc e s' R H E. destruct (reach_inv _ R) as [I1 I2].
  unfold write_instruction in E. rewrite write_packet_gen in E by assumption.
  assert (K : exists w', s' = set_wbuf s w' /\ length w' = length (b_wbuf s) /\ firstn 4 w' = header).
  { unfold write_gen in E. cbv zeta in E.
    case_if E; [discriminate|]. case_if E.
    { injection E as <- <-. exists (b_wbuf s). rewrite set_wbuf_id. split; [reflexivity|].
      split; [reflexivity|apply I2]. }
    destruct (enc (firstn n (skipn 8 (b_wbuf s)))) as [[params [[]|e']]|p|] eqn:EN; try discriminate.
    - unfold write_value in E. cbv zeta in E. case_if E.
      { injection E as <- <-. exists (b_wbuf s). rewrite set_wbuf_id. split; [reflexivity|].
        split; [reflexivity|apply I2]. }
      destruct (build_result (b_dbg s) (length (b_wbuf s)) (i :: params)); [|injection E as <- <-|discriminate].
      + exfalso. unfold transmit in E.
        destruct (hd None (p_discards _)); [discriminate|]. destruct (hd None (p_writes _)); discriminate.
      + eexists. split; [reflexivity|].
        destruct (pre_stuff_ok id i params (b_wbuf s) I2 ltac:(lia)) as [W1 W2].
        split; [exact W2|apply W1].
    - injection E as <- <-. apply H in EN. rewrite firstn_length, skipn_length in EN.
      assert (n = length params) as -> by lia.
      destruct (pre_stuff_ok id i params (b_wbuf s) I2 ltac:(lia)) as [W1 W2].
      eexists. split; [reflexivity|]. split; [exact W2|apply W1]. }
  destruct K as [w' [-> K]]. split; [|split].
  - unfold calls. cbn [set_wbuf b_port]. rewrite app_nil_r. reflexivity.
  - reflexivity.
  - exists w'. split; [reflexivity|exact K].
Qed.

Lemma L_C11_rejected_status_changes_nothing : forall s id error n enc e s', reach s -> encoder_ok enc ->
  write_status id error n enc s = (Val (Err (WBufferTooSmall e)), s') ->
  calls s s' [] /\ pending s' = pending s /\
  exists w', s' = set_wbuf s w' /\ length w' = length (b_wbuf s) /\ firstn 4 w' = header.
Proof.
  intros s id error n enc e s' R H E.
  assert (K : write_instruction id STATUS (n + 1) (status_encoder error enc) s = (Val (Err (WBufferTooSmall e)), s')
              \/ s' = s).
  { unfold write_status in E.
    destruct (usize_max <? N.of_nat (st_message_len n))%N; [discriminate|]. unfold bind at 1, get in E.
    unfold bts_check in E. destruct (st_message_len n <=? length (b_wbuf s)); cbn [tryr] in E.
    - left. exact E.
    - right. injection E as _ <-. reflexivity. }
  destruct K as [K| ->].
  - apply (L_C11_rejected_write_changes_nothing _ _ _ _ _ _ _ R (status_encoder_ok error enc H) K).
  - split; [unfold calls; rewrite app_nil_r; reflexivity|]. split; [reflexivity|].
    exists (b_wbuf s). rewrite set_wbuf_id. split; [reflexivity|]. split; [reflexivity|].
    apply (reach_inv _ R).
Qed.

(** ** C12 *)

Lemma L_C12_discard_once_before_write : forall s m id i params o s',
  reach s -> sends m id i params -> m s = (o, s') ->
  match o with
  | Val (Ok _) => exists w, calls s s' [LDiscard None; LWrite w None]
  | Val (Err (WWrite e)) => exists w, calls s s' [LDiscard None; LWrite w (Some e)]
  | Val (Err (WDiscardBuffer e)) => calls s s' [LDiscard (Some e)]
  | Val (Err (WBufferTooSmall _)) => calls s s' []
  | Panic _ => calls s s' []
  | Blocked => False
  end.
Proof.
  intros s m id i params o s' R S E. pose proof (sends_effect _ _ _ _ _ S (reach_inv _ R)) as X.
  rewrite E in X. remember (o, s') as os eqn:Eo.
  destruct X as [X|e w' X1 X2 X3|p X1 X2 X3|e w' X1 X2 X3 X4|w' X1 X2 X3 X4 X5]; injection Eo as Eo Es; subst o s'.
  - unfold calls. rewrite app_nil_r. reflexivity.
  - unfold calls. rewrite app_nil_r. reflexivity.
  - unfold calls. rewrite app_nil_r. reflexivity.
  - reflexivity.
  - destruct (hd None (p_writes (b_port s))); eexists; reflexivity.
Qed.

Lemma L_C12_port_failure_decides : forall s m id i params s' r,
  reach s -> sends m id i params -> m s = (Val r, s') -> not_too_small r ->
  r = match hd None (p_discards (b_port s)) with
      | Some e => Err (WDiscardBuffer e)
      | None => match hd None (p_writes (b_port s)) with
                | Some e => Err (WWrite e)
                | None => Ok tt
                end
      end.
Proof.
  intros s m id i params s' r R S E T. pose proof (sends_effect _ _ _ _ _ S (reach_inv _ R)) as X.
  rewrite E in X. remember (Val r, s') as os eqn:Eo.
  destruct X as [X|e w' X1 X2 X3|p X1 X2 X3|e w' X1 X2 X3 X4|w' X1 X2 X3 X4 X5]; try discriminate Eo;
    injection Eo as Eo Es; subst r s'.
  - destruct T.
  - rewrite X4. reflexivity.
  - rewrite X5. reflexivity.
Qed.

Lemma L_C12_every_call : forall A (m : M A) s o s', reach s -> api m -> m s = (o, s') ->
  exists evs, calls s s' evs /\ calls_ok (fun _ => True) evs.
Proof.
  intros A m s o s' R H E. destruct (L_C08_every_call_writes_packets A m s o s' R H E) as [evs [L K]].
  exists evs. split; [exact L|]. clear L. induction K; constructor; auto.
Qed.

(** ** C13 *)

Lemma L_C13_stale_input_dropped : forall s m id i params r s',
  reach s -> sends m id i params -> m s = (Val r, s') -> not_too_small r ->
  pending s' = items (p_script (b_port s')) /\
  forall t ds, reach t -> pending t = items (p_script (b_port s')) ->
    length (b_rbuf t) = length (b_rbuf s) ->
    fst (reads ds s') = fst (reads ds t).
Proof.
  intros s m id i params r s' R S E T.
  assert (P : pending s' = items (p_script (b_port s')) /\ length (b_rbuf s') = length (b_rbuf s)).
  { pose proof (sends_effect _ _ _ _ _ S (reach_inv _ R)) as X.
    rewrite E in X. remember (Val r, s') as os eqn:Eo.
    destruct X as [X|e w' X1 X2 X3|p X1 X2 X3|e w' X1 X2 X3 X4|w' X1 X2 X3 X4 X5]; try discriminate Eo;
      injection Eo as Eo Es; subst r s'; [destruct T| |]; split; reflexivity. }
  destruct P as [P C]. split; [exact P|]. intros t ds Rt Pt Ct.
  assert (I' : inv s').
  { assert (K : keeps m) by (destruct S as [? ? ? ? W|? ? ? ? W]; [apply keeps_wi|apply keeps_write_status]; apply W).
    apply (K _ _ _ (reach_inv _ R) E). }
  destruct (reads ds s') as [o1 s1] eqn:R1. destruct (reads ds t) as [o2 s2] eqn:R2. cbn [fst].
  destruct (reads_ideal _ _ _ _ I' R1) as [Q1 _].
  destruct (reads_ideal _ _ _ _ (reach_inv _ Rt) R2) as [Q2 _].
  rewrite C, P in Q1. rewrite Ct, Pt in Q2. congruence.
Qed.

(** ** C14, C15 *)

Lemma L_C14_bookkeeping : forall s, reach s ->
  b_used s <= b_rlen s /\ b_rlen s <= length (b_rbuf s) /\
  10 <= length (b_wbuf s) /\ firstn 4 (b_wbuf s) = header.
Proof. intros s R. destruct (reach_inv _ R) as [[A B] [C D]]. auto. Qed.

Lemma L_C14_sizes_never_change : forall A (m : M A) s o s', reach s -> api m -> m s = (o, s') ->
  length (b_rbuf s') = length (b_rbuf s) /\ length (b_wbuf s') = length (b_wbuf s).
Proof.
  intros A m s o s' R H E. destruct (api_keeps _ _ H _ _ _ (reach_inv _ R) E) as [_ K1 K2 _ _]. auto.
Qed.

Lemma L_C15_never_reads_into_empty_buffer : forall A (m : M A) s o s' evs,
  reach s -> api m -> m s = (o, s') -> calls s s' evs ->
  forall d cap a, In (LRead d cap a) evs \/ In (LReadWait d cap) evs -> 0 < cap.
Proof.
  intros A m s o s' evs R H E C d cap a K.
  destruct (L_C12_every_call A m s o s' R H E) as [evs' [C' O]].
  rewrite (calls_inj _ _ _ _ C C') in K. clear C C'.
  induction O; cbn [In] in K; destruct K as [K|K]; try tauto;
    repeat (destruct K as [K|K]; [try discriminate K|]);
    try (injection K as <- <- <-; assumption); try (injection K as <- <-; assumption);
    apply IHO; auto.
Qed.

(** ** C48, C49 *)

Lemma L_C48_set_baud_rate : forall s baud,
  let answer := hd None (p_setbauds (b_port s)) in
  exists s',
    client_set_baud_rate baud s =
      (Val (match answer with None => Ok tt | Some e => Err e end), s') /\
    calls s s' [LSetBaud baud answer] /\
    b_baud s' = (match answer with None => baud | Some _ => b_baud s end) /\
    pending s' = pending s /\ b_rbuf s' = b_rbuf s /\ b_rlen s' = b_rlen s /\
    b_used s' = b_used s /\ b_wbuf s' = b_wbuf s /\ b_dbg s' = b_dbg s.
Proof.
  intros s baud. cbv zeta. unfold client_set_baud_rate, set_baud_rate, try_, bind, port_set_baud.
  destruct (p_setbauds (b_port s)) as [|[e|] l]; cbn [hd]; eexists; (split; [reflexivity|]);
    repeat split.
Qed.

Lemma L_C49_construction : forall dbg p rb wb baud,
  (length wb < 10 -> with_buffers_and_baud_rate dbg p rb wb baud = Panic PAssert) /\
  (10 <= length wb -> exists s, with_buffers_and_baud_rate dbg p rb wb baud = Val s /\
     b_port s = p /\ b_baud s = baud /\ pending s = items (p_script p) /\
     length (b_rbuf s) = length rb /\ length (b_wbuf s) = length wb).
Proof.
  intros dbg p rb wb baud. split; intro H.
  - unfold with_buffers_and_baud_rate, HEADER_SIZE. replace (7 + 3 <=? length wb) with false by lia. reflexivity.
  - destruct (with_buffers_and_baud_rate dbg p rb wb baud) as [s|x|] eqn:E.
    + exists s. pose proof (new_inv _ _ _ _ _ _ E) as [_ [P [B [RB [RL [U [W _]]]]]]].
      split; [reflexivity|]. repeat split; try assumption; [|congruence].
      unfold pending. rewrite RL, U, P. reflexivity.
    + exfalso. revert E. unfold with_buffers_and_baud_rate, HEADER_SIZE.
      replace (7 + 3 <=? length wb) with true by lia. unfold copy_into.
      rewrite slice_val by lia. cbn [obind]. unfold copy_from_slice.
      rewrite firstn_length, skipn_length. replace (Nat.min (4 - 0) (length wb - 0)) with 4 by lia. discriminate.
    + exfalso. revert E. unfold with_buffers_and_baud_rate, HEADER_SIZE.
      replace (7 + 3 <=? length wb) with true by lia. unfold copy_into.
      rewrite slice_val by lia. cbn [obind]. unfold copy_from_slice.
      rewrite firstn_length, skipn_length. replace (Nat.min (4 - 0) (length wb - 0)) with 4 by lia. discriminate.
Qed.

Lemma L_C49_default_buffers : forall dbg p baud, exists s,
  client_new dbg p (Ok baud) = Val (Ok s) /\ length (b_rbuf s) = 128 /\ length (b_wbuf s) = 128 /\
  (forall e, client_new dbg p (Err e) = Val (Err e)).
Proof.
  intros dbg p baud. unfold client_new, with_buffers.
  destruct (L_C49_construction dbg p (repeat x00 128) (repeat x00 128) baud) as [_ K].
  destruct K as [s [E [_ [_ [_ [L1 L2]]]]]]; [rewrite repeat_length; lia|].
  exists s. rewrite E. cbn [obind]. rewrite repeat_length in L1, L2. auto.
Qed.

Lemma L_C49_small_read_buffer : forall s d t, length (b_rbuf s) < 10 ->
  let full {A} : result A read_error := Err (RBufferFull (mkBTS 10 (length (b_rbuf s)))) in
  read_packet_deadline d s = (Val full, s) /\
  (exists s', read_status_response_timeout t s = (Val full, s') /\
     calls s s' [LDeadline (mkDeadline (p_deadlines (b_port s)) t)] /\ pending s' = pending s) /\
  (exists s', device_read t s = (Val full, s') /\
     calls s s' [LDeadline (mkDeadline (p_deadlines (b_port s)) t)] /\ pending s' = pending s).
Proof.
  intros s d t H. cbv zeta. split; [apply read_packet_small, H|].
  set (s1 := snd (port_make_deadline t s)).
  assert (H1 : length (b_rbuf s1) < 10) by exact H.
  split; exists s1.
  - unfold read_status_response_timeout. unfold bind at 1. unfold port_make_deadline at 1.
    fold s1. unfold try_, bind.
    change (set_port s _) with s1.
    rewrite (read_packet_small _ s1) by exact H1. split; [reflexivity|]. split; reflexivity.
  - unfold device_read, read_raw_instruction_timeout. unfold try_ at 1, bind at 1 2.
    unfold port_make_deadline at 1. change (set_port s _) with s1.
    unfold bind at 1, get. unfold device_fuel. cbn [device_loop].
    unfold try_, bind. rewrite (read_packet_small _ s1) by exact H1. split; [reflexivity|]. split; reflexivity.
Qed.
