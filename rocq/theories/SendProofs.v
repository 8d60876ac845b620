(** * SendProofs: what a transmitting call does, in terms of [CallSpec] *)
From Coq Require Import ZArith ZifyN ZifyNat ZifyBool.
From Verif Require Import Base Endian Error Checksum Bytestuff Packet Time Bus Data Client
  Instructions Device Api Spec CallSpec StreamSpec Lib ChecksumProofs CrcErrorProofs StuffProofs
  WriteProofs ReadProofs ApiProofs StreamProofs MessageProofs.

Ltac case_if H :=
  match type of H with (if ?c then _ else _) = _ => destruct c eqn:? end.

(** ** Stuffing *)

Lemma gstuff_some : forall l s j, s <= 2 ->
  some_stuffed (repeat xff s ++ l) (repeat xff s ++ gstuff s j l).
Proof.
  assert (FF : forall s a b, some_stuffed a b -> some_stuffed (repeat xff s ++ a) (repeat xff s ++ b)).
  { intros s a b H. induction s; cbn [repeat app]; [exact H|constructor; exact IHs]. }
  induction l as [|b l IH]; intros s j Hs; cbn [gstuff].
  { apply FF. constructor. }
  assert (Nohit : thit s b = false \/ j <> 0 -> forall j',
            some_stuffed (repeat xff s ++ b :: l) (repeat xff s ++ b :: gstuff (tnext s b) j' l)).
  { intros _ j'. unfold tnext. destruct (beq b xff) eqn:F.
    - apply beq_true in F. subst b.
      destruct (Nat.eq_dec s 2) as [->|N].
      + cbn [repeat app Nat.min]. constructor. exact (IH 2 j' ltac:(lia)).
      + replace (Nat.min 2 (S s)) with (S s) by lia.
        pose proof (IH (S s) j' ltac:(lia)) as K.
        change (xff :: l) with ([xff] ++ l).
        change (xff :: gstuff (S s) j' l) with ([xff] ++ gstuff (S s) j' l).
        change [xff] with (repeat xff 1). rewrite !app_assoc, <- !repeat_app.
        replace (s + 1) with (S s) by lia. exact K.
    - apply FF. constructor. exact (IH 0 j' ltac:(lia)). }
  destruct (thit s b) eqn:H.
  - destruct j as [|j].
    + unfold thit in H. apply andb_true_iff in H. destruct H as [H1 H2].
      apply Nat.eqb_eq in H1. apply beq_true in H2. subst s b.
      change (tnext 2 xfd) with 0. cbn [repeat app].
      apply (ss_pattern l). exact (IH 0 0 ltac:(lia)).
    + apply Nohit. right. discriminate.
  - apply Nohit. left. reflexivity.
Qed.

Lemma code_stuff_some : forall l, some_stuffed l (code_stuff l).
Proof. intro l. apply (gstuff_some l 0). lia. Qed.

Lemma some_stuffed_length : forall l w, some_stuffed l w -> length l <= length w <= length l + length l / 3.
Proof.
  intros l w H. induction H as [|b l w H IH|l w H IH]; cbn [length app] in *; [cbn; lia|lia|lia].
Qed.

Lemma fcount_third : forall l, fcount 0 l <= length l / 3.
Proof.
  intro l. pose proof (some_stuffed_length _ _ (code_stuff_some l)) as H.
  rewrite code_stuff_length in H. lia.
Qed.

(** ** Outcome of a transmitting call *)

Lemma writes_encodes : forall enc params, writes_parameters enc params -> encodes enc params.
Proof. intros enc params [_ H]. exact H. Qed.

Lemma sends_value : forall m id i params s, sends m id i params -> inv s ->
  (N.of_nat (length params + 10) <= usize_max)%N ->
  m s = write_value s id i params.
Proof.
  intros m id i params s H [H1 H2] Hmax. destruct H as [id i params enc H|id error params enc H].
  - apply write_packet_value; [exact H2|exact Hmax|apply writes_encodes, H].
  - cbn [length] in Hmax. rewrite write_status_gen_ok; [|exact H2|apply H].
    unfold write_status_gen, write_value. cbv zeta.
    replace (usize_max <? N.of_nat (length params + 11))%N with false by lia.
    cbn [length]. replace (S (length params) + 10) with (length params + 11) by lia.
    destruct (length (b_wbuf s) <? length params + 11) eqn:L; [reflexivity|].
    rewrite (proj2 H) by (rewrite firstn_length, skipn_length; lia).
    unfold write_value. cbv zeta. cbn [length].
    replace (S (length params) + 10) with (length params + 11) by lia. rewrite L. reflexivity.
Qed.

Lemma sends_overflow : forall m id i params s, sends m id i params -> inv s ->
  (usize_max < N.of_nat (length params + 10))%N -> m s = (Panic POverflow, s).
Proof.
  intros m id i params s H [H1 H2] Hmax. destruct H as [id i params enc H|id error params enc H].
  - unfold write_instruction. rewrite write_packet_gen; [|exact H2|apply H]. unfold write_gen. cbv zeta.
    replace (usize_max <? N.of_nat (length params + 10))%N with true by lia. reflexivity.
  - cbn [length] in Hmax. rewrite write_status_gen_ok; [|exact H2|apply H].
    unfold write_status_gen. cbv zeta.
    replace (usize_max <? N.of_nat (length params + 11))%N with true by lia. reflexivity.
Qed.

(** The complete effect of a transmitting call. *)
Inductive send_effect (s : bus) (id i : byte) (params : list byte) : out (result unit write_error) * bus -> Prop :=
| se_overflow : (usize_max < N.of_nat (length params + 10))%N ->
    send_effect s id i params (Panic POverflow, s)
| se_too_small : forall e w', wbuf_ok w' -> length w' = length (b_wbuf s) ->
    (length (b_wbuf s) < length params + 10 \/
     length (b_wbuf s) < 8 + length params + fcount 0 (i :: params)) ->
    send_effect s id i params (Val (Err (WBufferTooSmall e)), set_wbuf s w')
| se_panic : forall p,
    length params + 10 <= length (b_wbuf s) ->
    8 + length params + fcount 0 (i :: params) <= length (b_wbuf s) ->
    (p = POverflow /\ b_dbg s = true /\
       (2 ^ 16 <= N.of_nat (length (code_stuff (i :: params))) mod 2 ^ 16 + 2)%N \/
     p = PIndex /\ length (b_wbuf s) < 10 + length params + fcount 0 (i :: params)) ->
    send_effect s id i params (Panic p, s)
| se_discard : forall e w', wbuf_ok w' -> length w' = length (b_wbuf s) ->
    10 + length params + fcount 0 (i :: params) <= length (b_wbuf s) ->
    hd None (p_discards (b_port s)) = Some e ->
    send_effect s id i params
      (Val (Err (WDiscardBuffer e)),
       mkBus (mkPort (p_script (b_port s)) (tl (p_discards (b_port s))) (p_writes (b_port s))
                     (p_setbauds (b_port s)) (p_deadlines (b_port s))
                     (p_log (b_port s) ++ [LDiscard (Some e)]))
             (b_baud s) (b_rbuf s) 0 0 w' (b_dbg s))
| se_write : forall w', wbuf_ok w' -> length w' = length (b_wbuf s) ->
    10 + length params + fcount 0 (i :: params) <= length (b_wbuf s) ->
    (b_dbg s = true -> N.of_nat (length (code_stuff (i :: params))) mod 2 ^ 16 + 2 < 2 ^ 16)%N ->
    hd None (p_discards (b_port s)) = None ->
    send_effect s id i params
      (Val (match hd None (p_writes (b_port s)) with Some e => Err (WWrite e) | None => Ok tt end),
       mkBus (mkPort (p_script (b_port s)) (tl (p_discards (b_port s))) (tl (p_writes (b_port s)))
                     (p_setbauds (b_port s)) (p_deadlines (b_port s))
                     (p_log (b_port s) ++ [LDiscard None; LWrite (code_wire id (i :: params)) (hd None (p_writes (b_port s)))]))
             (b_baud s) (b_rbuf s) 0 0 w' (b_dbg s)).

Lemma set_wbuf_id : forall s, set_wbuf s (b_wbuf s) = s.
Proof. intros []. reflexivity. Qed.

Lemma sends_effect : forall m id i params s, sends m id i params -> inv s ->
  send_effect s id i params (m s).
Proof.
  intros m id i params s H Hi.
  destruct (N.lt_ge_cases usize_max (N.of_nat (length params + 10))) as [O|O].
  { rewrite (sends_overflow _ _ _ _ _ H Hi O). constructor. exact O. }
  rewrite (sends_value _ _ _ _ _ H Hi O). clear H m.
  unfold write_value. cbv zeta.
  destruct (length (b_wbuf s) <? length params + 10) eqn:L.
  { pose proof (se_too_small s id i params (mkBTS (length params + 10) (length (b_wbuf s))) (b_wbuf s)) as K.
    rewrite set_wbuf_id in K. apply K; [apply Hi|reflexivity|lia]. }
  destruct (build_result (b_dbg s) (length (b_wbuf s)) (i :: params)) as [|e|p] eqn:B.
  - pose proof (build_ok_room _ _ _ B) as R. cbn [length] in R.
    destruct (wire_buffer_ok id i params (b_wbuf s) ltac:(lia)) as [W1 W2].
    unfold transmit. cbn [set_port set_used set_rlen set_wbuf b_port b_baud b_rbuf b_rlen b_used b_wbuf b_dbg].
    destruct (hd None (p_discards (b_port s))) as [e|] eqn:D.
    + refine (se_discard s id i params e _ W1 W2 _ D). lia.
    + refine (se_write s id i params _ W1 W2 _ _ D); [lia|].
      intro Hd. unfold build_result in B. cbv zeta in B. rewrite Hd in B. cbn [andb] in B.
      case_if B; [discriminate|]. case_if B; [discriminate|].
      rewrite code_stuff_length. lia.
  - destruct (pre_stuff_ok id i params (b_wbuf s) (proj2 Hi) ltac:(lia)) as [W1 W2].
    apply se_too_small; [exact W1|exact W2|]. right.
    unfold build_result in B. cbv zeta in B. cbn [length] in B.
    case_if B; [lia|]. case_if B; [discriminate|]. case_if B; discriminate.
  - unfold build_result in B. cbv zeta in B. cbn [length] in B.
    case_if B; [discriminate|]. apply se_panic; [lia|lia|]. rewrite code_stuff_length. cbn [length].
    case_if B.
    { injection B as <-. left. split; [reflexivity|].
      match goal with H : _ && _ = true |- _ => apply andb_true_iff in H; destruct H as [H1 H2] end.
      split; [exact H1|apply N.leb_le, H2]. }
    case_if B; [injection B as <-; right; split; [reflexivity|lia]|discriminate].
Qed.

(** ** The bytes on the wire *)

Lemma covered_crc : forall id body, is_crc16 0 (covered id body) (calculate_checksum 0 (covered id body)).
Proof. intros. apply checksum_iff_crc16; reflexivity. Qed.

Lemma code_wire_frame_iff : forall id body,
  is_frame id body (code_wire id body) <->
  ff_runs_ok body /\ (N.of_nat (length (pstuff body) + 2) < 2 ^ 16)%N.
Proof.
  intros id body. split.
  - intros [crc [E [L _]]]. split; [|exact L].
    rewrite code_wire_wire_of_body in E. apply (f_equal (@length byte)) in E.
    unfold wire_of_body in E. rewrite !app_length, !le16_length in E. cbn [length header] in E.
    apply runs_ok_counts. rewrite code_stuff_length, pstuff_length in E. lia.
  - intros [H L]. exists (calculate_checksum 0 (covered id body)).
    rewrite code_wire_wire_of_body. pose proof (covered_crc id body) as C.
    unfold covered in *. apply code_stuff_correct_iff in H. rewrite H in *. auto.
Qed.
