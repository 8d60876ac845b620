(** * ApiProofs: invariants of every API function *)
From Coq Require Import ZArith ZifyN ZifyNat ZifyBool.
From Verif Require Import Base CallSpec Endian Error Checksum Bytestuff Packet Time Bus Data Client
  Instructions Device Api Spec Lib ChecksumProofs StuffProofs WriteProofs ReadProofs.
Ltac Zify.zify_post_hook ::= Z.div_mod_to_equations.

(** ** Length preserving helpers *)

Lemma set_len : forall l i v l', set l i v = Val l' -> length l' = length l.
Proof.
  intros l i v l' H. unfold set in H. destruct (i <? length l); [|discriminate].
  injection H as <-. apply list_set_length.
Qed.

Lemma with_slice_len : forall R l a b (f : list byte -> out (list byte * R)) l' r,
  (forall s s' r, f s = Val (s', r) -> length s' = length s) ->
  with_slice l a b f = Val (l', r) -> length l' = length l.
Proof.
  intros R l a b f l' r Hf H. unfold with_slice in H.
  destruct (slice l a b) as [s|?|] eqn:S; try discriminate. cbn [obind] in H.
  destruct (f s) as [[s' r']|?|] eqn:F; try discriminate. cbn [obind] in H. injection H as <- <-.
  apply Hf in F. apply slice_inv in S. destruct S as [S1 [S2 S3]]. subst s.
  rewrite firstn_length, skipn_length in F.
  apply splice_length. lia.
Qed.

Lemma copy_from_slice_len : forall d s d', copy_from_slice d s = Val d' -> length d' = length d.
Proof.
  intros d s d' H. unfold copy_from_slice in H. destruct (length d =? length s) eqn:E; [|discriminate].
  injection H as <-. lia.
Qed.

Lemma copy_into_len : forall l a b src l', copy_into l a b src = Val l' -> length l' = length l.
Proof.
  intros l a b src l' H. unfold copy_into in H.
  destruct (slice l a b) as [s|?|] eqn:S; try discriminate. cbn [obind] in H.
  destruct (copy_from_slice s src) as [s'|?|] eqn:F; try discriminate. cbn [obind] in H. injection H as <-.
  apply copy_from_slice_len in F. apply slice_inv in S. destruct S as [S1 [S2 S3]]. subst s.
  rewrite firstn_length, skipn_length in F.
  apply splice_length. lia.
Qed.

Lemma write_u16_le_len : forall l v l', write_u16_le l v = Val l' -> length l' = length l.
Proof.
  intros [|a [|b l]] v l' H; try discriminate. rewrite write_u16_le_val in H.
  injection H as <-. reflexivity.
Qed.

Lemma write_u16_at_len : forall l p v l', write_u16_at l p v = Val l' -> length l' = length l.
Proof.
  intros l p v l' H. unfold write_u16_at in H.
  destruct (with_slice l p (length l) _) as [[b r]|?|] eqn:E; try discriminate. cbn [obind] in H.
  injection H as <-. apply (with_slice_len _ _ _ _ _ _ _) in E; [exact E|].
  intros s s' r0 F. destruct (write_u16_le s v) as [x|?|] eqn:W; try discriminate. cbn [obind] in F.
  injection F as <- <-. apply (write_u16_le_len _ _ _ W).
Qed.

Lemma write_u8_at_len : forall l p v l', write_u8_at l p v = Val l' -> length l' = length l.
Proof.
  intros l p v l' H. unfold write_u8_at in H.
  destruct (with_slice l p (length l) _) as [[b r]|?|] eqn:E; try discriminate. cbn [obind] in H.
  injection H as <-. apply (with_slice_len _ _ _ _ _ _ _) in E; [exact E|].
  intros s s' r0 F. unfold write_u8_le in F. destruct (set s 0 v) as [x|?|] eqn:W; try discriminate.
  cbn [obind] in F. injection F as <- <-. apply (set_len _ _ _ _ W).
Qed.

(** ** The encoders of the instruction functions *)

Lemma enc_ok_ok : forall f, (forall s s', f s = Val s' -> length s' = length s) -> encoder_ok (enc_ok f).
Proof.
  intros f H s s' r E. unfold enc_ok in E. destruct (f s) as [x|?|] eqn:F; try discriminate.
  cbn [obind] in E. injection E as <- <-. apply (H _ _ F).
Qed.

Lemma no_params_ok : encoder_ok no_params.
Proof. intros s s' r E. unfold no_params in E. congruence. Qed.

Lemma id_encoder_ok : encoder_ok (fun b => Val (b, Ok tt)).
Proof. intros s s' r E. congruence. Qed.

Lemma address_and_value_ok : forall A (D : data_impl A) a v, data_ok D -> encoder_ok (address_and_value D a v).
Proof.
  intros A D a v HD s s' r E. unfold address_and_value in E.
  destruct (write_u16_at s 0 a) as [b|?|] eqn:W; try discriminate. cbn [obind] in E.
  apply write_u16_at_len in W. apply with_slice_len in E; [congruence|]. apply HD.
Qed.

Lemma address_and_bytes_ok : forall a d, encoder_ok (address_and_bytes a d).
Proof.
  intros a d. apply enc_ok_ok. intros s s' E.
  destruct (write_u16_at s 0 a) as [b|?|] eqn:W; try discriminate. cbn [obind] in E.
  apply write_u16_at_len in W. apply copy_into_len in E. congruence.
Qed.

Lemma factory_reset_params_ok : forall k, encoder_ok (factory_reset_params k).
Proof. intro k. apply enc_ok_ok. intros s s' E. apply (set_len _ _ _ _ E). Qed.

Lemma clear_revolution_count_parameters_ok : encoder_ok clear_revolution_count_parameters.
Proof. apply enc_ok_ok. intros s s' E. apply (copy_from_slice_len _ _ _ E). Qed.
Lemma clear_error_parameters_ok : encoder_ok clear_error_parameters.
Proof. apply enc_ok_ok. intros s s' E. apply (copy_from_slice_len _ _ _ E). Qed.

Lemma read_params_ok : forall address count, encoder_ok (enc_ok (fun b =>
  let* b := write_u16_at b 0 address in write_u16_at b 2 count)).
Proof.
  intros a c. apply enc_ok_ok. intros s s' E.
  destruct (write_u16_at s 0 a) as [b|?|] eqn:W; try discriminate. cbn [obind] in E.
  apply write_u16_at_len in W. apply write_u16_at_len in E. congruence.
Qed.

Lemma sync_read_params_ok : forall (address count : N) ids, encoder_ok (enc_ok (fun b =>
  let* b := write_u16_at b 0 address in
  let* b := write_u16_at b 2 count in
  copy_into b 4 (length b) ids)).
Proof.
  intros a c ids. apply enc_ok_ok. intros s s' E.
  destruct (write_u16_at s 0 a) as [b|?|] eqn:W; try discriminate. cbn [obind] in E.
  destruct (write_u16_at b 2 c) as [b2|?|] eqn:W2; try discriminate. cbn [obind] in E.
  apply write_u16_at_len in W. apply write_u16_at_len in W2. apply copy_into_len in E. congruence.
Qed.

Lemma sync_write_bytes_loop_len : forall c l i b b', sync_write_bytes_loop c i l b = Val b' ->
  length b' = length b.
Proof.
  intros c. induction l as [|x l IH]; intros i b b' E; cbn [sync_write_bytes_loop] in E; [congruence|].
  destruct (negb (length (sw_data x) =? c)); [discriminate|]. cbv zeta in E.
  destruct (with_slice b _ _ _) as [[b1 r]|?|] eqn:W; try discriminate. cbn [obind] in E.
  apply IH in E. apply with_slice_len in W; [congruence|].
  intros s s' r0 F. destruct (set s 0 (sw_id x)) as [y|?|] eqn:S; try discriminate. cbn [obind] in F.
  destruct (copy_into y 1 (length y) (sw_data x)) as [z|?|] eqn:C; try discriminate. cbn [obind] in F.
  injection F as <- <-. apply set_len in S. apply copy_into_len in C. congruence.
Qed.

Lemma sync_write_loop_len : forall A (D : data_impl A), data_ok D -> forall c l i b b' r,
  sync_write_loop D c i l b = Val (b', r) -> length b' = length b.
Proof.
  intros A D HD c. induction l as [|x l IH]; intros i b b' r E; cbn [sync_write_loop] in E; [congruence|].
  cbv zeta in E.
  destruct (with_slice b _ _ _) as [[b1 r1]|?|] eqn:W; try discriminate. cbn [obind] in E.
  apply with_slice_len in W.
  - destruct r1; [apply IH in E; congruence|injection E as <- <-; exact W].
  - intros s s' r0 F. destruct (set s 0 (sw_id x)) as [y|?|] eqn:S; try discriminate. cbn [obind] in F.
    apply set_len in S. apply with_slice_len in F; [congruence|apply HD].
Qed.

Lemma bulk_write_loop_len : forall l i b b', bulk_write_loop i l b = Val b' -> length b' = length b.
Proof.
  induction l as [|x l IH]; intros i b b' E; cbn [bulk_write_loop] in E; [congruence|]. cbv zeta in E.
  destruct (with_slice b _ _ _) as [[b1 r]|?|] eqn:W; try discriminate. cbn [obind] in E.
  apply IH in E. apply with_slice_len in W; [congruence|].
  intros s s' r0 F. 
  destruct (write_u8_at s 0 (bw_id x)) as [y0|?|] eqn:S0; try discriminate. cbn [obind] in F.
  destruct (write_u16_at y0 1 (bw_address x)) as [y1|?|] eqn:S1; try discriminate. cbn [obind] in F.
  destruct (write_u16_at y1 3 _) as [y2|?|] eqn:S2; try discriminate. cbn [obind] in F.
  destruct (copy_into y2 5 _ _) as [y3|?|] eqn:S3; try discriminate. cbn [obind] in F.
  injection F as <- <-. apply write_u8_at_len in S0. apply write_u16_at_len in S1, S2. apply copy_into_len in S3. congruence.
Qed.

Lemma bulk_read_loop_len : forall l i b b', bulk_read_loop i l b = Val b' -> length b' = length b.
Proof.
  induction l as [|x l IH]; intros i b b' E; cbn [bulk_read_loop] in E; [congruence|].
  destruct (with_slice b _ _ _) as [[b1 r]|?|] eqn:W; try discriminate. cbn [obind] in E.
  apply IH in E. apply with_slice_len in W; [congruence|].
  intros s s' r0 F. 
  destruct (write_u8_at s 0 (br_id x)) as [y0|?|] eqn:S0; try discriminate. cbn [obind] in F.
  destruct (write_u16_at y0 1 (br_address x)) as [y1|?|] eqn:S1; try discriminate. cbn [obind] in F.
  destruct (write_u16_at y1 3 _) as [y2|?|] eqn:S2; try discriminate. cbn [obind] in F.
  injection F as <- <-. apply write_u8_at_len in S0. apply write_u16_at_len in S1, S2. congruence.
Qed.

Lemma sync_write_bytes_params_ok : forall address count c l, encoder_ok (enc_ok (fun b =>
  let* b := write_u16_at b 0 address in
  let* b := write_u16_at b 2 count in
  sync_write_bytes_loop c 0 l b)).
Proof.
  intros a n c l. apply enc_ok_ok. intros s s' E.
  destruct (write_u16_at s 0 a) as [b|?|] eqn:W; try discriminate. cbn [obind] in E.
  destruct (write_u16_at b 2 n) as [b2|?|] eqn:W2; try discriminate. cbn [obind] in E.
  apply write_u16_at_len in W. apply write_u16_at_len in W2. apply sync_write_bytes_loop_len in E. congruence.
Qed.

Lemma sync_write_params_ok : forall A (D : data_impl A) address count c l, data_ok D -> encoder_ok (fun b =>
  let* b := write_u16_at b 0 address in
  let* b := write_u16_at b 2 count in
  sync_write_loop D c 0 l b).
Proof.
  intros A D a n c l HD s s' r E.
  destruct (write_u16_at s 0 a) as [b|?|] eqn:W; try discriminate. cbn [obind] in E.
  destruct (write_u16_at b 2 n) as [b2|?|] eqn:W2; try discriminate. cbn [obind] in E.
  apply write_u16_at_len in W. apply write_u16_at_len in W2. apply sync_write_loop_len in E; [congruence|exact HD].
Qed.

Lemma bulk_write_params_ok : forall l, encoder_ok (enc_ok (bulk_write_loop 0 l)).
Proof. intro l. apply enc_ok_ok. intros s s' E. apply (bulk_write_loop_len _ _ _ _ E). Qed.
Lemma bulk_read_params_ok : forall l, encoder_ok (enc_ok (bulk_read_loop 0 l)).
Proof. intro l. apply enc_ok_ok. intros s s' E. apply (bulk_read_loop_len _ _ _ _ E). Qed.

Create HintDb enc discriminated.
#[export] Hint Resolve no_params_ok id_encoder_ok address_and_value_ok address_and_bytes_ok
  factory_reset_params_ok clear_revolution_count_parameters_ok clear_error_parameters_ok
  read_params_ok sync_read_params_ok sync_write_bytes_params_ok sync_write_params_ok
  bulk_write_params_ok bulk_read_params_ok : enc.

(** ** The invariant *)

Definition inv (s : bus) : Prop := rd_ok s /\ wbuf_ok (b_wbuf s).

(** The bytes any API function may write. *)
Definition wire_ok (w : list byte) : Prop := exists id i params, w = code_wire id (i :: params).

Lemma calls_ok_app : forall P a b, calls_ok P a -> calls_ok P b -> calls_ok P (a ++ b).
Proof. intros P a b Ha Hb. induction Ha; cbn [app]; try constructor; assumption. Qed.

Record evolves (s s' : bus) : Prop := mkEvolves {
  ev_inv : inv s';
  ev_rcap : length (b_rbuf s') = length (b_rbuf s);
  ev_wcap : length (b_wbuf s') = length (b_wbuf s);
  ev_dbg : b_dbg s' = b_dbg s;
  ev_log : exists evs, p_log (b_port s') = p_log (b_port s) ++ evs /\ calls_ok wire_ok evs;
}.

Lemma evolves_refl : forall s, inv s -> evolves s s.
Proof. intros s H. constructor; auto. exists []. rewrite app_nil_r. split; [reflexivity|constructor]. Qed.

Lemma evolves_trans : forall a b c, evolves a b -> evolves b c -> evolves a c.
Proof.
  intros a b c [A1 A2 A3 A4 [e1 [A5 A6]]] [B1 B2 B3 B4 [e2 [B5 B6]]].
  constructor; try congruence. exists (e1 ++ e2). split.
  - rewrite B5, A5, app_assoc. reflexivity.
  - apply calls_ok_app; assumption.
Qed.

Definition keeps {A} (m : M A) : Prop := forall s o s', inv s -> m s = (o, s') -> evolves s s'.

Lemma keeps_ret : forall A (a : A), keeps (ret a).
Proof. intros A a s o s' H E. injection E as <- <-. apply evolves_refl, H. Qed.

Lemma keeps_lift : forall A (x : out A), keeps (lift x).
Proof. intros A x s o s' H E. injection E as <- <-. apply evolves_refl, H. Qed.

Lemma keeps_get : keeps get.
Proof. intros s o s' H E. injection E as <- <-. apply evolves_refl, H. Qed.

Lemma keeps_bind : forall A B (m : M A) (k : A -> M B), keeps m -> (forall a, keeps (k a)) -> keeps (bind m k).
Proof.
  intros A B m k Hm Hk s o s' H E. unfold bind in E. destruct (m s) as [[a|p|] s1] eqn:M1.
  - pose proof (Hm _ _ _ H M1) as E1. eapply evolves_trans; [exact E1|]. eapply Hk; [|exact E]. apply E1.
  - injection E as <- <-. apply (Hm _ _ _ H M1).
  - injection E as <- <-. apply (Hm _ _ _ H M1).
Qed.

Lemma keeps_try : forall A B E F (f : E -> F) (m : M (result A E)) (k : A -> M (result B F)),
  keeps m -> (forall a, keeps (k a)) -> keeps (try_ f m k).
Proof.
  intros A B E F f m k Hm Hk. apply keeps_bind; [exact Hm|]. intros [a|e]; [apply Hk|apply keeps_ret].
Qed.

Lemma keeps_tryr : forall A B E F (f : E -> F) (r : result A E) (k : A -> M (result B F)),
  (forall a, keeps (k a)) -> keeps (tryr f r k).
Proof. intros A B E F f [a|e] k Hk; [apply Hk|apply keeps_ret]. Qed.

Lemma keeps_make_deadline : forall t, keeps (port_make_deadline t).
Proof.
  intros t s o s' H E. injection E as <- <-. constructor; auto.
  exists [LDeadline (mkDeadline (p_deadlines (b_port s)) t)]. split; [reflexivity|]. repeat constructor.
Qed.

Lemma keeps_set_baud : forall b, keeps (set_baud_rate b).
Proof.
  intros b s o s' H E. unfold set_baud_rate, try_, bind, port_set_baud in E.
  destruct (match p_setbauds (b_port s) with [] => None | r :: _ => r end) as [e|];
    unfold get, put, ret in E; injection E as <- <-; (constructor; auto; eexists; split; [reflexivity|]; repeat constructor).
Qed.

Lemma transmit_evolves : forall msg s o s', inv s -> wire_ok msg ->
  transmit msg s = (o, s') -> evolves s s'.
Proof.
  intros msg s o s' H Hm E. unfold transmit in E.
  destruct (hd None (p_discards (b_port s))) as [e|]; injection E as <- <-; constructor; auto.
  - eexists; split; [reflexivity|]. repeat constructor.
  - eexists; split; [reflexivity|]. repeat constructor. exact Hm.
Qed.

Lemma write_value_evolves : forall s id i params o s', inv s ->
  write_value s id i params = (o, s') -> evolves s s'.
Proof.
  intros s id i params o s' H E. unfold write_value in E. cbv zeta in E.
  destruct (length (b_wbuf s) <? length params + 10) eqn:L.
  { injection E as <- <-. apply evolves_refl, H. }
  destruct H as [H1 H2].
  destruct (build_result (b_dbg s) (length (b_wbuf s)) (i :: params)) eqn:B.
  - apply build_ok_room in B. cbn [length] in B.
    destruct (wire_buffer_ok id i params (b_wbuf s) ltac:(lia)) as [W1 W2].
    apply transmit_evolves in E; [|split; [split; cbn; lia|exact W1]|unfold wire_ok; eauto].
    eapply evolves_trans; [|exact E]. constructor.
    + split; [split; cbn; lia|exact W1].
    + reflexivity.
    + exact W2.
    + reflexivity.
    + exists []. rewrite app_nil_r. split; [reflexivity|constructor].
  - injection E as <- <-.
    destruct (pre_stuff_ok id i params (b_wbuf s) H2 ltac:(lia)) as [W1 W2].
    constructor; [split; [exact H1|exact W1]|reflexivity|exact W2|reflexivity|].
    exists []. rewrite app_nil_r. split; [reflexivity|constructor].
  - injection E as <- <-. apply evolves_refl. split; assumption.
Qed.

Lemma keeps_write_packet : forall id i n enc, encoder_ok enc -> keeps (write_packet id i n enc).
Proof.
  intros id i n enc Henc s o s' H E. rewrite write_packet_gen in E by (try apply H; exact Henc).
  unfold write_gen in E. cbv zeta in E.
  destruct (usize_max <? N.of_nat (n + 10))%N; [injection E as <- <-; apply evolves_refl, H|].
  destruct (length (b_wbuf s) <? n + 10) eqn:L; [injection E as <- <-; apply evolves_refl, H|].
  destruct (enc (firstn n (skipn 8 (b_wbuf s)))) as [[params [[]|e]]|p|] eqn:EN.
  - apply (write_value_evolves _ _ _ _ _ _ H E).
  - injection E as <- <-. apply Henc in EN. rewrite firstn_length, skipn_length in EN.
    destruct H as [H1 H2].
    assert (n = length params) as -> by lia.
    destruct (pre_stuff_ok id i params (b_wbuf s) H2 ltac:(lia)) as [W1 W2].
    constructor; [split; [exact H1|exact W1]|reflexivity|exact W2|reflexivity|].
    exists []. rewrite app_nil_r. split; [reflexivity|constructor].
  - injection E as <- <-. apply evolves_refl, H.
  - injection E as <- <-. apply evolves_refl, H.
Qed.

Lemma keeps_write_status : forall id e n enc, encoder_ok enc -> keeps (write_status id e n enc).
Proof.
  intros id e n enc Henc. unfold write_status.
  destruct (usize_max <? N.of_nat (st_message_len n))%N; [apply keeps_lift|].
  apply keeps_bind; [apply keeps_get|]. intro s. apply keeps_tryr. intros _.
  apply keeps_write_packet. apply (status_encoder_ok e enc Henc).
Qed.

Lemma keeps_read_packet : forall dl, keeps (read_packet_deadline dl).
Proof.
  intros dl s o s' [H1 H2] E.
  destruct (Nat.le_gt_cases 10 (length (b_rbuf s))) as [L|L].
  - destruct (read_packet_spec dl s o s' H1 L E) as [dat [sc' [_ Hok F _ _]]].
    destruct F as [F1 F2 F3 F4 F5 F6 F7 F8 [evs [F9 F10]]].
    constructor; auto; [split; [exact Hok|rewrite F3; exact H2]|congruence|].
    exists evs. split; [exact F9|]. clear F9.
    induction F10 as [|e l K _ IH]; [constructor|].
    destruct e; cbn in K; try tauto; constructor; tauto.
  - rewrite read_packet_small in E by exact L. injection E as <- <-. apply evolves_refl. split; assumption.
Qed.

Ltac keeps_step :=
  lazymatch goal with
  | |- forall _, _ => intro
  | |- keeps (ret _) => apply keeps_ret
  | |- keeps (lift _) => apply keeps_lift
  | |- keeps get => apply keeps_get
  | |- keeps (try_ _ _ _) => apply keeps_try
  | |- keeps (tryr _ _ _) => apply keeps_tryr
  | |- keeps (bind _ _) => apply keeps_bind
  | |- keeps (port_make_deadline _) => apply keeps_make_deadline
  | |- keeps (set_baud_rate _) => apply keeps_set_baud
  | |- keeps (read_packet_deadline _) => apply keeps_read_packet
  | |- keeps (write_packet _ _ _ _) => apply keeps_write_packet; eauto with enc
  | |- keeps (write_status _ _ _ _) => apply keeps_write_status; eauto with enc
  | |- keeps (match ?x with _ => _ end) => destruct x
  end.
Ltac keeps_all := repeat keeps_step.

Lemma keeps_rsrt : forall t, keeps (read_status_response_timeout t).
Proof. intro t. unfold read_status_response_timeout. keeps_all. Qed.
Lemma keeps_rsr : forall n, keeps (read_status_response n).
Proof. intro n. unfold read_status_response. keeps_all. apply keeps_rsrt. Qed.
Lemma keeps_wi : forall id i n enc, encoder_ok enc -> keeps (write_instruction id i n enc).
Proof. intros. apply keeps_write_packet. assumption. Qed.
Lemma keeps_rr : forall id, keeps (read_response_if_not_broadcast id).
Proof. intro id. unfold read_response_if_not_broadcast. keeps_all. apply keeps_rsr. Qed.
Lemma keeps_instruct : forall id i n enc, encoder_ok enc -> keeps (instruct id i n enc).
Proof. intros id i n enc H. unfold instruct. keeps_all; [apply keeps_wi, H|apply keeps_rr]. Qed.
Lemma keeps_transfer : forall id i n e enc, encoder_ok enc -> keeps (transfer_single id i n e enc).
Proof. intros id i n e enc H. unfold transfer_single. keeps_all; [apply keeps_wi, H|apply keeps_rsr]. Qed.
Lemma keeps_read_raw : forall id a n, keeps (read_raw id a n).
Proof. intros. unfold read_raw. keeps_all. apply keeps_transfer. auto with enc. Qed.
Lemma keeps_expect_response : forall id n, keeps (expect_response id n).
Proof. intros. unfold expect_response. keeps_all. apply keeps_rsr. Qed.
Lemma keeps_expect_value : forall A (D : data_impl A) id, keeps (expect_value D id).
Proof. intros. unfold expect_value. keeps_all. apply keeps_rsr. Qed.
Lemma keeps_scan_next : keeps scan_next.
Proof. unfold scan_next, scan_next_response. keeps_all. apply keeps_rsrt. Qed.
Lemma keeps_scan_drop : forall n, keeps (scan_drop n).
Proof. induction n; cbn [scan_drop]; keeps_all; [apply keeps_scan_next|exact IHn]. Qed.
Lemma keeps_srb_drop_loop : forall n it, keeps (srb_drop_loop n it).
Proof.
  induction n; intro it; cbn [srb_drop_loop]; keeps_all; [apply keeps_rsr|apply IHn].
Qed.
Lemma keeps_sr_next : forall A (D : data_impl A) it, keeps (sr_next D it).
Proof. intros. unfold sr_next. keeps_all. apply keeps_expect_value. Qed.
Lemma keeps_sr_drop_loop : forall A (D : data_impl A) n it, keeps (sr_drop_loop D n it).
Proof. induction n; intro it; cbn [sr_drop_loop]; keeps_all; [apply keeps_sr_next|apply IHn]. Qed.
Lemma keeps_br_drop_loop : forall l, keeps (br_drop_loop l).
Proof. induction l; cbn [br_drop_loop]; keeps_all; [apply keeps_rsr|exact IHl]. Qed.
Lemma keeps_device_loop : forall n d, keeps (device_loop n d).
Proof. induction n; intro d; cbn [device_loop]; keeps_all. apply IHn. Qed.
Lemma keeps_rrit : forall t, keeps (read_raw_instruction_timeout t).
Proof. intro t. unfold read_raw_instruction_timeout. keeps_all. apply keeps_device_loop. Qed.

Lemma api_keeps : forall A (m : M A), api m -> keeps m.
Proof.
  intros A m H. destruct H.
  - apply keeps_set_baud.
  - apply keeps_transfer; assumption.
  - apply keeps_wi; assumption.
  - apply keeps_rsrt.
  - apply keeps_rsr.
  - unfold device_read. keeps_all. apply keeps_rrit.
  - unfold device_read_owned. keeps_all. apply keeps_rrit.
  - apply keeps_rrit.
  - apply keeps_write_status; assumption.
  - apply keeps_write_status; auto with enc.
  - apply keeps_write_status; auto with enc.
  - unfold ping. keeps_all. apply keeps_transfer; auto with enc.
  - apply keeps_wi; auto with enc.
  - apply keeps_scan_next.
  - apply keeps_scan_drop.
  - unfold read_bytes. keeps_all. apply keeps_read_raw.
  - unfold read. keeps_all. apply keeps_read_raw.
  - apply keeps_instruct; auto with enc.
  - apply keeps_instruct; auto with enc.
  - apply keeps_instruct; auto with enc.
  - apply keeps_instruct; auto with enc.
  - apply keeps_instruct; auto with enc.
  - apply keeps_wi; auto with enc.
  - apply keeps_instruct; auto with enc.
  - apply keeps_wi; auto with enc.
  - apply keeps_instruct; auto with enc.
  - apply keeps_wi; auto with enc.
  - apply keeps_instruct; auto with enc.
  - apply keeps_wi; auto with enc.
  - apply keeps_instruct; auto with enc.
  - apply keeps_wi; auto with enc.
  - apply keeps_wi; auto with enc.
  - apply keeps_wi; auto with enc.
  - unfold bulk_write. keeps_all. apply keeps_wi; auto with enc.
  - unfold sync_read_bytes, write_sync_read. keeps_all. apply keeps_wi; auto with enc.
  - unfold srb_next. keeps_all. apply keeps_expect_response.
  - apply keeps_srb_drop_loop.
  - unfold sync_read, write_sync_read. keeps_all. apply keeps_wi; auto with enc.
  - apply keeps_sr_next.
  - apply keeps_sr_drop_loop.
  - unfold bulk_read_bytes, write_bulk_read_instruction. keeps_all. apply keeps_wi; auto with enc.
  - unfold br_next. keeps_all. apply keeps_expect_response.
  - unfold br_drop. keeps_all. apply keeps_br_drop_loop.
Qed.

(** ** Construction *)

Lemma new_inv : forall dbg p rb wb baud s, with_buffers_and_baud_rate dbg p rb wb baud = Val s ->
  inv s /\ b_port s = p /\ b_baud s = baud /\ b_rbuf s = rb /\ b_rlen s = 0 /\ b_used s = 0 /\
  length (b_wbuf s) = length wb /\ b_dbg s = dbg /\ unread s = [].
Proof.
  intros dbg p rb wb baud s H. unfold with_buffers_and_baud_rate, HEADER_SIZE in H.
  destruct (7 + 3 <=? length wb) eqn:L; [|discriminate].
  destruct (copy_into wb 0 4 HEADER_PREFIX) as [w|?|] eqn:C; try discriminate. cbn [obind] in H.
  injection H as <-. pose proof (copy_into_len _ _ _ _ _ C) as Lw.
  cbn [b_port b_baud b_rbuf b_rlen b_used b_wbuf b_dbg].
  split; [|repeat split; assumption].
  split; [split; cbn; lia|]. split; [cbn; lia|]. cbn [b_wbuf].
  unfold copy_into in C. rewrite slice_val in C by lia. cbn [obind] in C.
  unfold copy_from_slice in C. rewrite firstn_length, skipn_length in C.
  replace (Nat.min (4 - 0) (length wb - 0) =? length HEADER_PREFIX) with true in C
    by (cbn [length HEADER_PREFIX]; lia).
  cbn [obind] in C. injection C as <-. reflexivity.
Qed.

Lemma reach_inv : forall s, reach s -> inv s.
Proof.
  intros s H. induction H as [dbg p rb wb baud s H|A m s a s' H IH Ha E].
  - apply (new_inv _ _ _ _ _ _ H).
  - apply (api_keeps _ _ Ha _ _ _ IH E).
Qed.
