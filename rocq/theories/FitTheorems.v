(** * FitTheorems: no read asks for more than the buffer can hold *)
From Coq Require Import ZArith ZifyN ZifyNat ZifyBool.
From Verif Require Import Base Endian Error Checksum Bytestuff Packet Time Bus Data Client
  Instructions Device MockDevice Api Spec CallSpec StreamSpec Demo Lib ChecksumProofs CrcErrorProofs StuffProofs
  WriteProofs ReadProofs ApiProofs StreamProofs MessageProofs SendProofs SendTheorems RemoteProofs.

Definition room_ok (K : nat) (e : io_event) : Prop :=
  match e with LRead _ n _ | LReadWait _ n => n <= K | _ => True end.

Definition modest {A} (m : M A) : Prop := keeps m /\ forall s o s', inv s -> m s = (o, s') ->
  exists evs, calls s s' evs /\ Forall (room_ok (length (b_rbuf s))) evs.

(** ** Reading *)

Lemma front_calls : forall s c, calls s (front s c) [].
Proof. intros. unfold calls. rewrite app_nil_r. reflexivity. Qed.

Lemma read_loop_rooms : forall fuel dl s o s', rd_ok s -> 10 <= length (b_rbuf s) -> read_loop fuel dl s = (o, s') ->
  exists evs, calls s s' evs /\ Forall (room_ok (length (b_rbuf s))) evs.
Proof.
  induction fuel as [|fuel IH]; intros dl s o s' Hok Hcap E.
  { injection E as <- <-. exists []. split; [apply calls_same|constructor]. }
  rewrite read_loop_step in E by assumption. cbv zeta in E.
  set (c := clean (unread s)) in *. set (n := length (b_rbuf s) - length c) in *.
  assert (Hc : length c <= length (b_rbuf s)).
  { unfold c. pose proof (clean_length (unread s)). pose proof (unread_fit s Hok). lia. }
  destruct (parse1 (length (b_rbuf s)) c) eqn:P; try (injection E as <- <-; exists []; split; [unfold calls; rewrite app_nil_r; reflexivity|constructor]).
  destruct (p_script (b_port s)) as [|[bs|e] sc] eqn:S.
  - injection E as <- <-. exists [LReadWait dl n]. split; [reflexivity|]. repeat constructor. cbn. lia.
  - set (sc' := if length bs <=? n then sc else RdData (skipn n bs) :: sc) in *.
    assert (Lb : length c + length (firstn n bs) <= length (b_rbuf s)) by (rewrite firstn_length; lia).
    destruct (received_ok dl s c (firstn n bs) sc' Lb) as [R1 [_ R3]].
    destruct (IH dl _ o s' R1 ltac:(lia) E) as [evs [C F]]. rewrite R3 in F.
    exists (LRead dl n (Ok (firstn n bs)) :: evs). split; [|constructor; [cbn; lia|exact F]].
    exact (calls_app s (received dl s c (firstn n bs) sc') s' [LRead dl n (Ok (firstn n bs))] evs eq_refl C).
  - injection E as <- <-. exists [LRead dl n (Err e)]. split; [reflexivity|]. repeat constructor. cbn. lia.
Qed.

(** Computations that leave the port alone. *)
Definition quiet {A} (m : M A) : Prop := forall s o s', m s = (o, s') -> p_log (b_port s') = p_log (b_port s).

Lemma consume_quiet : forall n, quiet (consume_read_bytes n).
Proof.
  intros n s o s' E. unfold consume_read_bytes, bind, get, put, lift in E.
  destruct (b_dbg s && negb (n <=? b_rlen s)); [injection E as <- <-; reflexivity|].
  destruct (slice (b_rbuf s) n (b_rlen s)); injection E as <- <-; reflexivity.
Qed.

Lemma finish_quiet : forall len, quiet (finish_packet len).
Proof.
  intros len s o s' E. unfold finish_packet in E. unfold bind at 1, get in E. unfold bind at 1, lift in E.
  destruct (usize_sub len 2) as [pe|?|]; try (injection E as <- <-; reflexivity). unfold bind at 1 in E.
  destruct (slice_from (b_rbuf s) pe) as [cf|?|]; try (injection E as <- <-; reflexivity). unfold bind at 1 in E.
  destruct (read_u16_le cf) as [cm|?|]; try (injection E as <- <-; reflexivity). unfold bind at 1 in E.
  destruct (slice_to (b_rbuf s) pe) as [cv|?|]; try (injection E as <- <-; reflexivity). cbv zeta in E.
  destruct (negb (cm =? calculate_checksum 0 cv)%N).
  - unfold bind in E. destruct (consume_read_bytes len s) as [x s1] eqn:C. apply consume_quiet in C.
    destruct x; injection E as <- <-; exact C.
  - unfold bind, put, get, ret in E.
    destruct (with_slice (b_rbuf s) HEADER_SIZE pe unstuff_inplace) as [[rb pc]|?|]; try (injection E as <- <-; reflexivity).
    destruct (slice_to rb (HEADER_SIZE + pc)) as [d|?|]; try (injection E as <- <-; reflexivity).
    destruct (pk_instruction (mkPacket d)) as [i|?|]; try (injection E as <- <-; reflexivity).
    destruct (beq i STATUS && (pc <? 1)); injection E as <- <-; reflexivity.
Qed.

Lemma read_packet_modest : forall dl, modest (read_packet_deadline dl).
Proof.
  intro dl. split; [apply keeps_read_packet|]. intros s o s' [H1 H2] E.
  destruct (Nat.le_gt_cases 10 (length (b_rbuf s))) as [L|L].
  2:{ rewrite read_packet_small in E by exact L. injection E as <- <-. exists []. split; [apply calls_same|constructor]. }
  unfold read_packet_deadline in E. unfold bind at 1, get in E.
  unfold bts_check, HEADER_SIZE in E. replace (7 + 3 <=? length (b_rbuf s)) with true in E by lia. cbn [tryr] in E.
  unfold try_, bind in E.
  destruct (read_loop (S (script_size (p_script (b_port s)))) dl s) as [o1 s1] eqn:El.
  destruct (read_loop_rooms _ _ _ _ _ H1 L El) as [evs [C F]].
  destruct o1 as [[len|e]|p|]; try (injection E as <- <-; eauto).
  exists evs. split; [|exact F]. unfold calls in *. rewrite (finish_quiet _ _ _ _ E). exact C.
Qed.

(** ** Writing *)

Lemma transmit_rooms : forall K msg s o s', transmit msg s = (o, s') -> exists evs, calls s s' evs /\ Forall (room_ok K) evs.
Proof.
  intros K msg s o s' E. unfold transmit in E.
  destruct (hd None (p_discards (b_port s))) as [e|]; injection E as <- <-; (eexists; split; [reflexivity|]; repeat constructor).
Qed.

Lemma write_packet_modest : forall id i n enc, encoder_ok enc -> modest (write_packet id i n enc).
Proof.
  intros id i n enc Henc. split; [apply keeps_write_packet, Henc|]. intros s o s' H E.
  rewrite write_packet_gen in E by (try apply H; exact Henc). unfold write_gen in E. cbv zeta in E.
  assert (N : forall t, b_port t = b_port s -> exists evs, calls s t evs /\ Forall (room_ok (length (b_rbuf s))) evs).
  { intros t Ht. exists []. split; [unfold calls; rewrite Ht, app_nil_r; reflexivity|constructor]. }
  destruct (usize_max <? N.of_nat (n + 10))%N; [injection E as <- <-; apply N; reflexivity|].
  destruct (length (b_wbuf s) <? n + 10) eqn:L; [injection E as <- <-; apply N; reflexivity|].
  destruct (enc (firstn n (skipn 8 (b_wbuf s)))) as [[params [[]|e]]|p|] eqn:EN.
  - unfold write_value in E. cbv zeta in E.
    destruct (length (b_wbuf s) <? length params + 10); [injection E as <- <-; apply N; reflexivity|].
    destruct (build_result (b_dbg s) (length (b_wbuf s)) (i :: params)).
    + exact (transmit_rooms (length (b_rbuf s)) _ _ _ _ E).
    + injection E as <- <-. apply N. reflexivity.
    + injection E as <- <-. apply N. reflexivity.
  - injection E as <- <-. apply N. reflexivity.
  - injection E as <- <-. apply N. reflexivity.
  - injection E as <- <-. apply N. reflexivity.
Qed.

(** ** All calls *)

Lemma modest_ret : forall A (a : A), modest (ret a).
Proof.
  intros A a. split; [apply keeps_ret|]. intros s o s' _ E. injection E as <- <-. exists []. split; [apply calls_same|constructor].
Qed.
Lemma modest_lift : forall A (x : out A), modest (lift x).
Proof.
  intros A x. split; [apply keeps_lift|]. intros s o s' _ E. injection E as <- <-. exists []. split; [apply calls_same|constructor].
Qed.
Lemma modest_get : modest get.
Proof. split; [apply keeps_get|]. intros s o s' _ E. injection E as <- <-. exists []. split; [apply calls_same|constructor]. Qed.

Lemma modest_bind : forall A B (m : M A) (k : A -> M B), modest m -> (forall a, modest (k a)) -> modest (bind m k).
Proof.
  intros A B m k [Km Hm] Hk. split; [apply keeps_bind; [exact Km|intro a; apply Hk]|].
  intros s o s' H E. unfold bind in E. destruct (m s) as [[a|p|] s1] eqn:M1; destruct (Hm _ _ _ H M1) as [e1 [C1 F1]].
  - pose proof (Km _ _ _ H M1) as Ev. destruct (proj2 (Hk a) _ _ _ (ev_inv _ _ Ev) E) as [e2 [C2 F2]].
    rewrite (ev_rcap _ _ Ev) in F2. exists (e1 ++ e2). split; [exact (calls_app _ _ _ _ _ C1 C2)|apply Forall_app; auto].
  - injection E as <- <-. eauto.
  - injection E as <- <-. eauto.
Qed.

Lemma modest_try : forall A B E F (f : E -> F) (m : M (result A E)) (k : A -> M (result B F)),
  modest m -> (forall a, modest (k a)) -> modest (try_ f m k).
Proof. intros A B E F f m k Hm Hk. apply modest_bind; [exact Hm|]. intros [a|e]; [apply Hk|apply modest_ret]. Qed.

Lemma modest_tryr : forall A B E F (f : E -> F) (r : result A E) (k : A -> M (result B F)),
  (forall a, modest (k a)) -> modest (tryr f r k).
Proof. intros A B E F f [a|e] k Hk; [apply Hk|apply modest_ret]. Qed.

Lemma modest_make_deadline : forall t, modest (port_make_deadline t).
Proof.
  intro t. split; [apply keeps_make_deadline|]. intros s o s' _ E. injection E as <- <-.
  exists [LDeadline (mkDeadline (p_deadlines (b_port s)) t)]. split; [reflexivity|]. repeat constructor.
Qed.

Lemma modest_set_baud : forall b, modest (set_baud_rate b).
Proof.
  intro b. split; [apply keeps_set_baud|]. intros s o s' _ E. unfold set_baud_rate, try_, bind, port_set_baud in E.
  destruct (match p_setbauds (b_port s) with [] => None | r :: _ => r end) as [e|];
    unfold get, put, ret in E; injection E as <- <-; (eexists; split; [reflexivity|]; repeat constructor).
Qed.

Lemma modest_write_status : forall id e n enc, encoder_ok enc -> modest (write_status id e n enc).
Proof.
  intros id e n enc Henc. unfold write_status.
  destruct (usize_max <? N.of_nat (st_message_len n))%N; [apply modest_lift|].
  apply modest_bind; [apply modest_get|]. intro s. apply modest_tryr. intros _.
  apply write_packet_modest. apply (status_encoder_ok e enc Henc).
Qed.

Ltac modest_step :=
  lazymatch goal with
  | |- forall _, _ => intro
  | |- modest (ret _) => apply modest_ret
  | |- modest (lift _) => apply modest_lift
  | |- modest get => apply modest_get
  | |- modest (try_ _ _ _) => apply modest_try
  | |- modest (tryr _ _ _) => apply modest_tryr
  | |- modest (bind _ _) => apply modest_bind
  | |- modest (port_make_deadline _) => apply modest_make_deadline
  | |- modest (set_baud_rate _) => apply modest_set_baud
  | |- modest (read_packet_deadline _) => apply read_packet_modest
  | |- modest (write_packet _ _ _ _) => apply write_packet_modest; eauto with enc
  | |- modest (write_status _ _ _ _) => apply modest_write_status; eauto with enc
  | |- modest (match ?x with _ => _ end) => destruct x
  end.
Ltac modest_all := repeat modest_step.

Lemma modest_rsrt : forall t, modest (read_status_response_timeout t).
Proof. intro t. unfold read_status_response_timeout. modest_all. Qed.
Lemma modest_rsr : forall n, modest (read_status_response n).
Proof. intro n. unfold read_status_response. modest_all. apply modest_rsrt. Qed.
Lemma modest_wi : forall id i n enc, encoder_ok enc -> modest (write_instruction id i n enc).
Proof. intros. apply write_packet_modest. assumption. Qed.
Lemma modest_rr : forall id, modest (read_response_if_not_broadcast id).
Proof. intro id. unfold read_response_if_not_broadcast. modest_all. apply modest_rsr. Qed.
Lemma modest_instruct : forall id i n enc, encoder_ok enc -> modest (instruct id i n enc).
Proof. intros id i n enc H. unfold instruct. modest_all; [apply modest_wi, H|apply modest_rr]. Qed.
Lemma modest_transfer : forall id i n e enc, encoder_ok enc -> modest (transfer_single id i n e enc).
Proof. intros id i n e enc H. unfold transfer_single. modest_all; [apply modest_wi, H|apply modest_rsr]. Qed.
Lemma modest_read_raw : forall id a n, modest (read_raw id a n).
Proof. intros. unfold read_raw. modest_all. apply modest_transfer. auto with enc. Qed.
Lemma modest_expect_response : forall id n, modest (expect_response id n).
Proof. intros. unfold expect_response. modest_all. apply modest_rsr. Qed.
Lemma modest_expect_value : forall A (D : data_impl A) id, modest (expect_value D id).
Proof. intros. unfold expect_value. modest_all. apply modest_rsr. Qed.
Lemma modest_scan_next : modest scan_next.
Proof. unfold scan_next, scan_next_response. modest_all. apply modest_rsrt. Qed.
Lemma modest_scan_drop : forall n, modest (scan_drop n).
Proof. induction n; cbn [scan_drop]; modest_all; [apply modest_scan_next|exact IHn]. Qed.
Lemma modest_srb_drop_loop : forall n it, modest (srb_drop_loop n it).
Proof. induction n; intro it; cbn [srb_drop_loop]; modest_all; [apply modest_rsr|apply IHn]. Qed.
Lemma modest_sr_next : forall A (D : data_impl A) it, modest (sr_next D it).
Proof. intros. unfold sr_next. modest_all. apply modest_expect_value. Qed.
Lemma modest_sr_drop_loop : forall A (D : data_impl A) n it, modest (sr_drop_loop D n it).
Proof. induction n; intro it; cbn [sr_drop_loop]; modest_all; [apply modest_sr_next|apply IHn]. Qed.
Lemma modest_br_drop_loop : forall l, modest (br_drop_loop l).
Proof. induction l; cbn [br_drop_loop]; modest_all; [apply modest_rsr|exact IHl]. Qed.
Lemma modest_device_loop : forall n d, modest (device_loop n d).
Proof. induction n; intro d; cbn [device_loop]; modest_all. apply IHn. Qed.
Lemma modest_rrit : forall t, modest (read_raw_instruction_timeout t).
Proof. intro t. unfold read_raw_instruction_timeout. modest_all. apply modest_device_loop. Qed.

Lemma api_modest : forall A (m : M A), api m -> modest m.
Proof.
  intros A m H. destruct H.
  - apply modest_set_baud.
  - apply modest_transfer; assumption.
  - apply modest_wi; assumption.
  - apply modest_rsrt.
  - apply modest_rsr.
  - unfold device_read. modest_all. apply modest_rrit.
  - unfold device_read_owned. modest_all. apply modest_rrit.
  - apply modest_rrit.
  - apply modest_write_status; assumption.
  - apply modest_write_status; auto with enc.
  - apply modest_write_status; auto with enc.
  - unfold ping. modest_all. apply modest_transfer; auto with enc.
  - apply modest_wi; auto with enc.
  - apply modest_scan_next.
  - apply modest_scan_drop.
  - unfold read_bytes. modest_all. apply modest_read_raw.
  - unfold read. modest_all. apply modest_read_raw.
  - apply modest_instruct; auto with enc.
  - apply modest_instruct; auto with enc.
  - apply modest_instruct; auto with enc.
  - apply modest_instruct; auto with enc.
  - apply modest_instruct; auto with enc.
  - apply modest_wi; auto with enc.
  - apply modest_instruct; auto with enc.
  - apply modest_wi; auto with enc.
  - apply modest_instruct; auto with enc.
  - apply modest_wi; auto with enc.
  - apply modest_instruct; auto with enc.
  - apply modest_wi; auto with enc.
  - apply modest_instruct; auto with enc.
  - apply modest_wi; auto with enc.
  - apply modest_wi; auto with enc.
  - apply modest_wi; auto with enc.
  - unfold bulk_write. modest_all. apply modest_wi; auto with enc.
  - unfold sync_read_bytes, write_sync_read. modest_all. apply modest_wi; auto with enc.
  - unfold srb_next. modest_all. apply modest_expect_response.
  - apply modest_srb_drop_loop.
  - unfold sync_read, write_sync_read. modest_all. apply modest_wi; auto with enc.
  - apply modest_sr_next.
  - apply modest_sr_drop_loop.
  - unfold bulk_read_bytes, write_bulk_read_instruction. modest_all. apply modest_wi; auto with enc.
  - unfold br_next. modest_all. apply modest_expect_response.
  - unfold br_drop. modest_all. apply modest_br_drop_loop.
Qed.

(** ** C15 *)

Lemma L_C15_reads_fit_the_buffer : forall A (m : M A) s o s' evs,
  reach s -> api m -> m s = (o, s') -> calls s s' evs ->
  forall d cap a, In (LRead d cap a) evs \/ In (LReadWait d cap) evs -> cap <= length (b_rbuf s).
Proof.
  intros A m s o s' evs R H E C d cap a K.
  destruct (proj2 (api_modest A m H) s o s' (reach_inv _ R) E) as [evs' [C' F]].
  rewrite (calls_inj _ _ _ _ C C') in K. rewrite Forall_forall in F. destruct K as [K|K]; exact (F _ K).
Qed.

(** ** The loop of a simulated motor *)

Lemma mock_copy_ok : forall d, encoder_ok (mock_copy d).
Proof.
  intros d b b' r E. unfold mock_copy, copy_from_slice in E. destruct (length b =? length d) eqn:L; [|discriminate E].
  cbn [obind] in E. injection E as <- _. lia.
Qed.

Lemma mock_ping_ok : encoder_ok mock_ping_params.
Proof.
  intros b b' r E. unfold mock_ping_params in E.
  destruct (set b 0 _) as [b1|?|] eqn:E1; try discriminate E. cbn [obind] in E.
  destruct (set b1 1 _) as [b2|?|] eqn:E2; try discriminate E. cbn [obind] in E.
  destruct (set b2 2 _) as [b3|?|] eqn:E3; try discriminate E. cbn [obind] in E. injection E as <- _.
  rewrite (set_len _ _ _ _ E3), (set_len _ _ _ _ E2). exact (set_len _ _ _ _ E1).
Qed.

Lemma modest_must : forall A E (m : M (result A E)), modest m -> modest (must m).
Proof. intros A E m H. unfold must. apply modest_bind; [exact H|]. intros [a|e]; [apply modest_ret|apply modest_lift]. Qed.

Lemma modest_status : forall id e n enc, encoder_ok enc -> modest (device_write_status id e n enc).
Proof. intros. apply api_modest, api_device_write_status. assumption. Qed.

Lemma modest_reply_table : forall id table a n, modest (mock_reply_table id table a n).
Proof.
  intros. unfold mock_reply_table. destruct (control_read table a n); apply modest_must.
  - apply modest_status, mock_copy_ok.
  - apply api_modest, api_device_write_status_error.
Qed.

Lemma modest_reply_written : forall id st w act, modest (mock_reply_written id st w act).
Proof.
  intros. unfold mock_reply_written. destruct w; (apply modest_bind; [apply modest_must, api_modest|intro; apply modest_ret]);
    [apply api_device_write_status_ok|apply api_device_write_status_error].
Qed.

Lemma modest_await : forall fuel id, modest (mock_await fuel id).
Proof.
  induction fuel as [|fuel IH]; intro id; cbn [mock_await]; [apply modest_lift|].
  apply modest_bind; [apply api_modest; constructor|]. intros [p|[| |e|]]; modest_all. apply IH.
Qed.

Lemma modest_sync_bulk : forall id table a n ids, modest (mock_sync_bulk_read id table a n ids).
Proof.
  induction ids as [|x ids IH]; cbn [mock_sync_bulk_read]; [apply modest_ret|].
  destruct (beq x id); [apply modest_reply_table|]. apply modest_bind; [apply modest_get|]. intro s.
  apply modest_bind; [apply modest_await|]. intros []; [exact IH|apply modest_ret].
Qed.

Lemma mock_iteration_modest : forall id st, modest (mock_iteration id st).
Proof.
  intros id st. unfold mock_iteration. apply modest_bind; [apply api_modest; constructor|].
  intros [p|[| |e|]]; modest_all. unfold mock_handle.
  destruct (i_instruction p); modest_all; try apply modest_reply_table; try apply modest_reply_written; try apply modest_sync_bulk;
    apply modest_must.
  - apply modest_status, mock_ping_ok.
  - apply api_modest, api_device_write_status_ok.
  - apply api_modest, api_device_write_status_error.
Qed.
