(** * BaudTheorems: the baud rate in use, C48, and the exact timeouts, C40 *)
From Coq Require Import ZArith ZifyN ZifyNat ZifyBool.
From Verif Require Import Base Endian Error Checksum Bytestuff Packet Time Bus Data Client
  Instructions Device Api Spec CallSpec StreamSpec InstructionSpec TimeSpec TwinSpec Lib ChecksumProofs
  CrcErrorProofs StuffProofs WriteProofs ReadProofs ApiProofs StreamProofs MessageProofs SendProofs
  SendTheorems ReadTheorems StatusProofs DeviceTheorems InstructionProofs TimeTheorems Demo IterProofs ScanTheorems TwinProofs.

Lemma rate_after_app : forall e1 b e2, rate_after b (e1 ++ e2) = rate_after (rate_after b e1) e2.
Proof. induction e1 as [|[] e1 IH]; intros b e2; cbn [app rate_after]; auto. destruct r; apply IH. Qed.

Definition rate_followed (s s' : bus) : Prop :=
  exists evs, calls s s' evs /\ b_baud s' = rate_after (b_baud s) evs.

Definition tracks {A} (m : M A) : Prop := forall s o s', inv s -> m s = (o, s') -> inv s' /\ rate_followed s s'.

Lemma rate_followed_refl : forall s, rate_followed s s.
Proof. intro s. exists []. split; [apply calls_refl|reflexivity]. Qed.

Lemma rate_followed_trans : forall a b c, rate_followed a b -> rate_followed b c -> rate_followed a c.
Proof.
  intros a b c [e1 [C1 R1]] [e2 [C2 R2]]. exists (e1 ++ e2). split; [apply (calls_trans _ _ _ _ _ C1 C2)|].
  rewrite rate_after_app, <- R1. exact R2.
Qed.

Lemma tracks_lift : forall A (x : out A), tracks (lift x).
Proof. intros A x s o s' H E. injection E as <- <-. split; [exact H|apply rate_followed_refl]. Qed.
Lemma tracks_ret : forall A (a : A), tracks (ret a).
Proof. intros A a. apply tracks_lift. Qed.
Lemma tracks_get : tracks get.
Proof. intros s o s' H E. injection E as <- <-. split; [exact H|apply rate_followed_refl]. Qed.

Lemma tracks_bind : forall A B (m : M A) (k : A -> M B), tracks m -> (forall a, tracks (k a)) -> tracks (bind m k).
Proof.
  intros A B m k Hm Hk s o s' H E. unfold bind in E. destruct (m s) as [[a|p|] s1] eqn:E1;
    destruct (Hm _ _ _ H E1) as [I1 R1].
  - destruct (Hk a _ _ _ I1 E) as [I2 R2]. split; [exact I2|apply (rate_followed_trans _ _ _ R1 R2)].
  - injection E as <- <-. auto.
  - injection E as <- <-. auto.
Qed.
Lemma tracks_try : forall A B E F (f : E -> F) (m : M (result A E)) (k : A -> M (result B F)),
  tracks m -> (forall a, tracks (k a)) -> tracks (try_ f m k).
Proof. intros A B E F f m k Hm Hk. apply tracks_bind; [exact Hm|]. intros [a|e]; [apply Hk|apply tracks_ret]. Qed.
Lemma tracks_tryr : forall A B E F (f : E -> F) (r : result A E) (k : A -> M (result B F)),
  (forall a, tracks (k a)) -> tracks (tryr f r k).
Proof. intros A B E F f [a|e] k Hk; [apply Hk|apply tracks_ret]. Qed.

Lemma tracks_deadline : forall d, tracks (port_make_deadline d).
Proof.
  intros d s o s' H E. pose proof (keeps_make_deadline d s o s' H E) as K. split; [apply K|].
  injection E as <- <-. eexists [_]. split; reflexivity.
Qed.

Lemma tracks_set_baud : forall b, tracks (set_baud_rate b).
Proof.
  intros b s o s' H E. pose proof (keeps_set_baud b s o s' H E) as K. split; [apply K|].
  destruct (L_C48_set_baud_rate s b) as [s2 [E2 [C [B _]]]]. unfold client_set_baud_rate in E2.
  rewrite E2 in E. injection E as <- <-. eexists. split; [exact C|]. cbn [rate_after].
  rewrite B. destruct (hd None (p_setbauds (b_port s))); reflexivity.
Qed.

Lemma tracks_write_packet : forall id i n enc, encoder_ok enc -> tracks (write_packet id i n enc).
Proof.
  intros id i n enc He s o s' H E. pose proof (keeps_write_packet id i n enc He s o s' H E) as K.
  split; [apply K|]. clear K. rewrite write_packet_gen in E by (try apply H; exact He).
  unfold write_gen in E. cbv zeta in E.
  destruct (usize_max <? N.of_nat (n + 10))%N; [injection E as <- <-; apply rate_followed_refl|].
  destruct (length (b_wbuf s) <? n + 10) eqn:L; [injection E as <- <-; apply rate_followed_refl|].
  destruct (enc (firstn n (skipn 8 (b_wbuf s)))) as [[params [[]|e]]|p|] eqn:EN;
    try (injection E as <- <-; exists []; split; [apply calls_set_wbuf|reflexivity]; fail);
    try (injection E as <- <-; apply rate_followed_refl).
  unfold write_value in E. cbv zeta in E.
  destruct (length (b_wbuf s) <? length params + 10); [injection E as <- <-; apply rate_followed_refl|].
  destruct (build_result (b_dbg s) (length (b_wbuf s)) (i :: params)).
  - unfold transmit in E. destruct (hd None _); injection E as <- <-; eexists; (split; [reflexivity|reflexivity]).
  - injection E as <- <-. exists []. split; [apply calls_set_wbuf|reflexivity].
  - injection E as <- <-. apply rate_followed_refl.
Qed.

Lemma tracks_write_status : forall id e n enc, encoder_ok enc -> tracks (write_status id e n enc).
Proof.
  intros id e n enc He. unfold write_status. destruct (usize_max <? _)%N; [apply tracks_lift|].
  apply tracks_bind; [apply tracks_get|]. intro s. apply tracks_tryr. intros _. apply tracks_write_packet.
  apply (status_encoder_ok e enc He).
Qed.

Lemma reads_keep_rate : forall d evs b, Forall (read_call d) evs -> rate_after b evs = b.
Proof.
  intros d evs b F. induction F as [|e evs H _ IH]; [reflexivity|]. destruct e; cbn [read_call] in H; try contradiction;
    exact IH.
Qed.

Lemma tracks_read_packet : forall d, tracks (read_packet_deadline d).
Proof.
  intros d s o s' H E. pose proof (keeps_read_packet d s o s' H E) as K. split; [apply K|]. clear K.
  destruct H as [H1 H2]. destruct (Nat.le_gt_cases 10 (length (b_rbuf s))) as [L|L].
  - destruct (read_packet_spec d s o s' H1 L E) as [dat [sc' [_ _ F _ _]]].
    destruct F as [F1 _ _ _ _ _ _ _ [evs [F9 F10]]]. exists evs. split; [exact F9|].
    rewrite (reads_keep_rate d evs _ F10). exact F1.
  - rewrite read_packet_small in E by exact L. injection E as <- <-. apply rate_followed_refl.
Qed.

Ltac tracks_step :=
  lazymatch goal with
  | |- forall _, _ => intro
  | |- tracks (ret _) => apply tracks_ret
  | |- tracks (lift _) => apply tracks_lift
  | |- tracks get => apply tracks_get
  | |- tracks (port_make_deadline _) => apply tracks_deadline
  | |- tracks (read_packet_deadline _) => apply tracks_read_packet
  | |- tracks (try_ _ _ _) => apply tracks_try
  | |- tracks (tryr _ _ _) => apply tracks_tryr
  | |- tracks (bind _ _) => apply tracks_bind
  | |- tracks (match ?x with _ => _ end) => destruct x
  end.
Ltac tracks_all := repeat tracks_step.

Lemma tracks_wi : forall id i n enc, encoder_ok enc -> tracks (write_instruction id i n enc).
Proof. intros. apply tracks_write_packet. assumption. Qed.
Lemma tracks_rsrt : forall t, tracks (read_status_response_timeout t).
Proof. intro. unfold read_status_response_timeout. tracks_all. Qed.
Lemma tracks_rsr : forall n, tracks (read_status_response n).
Proof. intro. unfold read_status_response. tracks_all. apply tracks_rsrt. Qed.
Lemma tracks_device_loop : forall n d, tracks (device_loop n d).
Proof. induction n as [|n IH]; intro d; cbn [device_loop]; tracks_all. apply IH. Qed.
Lemma tracks_rrit : forall t, tracks (read_raw_instruction_timeout t).
Proof. intro. unfold read_raw_instruction_timeout. tracks_all. apply tracks_device_loop. Qed.
Lemma tracks_scan_next : tracks scan_next.
Proof. unfold scan_next, scan_next_response. tracks_all. apply tracks_rsrt. Qed.
Lemma tracks_scan_drop : forall n, tracks (scan_drop n).
Proof. induction n as [|n IH]; cbn [scan_drop]; tracks_all; [apply tracks_scan_next|exact IH]. Qed.
Lemma tracks_instruct : forall id i n enc, encoder_ok enc -> tracks (instruct id i n enc).
Proof.
  intros. unfold instruct, read_response_if_not_broadcast. tracks_all; try (apply tracks_wi; assumption); apply tracks_rsr.
Qed.
Lemma tracks_transfer : forall id i n e enc, encoder_ok enc -> tracks (transfer_single id i n e enc).
Proof. intros. unfold transfer_single. tracks_all; try (apply tracks_wi; assumption). apply tracks_rsr. Qed.
Lemma tracks_read_raw : forall id a n, tracks (read_raw id a n).
Proof. intros. unfold read_raw. tracks_all. apply tracks_transfer; auto with enc. Qed.
Lemma tracks_expect_response : forall id n, tracks (expect_response id n).
Proof. intros. unfold expect_response. tracks_all. apply tracks_rsr. Qed.
Lemma tracks_expect_value : forall A (D : data_impl A) id, tracks (expect_value D id).
Proof. intros. unfold expect_value. tracks_all. apply tracks_rsr. Qed.
Lemma tracks_srb_drop_loop : forall n it, tracks (srb_drop_loop n it).
Proof. induction n as [|n IH]; intro it; cbn [srb_drop_loop]; tracks_all; try apply tracks_rsr; apply IH. Qed.
Lemma tracks_sr_next : forall A (D : data_impl A) it, tracks (sr_next D it).
Proof. intros. unfold sr_next. tracks_all. apply tracks_expect_value. Qed.
Lemma tracks_sr_drop_loop : forall A (D : data_impl A) n it, tracks (sr_drop_loop D n it).
Proof. induction n as [|n IH]; intro it; cbn [sr_drop_loop]; tracks_all; [apply tracks_sr_next|apply IH]. Qed.
Lemma tracks_br_drop_loop : forall l, tracks (br_drop_loop l).
Proof. induction l as [|x l IH]; cbn [br_drop_loop]; tracks_all; try apply tracks_rsr; exact IH. Qed.

Lemma api_tracks : forall A (m : M A), api m -> tracks m.
Proof.
  intros A m H. destruct H.
  - apply tracks_set_baud.
  - apply tracks_transfer; assumption.
  - apply tracks_wi; assumption.
  - apply tracks_rsrt.
  - apply tracks_rsr.
  - unfold device_read. tracks_all. apply tracks_rrit.
  - unfold device_read_owned. tracks_all. apply tracks_rrit.
  - apply tracks_rrit.
  - apply tracks_write_status; assumption.
  - apply tracks_write_status; auto with enc.
  - apply tracks_write_status; auto with enc.
  - unfold ping. tracks_all. apply tracks_transfer; auto with enc.
  - apply tracks_wi; auto with enc.
  - apply tracks_scan_next.
  - apply tracks_scan_drop.
  - unfold read_bytes. tracks_all. apply tracks_read_raw.
  - unfold read. tracks_all. apply tracks_read_raw.
  - apply tracks_instruct; auto with enc.
  - apply tracks_instruct; auto with enc.
  - apply tracks_instruct; auto with enc.
  - apply tracks_instruct; auto with enc.
  - apply tracks_instruct; auto with enc.
  - apply tracks_wi; auto with enc.
  - apply tracks_instruct; auto with enc.
  - apply tracks_wi; auto with enc.
  - apply tracks_instruct; auto with enc.
  - apply tracks_wi; auto with enc.
  - apply tracks_instruct; auto with enc.
  - apply tracks_wi; auto with enc.
  - apply tracks_instruct; auto with enc.
  - apply tracks_wi; auto with enc.
  - apply tracks_wi; auto with enc.
  - apply tracks_wi; auto with enc.
  - unfold bulk_write. tracks_all. apply tracks_wi; auto with enc.
  - unfold sync_read_bytes, write_sync_read. tracks_all. apply tracks_wi; auto with enc.
  - unfold srb_next. tracks_all. apply tracks_expect_response.
  - apply tracks_srb_drop_loop.
  - unfold sync_read, write_sync_read. tracks_all. apply tracks_wi; auto with enc.
  - apply tracks_sr_next.
  - apply tracks_sr_drop_loop.
  - unfold bulk_read_bytes, write_bulk_read_instruction. tracks_all. apply tracks_wi; auto with enc.
  - unfold br_next. tracks_all. apply tracks_expect_response.
  - unfold br_drop. tracks_all. apply tracks_br_drop_loop.
Qed.

Local Open Scope N_scope.

(** ** C48 *)

Lemma L_C48_rate_follows_port : forall A (m : M A) s o s', reach s -> api m -> m s = (o, s') ->
  exists evs, calls s s' evs /\ b_baud s' = rate_after (b_baud s) evs.
Proof. intros A m s o s' R H E. apply (api_tracks A m H s o s' (reach_inv _ R) E). Qed.

Lemma later_reach : forall s evs s', later s evs s' -> reach s -> reach s'.
Proof. intros s evs s' H R. induction H as [s|A m s evs s1 a s2 evs2 H IH Hm E C]; [exact R|]. apply (reach_call A m s1 a s2 (IH R) Hm E). Qed.

(** From the start to any later moment: the rate given at the start or the last one
    the port accepted since. *)
Lemma L_C48_rate_is_last_accepted : forall dbg p rb wb baud s evs s',
  with_buffers_and_baud_rate dbg p rb wb baud = Val s -> later s evs s' -> b_baud s' = rate_after baud evs.
Proof.
  intros dbg p rb wb baud s evs s' E H. pose proof (reach_new _ _ _ _ _ _ E) as R.
  assert (B : b_baud s = baud).
  { unfold with_buffers_and_baud_rate in E. destruct (_ <=? _)%nat; [|discriminate].
    destruct (copy_into _ _ _ _); try discriminate. injection E as <-. reflexivity. }
  clear E. subst baud. induction H as [s|A m s evs s1 a s2 evs' H IH Hm E C]; [reflexivity|].
  destruct (L_C48_rate_follows_port A m s1 _ s2 (later_reach _ _ _ H R) Hm E) as [e [C' K]].
  rewrite (calls_inj _ _ _ _ C C'), rate_after_app, <- (IH R). exact K.
Qed.

(** The timeout for a response is computed from that rate. *)
Lemma L_C48_later_timeouts : forall dbg p rb wb baud s evs s1 n o s2,
  with_buffers_and_baud_rate dbg p rb wb baud = Val s -> later s evs s1 ->
  n < 2 ^ 16 -> rate_after baud evs <> 0 -> rate_after baud evs < 2 ^ 32 ->
  read_status_response n s1 = (o, s2) ->
  exists t x, waits_at_most s1 s2 t /\ valid_duration t /\ nanoseconds t = x + 34000000 /\
    shortest_time (11 + n) (rate_after baud evs) x.
Proof.
  intros dbg p rb wb baud s evs s1 n o s2 E H Hn H0 H1 E2.
  rewrite <- (L_C48_rate_is_last_accepted _ _ _ _ _ _ _ _ E H) in *.
  pose proof (later_reach _ _ _ H (reach_new _ _ _ _ _ _ E)) as R.
  destruct (response_timeout_exact (b_dbg s1) (b_baud s1) n Hn H0 H1) as [t [x [Et [V [Nx [En M]]]]]].
  pose proof (L_C41_status_response s1 n o s2 R E2) as K. rewrite Et in K.
  exists t, x. split; [exact K|]. split; [exact V|]. split; [exact Nx|]. split; assumption.
Qed.

(** ** C40 *)

Lemma L_C40_exact : forall s n o s', reach s -> n < 2 ^ 16 -> b_baud s <> 0 -> b_baud s < 2 ^ 32 ->
  read_status_response n s = (o, s') ->
  exists t x, waits_at_most s s' t /\ valid_duration t /\ nanoseconds t = x + 34000000 /\
    shortest_time (11 + n) (b_baud s) x.
Proof.
  intros s n o s' R Hn H0 H1 E.
  destruct (response_timeout_exact (b_dbg s) (b_baud s) n Hn H0 H1) as [t [x [Et [V [Nx [En M]]]]]].
  pose proof (L_C41_status_response s n o s' R E) as K. rewrite Et in K.
  exists t, x. split; [exact K|]. split; [exact V|]. split; [exact Nx|]. split; assumption.
Qed.

Lemma scan_timeout_exact : forall dbg baud, baud <> 0 -> baud < 2 ^ 32 ->
  exists t x, scan_timeout dbg baud = Val t /\ valid_duration t /\ nanoseconds t = 253 * x + 34000000 /\
    shortest_time 14 baud x.
Proof.
  intros dbg baud Hb Hb2. unfold scan_timeout.
  destruct (L_C39_transfer_time dbg 14 baud ltac:(lia) Hb Hb2) as [u [E [V [En M]]]]. rewrite E. cbn [obind].
  assert (U : nanoseconds u <= 140000000000).
  { apply M. unfold enough_time. nia. }
  destruct (dur_mul_spec u 253 V) as [v [E2 [V2 N2]]].
  { change (2 ^ 64) with 18446744073709551616. lia. }
  rewrite E2. cbn [obind].
  destruct (dur_add_spec v dur_34ms V2) as [t [E3 [V3 N3]]].
  { split; reflexivity. }
  { change (nanoseconds dur_34ms) with 34000000. change (2 ^ 64) with 18446744073709551616. lia. }
  change (nanoseconds dur_34ms) with 34000000 in N3.
  exists t, (nanoseconds u). split; [exact E3|]. split; [exact V3|]. split; [lia|]. split; assumption.
Qed.

Lemma L_C40_scan_exact : forall s o s', reach s -> b_baud s <> 0 -> b_baud s < 2 ^ 32 ->
  scan_next s = (o, s') ->
  exists t x, waits_at_most s s' t /\ valid_duration t /\ nanoseconds t = 253 * x + 34000000 /\
    shortest_time 14 (b_baud s) x.
Proof.
  intros s o s' R Hb Hb2 E. destruct (scan_timeout_exact (b_dbg s) (b_baud s) Hb Hb2) as [t [x [T K]]].
  destruct (scan_next_spec s _ s' R E) as [[y [Ey [K2 _]]]|[t' [o1 [T' [_ [_ [Ti _]]]]]]].
  { exfalso. apply (K2 t). congruence. }
  rewrite T in T'. injection T' as <-. destruct (timed_calls _ _ _ Ti) as [evs [C F]].
  exists t, x. split; [|exact K]. exists (deadline_of t s), evs. split; [reflexivity|]. split; assumption.
Qed.

(** ** C52 *)

(** Dropping a scan waits for another response, also when the scan is finished. *)
Lemma L_C52_drop_waits_again : forall s n o s', reach s -> b_baud s <> 0 -> b_baud s < 2 ^ 32 ->
  scan_drop (S n) s = (o, s') ->
  exists d x evs, calls s s' (LDeadline d :: evs) /\ nanoseconds (dl_timeout d) = 253 * x + 34000000 /\
    shortest_time 14 (b_baud s) x.
Proof.
  intros s n o s' R Hb Hb2 E. cbn [scan_drop] in E. unfold bind in E.
  destruct (scan_next s) as [o1 s1] eqn:E1.
  destruct (L_C40_scan_exact s o1 s1 R Hb Hb2 E1) as [t [x [[d [evs [D [C _]]]] [_ [Nt Sh]]]]]. subst t.
  assert (K : exists evs', calls s1 s' evs').
  { destruct o1 as [[r|]|p|].
    - destruct (tracks_scan_drop n s1 o s') as [_ [e [C2 _]]].
      + pose proof (tracks_scan_next s _ s1 (reach_inv _ R) E1) as [I _]. exact I.
      + exact E.
      + exists e. exact C2.
    - injection E as <- <-. exists []. apply calls_refl.
    - injection E as <- <-. exists []. apply calls_refl.
    - injection E as <- <-. exists []. apply calls_refl. }
  destruct K as [evs' C2]. exists d, x, (evs ++ evs').
  split; [apply (calls_trans _ _ _ _ _ C C2)|]. split; assumption.
Qed.

Lemma L_C52_finished_scan_refuted : ~ (forall s s1 n o s2, reach s -> scan_next s = (Val None, s1) ->
  scan_drop n s1 = (o, s2) -> o = Val true -> calls s1 s2 []).
Proof.
  intro H. set (s := fresh true [RdErr (IoTimeout 1); RdErr (IoTimeout 1)] 32 32).
  pose proof (fresh_reach true [RdErr (IoTimeout 1); RdErr (IoTimeout 1)] 32 32 ltac:(lia)) as R.
  pose proof (H s _ 1%nat _ _ R eq_refl (surjective_pairing _) eq_refl) as C.
  unfold calls in C. vm_compute in C. discriminate C.
Qed.
