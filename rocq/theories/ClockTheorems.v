(** * ClockTheorems: how long calls take, C57 *)
From Coq Require Import ZArith ZifyN ZifyNat ZifyBool.
From Verif Require Import Base Endian Error Checksum Bytestuff Packet Time Bus Data Client
  Instructions Device Api Spec CallSpec StreamSpec InstructionSpec TimeSpec TwinSpec Serial2 ClockSpec Lib
  WriteProofs SendProofs StatusProofs ApiProofs SendTheorems InstructionProofs TwinProofs TimeTheorems BaudTheorems ClockProofs.
Local Open Scope N_scope.

Lemma read_ends : forall pc os due t1 a t2, punctual pc os -> serial2_read os due t1 a t2 ->
  t1 <= t2 /\ (t2 <= due + pc_slack pc \/ t2 = t1) /\
  match a with Ok _ => t1 + pc_read pc <= t2 /\ t2 <= due + pc_slack pc | Err _ => True end.
Proof.
  intros pc os due t1 a t2 P H. destruct H as [kind C|timeout e C|timeout a t2 C O].
  - split; [lia|]. auto.
  - split; [lia|]. auto.
  - destruct (P _ _ _ _ O) as [[L1 L2] L3]. unfold checked_duration_since in C.
    destruct (t1 <=? due) eqn:E; [|discriminate]. injection C as <-. split; [exact L1|]. split; [lia|].
    destruct a; [|exact I]. lia.
Qed.

Fixpoint count_reads (evs : list io_event) : N := match evs with [] => 0 | _ :: l => 1 + count_reads l end.

Lemma listen_oks : forall pc os due d, punctual pc os -> forall oks evs t t', Forall (ok_read d) oks ->
  clocked pc os due t (oks ++ evs) t' -> t <= due (dl_seq d) + pc_slack pc ->
  exists t2, t + pc_read pc * count_reads oks <= t2 /\ t2 <= due (dl_seq d) + pc_slack pc /\ clocked pc os due t2 evs t'.
Proof.
  intros pc os due d P oks evs t t' F. revert t.
  induction F as [|e oks [cap [bs ->]] F IH]; intros t C L; cbn [app count_reads] in *.
  - exists t. split; [lia|]. split; [exact L|exact C].
  - inversion C as [| | | | |? t1 t2 ? ? ? ? ? Ht R C2|]; subst.
    destruct (read_ends _ _ _ _ _ _ P R) as [_ [_ [R1 R2]]].
    destruct (IH _ C2 R2) as [t3 [K1 [K2 K3]]]. exists t3. split; [lia|]. split; assumption.
Qed.

Lemma listen_last : forall pc os due d, punctual pc os -> forall last evs t t', last_read d last ->
  clocked pc os due t (last ++ evs) t' -> t <= due (dl_seq d) + pc_slack pc ->
  exists t2, t <= t2 <= due (dl_seq d) + pc_slack pc + pc_compute pc /\ clocked pc os due t2 evs t'.
Proof.
  intros pc os due d P last evs t t' [|cap e|cap] C L; cbn [app] in C.
  - exists t. split; [lia|exact C].
  - inversion C as [| | | | |? t1 t2 ? ? ? ? ? Ht R C2|]; subst.
    destruct (read_ends _ _ _ _ _ _ P R) as [R1 [R2 _]]. exists t2. split; [lia|exact C2].
  - inversion C as [| | | | | |? t1 t2 ? ? ? ? Ht R Hw]; subst.
    destruct (read_ends _ _ _ _ _ _ P R) as [R1 [R2 _]]. exists t'. split; [lia|constructor].
Qed.

Lemma cost_app : forall pc a b, cost pc (a ++ b) = cost pc a + cost pc b.
Proof. induction a as [|[] a IH]; intro b; cbn [app cost]; rewrite ?IH; lia. Qed.
Lemma reading_time_app : forall pc a b, reading_time pc (a ++ b) = reading_time pc a + reading_time pc b.
Proof. induction a as [|[] a IH]; intro b; cbn [app reading_time]; rewrite ?IH; lia. Qed.
Lemma successful_app : forall a b, successful_reads (a ++ b) = successful_reads a + successful_reads b.
Proof. induction a as [|[| | |? ? []| |] a IH]; intro b; cbn [app successful_reads]; rewrite ?IH; lia. Qed.

Lemma oks_free : forall pc d oks, Forall (ok_read d) oks ->
  cost pc oks = 0 /\ reading_time pc oks = 0 /\ successful_reads oks = count_reads oks.
Proof.
  intros pc d oks F. induction F as [|e oks [cap [bs ->]] F [I1 [I2 I3]]]; [auto|].
  cbn [cost reading_time successful_reads count_reads]. rewrite I1, I2, I3. auto.
Qed.

Lemma last_free : forall pc d last, last_read d last ->
  cost pc last = 0 /\ reading_time pc last = 0 /\ successful_reads last = 0.
Proof. intros pc d last []; auto. Qed.

Lemma orderly_time : forall pc os due, punctual pc os -> forall evs, orderly evs -> forall t t',
  clocked pc os due t evs t' -> t' <= t + cost pc evs /\ t <= t' /\ pc_read pc * successful_reads evs <= reading_time pc evs.
Proof.
  intros pc os due P evs O. induction O as [|r evs O IH|w r evs O IH|b r evs O IH|d oks last evs F L O IH]; intros t t' C.
  - inversion C; subst. cbn. lia.
  - inversion C; subst. destruct (IH _ _ H5) as [I1 [I2 I3]]. cbn [cost reading_time successful_reads]. lia.
  - inversion C; subst. destruct (IH _ _ H6) as [I1 [I2 I3]]. cbn [cost reading_time successful_reads]. lia.
  - inversion C; subst. destruct (IH _ _ H6) as [I1 [I2 I3]]. cbn [cost reading_time successful_reads]. lia.
  - inversion C as [| | | |? t1 ? ? ? Ht Hd C1| |]; subst. unfold serial2_deadline in Hd. fold (nanoseconds (dl_timeout d)) in Hd.
    destruct (listen_oks pc os due d P oks (last ++ evs) t1 t' F C1) as [t2 [A1 [A2 A3]]]; [lia|].
    destruct (listen_last pc os due d P last evs t2 t' L A3 A2) as [t3 [B1 B2]].
    destruct (IH _ _ B2) as [I1 [I2 I3]]. cbn [cost reading_time successful_reads].
    rewrite !cost_app, !reading_time_app, !successful_app.
    destruct (oks_free pc d oks F) as [-> [-> ->]]. destruct (last_free pc d last L) as [-> [-> ->]].
    rewrite N.mul_add_distr_l. lia.
Qed.

Lemma L_C57_call_duration : forall pc os due A (m : M A) s o s' evs t t',
  punctual pc os -> reach s -> api m -> m s = (o, s') -> calls s s' evs -> clocked pc os due t evs t' ->
  t' <= t + cost pc evs.
Proof.
  intros pc os due A m s o s' evs t t' P R Hm E C K.
  destruct (api_orders A m Hm s o s' (reach_inv _ R) E) as [_ [evs' [C' O]]].
  rewrite (calls_inj _ _ _ _ C C') in *. apply (orderly_time pc os due P evs' O t t' K).
Qed.

Lemma L_C57_reads_are_bounded : forall pc os due A (m : M A) s o s' evs t t',
  punctual pc os -> reach s -> api m -> m s = (o, s') -> calls s s' evs -> clocked pc os due t evs t' ->
  pc_read pc * successful_reads evs <= reading_time pc evs.
Proof.
  intros pc os due A m s o s' evs t t' P R Hm E C K.
  destruct (api_orders A m Hm s o s' (reach_inv _ R) E) as [_ [evs' [C' O]]].
  rewrite (calls_inj _ _ _ _ C C') in *. apply (orderly_time pc os due P evs' O t t' K).
Qed.

Lemma reads_with_cost : forall pc d evs, Forall (reads_with d) evs -> cost pc evs = 0 /\ reading_time pc evs = 0.
Proof.
  intros pc d evs F. induction F as [|e evs H F [I1 I2]]; [auto|]. destruct e; cbn [reads_with] in H; try contradiction;
    cbn [cost reading_time]; auto.
Qed.

Lemma L_C57_status_response : forall pc os due s n o s' evs t t',
  punctual pc os -> reach s -> n < 2 ^ 16 -> b_baud s <> 0 -> b_baud s < 2 ^ 32 ->
  read_status_response n s = (o, s') -> calls s s' evs -> clocked pc os due t evs t' ->
  exists x, shortest_time (11 + n) (b_baud s) x /\
    t' <= t + (x + 34000000) + pc_slack pc + 2 * pc_compute pc /\
    pc_read pc * successful_reads evs <= x + 34000000 + pc_slack pc.
Proof.
  intros pc os due s n o s' evs t t' P R Hn H0 H1 E C K.
  destruct (L_C40_exact s n o s' R Hn H0 H1 E) as [tm [x [[d [evs' [D [C' F]]]] [_ [Nx Sh]]]]].
  exists x. split; [exact Sh|].
  pose proof (L_C57_call_duration pc os due _ _ s o s' evs t t' P R (api_read_status_response n) E C K) as T.
  pose proof (L_C57_reads_are_bounded pc os due _ _ s o s' evs t t' P R (api_read_status_response n) E C K) as U.
  rewrite (calls_inj _ _ _ _ C C') in *. cbn [cost reading_time] in T, U.
  destruct (reads_with_cost pc d evs' F) as [Z1 Z2]. rewrite Z1 in T. rewrite Z2 in U.
  subst tm. rewrite Nx in T, U. cbn [successful_reads] in *. lia.
Qed.

(** ** Calls to one motor *)

Definition sends_only (e : io_event) : Prop := match e with LDiscard _ | LWrite _ _ => True | _ => False end.

Definition brief {A} (n : N) (m : M A) : Prop := forall s o s', reach s -> m s = (o, s') ->
  exists ws rest, calls s s' (ws ++ rest) /\ (length ws <= 2)%nat /\ Forall sends_only ws /\
    (rest = [] \/ exists s1 o1 s2, reach s1 /\ b_baud s1 = b_baud s /\ read_status_response n s1 = (o1, s2) /\ calls s1 s2 rest).

Lemma brief_bind : forall A B n (m : M A) (k : A -> M B), brief n m -> (forall a, silent (k a)) -> brief n (bind m k).
Proof.
  intros A B n m k Hm Hk s o s' R E. unfold bind in E. destruct (m s) as [x s1] eqn:E1.
  destruct (Hm _ _ _ R E1) as [ws [rest [C K]]].
  assert (P : b_port s' = b_port s1).
  { destruct x as [a|p|]; [apply (Hk _ _ _ _ E)|injection E as <- <-; reflexivity..]. }
  exists ws, rest. split; [|exact K]. unfold calls in *. rewrite P. exact C.
Qed.

Lemma brief_try : forall A B E F n (f : E -> F) (m : M (result A E)) (k : A -> M (result B F)),
  brief n m -> (forall a, silent (k a)) -> brief n (try_ f m k).
Proof. intros A B E F n f m k Hm Hk. apply brief_bind; [exact Hm|]. intros [a|e]; [apply Hk|apply silent_ret]. Qed.

Lemma write_log : forall id i n enc, encoder_ok enc -> forall s o s', write_instruction id i n enc s = (o, s') -> inv s ->
  exists ws, calls s s' ws /\ (length ws <= 2)%nat /\ Forall sends_only ws /\ b_baud s' = b_baud s.
Proof.
  intros id i n enc He s o s' E H. unfold write_instruction, write_packet, bind, get, lift, put in E.
  destruct (build_packet _ _ _ _ _ _) as [[b r]|p|]; [|injection E as <- <-; exists []; split; [apply calls_refl|repeat constructor]..].
  unfold tryr in E. destruct r as [ci|e]; [|injection E as <- <-; exists []; split; [apply calls_set_wbuf|repeat constructor]].
  unfold try_, bind, port_discard in E. cbn [b_port set_used set_rlen set_wbuf] in E.
  destruct (match p_discards (b_port s) with [] => None | r :: _ => r end) as [e|].
  { injection E as <- <-. eexists. split; [reflexivity|]. repeat constructor. }
  destruct (slice_to b (ci + 2)) as [w|p|].
  2,3: injection E as <- <-; eexists; split; [reflexivity|]; repeat constructor.
  unfold port_write_all in E. cbn [b_port set_port log_event p_writes] in E.
  destruct (match p_writes (b_port s) with [] => None | r :: _ => r end) as [e|]; injection E as <- <-;
    (eexists [_; _]; split; [unfold calls; cbn; rewrite <- app_assoc; reflexivity|repeat constructor]).
Qed.

Lemma brief_transfer : forall id i n k enc, encoder_ok enc -> brief k (transfer_single id i n k enc).
Proof.
  intros id i n k enc He s o s' R E. unfold transfer_single, try_ at 1, bind at 1 in E.
  destruct (write_instruction id i n enc s) as [x s1] eqn:W.
  destruct (write_log _ _ _ _ He _ _ _ W (reach_inv _ R)) as [ws [C [L [F B]]]].
  destruct x as [[u|e]|p|].
  - assert (R1 : reach s1) by (eapply reach_call; [exact R|apply (api_write_instruction id i n enc He)|exact W]).
    unfold try_, bind at 1 in E. destruct (read_status_response k s1) as [y s2] eqn:Rd.
    assert (P : b_port s' = b_port s2).
    { destruct y as [[p|e]|p|]; try (injection E as <- <-; reflexivity).
      eapply (silent_bind _ _ (lift (pk_id p))); [apply silent_lift| |exact E].
      intro rid. unfold tryr. destruct (packet_id_check rid id); apply silent_ret. }
    destruct (api_orders _ _ (api_read_status_response k) s1 y s2 (reach_inv _ R1) Rd) as [_ [evs [C2 _]]].
    exists ws, evs. split; [|split; [exact L|split; [exact F|]]].
    + unfold calls in *. rewrite P, C2, C, app_assoc. reflexivity.
    + right. exists s1, y, s2. auto.
  - injection E as <- <-. exists ws, []. rewrite app_nil_r. auto.
  - injection E as <- <-. exists ws, []. rewrite app_nil_r. auto.
  - injection E as <- <-. exists ws, []. rewrite app_nil_r. auto.
Qed.

Lemma brief_instruct : forall id i n enc, encoder_ok enc -> brief 0 (instruct id i n enc).
Proof.
  intros id i n enc He s o s' R E. unfold instruct, try_ at 1, bind at 1 in E.
  destruct (write_instruction id i n enc s) as [x s1] eqn:W.
  destruct (write_log _ _ _ _ He _ _ _ W (reach_inv _ R)) as [ws [C [L [F B]]]].
  destruct x as [[u|e]|p|].
  - assert (R1 : reach s1) by (eapply reach_call; [exact R|apply (api_write_instruction id i n enc He)|exact W]).
    unfold read_response_if_not_broadcast in E. destruct (beq id BROADCAST).
    { injection E as <- <-. exists ws, []. rewrite app_nil_r. auto. }
    unfold try_, bind at 1 in E. unfold bind at 1 in E. destruct (read_status_response 0 s1) as [y s2] eqn:Rd.
    assert (P : b_port s' = b_port s2).
    { destruct y as [[p|e]|p|]; try (injection E as <- <-; reflexivity).
      unfold bind, lift in E. destruct (response_unit p) as [r|pp|]; [|injection E as <- <-; reflexivity..].
      unfold ret in E. destruct (map_err RInvalidMessage r); injection E as <- <-; reflexivity. }
    destruct (api_orders _ _ (api_read_status_response 0) s1 y s2 (reach_inv _ R1) Rd) as [_ [evs [C2 _]]].
    exists ws, evs. split; [|split; [exact L|split; [exact F|]]].
    + unfold calls in *. rewrite P, C2, C, app_assoc. reflexivity.
    + right. exists s1, y, s2. auto.
  - injection E as <- <-. exists ws, []. rewrite app_nil_r. auto.
  - injection E as <- <-. exists ws, []. rewrite app_nil_r. auto.
  - injection E as <- <-. exists ws, []. rewrite app_nil_r. auto.
Qed.

Lemma brief_read_raw : forall id a n, brief n (read_raw id a n).
Proof.
  intros id a n. unfold read_raw. apply brief_try; [apply brief_transfer; auto with enc|]. intro p.
  apply silent_bind; [apply silent_lift|]. intro ps. unfold tryr. destruct (param_count_check _ _); apply silent_ret.
Qed.

Lemma awaits_brief : forall A (m : M A) n, awaits m n -> brief n m /\ api m.
Proof.
  intros A m n H. destruct H as [id i n k enc He|id|id a n|A D id a|f id Hf].
  - split; [apply brief_transfer, He|apply api_transfer_single, He].
  - split; [|apply api_ping]. unfold ping. apply brief_try; [apply brief_transfer; auto with enc|]. intro p.
    apply silent_bind; [apply silent_lift|]. intro r. apply silent_ret.
  - split; [|apply api_read_bytes]. unfold read_bytes. apply brief_try; [apply brief_read_raw|]. intro p.
    apply silent_bind; [apply silent_lift|]. intro r. apply silent_ret.
  - split; [|apply api_read]. unfold read. apply brief_try; [apply brief_read_raw|]. intro p.
    apply silent_bind; [apply silent_lift|]. intro r. apply silent_ret.
  - destruct Hf.
    + split; [apply brief_instruct; auto with enc|apply api_write; assumption].
    + split; [apply brief_instruct; auto with enc|apply api_write_bytes].
    + split; [apply brief_instruct; auto with enc|apply api_reg_write; assumption].
    + split; [apply brief_instruct; auto with enc|apply api_reg_write_bytes].
    + split; [apply brief_instruct; auto with enc|apply api_action].
    + split; [apply brief_instruct; auto with enc|apply api_reboot].
    + split; [apply brief_instruct; auto with enc|apply api_factory_reset].
    + split; [apply brief_instruct; auto with enc|apply api_clear_revolution_counter].
    + split; [apply brief_instruct; auto with enc|apply api_clear_error].
Qed.

Lemma sends_cost : forall pc ws, Forall sends_only ws -> cost pc ws = N.of_nat (length ws) * (pc_compute pc + pc_call pc).
Proof.
  intros pc ws F. induction F as [|e ws H F IH]; [reflexivity|].
  destruct e; cbn [sends_only] in H; try contradiction; cbn [cost length]; rewrite IH; lia.
Qed.

Lemma L_C57_single_motor : forall pc os due A (m : M A) n s o s' evs t t',
  punctual pc os -> reach s -> awaits m n -> n < 2 ^ 16 -> b_baud s <> 0 -> b_baud s < 2 ^ 32 ->
  m s = (o, s') -> calls s s' evs -> clocked pc os due t evs t' ->
  exists x, shortest_time (11 + n) (b_baud s) x /\
    t' <= t + (x + 34000000) + pc_slack pc + 4 * pc_compute pc + 2 * pc_call pc.
Proof.
  intros pc os due A m n s o s' evs t t' P R Aw Hn H0 H1 E C K.
  destruct (awaits_brief _ _ _ Aw) as [Br Ap].
  pose proof (L_C57_call_duration pc os due _ _ s o s' evs t t' P R Ap E C K) as T.
  destruct (Br _ _ _ R E) as [ws [rest [C2 [L [F D]]]]].
  rewrite (calls_inj _ _ _ _ C C2) in *. rewrite cost_app, (sends_cost pc ws F) in T.
  assert (Hx : exists x, shortest_time (11 + n) (b_baud s) x /\ cost pc rest <= (x + 34000000) + pc_slack pc + 2 * pc_compute pc).
  { destruct D as [->|[s1 [o1 [s2 [R1 [B [Rd C3]]]]]]].
    - destruct (response_timeout_exact (b_dbg s) (b_baud s) n Hn H0 H1) as [tm [x [_ [_ [_ [En M]]]]]].
      exists x. split; [split; assumption|]. cbn. lia.
    - rewrite <- B in *. destruct (L_C40_exact s1 n o1 s2 R1 Hn H0 H1 Rd) as [tm [x [[d [evs' [Dd [C' Fr]]]] [_ [Nx Sh]]]]].
      exists x. split; [exact Sh|]. rewrite (calls_inj _ _ _ _ C3 C'). cbn [cost].
      rewrite (proj1 (reads_with_cost pc d evs' Fr)). subst tm. rewrite Nx. lia. }
  destruct Hx as [x [Sh Hx]]. exists x. split; [exact Sh|]. nia.
Qed.
