(** * RoomTheorems: larger buffers only help *)
From Coq Require Import ZArith ZifyN ZifyNat ZifyBool.
From Verif Require Import Base Endian Error Checksum Bytestuff Packet Time Bus Data Client
  Instructions Device Api Spec CallSpec StreamSpec DeviceSpec InstructionSpec Demo Lib ChecksumProofs
  StuffProofs WriteProofs ReadProofs ApiProofs StreamProofs SendProofs DemoProofs
  SendTheorems StatusProofs InstructionProofs TwinSpec TwinProofs RoomSpec.
Ltac Zify.zify_post_hook ::= Z.div_mod_to_equations.

Record wd (s t : bus) : Prop := mkWd { wd_room : roomier s t; wd_inv1 : inv s; wd_inv2 : inv t }.

Definition grows (ph : bool) {A} (bad : A -> bool) (m : M A) : Prop := forall s t a s', wd s t ->
  (ph = true -> incoming s = incoming t) -> m s = (Val a, s') -> bad a = false ->
  exists t' evs evs', m t = (Val a, t') /\ wd s' t' /\ calls s s' evs /\ calls t t' evs' /\
    other_calls evs = other_calls evs'.

Lemma grows_weaken : forall ph A (bad : A -> bool) m, grows false bad m -> grows ph bad m.
Proof. intros ph A bad m H s t a s' W _ E B. apply (H s t a s' W); [discriminate|exact E|exact B]. Qed.

Lemma grows_lift : forall ph A (bad : A -> bool) x, grows ph bad (lift x).
Proof.
  intros ph A bad x s t a s' W _ E B. injection E as -> <-. exists t, [], []. repeat (split; [first [reflexivity|exact W|apply calls_refl]|]).
  reflexivity.
Qed.
Lemma grows_ret : forall ph A (bad : A -> bool) x, grows ph bad (ret x).
Proof. intros. apply (grows_lift ph A bad (Val x)). Qed.

Lemma other_calls_app : forall a b, other_calls (a ++ b) = other_calls a ++ other_calls b.
Proof. intros. apply filter_app. Qed.

Lemma grows_bind : forall ph A B (b1 : A -> bool) (b2 : B -> bool) (m : M A) (k : A -> M B), grows ph b1 m ->
  (forall a, b1 a = false -> grows false b2 (k a)) ->
  (forall a s x s', b1 a = true -> k a s = (Val x, s') -> b2 x = true) -> grows ph b2 (bind m k).
Proof.
  intros ph A B b1 b2 m k Hm Hk Hb s t x s' W P E N. unfold bind in E.
  destruct (m s) as [[a|p|] s1] eqn:E1; [|discriminate|discriminate].
  destruct (b1 a) eqn:Ba; [rewrite (Hb _ _ _ _ Ba E) in N; discriminate|].
  destruct (Hm _ _ _ _ W P E1 Ba) as [t1 [e1 [e2 [T1 [W1 [C1 [C2 O1]]]]]]].
  destruct (Hk a Ba _ _ _ _ W1 ltac:(discriminate) E N) as [t2 [e3 [e4 [T2 [W2 [C3 [C4 O2]]]]]]].
  exists t2, (e1 ++ e3), (e2 ++ e4). unfold bind. rewrite T1. split; [exact T2|]. split; [exact W2|].
  split; [apply (calls_trans _ _ _ _ _ C1 C3)|]. split; [apply (calls_trans _ _ _ _ _ C2 C4)|].
  rewrite !other_calls_app. congruence.
Qed.

Definition never {A} (x : A) : bool := false.

Lemma grows_then : forall ph A B (b2 : B -> bool) (m : M A) (k : A -> M B), grows ph never m ->
  (forall a, grows false b2 (k a)) -> grows ph b2 (bind m k).
Proof. intros ph A B b2 m k Hm Hk. eapply grows_bind; [exact Hm|auto|discriminate]. Qed.

Lemma grows_try : forall ph A B E F (f : E -> F) c1 c2 (m : M (result A E)) (k : A -> M (result B F)),
  grows ph (fails c1) m -> (forall e, c1 e = true -> c2 (f e) = true) -> (forall a, grows false (fails c2) (k a)) ->
  grows ph (fails c2) (try_ f m k).
Proof.
  intros ph A B E F f c1 c2 m k Hm Hf Hk. eapply grows_bind; [exact Hm| |].
  - intros [a|e] _; [apply Hk|apply grows_ret].
  - intros [a|e] s x s' H X; [discriminate|]. injection X as <- _. cbn in *. auto.
Qed.

Lemma grows_tryr : forall ph A B E F (f : E -> F) (b2 : result B F -> bool) (r : result A E) (k : A -> M (result B F)),
  (forall a, grows ph b2 (k a)) -> grows ph b2 (tryr f r k).
Proof. intros ph A B E F f b2 [a|e] k H; [apply H|apply grows_ret]. Qed.

Lemma grows_deadline : forall ph d, grows ph never (port_make_deadline d).
Proof.
  intros ph d s t a s' [R I J] _ E _. unfold port_make_deadline in *. cbv zeta in *. injection E as <- <-.
  destruct R as [R1 R2 R3 R4 R5 R6 R7 R8 R9]. rewrite R9.
  eexists _, [_], [_]. split; [reflexivity|]. split; [constructor; [constructor; cbn; try assumption; try reflexivity|exact I|exact J]|].
  repeat (split; [reflexivity|]). reflexivity.
Qed.

Lemma grows_set_baud : forall ph b, grows ph (fails short_io) (set_baud_rate b).
Proof.
  intros ph b s t a s' [R I J] _ E _.
  destruct (set_baud_rate b t) as [o t'] eqn:E2.
  pose proof (keeps_set_baud b _ _ _ I E) as K1. pose proof (keeps_set_baud b _ _ _ J E2) as K2.
  unfold set_baud_rate, try_, bind, port_set_baud, get, put, ret in E, E2.
  destruct R as [R1 R2 R3 R4 R5 R6 R7 R8 R9]. rewrite <- R8 in E2.
  destruct (p_setbauds (b_port s)) as [|[e|] l] eqn:P; injection E as <- <-; injection E2 as <- <-;
    (eexists _, [_], [_]; split; [reflexivity|]; split;
      [constructor; [constructor; cbn; try assumption; try reflexivity; rewrite <- ?R8; reflexivity|apply K1|apply K2]|];
     repeat (split; [reflexivity|]); reflexivity).
Qed.

(** ** Writing *)

Lemma grows_value : forall id i params s t a s', wd s t -> incoming s = incoming t ->
  write_value s id i params = (Val a, s') -> fails short_w a = false ->
  exists t' evs evs', write_value t id i params = (Val a, t') /\ wd s' t' /\ calls s s' evs /\ calls t t' evs' /\
    other_calls evs = other_calls evs'.
Proof.
  intros id i params s t a s' [R I J] P E B. destruct R as [R1 R2 R3 R4 R5 R6 R7 R8 R9].
  destruct (write_value t id i params) as [o t'] eqn:E2.
  pose proof (write_value_evolves _ _ _ _ _ _ I E) as K1. pose proof (write_value_evolves _ _ _ _ _ _ J E2) as K2.
  unfold write_value in E, E2. cbv zeta in E, E2. rewrite <- R2 in E2.
  destruct (length (b_wbuf s) <? length params + 10) eqn:L1; [injection E as <- <-; discriminate B|].
  replace (length (b_wbuf t) <? length params + 10) with false in E2 by lia.
  destruct (build_result (b_dbg s) (length (b_wbuf s)) (i :: params)) as [|e|p] eqn:B1;
    [|injection E as <- <-; discriminate B|discriminate E].
  assert (B2 : build_result (b_dbg s) (length (b_wbuf t)) (i :: params) = BOk).
  { unfold build_result in B1 |- *. cbv zeta in B1 |- *.
    destruct (length (b_wbuf s) <? 7 + length (i :: params) + fcount 0 (i :: params)) eqn:X1; [discriminate|].
    destruct (b_dbg s && _) eqn:X2; [discriminate|].
    destruct (length (b_wbuf s) <? 9 + length (i :: params) + fcount 0 (i :: params)) eqn:X3; [discriminate|].
    replace (length (b_wbuf t) <? 7 + length (i :: params) + fcount 0 (i :: params)) with false by lia.
    replace (length (b_wbuf t) <? 9 + length (i :: params) + fcount 0 (i :: params)) with false by lia. reflexivity. }
  rewrite B2 in E2. unfold transmit in E, E2. cbn [set_used set_rlen set_wbuf b_port] in E, E2.
  rewrite <- R6, <- R7 in E2. unfold incoming in P. destruct K1 as [K11 K12 K13 _ _]. destruct K2 as [K21 K22 K23 _ _].
  destruct (hd None (p_discards (b_port s))) as [e|];
    injection E as <- <-; injection E2 as <- <-; do 3 eexists;
    (split; [reflexivity|]; split;
      [constructor; [|exact K11|exact K21]; constructor; try (cbn; congruence); try lia;
       unfold pending; cbn; exact P
      |split; [reflexivity|]; split; [reflexivity|reflexivity]]).
Qed.

Lemma grows_write_packet : forall id i n enc, encoder_ok enc -> ignores_old_bytes n enc ->
  grows true (fails short_w) (write_packet id i n enc).
Proof.
  intros id i n enc Ho Hi s t a s' W P E B. pose proof W as [R [Ir Iw] [Jr Jw]].
  rewrite write_packet_gen in E by assumption. rewrite (write_packet_gen t) by assumption.
  unfold write_gen in *. cbv zeta in *. pose proof (rm_wcap _ _ R) as LL.
  destruct (usize_max <? N.of_nat (n + 10))%N; [discriminate E|].
  destruct (length (b_wbuf s) <? n + 10) eqn:L; [injection E as <- <-; discriminate B|].
  replace (length (b_wbuf t) <? n + 10) with false by lia.
  specialize (Hi (firstn n (skipn 8 (b_wbuf s))) (firstn n (skipn 8 (b_wbuf t)))
    ltac:(rewrite firstn_length, skipn_length; lia) ltac:(rewrite firstn_length, skipn_length; lia)).
  destruct (enc (firstn n (skipn 8 (b_wbuf s)))) as [[p r]|p|] eqn:E1; [|discriminate E|discriminate E].
  destruct (enc (firstn n (skipn 8 (b_wbuf t)))) as [[p' r']|p'|] eqn:E2; try contradiction.
  destruct Hi as [<- Hp]. destruct r as [[]|e]; [|injection E as <- <-; discriminate B].
  rewrite <- (Hp eq_refl). apply (grows_value _ _ _ _ _ _ _ W (P eq_refl) E B).
Qed.

Lemma grows_write_status : forall id e n enc, encoder_ok enc -> ignores_old_bytes n enc ->
  grows true (fails short_w) (write_status id e n enc).
Proof.
  intros id e n enc Ho Hi s t a s' W P E B. unfold write_status in *.
  destruct (usize_max <? N.of_nat (st_message_len n))%N; [discriminate E|].
  unfold bind, get in *. pose proof (rm_wcap _ _ (wd_room _ _ W)) as LL. unfold bts_check in *.
  destruct (st_message_len n <=? length (b_wbuf s)) eqn:L; [|injection E as <- <-; discriminate B].
  replace (st_message_len n <=? length (b_wbuf t)) with true by lia. cbn [tryr] in *.
  apply (grows_write_packet id STATUS (n + 1) (status_encoder e enc) (status_encoder_ok e enc Ho)
    (ignores_status e n enc Ho Hi) s t a s' W P E B).
Qed.

(** ** Reading *)

Lemma ideal_grows : forall cap cap' p r p', cap <= cap' -> ideal cap p = (Val r, p') -> fails short_r r = false ->
  ideal cap' p = (Val r, p').
Proof.
  intros cap cap' p r p' L E B. unfold ideal in *.
  destruct (cap <? 10) eqn:C; [injection E as <- <-; discriminate B|]. replace (cap' <? 10) with false by lia.
  unfold next_event in *. cbv zeta in *. set (c := clean (upto p)) in *.
  unfold parse1 in *. destruct (7 <? length c); [|exact E]. cbv zeta in *.
  destruct (7 + body_len c <=? cap) eqn:C1.
  - replace (7 + body_len c <=? cap') with true by lia. exact E.
  - cbn [ev_out] in E. injection E as <- <-. discriminate B.
Qed.

Lemma read_calls_other : forall d evs, Forall (read_call d) evs -> other_calls evs = [].
Proof.
  intros d evs H. induction H as [|e l H _ IH]; [reflexivity|]. cbn [other_calls filter]. fold (other_calls l).
  destruct e; cbn in H; try contradiction; exact IH.
Qed.

Lemma grows_read_packet : forall ph d, grows ph (fails short_r) (read_packet_deadline d).
Proof.
  intros ph d s t a s' [R I J] _ E B. destruct (read_packet_deadline d t) as [o t'] eqn:E2.
  pose proof (read_ideal _ _ _ _ (proj1 I) E) as K1. pose proof (read_ideal _ _ _ _ (proj1 J) E2) as K2.
  destruct R as [R1 R2 R3 R4 R5 R6 R7 R8 R9]. symmetry in K1.
  rewrite <- R5, (ideal_grows _ _ _ _ _ R3 K1 B) in K2. injection K2 as -> K3.
  destruct (read_cap _ _ _ _ I E) as [I1 C1]. destruct (read_cap _ _ _ _ J E2) as [J1 C2].
  destruct (read_packet_frame _ _ _ _ I E) as [F1 F2 F3 F4 F5 F6 F7 F8 [evs [F9 F10]]].
  destruct (read_packet_frame _ _ _ _ J E2) as [G1 G2 G3 G4 G5 G6 G7 G8 [evs' [G9 G10]]].
  exists t', evs, evs'. split; [reflexivity|]. split.
  - constructor; [|exact I1|exact J1]. constructor; try congruence; rewrite ?F3, ?G3; lia.
  - split; [exact F9|]. split; [exact G9|]. rewrite (read_calls_other d), (read_calls_other d); auto.
Qed.

Lemma grows_rsrt : forall ph t, grows ph (fails short_r) (read_status_response_timeout t).
Proof.
  intros ph t. unfold read_status_response_timeout. apply grows_then; [apply grows_deadline|]. intro d.
  eapply grows_try; [apply grows_read_packet|auto|]. intro p. apply grows_then; [apply grows_lift|]. intros [st|].
  - apply grows_then; [apply grows_lift|]. intro. apply grows_tryr. intro. apply grows_ret.
  - apply grows_then; [apply grows_lift|]. intro. apply grows_ret.
Qed.

Lemma grows_get : forall ph A (bad : A -> bool) (k : bus -> M A),
  (forall s t, wd s t -> k s = k t) -> (forall s, grows ph bad (k s)) -> grows ph bad (bind get k).
Proof.
  intros ph A bad k Hk Hg s t a s' W P E B. unfold bind, get in *. rewrite <- (Hk s t W).
  apply (Hg s s t a s' W P E B).
Qed.

Lemma grows_rsr : forall ph n, grows ph (fails short_r) (read_status_response n).
Proof.
  intros ph n. unfold read_status_response. apply grows_get.
  - intros s t [R _ _]. rewrite (rm_dbg _ _ R), (rm_baud _ _ R). reflexivity.
  - intro s. apply grows_then; [apply grows_lift|]. intro. apply grows_rsrt.
Qed.

Lemma grows_scan_next : forall ph, grows ph (yields short_r) scan_next.
Proof.
  intro ph. unfold scan_next. apply (grows_bind ph _ _ (fails short_r)).
  - unfold scan_next_response. apply grows_get.
    + intros s t [R _ _]. rewrite (rm_dbg _ _ R), (rm_baud _ _ R). reflexivity.
    + intro s. apply grows_then; [apply grows_lift|]. intro d. eapply grows_try; [apply grows_rsrt|auto|].
      intro. apply grows_then; [apply grows_lift|]. intro. apply grows_ret.
  - intros. apply grows_ret.
  - intros [a|[e|e|e|e]] s x s' H X; try discriminate. injection X as <- _. reflexivity.
Qed.

Lemma grows_device_loop : forall n ph d, grows ph (fails short_r) (device_loop n d).
Proof.
  induction n as [|n IH]; intros ph d; cbn [device_loop]; [apply grows_lift|].
  eapply grows_try; [apply grows_read_packet|auto|]. intro p. apply grows_then; [apply grows_lift|].
  intros [i|]; [apply grows_ret|apply IH].
Qed.

Lemma grows_rrit : forall ph t, grows ph (fails short_r) (read_raw_instruction_timeout t).
Proof.
  intros ph t0. unfold read_raw_instruction_timeout. apply grows_then; [apply grows_deadline|].
  intros d s t a s' W P E B. unfold bind, get in *.
  rewrite (device_loop_fuel_irrelevant (device_fuel s) (device_fuel s + device_fuel t) d s (wd_inv1 _ _ W)) in E;
    [|apply device_fuel_enough|pose proof (device_fuel_enough s); lia].
  rewrite (device_loop_fuel_irrelevant (device_fuel t) (device_fuel s + device_fuel t) d t (wd_inv2 _ _ W));
    [|apply device_fuel_enough|pose proof (device_fuel_enough t); lia].
  apply (grows_device_loop _ _ _ _ _ _ _ W P E B).
Qed.

(** ** Every function *)

Ltac grows_step :=
  lazymatch goal with
  | |- _ = true -> _ = true => exact (fun h => h)
  | |- forall _, _ => intro
  | |- grows _ _ (ret _) => apply grows_ret
  | |- grows _ _ (lift _) => apply grows_lift
  | |- grows _ _ (tryr _ _ _) => apply grows_tryr
  | |- grows _ _ (read_status_response _) => apply grows_rsr
  | |- grows _ _ (read_status_response_timeout _) => apply grows_rsrt
  | |- grows _ _ (read_raw_instruction_timeout _) => apply grows_rrit
  | |- grows _ _ (write_instruction _ _ _ _) => apply grows_write_packet
  | |- grows _ (fails _) (try_ _ _ _) => eapply grows_try
  | |- grows _ _ (bind (lift _) _) => apply grows_then
  | |- grows _ _ (match ?x with _ => _ end) => destruct x
  end.
Ltac grows_all := repeat grows_step.

Lemma grows_rr : forall ph id, grows ph (fails short_r) (read_response_if_not_broadcast id).
Proof. intros. unfold read_response_if_not_broadcast. grows_all. Qed.
Lemma grows_instruct : forall id i n enc, encoder_ok enc -> ignores_old_bytes n enc ->
  grows true (fails short_t) (instruct id i n enc).
Proof. intros id i n enc H1 H2. unfold instruct. grows_all; try assumption. apply grows_rr. Qed.
Lemma grows_transfer : forall id i n e enc, encoder_ok enc -> ignores_old_bytes n enc ->
  grows true (fails short_t) (transfer_single id i n e enc).
Proof. intros id i n e enc H1 H2. unfold transfer_single. grows_all; assumption. Qed.
Lemma grows_read_raw : forall id a n, grows true (fails short_t) (read_raw id a n).
Proof.
  intros. unfold read_raw. eapply grows_try; [apply grows_transfer|auto|].
  - auto with enc.
  - eapply ignores_writes; [apply read_params_writes|reflexivity].
  - grows_all.
Qed.
Lemma grows_expect_response : forall ph id n, grows ph (fails short_r) (expect_response id n).
Proof. intros. unfold expect_response. grows_all. Qed.
Lemma grows_expect_value : forall ph A (D : data_impl A) id, grows ph (fails short_r) (expect_value D id).
Proof. intros. unfold expect_value. grows_all. Qed.

Lemma grows_yield : forall ph X I (m : M (result X read_error)) (i : I), grows ph (fails short_r) m ->
  grows ph (yields_it short_r) (r <- m ;; ret (Some r, i)).
Proof.
  intros ph X I m i H. eapply grows_bind; [exact H| |].
  - intros. apply grows_ret.
  - intros a s x s' B E. injection E as <- _. exact B.
Qed.

Lemma grows_bulk_write : forall l, grows true (fails short_w) (bulk_write l).
Proof.
  intro l. unfold bulk_write.
  destruct (Forall_dec _ (fun c => is_u16_dec (N.of_nat (length (bw_data c)))) l) as [F|F].
  - rewrite (bulk_write_count_val l 0 F). intros s t a s' W P E B.
    apply (grows_write_packet BROADCAST BULK_WRITE (0 + length (bulk_write_entries l)) (enc_ok (bulk_write_loop 0 l)))
      with (s := s); try assumption; [auto with enc|].
    eapply ignores_writes; [apply bulk_write_writes, F|reflexivity].
  - rewrite bulk_write_count_panics by exact F. intros s t a s' W P E B. discriminate E.
Qed.

Lemma attempt_grows : forall A (m : M A) bad, attempt m bad -> grows true bad m.
Proof.
  intros A m bad H. destruct H.
  - apply grows_set_baud.
  - apply grows_transfer; assumption.
  - apply grows_write_packet; assumption.
  - apply grows_rsrt.
  - apply grows_rsr.
  - unfold device_read. grows_all.
  - unfold device_read_owned. grows_all.
  - apply grows_rrit.
  - apply grows_write_status; assumption.
  - apply grows_write_status; [auto with enc|apply ignores_none].
  - apply grows_write_status; [auto with enc|apply ignores_none].
  - unfold ping. eapply grows_try; [apply grows_transfer; [auto with enc|apply ignores_none]|auto|grows_all].
  - apply grows_write_packet; [auto with enc|apply ignores_none].
  - apply grows_scan_next.
  - unfold read_bytes. eapply grows_try; [apply grows_read_raw|auto|grows_all].
  - unfold read. eapply grows_try; [apply grows_read_raw|auto|grows_all].
  - apply grows_instruct; [auto with enc|apply ignores_address; assumption].
  - apply grows_instruct; [auto with enc|]. eapply ignores_writes; [apply address_and_bytes_writes|reflexivity].
  - apply grows_instruct; [auto with enc|apply (ignores_address _ D 1); assumption].
  - apply grows_instruct; [auto with enc|]. eapply ignores_writes; [apply address_and_bytes_writes|reflexivity].
  - apply grows_instruct; [auto with enc|apply ignores_none].
  - apply grows_write_packet; [auto with enc|apply ignores_none].
  - apply grows_instruct; [auto with enc|apply ignores_none].
  - apply grows_write_packet; [auto with enc|apply ignores_none].
  - apply grows_instruct; [auto with enc|]. eapply ignores_writes; [apply factory_reset_writes|reflexivity].
  - apply grows_write_packet; [auto with enc|]. eapply ignores_writes; [apply factory_reset_writes|reflexivity].
  - apply grows_instruct; [auto with enc|]. eapply ignores_writes; [apply clear_revolution_writes|reflexivity].
  - apply grows_write_packet; [auto with enc|]. eapply ignores_writes; [apply clear_revolution_writes|reflexivity].
  - apply grows_instruct; [auto with enc|]. eapply ignores_writes; [apply clear_error_writes|reflexivity].
  - apply grows_write_packet; [auto with enc|]. eapply ignores_writes; [apply clear_error_writes|reflexivity].
  - apply grows_write_packet; [auto with enc|]. apply ignores_sync_write; assumption.
  - apply grows_write_packet; [auto with enc|]. apply ignores_sync_write_bytes.
  - apply grows_bulk_write.
  - unfold sync_read_bytes, write_sync_read. grows_all; [auto with enc|].
    eapply ignores_writes; [apply sync_read_writes|cbn [length app le16]; lia].
  - unfold srb_next. destruct (srb_pop it) as [[id|] it']; [|apply grows_ret]. apply grows_yield, grows_expect_response.
  - unfold sync_read, write_sync_read. grows_all; [auto with enc|].
    eapply ignores_writes; [apply sync_read_writes|cbn [length app le16]; lia].
  - unfold sr_next. destruct (sr_pop it) as [[id|] it']; [|apply grows_ret]. apply grows_yield, grows_expect_value.
  - unfold bulk_read_bytes, write_bulk_read_instruction. grows_all; [auto with enc|].
    eapply ignores_writes; [apply bulk_read_writes|]. rewrite bulk_read_entries_length. lia.
  - unfold br_next. destruct (br_pop it) as [[x|] it']; [|apply grows_ret]. apply grows_yield, grows_expect_response.
Qed.

(** ** C60 *)

Theorem L_C60_larger_buffers_only_help : forall A (m : M A) complains s t a s', attempt m complains ->
  reach s -> reach t -> roomier s t -> incoming s = incoming t ->
  m s = (Val a, s') -> complains a = false ->
  exists t' evs evs', m t = (Val a, t') /\ roomier s' t' /\ calls s s' evs /\ calls t t' evs' /\ other_calls evs = other_calls evs'.
Proof.
  intros A m bad s t a s' H Rs Rt R P E B.
  destruct (attempt_grows _ _ _ H s t a s' (mkWd _ _ R (reach_inv _ Rs) (reach_inv _ Rt)) (fun _ => P) E B)
    as [t' [evs [evs' [K1 [K2 K3]]]]].
  exists t', evs, evs'. split; [exact K1|]. split; [apply K2|exact K3].
Qed.

Lemma listening_grows : forall A (m : M A) bad, listening m bad -> grows false bad m.
Proof.
  intros A m bad H. destruct H.
  - apply grows_rsrt.
  - apply grows_rsr.
  - unfold device_read. grows_all.
  - unfold device_read_owned. grows_all.
  - apply grows_rrit.
  - apply grows_scan_next.
  - unfold srb_next. destruct (srb_pop it) as [[id|] it']; [|apply grows_ret]. apply grows_yield, grows_expect_response.
  - unfold sr_next. destruct (sr_pop it) as [[id|] it']; [|apply grows_ret]. apply grows_yield, grows_expect_value.
  - unfold br_next. destruct (br_pop it) as [[x|] it']; [|apply grows_ret]. apply grows_yield, grows_expect_response.
Qed.

Theorem L_C60_listening : forall A (m : M A) complains s t a s', listening m complains ->
  reach s -> reach t -> roomier s t -> m s = (Val a, s') -> complains a = false ->
  exists t' evs evs', m t = (Val a, t') /\ roomier s' t' /\ calls s s' evs /\ calls t t' evs' /\
    other_calls evs = other_calls evs'.
Proof.
  intros A m bad s t a s' H Rs Rt R E B.
  destruct (listening_grows _ _ _ H s t a s' (mkWd _ _ R (reach_inv _ Rs) (reach_inv _ Rt)) ltac:(discriminate) E B)
    as [t' [evs [evs' [K1 [K2 K3]]]]].
  exists t', evs, evs'. split; [exact K1|]. split; [apply K2|exact K3].
Qed.

(** ** A read buffer that is always large enough *)

Definition ample {A} (bad : A -> bool) (m : M A) : Prop := forall s a s', inv s ->
  (65542 <= N.of_nat (length (b_rbuf s)))%N -> m s = (Val a, s') -> bad a = false /\ inv s' /\ length (b_rbuf s') = length (b_rbuf s).

Lemma ample_lift : forall A (bad : A -> bool) x, (forall a, x = Val a -> bad a = false) -> ample bad (lift x).
Proof. intros A bad x H s a s' I L E. injection E as E <-. auto. Qed.
Lemma ample_ret : forall A (bad : A -> bool) x, bad x = false -> ample bad (ret x).
Proof. intros A bad x H s a s' I L E. injection E as <- <-. auto. Qed.
Lemma ample_bind : forall A B (b1 : A -> bool) (b2 : B -> bool) (m : M A) (k : A -> M B), ample b1 m ->
  (forall a, b1 a = false -> ample b2 (k a)) -> ample b2 (bind m k).
Proof.
  intros A B b1 b2 m k Hm Hk s x s' I L E. unfold bind in E.
  destruct (m s) as [[a|p|] s1] eqn:E1; [|discriminate|discriminate].
  destruct (Hm _ _ _ I L E1) as [B1 [I1 L1]].
  destruct (Hk a B1 _ _ _ I1 ltac:(rewrite L1; exact L) E) as [B2 [I2 L2]]. split; [exact B2|]. split; [exact I2|congruence].
Qed.
Lemma ample_then : forall A B (b2 : B -> bool) (m : M A) (k : A -> M B), ample never m ->
  (forall a, ample b2 (k a)) -> ample b2 (bind m k).
Proof. intros. eapply ample_bind; [eassumption|auto]. Qed.
Lemma ample_try : forall A B E F (f : E -> F) c1 c2 (m : M (result A E)) (k : A -> M (result B F)),
  ample (fails c1) m -> (forall e, c1 e = false -> c2 (f e) = false) -> (forall a, ample (fails c2) (k a)) ->
  ample (fails c2) (try_ f m k).
Proof.
  intros A B E F f c1 c2 m k Hm Hf Hk. eapply ample_bind; [exact Hm|].
  intros [a|e] H; [apply Hk|apply ample_ret]. cbn in *. auto.
Qed.
Lemma ample_tryr : forall A B E F (f : E -> F) c2 (r : result A E) (k : A -> M (result B F)),
  (forall e, c2 (f e) = false) -> (forall a, ample (fails c2) (k a)) -> ample (fails c2) (tryr f r k).
Proof. intros A B E F f c2 [a|e] k Hf H; [apply H|apply ample_ret; apply Hf]. Qed.

Lemma ample_deadline : forall d, ample never (port_make_deadline d).
Proof. intros d s a s' I L E. unfold port_make_deadline in E. injection E as <- <-. auto. Qed.

Lemma ample_read_packet : forall d, ample (fails short_r) (read_packet_deadline d).
Proof.
  intros d s a s' I L E. pose proof (read_ideal _ _ _ _ (proj1 I) E) as K. symmetry in K.
  destruct (read_cap _ _ _ _ I E) as [I1 C1]. split; [|auto].
  unfold ideal in K. replace (length (b_rbuf s) <? 10) with false in K by lia.
  unfold next_event in K. cbv zeta in K. set (c := clean (upto (pending s))) in *.
  assert (Bl : (N.of_nat (body_len c) < 65536)%N).
  { unfold body_len. rewrite N2Nat.id. pose proof (b2n_lt (nth 5 c x00)). pose proof (b2n_lt (nth 6 c x00)). lia. }
  unfold parse1 in K. cbv zeta in K. destruct (7 <? length c).
  - replace (7 + body_len c <=? length (b_rbuf s)) with true in K by lia.
    destruct (7 + body_len c <=? length c).
    + injection K as K _. unfold finish_event in K.
      repeat match type of K with context [if ?b then _ else _] => destruct b | context [match ?b with _ => _ end] => destruct b end;
        cbn [ev_out] in K; first [discriminate|injection K as <-; reflexivity].
    + destruct (from_err (pending s)) as [|[b|e] q]; try discriminate. injection K as <- _. reflexivity.
  - destruct (from_err (pending s)) as [|[b|e] q]; try discriminate. injection K as <- _. reflexivity.
Qed.

Lemma ample_any : forall A (x : out A), ample never (lift x).
Proof. intros. apply ample_lift. reflexivity. Qed.

Lemma ample_rsrt : forall t, ample (fails short_r) (read_status_response_timeout t).
Proof.
  intros t. unfold read_status_response_timeout. apply ample_then; [apply ample_deadline|]. intro d.
  eapply ample_try; [apply ample_read_packet|auto|]. intro p. apply ample_then; [apply ample_any|]. intros [st|].
  - apply ample_then; [apply ample_any|]. intro. apply ample_tryr; [reflexivity|]. intro. apply ample_ret. reflexivity.
  - apply ample_then; [apply ample_any|]. intro. apply ample_ret. reflexivity.
Qed.

Lemma ample_get : forall A (bad : A -> bool) (k : bus -> M A), (forall s, ample bad (k s)) -> ample bad (bind get k).
Proof. intros A bad k H s a s' I L E. apply (H s s a s' I L E). Qed.

Lemma ample_rsr : forall n, ample (fails short_r) (read_status_response n).
Proof.
  intro n. unfold read_status_response. apply ample_get. intro s. apply ample_then; [apply ample_any|]. intro. apply ample_rsrt.
Qed.

Lemma ample_map_err : forall A (r : result A invalid_message), fails short_r (map_err RInvalidMessage r) = false.
Proof. intros A [a|e]; reflexivity. Qed.

Lemma ample_scan_next : ample (yields short_r) scan_next.
Proof.
  unfold scan_next. apply (ample_bind _ _ (fails short_r)).
  - unfold scan_next_response. apply ample_get. intro s. apply ample_then; [apply ample_any|]. intro d.
    eapply ample_try; [apply ample_rsrt|auto|]. intro p. apply ample_then; [apply ample_any|]. intro r.
    apply ample_ret, ample_map_err.
  - intros [a|[e|e|e|e]] H; try discriminate; try (apply ample_ret; reflexivity).
    apply ample_ret. destruct (is_timeout_error e); reflexivity.
Qed.

Lemma ample_device_loop : forall n d, ample (fails short_r) (device_loop n d).
Proof.
  induction n as [|n IH]; intro d; cbn [device_loop]; [apply ample_lift; discriminate|].
  eapply ample_try; [apply ample_read_packet|auto|]. intro p. apply ample_then; [apply ample_any|].
  intros [i|]; [apply ample_ret; reflexivity|apply IH].
Qed.
Lemma ample_rrit : forall t, ample (fails short_r) (read_raw_instruction_timeout t).
Proof.
  intro t. unfold read_raw_instruction_timeout. apply ample_then; [apply ample_deadline|]. intro d.
  apply ample_get. intro s. apply ample_device_loop.
Qed.

Lemma obind_val : forall A B (x : out A) (k : A -> out B) b, obind x k = Val b -> exists a, x = Val a /\ k a = Val b.
Proof. intros A B [a|p|] k b H; try discriminate. eauto. Qed.

Lemma ample_decode : forall A (D : data_impl A) p a, decode_status_packet D p = Val a -> fails short_r a = false.
Proof.
  intros A D p a H. unfold decode_status_packet in H. apply obind_val in H. destruct H as [e [_ H]].
  destruct (motor_error_check e); [|injection H as <-; reflexivity].
  apply obind_val in H. destruct H as [id [_ H]]. apply obind_val in H. destruct H as [al [_ H]].
  apply obind_val in H. destruct H as [ps [_ H]]. apply obind_val in H. destruct H as [r [_ H]].
  destruct r; injection H as <-; reflexivity.
Qed.
Lemma ample_decode_bytes : forall p a, decode_status_packet_bytes p = Val a -> fails short_r a = false.
Proof.
  intros p a H. unfold decode_status_packet_bytes in H. apply obind_val in H. destruct H as [e [_ H]].
  destruct (motor_error_check e); [|injection H as <-; reflexivity].
  apply obind_val in H. destruct H as [id [_ H]]. apply obind_val in H. destruct H as [al [_ H]].
  apply obind_val in H. destruct H as [ps [_ H]]. injection H as <-; reflexivity.
Qed.

Lemma ample_expect_response : forall id n, ample (fails short_r) (expect_response id n).
Proof.
  intros. unfold expect_response. eapply ample_try; [apply ample_rsr|auto|]. intro p.
  apply ample_then; [apply ample_any|]. intro rid. apply ample_tryr; [reflexivity|]. intros _.
  apply ample_then; [apply ample_any|]. intro ps. apply ample_tryr; [reflexivity|]. intros _.
  apply ample_lift. apply ample_decode_bytes.
Qed.
Lemma ample_expect_value : forall A (D : data_impl A) id, ample (fails short_r) (expect_value D id).
Proof.
  intros. unfold expect_value. eapply ample_try; [apply ample_rsr|auto|]. intro p.
  apply ample_then; [apply ample_any|]. intro rid. apply ample_tryr; [reflexivity|]. intros _.
  apply ample_then; [apply ample_any|]. intro ps. apply ample_tryr; [reflexivity|]. intros _.
  apply ample_lift. apply ample_decode.
Qed.
Lemma ample_yield : forall X I (m : M (result X read_error)) (i : I), ample (fails short_r) m ->
  ample (yields_it short_r) (r <- m ;; ret (Some r, i)).
Proof. intros X I m i H. eapply ample_bind; [exact H|]. intros a B. apply ample_ret. exact B. Qed.

Theorem L_C60_enough_room : forall A (m : M A) complains s a s', listening m complains -> reach s ->
  (65542 <= N.of_nat (length (b_rbuf s)))%N -> m s = (Val a, s') -> complains a = false.
Proof.
  intros A m bad s a s' H R L E.
  enough (K : ample bad m) by apply (K s a s' (reach_inv _ R) L E). clear - H. destruct H.
  - apply ample_rsrt.
  - apply ample_rsr.
  - unfold device_read. eapply ample_try; [apply ample_rrit|auto|]. intro. apply ample_then; [apply ample_any|]. intro.
    apply ample_ret, ample_map_err.
  - unfold device_read_owned. eapply ample_try; [apply ample_rrit|auto|]. intro. apply ample_then; [apply ample_any|]. intro.
    apply ample_ret, ample_map_err.
  - apply ample_rrit.
  - apply ample_scan_next.
  - unfold srb_next. destruct (srb_pop it) as [[id|] it']; [|apply ample_ret; reflexivity]. apply ample_yield, ample_expect_response.
  - unfold sr_next. destruct (sr_pop it) as [[id|] it']; [|apply ample_ret; reflexivity]. apply ample_yield, ample_expect_value.
  - unfold br_next. destruct (br_pop it) as [[x|] it']; [|apply ample_ret; reflexivity]. apply ample_yield, ample_expect_response.
Qed.
