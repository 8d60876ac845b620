(** * LateTheorems: answers that come too late *)
From Coq Require Import ZArith ZifyN ZifyNat ZifyBool.
From Verif Require Import Base Endian Error Checksum Bytestuff Packet Time Bus Data Client
  Instructions Device MockDevice Api Spec CallSpec StreamSpec DeviceSpec InstructionSpec Demo Lib ChecksumProofs
  CrcErrorProofs StuffProofs WriteProofs ReadProofs ApiProofs StreamProofs MessageProofs SendProofs
  SendTheorems ReadTheorems StatusProofs DeviceTheorems InstructionProofs DemoProofs TransferTheorems
  UnderstoodTheorems ScanTheorems RemoteSpec RemoteProofs RemoteTheorems EchoSpec EchoTheorems LateSpec.
Ltac Zify.zify_post_hook ::= Z.div_mod_to_equations.

(** ** One call takes one chunk *)

Lemma read_first_chunk : forall dl s bs rest, rd_ok s -> 10 <= length (b_rbuf s) -> unread s = [] ->
  p_script (b_port s) = RdData bs :: rest -> length bs <= length (b_rbuf s) ->
  read_packet_deadline dl s = read_packet_deadline dl (received dl s [] bs rest).
Proof.
  intros dl s bs rest Ok Cap U S L.
  destruct (received_ok dl s [] bs rest ltac:(cbn [length]; lia)) as [R1 [R2 R3]].
  unfold read_packet_deadline, try_, bind, get. rewrite R3.
  unfold bts_check, HEADER_SIZE. replace (7 + 3 <=? length (b_rbuf s)) with true by lia. cbn [tryr].
  rewrite read_loop_step by assumption. cbv zeta. rewrite U.
  change (clean []) with (@nil byte). change (parse1 (length (b_rbuf s)) []) with PMore. cbv iota. rewrite !S.
  cbn [length]. rewrite Nat.sub_0_r, firstn_all2 by exact L.
  replace (length bs <=? length (b_rbuf s)) with true by lia.
  rewrite (read_loop_fuel_irrelevant (script_size (RdData bs :: rest))
    (Datatypes.S (script_size (p_script (b_port (received dl s [] bs rest))))) dl (received dl s [] bs rest));
    [reflexivity|exact R1|lia|cbn; lia|cbn; lia].
Qed.

Lemma chunk_left : forall dl s bs rest o s', rd_ok s -> 10 <= length (b_rbuf s) -> unread s = [] ->
  p_script (b_port s) = RdData bs :: rest -> length bs <= length (b_rbuf s) ->
  next_event (length (b_rbuf s)) bs <> None -> read_packet_deadline dl s = (o, s') -> p_script (b_port s') = rest.
Proof.
  intros dl s bs rest o s' Ok Cap U S L Ne E. rewrite (read_first_chunk dl s bs rest Ok Cap U S L) in E.
  destruct (received_ok dl s [] bs rest ltac:(cbn [length]; lia)) as [R1 [R2 R3]].
  destruct (read_packet_spec dl _ o s' R1 ltac:(lia) E) as [dat [sc' [_ _ _ _ Io]]].
  rewrite R2, R3 in Io. cbn [app] in Io. destruct (Io Ne) as [-> _]. reflexivity.
Qed.

Lemma error_left : forall dl s e rest o s', rd_ok s -> 10 <= length (b_rbuf s) -> unread s = [] ->
  p_script (b_port s) = RdErr e :: rest -> read_packet_deadline dl s = (o, s') -> p_script (b_port s') = rest.
Proof.
  intros dl s e rest o s' Ok Cap U S E. unfold read_packet_deadline in E. unfold bind at 1, get in E.
  unfold bts_check, HEADER_SIZE in E. replace (7 + 3 <=? length (b_rbuf s)) with true in E by lia. cbn [tryr] in E.
  unfold try_, bind in E. rewrite S in E at 1. rewrite read_loop_step in E by assumption. cbv zeta in E. rewrite U in E.
  change (clean []) with (@nil byte) in E. change (parse1 (length (b_rbuf s)) []) with PMore in E. cbv iota in E.
  rewrite S in E. unfold ret in E. injection E as _ <-. reflexivity.
Qed.

Lemma status_read_script : forall k s o s', inv s -> b_baud s <> 0%N -> is_u16 k -> read_status_response k s = (o, s') ->
  exists dl s0 o0, rd_ok s0 /\ b_rbuf s0 = b_rbuf s /\ unread s0 = unread s /\ p_script (b_port s0) = p_script (b_port s) /\
    read_packet_deadline dl s0 = (o0, s').
Proof.
  intros k s o s' I B Hk E. unfold read_status_response in E. unfold bind at 1, get in E. unfold bind at 1, lift in E.
  destruct (response_timeout_val (b_dbg s) (b_baud s) k Hk B) as [t T]. rewrite T in E.
  unfold read_status_response_timeout in E. unfold bind at 1 in E. rewrite make_deadline_eq in E. unfold try_, bind at 1 in E.
  destruct (read_packet_deadline (deadline_of t s) (after_deadline t s)) as [o0 s1] eqn:Rd.
  exists (deadline_of t s), (after_deadline t s), o0.
  split; [apply after_deadline_inv, I|]. split; [reflexivity|]. split; [reflexivity|]. split; [reflexivity|].
  rewrite Rd. f_equal.
  destruct o0 as [[p|e]|x|]; unfold bind, lift, ret, tryr in E.
  - destruct (as_status p) as [[st|]|pp|].
    + destruct (st_error st) as [e|pe|]; [|injection E as _ <-; reflexivity..].
      destruct (motor_error_check e); injection E as _ <-; reflexivity.
    + destruct (pk_instruction p); injection E as _ <-; reflexivity.
    + injection E as _ <-; reflexivity.
    + injection E as _ <-; reflexivity.
  - injection E as _ <-. reflexivity.
  - injection E as _ <-. reflexivity.
  - injection E as _ <-. reflexivity.
Qed.

Lemma sends_script : forall cap m id i params s s1, sends m id i params -> hardy cap s -> fits cap (i :: params) ->
  m s = (Val (Ok tt), s1) -> p_script (b_port s1) = p_script (b_port s) /\ unread s1 = [].
Proof.
  intros cap m id i params s s1 Sd H F E.
  destruct (sends_fits cap m id i params s Sd H F) as [s2 [[W _] [P _]]]. rewrite W in E. injection E as <-.
  destruct H as [H1 H2 H3 H4 H4' H5 H6]. pose proof (sends_effect _ _ _ _ _ Sd H1) as X. rewrite W in X.
  assert (Sc : p_script (b_port s2) = p_script (b_port s)).
  { remember (Val (Ok tt), s2) as os eqn:Eo.
    destruct X as [X|e w' X1 X2 X3|p X1 X2 X3|e w' X1 X2 X3 X4|w' X1 X2 X3 X4 X5]; try discriminate Eo.
    rewrite H3 in Eo. injection Eo as <-. reflexivity. }
  split; [exact Sc|]. rewrite pending_unread in P. unfold incoming in P. rewrite Sc in P.
  apply (f_equal (@length item)) in P. rewrite app_length, map_length in P.
  assert (L0 : length (unread s2) = 0) by (change (sum byte io_error) with item in P; clear - P; lia). destruct (unread s2); [reflexivity|discriminate L0].
Qed.

Lemma read_fits : forall cap a n, 16 <= cap -> fits cap (x02 :: le16 a ++ le16 n).
Proof. intros cap a n H. split; [change (15 <= cap); clear - H; lia|]. split; [reflexivity|exact I]. Qed.

(** The answer is in one chunk, possibly with more. *)
Lemma read_chunk : forall q cap s w extra st rest, 16 <= cap -> hardy cap s -> is_u16 (q_count q) ->
  p_script (b_port s) = RdData (w ++ extra) :: rest -> answer_is cap w st -> length (w ++ extra) <= cap ->
  exists s', read_bytes (q_id q) (q_address q) (q_count q) s = (reported q st, s') /\ hardy cap s' /\
    p_script (b_port s') = rest.
Proof.
  intros [id a n] cap s w extra [[id' e] ps] rest Hc H Hn S [Fr [Ff Lw]] Le. cbn [q_id q_address q_count] in *.
  destruct (read_bytes_shaped id a n Hn) as [enc [Hw [_ Sh]]].
  pose proof (sends_instruction id x02 _ enc Hw) as Sd.
  destruct (sends_fits cap _ id x02 _ s Sd H (read_fits cap a n Hc)) as [s1 [[W [H1 _]] [P1 _]]].
  destruct (sends_script cap _ id x02 _ s s1 Sd H (read_fits cap a n Hc) W) as [Sc U]. rewrite S in Sc.
  rewrite (Sh s s1 W). unfold bind, lift.
  destruct (read_status_response n s1) as [x s2] eqn:Er.
  destruct (read_status_spec _ _ _ _ (ha_inv _ _ H1) Er) as [[p [T _]]|[t [o1 [_ [Id [Ho [I2 Ti]]]]]]].
  { exfalso. destruct (response_timeout_val (b_dbg s1) (b_baud s1) n Hn (ha_baud _ _ H1)) as [t T']. congruence. }
  destruct (timed_hardy cap t _ _ Ti I2 H1) as [H2 _].
  assert (Id2 : ideal (length (b_rbuf s1)) (map inl ([] ++ w) ++ (map inl extra ++ items rest)) = (o1, pending s2)).
  { rewrite <- Id, pending_unread, U, Sc. cbn [app items map]. rewrite map_app, <- app_assoc. reflexivity. }
  pose proof (ha_rcap _ _ H1) as Hr.
  destruct (ideal_frame (length (b_rbuf s1)) [] id' (x55 :: e :: ps) w (map inl extra ++ items rest) empty_no_header Fr
    ltac:(discriminate) ltac:(lia)) as [p [Id3 Pk]].
  rewrite Id3 in Id2. injection Id2 as <- Pe.
  rewrite (proj2 (unst_pstuff_iff _) Ff) in Pk.
  assert (Scr : p_script (b_port s2) = rest).
  { destruct (status_read_script n s1 x s2 (ha_inv _ _ H1) (ha_baud _ _ H1) Hn Er) as [dl [s0 [o0 [R0 [Rb [U0 [S0 Rd]]]]]]].
    apply (chunk_left dl s0 (w ++ extra) rest o0 s2 R0); try congruence.
    - rewrite Rb. lia.
    - rewrite Rb. lia.
    - rewrite Rb. intro Ne.
      destruct (frame_message _ _ _ Fr) as [crc [Ew [C1 [C2 [C3 C4]]]]]. rewrite Ew in Ne, Lw.
      rewrite message_length in Lw. rewrite next_event_message0 in Ne; [discriminate Ne|try assumption; lia..]. }
  exists s2. split; [|split; [exact H2|exact Scr]].
  cbn [status_of] in Ho. rewrite (status_check_status _ _ _ _ Pk) in Ho.
  assert (Bz : N.land (b2n e) 127 = (b2n e mod 128)%N) by (destruct e; reflexivity).
  rewrite Bz in Ho. unfold reported, judge. cbn [q_id q_count].
  destruct (b2n e mod 128 =? 0)%N eqn:Z; cbn [negb]; subst x; [|reflexivity].
  apply N.eqb_eq in Z. cbn [obind fin_transfer].
  destruct (status_accessors _ _ _ _ Pk) as [A1 [A2 [A3 A4]]]. rewrite A1. cbn [obind]. unfold packet_id_check.
  destruct (beq id' id) eqn:B; cbn [negb fin_read obind]; [|reflexivity]. apply beq_true in B. subst id'.
  rewrite A4. cbn [obind]. unfold param_count_check. destruct (length ps =? N.to_nat n); cbn [negb obind]; [|reflexivity].
  unfold decode_status_packet_bytes. rewrite A2. cbn [obind]. rewrite (no_error_check _ Z), A1, A3, A4. reflexivity.
Qed.

(** Nothing comes. *)
Lemma read_nothing : forall q cap s c rest, 16 <= cap -> hardy cap s -> is_u16 (q_count q) ->
  p_script (b_port s) = RdErr (IoTimeout c) :: rest ->
  exists s', read_bytes (q_id q) (q_address q) (q_count q) s = (gave_up c, s') /\ hardy cap s' /\
    p_script (b_port s') = rest.
Proof.
  intros [id a n] cap s c rest Hc H Hn S. cbn [q_id q_address q_count] in *.
  destruct (read_bytes_shaped id a n Hn) as [enc [Hw [_ Sh]]].
  pose proof (sends_instruction id x02 _ enc Hw) as Sd.
  destruct (sends_fits cap _ id x02 _ s Sd H (read_fits cap a n Hc)) as [s1 [[W [H1 _]] [P1 _]]].
  destruct (sends_script cap _ id x02 _ s s1 Sd H (read_fits cap a n Hc) W) as [Sc U]. rewrite S in Sc.
  rewrite (Sh s s1 W). unfold bind, lift.
  destruct (read_status_response n s1) as [x s2] eqn:Er.
  destruct (read_status_spec _ _ _ _ (ha_inv _ _ H1) Er) as [[p [T _]]|[t [o1 [_ [Id [Ho [I2 Ti]]]]]]].
  { exfalso. destruct (response_timeout_val (b_dbg s1) (b_baud s1) n Hn (ha_baud _ _ H1)) as [t T']. congruence. }
  destruct (timed_hardy cap t _ _ Ti I2 H1) as [H2 _]. pose proof (ha_rcap _ _ H1) as Hr.
  rewrite pending_unread, U, Sc in Id. unfold ideal in Id. replace (length (b_rbuf s1) <? 10) with false in Id by lia.
  cbn in Id. injection Id as <- _. cbn [status_of] in Ho. subst x.
  exists s2. split; [reflexivity|]. split; [exact H2|].
  destruct (status_read_script n s1 _ s2 (ha_inv _ _ H1) (ha_baud _ _ H1) Hn Er) as [dl [s0 [o0 [R0 [Rb [U0 [S0 Rd]]]]]]].
  apply (error_left dl s0 (IoTimeout c) rest o0 s2 R0); try congruence. rewrite Rb. lia.
Qed.

(** ** Sequences of calls *)

Lemma poll_gets : forall cap l os s, 16 <= cap -> hardy cap s -> Forall2 (gets cap) l os -> poll true l s = os.
Proof.
  intros cap l os s Hc H F. revert s H.
  induction F as [|x o l os G F IH]; intros s H; [reflexivity|].
  destruct G as [q arrived w extra more st Hn A L|q arrived c more Hn]; cbn [poll]; unfold call_on; cbn [app].
  - destruct (read_chunk q cap (set_script s (RdData (w ++ extra) :: more)) w extra st more Hc (hardy_script _ _ _ H) Hn
      eq_refl A L) as [s' [E [H' _]]]. rewrite E. f_equal. apply IH, H'.
  - destruct (read_nothing q cap (set_script s (RdErr (IoTimeout c) :: more)) c more Hc (hardy_script _ _ _ H) Hn eq_refl)
      as [s' [E [H' _]]]. rewrite E. f_equal. apply IH, H'.
Qed.

(** On a port that discards nothing, the answers queue up. *)
Lemma poll_backlog : forall cap qs ws sts back bsts s, 16 <= cap -> hardy cap s ->
  Forall (fun q => is_u16 (q_count q)) qs -> Forall2 (answer_is cap) back bsts ->
  Forall2 (answer_is cap) ws sts -> length ws = length qs -> p_script (b_port s) = map RdData back ->
  poll false (in_time qs ws) s = reports qs (bsts ++ sts).
Proof.
  intros cap qs. induction qs as [|q qs IH]; intros ws sts back bsts s Hc H Fq Fb Fw L Sc; [reflexivity|].
  destruct ws as [|w ws]; [discriminate L|]. injection L as L.
  inversion Fw as [|? st ? sts' A Fw']; subst. inversion Fq as [|? ? Hn Fq']; subst.
  unfold in_time. cbn [combine map poll]. fold (in_time qs ws). unfold call_on. rewrite Sc, app_nil_r.
  destruct Fb as [|b bst back bsts Ab Fb].
  - cbn [map app]. rewrite <- (app_nil_r w).
    destruct (read_chunk q cap (set_script s [RdData (w ++ [])]) w [] st [] Hc (hardy_script _ _ _ H) Hn
      eq_refl A) as [s' [E [H' S']]]; [rewrite app_nil_r; destruct st as [[? ?] ?]; apply A|].
    rewrite E. unfold reports. cbn [combine map]. f_equal.
    exact (IH ws sts' [] [] s' Hc H' Fq' (Forall2_nil _) Fw' L S').
  - cbn [map app]. rewrite <- (app_nil_r b) at 1.
    destruct (read_chunk q cap (set_script s (RdData (b ++ []) :: map RdData back ++ [RdData w])) b [] bst
      (map RdData back ++ [RdData w]) Hc (hardy_script _ _ _ H) Hn
      eq_refl Ab) as [s' [E [H' S']]]; [rewrite app_nil_r; destruct bst as [[? ?] ?]; apply Ab|].
    rewrite E. unfold reports. cbn [combine map]. f_equal.
    replace (bsts ++ st :: sts') with ((bsts ++ [st]) ++ sts') by (rewrite <- app_assoc; reflexivity).
    apply (IH ws sts' (back ++ [w]) (bsts ++ [st]) s' Hc H' Fq').
    + apply Forall2_app; [exact Fb|]. constructor; [exact A|constructor].
    + exact Fw'.
    + exact L.
    + rewrite S', map_app. reflexivity.
Qed.

Lemma L_C76_first_after_discard : forall cap l os s, ready cap s -> 16 <= cap -> Forall2 (gets cap) l os ->
  poll true l s = os.
Proof. intros cap l os s R Hc F. exact (poll_gets cap l os s Hc (ready_hardy _ _ R) F). Qed.

Lemma in_time_gets : forall cap qs ws sts, Forall (fun q => is_u16 (q_count q)) qs -> Forall2 (answer_is cap) ws sts ->
  length ws = length qs -> Forall2 (gets cap) (in_time qs ws) (reports qs sts).
Proof.
  intros cap qs. induction qs as [|q qs IH]; intros ws sts Fq Fw L; [constructor|].
  destruct ws as [|w ws]; [discriminate L|]. injection L as L.
  inversion Fw as [|? st ? sts' A Fw']; subst. inversion Fq as [|? ? Hn Fq']; subst.
  unfold in_time, reports. cbn [combine map]. constructor; [|exact (IH ws sts' Fq' Fw' L)].
  rewrite <- (app_nil_r w). constructor; [exact Hn|exact A|]. rewrite app_nil_r. destruct st as [[? ?] ?]; apply A.
Qed.

Lemma L_C76_own_answer_partial : forall cap s q0 c w0 qs ws sts, ready cap s -> 16 <= cap ->
  Forall (fun q => is_u16 (q_count q)) (q0 :: qs) -> Forall2 (answer_is cap) ws sts -> length ws = length qs ->
  poll true (one_late q0 c w0 qs ws) s = gave_up c :: reports qs sts.
Proof.
  intros cap s q0 c w0 qs ws sts R Hc Fq Fw L. apply (poll_gets cap _ _ s Hc (ready_hardy _ _ R)).
  inversion Fq as [|? ? H0 Fq']; subst. unfold one_late. constructor; [constructor; exact H0|].
  pose proof (in_time_gets cap qs ws sts Fq' Fw L) as G.
  destruct G as [|x o l os G F]; [constructor|].
  destruct G as [q arrived w extra more st Hn A Le|q arrived c' more Hn]; (constructor; [constructor; assumption|exact F]).
Qed.

Lemma L_C76_shifted : forall cap s q0 c w0 st0 qs ws sts, ready cap s -> 16 <= cap -> p_script (b_port s) = [] ->
  Forall (fun q => is_u16 (q_count q)) (q0 :: qs) -> answer_is cap w0 st0 -> Forall2 (answer_is cap) ws sts ->
  length ws = length qs ->
  poll false (one_late q0 c w0 qs ws) s = gave_up c :: reports qs (st0 :: sts).
Proof.
  intros cap s q0 c w0 st0 qs ws sts R Hc Sc Fq A0 Fw L. inversion Fq as [|? ? H0 Fq']; subst.
  unfold one_late. cbn [poll]. unfold call_on, gives_up. rewrite Sc. cbn [app].
  destruct (read_nothing q0 cap (set_script s [RdErr (IoTimeout c)]) c [] Hc (hardy_script _ _ _ (ready_hardy _ _ R)) H0 eq_refl)
    as [s' [E [H' S']]].
  rewrite E. f_equal.
  destruct qs as [|q qs]; [reflexivity|]. destruct ws as [|w ws]; [discriminate L|].
  inversion Fw as [|? st ? sts' A Fw']; subst. inversion Fq' as [|? ? Hn Fq'']; subst. injection L as L.
  unfold in_time. cbn [combine map poll]. fold (in_time qs ws). unfold call_on. rewrite S'. cbn [app].
  rewrite <- (app_nil_r w0).
  destruct (read_chunk q cap (set_script s' [RdData (w0 ++ []); RdData w]) w0 [] st0 [RdData w] Hc (hardy_script _ _ _ H') Hn
      eq_refl A0) as [s2 [E2 [H2 S2]]]; [rewrite app_nil_r; destruct st0 as [[? ?] ?]; apply A0|].
  rewrite E2. unfold reports. cbn [combine map]. f_equal.
  apply (poll_backlog cap qs ws sts' [w] [st] s2 Hc H2 Fq''); [constructor; [exact A|constructor]|exact Fw'|exact L|exact S2].
Qed.

Lemma L_C76_backlog : forall cap s qs ws sts back late, ready cap s -> 16 <= cap ->
  Forall (fun q => is_u16 (q_count q)) qs -> Forall2 (answer_is cap) back late -> Forall2 (answer_is cap) ws sts ->
  length ws = length qs -> p_script (b_port s) = map RdData back ->
  poll false (in_time qs ws) s = reports qs (late ++ sts).
Proof.
  intros cap s qs ws sts back late R Hc Fq Fb Fw L Sc.
  exact (poll_backlog cap qs ws sts back late s Hc (ready_hardy _ _ R) Fq Fb Fw L Sc).
Qed.

Lemma L_C76_same_read_heals : forall cap s q w0 st0 more qs ws sts, ready cap s -> 16 <= cap -> p_script (b_port s) = [] ->
  Forall (fun q => is_u16 (q_count q)) (q :: qs) -> answer_is cap w0 st0 -> length (w0 ++ more) <= cap ->
  Forall2 (answer_is cap) ws sts -> length ws = length qs ->
  poll false ((q, ([], [RdData (w0 ++ more)])) :: in_time qs ws) s = reported q st0 :: reports qs sts.
Proof.
  intros cap s q w0 st0 more qs ws sts R Hc Sc Fq A0 Le Fw L. inversion Fq as [|? ? H0 Fq']; subst.
  cbn [poll]. unfold call_on. rewrite Sc. cbn [app].
  destruct (read_chunk q cap (set_script s [RdData (w0 ++ more)]) w0 more st0 [] Hc
    (hardy_script _ _ _ (ready_hardy _ _ R)) H0 eq_refl A0 Le) as [s' [E [H' S']]].
  rewrite E. f_equal. exact (poll_backlog cap qs ws sts [] [] s' Hc H' Fq' (Forall2_nil _) Fw L S').
Qed.

Lemma L_C76_same_motor : forall cap s q0 c w0 id e0 ps0 a n ws sts, ready cap s -> 16 <= cap ->
  p_script (b_port s) = [] -> is_u16 n -> is_u16 (q_count q0) -> answer_is cap w0 (id, e0, ps0) ->
  Forall2 (answer_is cap) ws sts ->
  Forall (fun '(id', e, ps) => id' = id /\ no_error e /\ length ps = N.to_nat n) ((id, e0, ps0) :: sts) ->
  poll false (one_late q0 c w0 (repeat (mkQuery id a n) (length ws)) ws) s =
  gave_up c :: map (fun '(_, e, ps) => Val (Ok (mkResponse id (alert_bit e) ps)))
                   (firstn (length ws) ((id, e0, ps0) :: sts)).
Proof.
  intros cap s q0 c w0 id e0 ps0 a n ws sts R Hc Sc Hn H0 A0 Fw Good.
  rewrite (L_C76_shifted cap s q0 c w0 (id, e0, ps0) (repeat (mkQuery id a n) (length ws)) ws sts R Hc Sc).
  - f_equal. unfold reports. generalize dependent ((id, e0, ps0) :: sts). generalize (length ws). clear.
    intro k. induction k as [|k IH]; intros l F; [reflexivity|].
    destruct F as [|[[id' e] ps] l [-> [Ne Lp]] F]; [reflexivity|].
    cbn [repeat combine map firstn]. rewrite (IH l F). f_equal.
    unfold reported, judge. cbn [q_id q_count]. unfold no_error in Ne. rewrite Ne, beq_refl, Lp, Nat.eqb_refl. reflexivity.
  - constructor; [exact H0|]. clear - Hn. induction (length ws); constructor; assumption.
  - exact A0.
  - exact Fw.
  - symmetry. apply repeat_length.
Qed.

(** ** Every call that waits for one answer *)

Lemma asks_shaped : forall B (m : M (result B transfer_error)) id i params, asks m id i params ->
  exists k fin, shaped m id i params k fin.
Proof.
  intros B m id i params A.
  destruct A as [id|id a n Hn|A D id a Hn|A D id a v bytes Hid Ok En|id a d Hid|A D id a v bytes Hid Ok S1 En|id a d Hid|id Hid|id k Hid|id Hid|id Hid|id Hid].
  - do 2 eexists. apply ping_shaped.
  - do 2 eexists. apply read_bytes_shaped, Hn.
  - do 2 eexists. apply read_shaped, Hn.
  - exists 0%N, fin_instruct. apply instruct_shaped; [apply address_and_value_writes; assumption| |exact Hid].
    rewrite app_length, (proj1 En). reflexivity.
  - do 2 eexists. apply instruct_shaped; [apply address_and_bytes_writes|rewrite app_length; reflexivity|exact Hid].
  - exists 0%N, fin_instruct. apply instruct_shaped; [apply address_and_value_writes; assumption| |exact Hid].
    rewrite app_length, (proj1 En), S1. reflexivity.
  - do 2 eexists. apply instruct_shaped; [apply address_and_bytes_writes|rewrite app_length; reflexivity|exact Hid].
  - do 2 eexists. apply instruct_shaped; [apply no_params_writes|reflexivity|exact Hid].
  - do 2 eexists. apply instruct_shaped; [apply factory_reset_writes|reflexivity|exact Hid].
  - do 2 eexists. apply instruct_shaped; [apply no_params_writes|reflexivity|exact Hid].
  - do 2 eexists. apply instruct_shaped; [apply clear_revolution_writes|reflexivity|exact Hid].
  - do 2 eexists. apply instruct_shaped; [apply clear_error_writes|reflexivity|exact Hid].
Qed.

Lemma frame_ideal : forall cap id body w q, 10 <= cap -> is_frame id body w -> body <> [] -> length w <= cap ->
  ideal cap (map inl w ++ q) =
    (Val (Ok (mkPacket (msg_head id (N.of_nat (length (pstuff body) + 2)) ++ unst 0 (pstuff body)))), q).
Proof.
  intros cap id body w q Hc F Hb L.
  apply (ideal_framed cap [] id (pstuff body) w q Hc empty_no_header); [|intro K; apply Hb, pstuff_nil, K|exact L].
  apply framed_iff. destruct (frame_message _ _ _ F) as [crc [E [C1 [C2 [C3 C4]]]]]. exists crc. auto.
Qed.

Lemma shaped_chunk : forall R (m : M R) id i params k fin cap s id' body w extra rest, shaped m id i params k fin ->
  10 <= cap -> hardy cap s -> fits cap (i :: params) -> p_script (b_port s) = RdData (w ++ extra) :: rest ->
  is_frame id' body w -> body <> [] -> length (w ++ extra) <= cap ->
  exists s', m s = (let* x := status_of (Val (Ok (mkPacket (msg_head id' (N.of_nat (length (pstuff body) + 2)) ++
      unst 0 (pstuff body))))) in fin x, s') /\ hardy cap s' /\ p_script (b_port s') = rest.
Proof.
  intros R m id i params k fin cap s id' body w extra rest [enc [Hw [Hk Sh]]] Hc H F S Fr Hb Le.
  pose proof (sends_instruction id i _ enc Hw) as Sd.
  destruct (sends_fits cap _ id i _ s Sd H F) as [s1 [[W [H1 _]] [P1 _]]].
  destruct (sends_script cap _ id i _ s s1 Sd H F W) as [Sc U]. rewrite S in Sc.
  rewrite (Sh s s1 W). unfold bind, lift.
  destruct (read_status_response k s1) as [x s2] eqn:Er.
  destruct (read_status_spec _ _ _ _ (ha_inv _ _ H1) Er) as [[p [T _]]|[t [o1 [_ [Id [Ho [I2 Ti]]]]]]].
  { exfalso. destruct (response_timeout_val (b_dbg s1) (b_baud s1) k Hk (ha_baud _ _ H1)) as [t T']. congruence. }
  destruct (timed_hardy cap t _ _ Ti I2 H1) as [H2 _].
  pose proof (ha_rcap _ _ H1) as Hr. rewrite app_length in Le.
  assert (Id2 : ideal (length (b_rbuf s1)) (map inl w ++ (map inl extra ++ items rest)) = (o1, pending s2)).
  { rewrite <- Id, pending_unread, U, Sc. cbn [app items map]. rewrite map_app, <- app_assoc. reflexivity. }
  rewrite (frame_ideal _ id' body w) in Id2; [|lia|exact Fr|exact Hb|lia]. injection Id2 as <- Pe.
  exists s2. rewrite Ho. split; [destruct (status_of _); reflexivity|]. split; [exact H2|].
  destruct (status_read_script k s1 x s2 (ha_inv _ _ H1) (ha_baud _ _ H1) Hk Er) as [dl [s0 [o0 [R0 [Rb [U0 [S0 Rd]]]]]]].
  apply (chunk_left dl s0 (w ++ extra) rest o0 s2 R0); try congruence.
  - rewrite Rb. lia.
  - rewrite Rb, app_length. lia.
  - rewrite Rb. intro Ne.
    destruct (frame_message _ _ _ Fr) as [crc [Ew [C1 [C2 [C3 C4]]]]]. rewrite Ew in Ne, Le.
    rewrite message_length in Le. rewrite next_event_message0 in Ne; [discriminate Ne|try assumption; lia..].
Qed.

Lemma L_C76_any_call : forall B (m : M (result B transfer_error)) id i params cap s w extra status rest,
  asks m id i params -> ready cap s -> 10 <= cap -> fits cap (i :: params) ->
  p_script (b_port s) = RdData (w ++ extra) :: rest -> answer_is cap w status -> length (w ++ extra) <= cap ->
  exists o s1 s2, m s = (o, s1) /\ p_script (b_port s1) = rest /\ m (set_script s [RdData w]) = (o, s2).
Proof.
  intros B m id i params cap s w extra [[id' e] ps] rest A R Hc F S [Fr [Ff Lw]] Le. apply ready_hardy in R.
  destruct (asks_shaped B m id i params A) as [k [fin Sh]].
  destruct (shaped_chunk _ m id i params k fin cap s id' _ w extra rest Sh Hc R F S Fr ltac:(discriminate) Le) as [s1 [E1 [_ S1]]].
  destruct (shaped_chunk _ m id i params k fin cap (set_script s [RdData (w ++ [])]) id' _ w [] [] Sh Hc (hardy_script _ _ _ R) F
    eq_refl Fr ltac:(discriminate) ltac:(rewrite app_nil_r; exact Lw)) as [s2 [E2 _]].
  rewrite app_nil_r in E2. do 3 eexists. split; [exact E1|]. split; [exact S1|exact E2].
Qed.

(** ** Concrete cases *)

Definition motor_1 (v : byte) : byte * byte * list byte := (x01, x00, [v]).

Lemma motor_1_answers : forall v, In v [x2a; x2b; x2c] -> answer_is 32 (frame x01 [x55; x00; v]) (motor_1 v).
Proof. intros v [<-|[<-|[<-|[]]]]; unfold answer_is, motor_1; (split; [demo|split; [demo|vm_compute; lia]]). Qed.

Lemma quiet_ready : ready 32 (fresh true [] 32 32).
Proof. split; [apply fresh_reach; lia|vm_compute; intuition (discriminate || lia)]. Qed.

Lemma L_C76_own_answer_refuted :
  ~ forall discards cap s q0 c w0 st0 qs ws sts, ready cap s -> 16 <= cap -> p_script (b_port s) = [] ->
      Forall (fun q => is_u16 (q_count q)) (q0 :: qs) -> answer_is cap w0 st0 -> Forall2 (answer_is cap) ws sts ->
      length ws = length qs ->
      poll discards (one_late q0 c w0 qs ws) s = gave_up c :: reports qs sts.
Proof.
  intro K. set (q := mkQuery x01 132 1).
  assert (R : ready 32 (fresh true [] 32 32)) by exact quiet_ready.
  assert (A : answer_is 32 (frame x01 [x55; x00; x2a]) (motor_1 x2a)) by (apply motor_1_answers; cbn; auto).
  assert (B : Forall2 (answer_is 32) [frame x01 [x55; x00; x2b]] [motor_1 x2b])
    by (constructor; [apply motor_1_answers; cbn; auto|constructor]).
  assert (Q : Forall (fun q => is_u16 (q_count q)) [q; q]) by (repeat constructor).
  specialize (K false 32 _ q 0%N _ _ [q] _ _ R ltac:(lia) eq_refl Q A B eq_refl).
  rewrite (L_C76_shifted 32 _ q 0%N _ _ [q] _ _ R ltac:(lia) eq_refl Q A B eq_refl) in K. discriminate K.
Qed.

Lemma L_C76_race_refuted :
  ~ forall cap s q w0 st0 w st, ready cap s -> 16 <= cap -> is_u16 (q_count q) -> answer_is cap w0 st0 ->
      answer_is cap w st -> poll true [(q, ([], [RdData w0; RdData w]))] s = [reported q st].
Proof.
  intro K. set (q := mkQuery x01 132 1).
  assert (R : ready 32 (fresh true [] 32 32)) by exact quiet_ready.
  assert (A : answer_is 32 (frame x01 [x55; x00; x2a]) (motor_1 x2a)) by (apply motor_1_answers; cbn; auto).
  assert (B : answer_is 32 (frame x01 [x55; x00; x2b]) (motor_1 x2b)) by (apply motor_1_answers; cbn; auto).
  specialize (K 32 _ q _ _ _ _ R ltac:(lia) ltac:(reflexivity) A B).
  rewrite (L_C76_first_after_discard 32 [(q, ([], [RdData (frame x01 [x55; x00; x2a]); RdData (frame x01 [x55; x00; x2b])]))]
    [reported q (motor_1 x2a)] _ R ltac:(lia)) in K; [discriminate K|].
  constructor; [|constructor]. rewrite <- (app_nil_r (frame x01 [x55; x00; x2a])).
  constructor; [reflexivity|exact A|vm_compute; lia].
Qed.
