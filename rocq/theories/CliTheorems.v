(** * CliTheorems: the commands of the command line tool *)
From Coq Require Import ZArith ZifyN ZifyNat ZifyBool.
From Verif Require Import Base Endian Error Checksum Bytestuff Packet Time Bus Data Client
  Instructions Device Api Cli Spec CallSpec StreamSpec DeviceSpec InstructionSpec DataSpec CliSpec Demo Lib ChecksumProofs
  CrcErrorProofs StuffProofs WriteProofs ReadProofs ApiProofs StreamProofs MessageProofs SendProofs
  SendTheorems ReadTheorems StatusProofs DeviceTheorems InstructionProofs DemoProofs TransferTheorems
  TimeTheorems DataTheorems IterProofs ScanTheorems.

Lemma transmits_or_log : forall A E (m : M (result A E)) k id i params, keeps m -> transmitsW m id i params ->
  transmitsW (or_log m k) id i params.
Proof. intros A E m k id i params K T. apply transmits_try; [exact K|exact T|]. intro a. apply quiet_ret. Qed.

Lemma quiet_rsrt : forall t, quiet (read_status_response_timeout t).
Proof.
  intro t. split; [apply keeps_rsrt|]. intros s o s' H E.
  destruct (read_status_timeout_spec _ _ _ _ H E) as [o1 [_ [_ [_ T]]]].
  destruct (timed_calls _ _ _ T) as [evs [C F]]. exists (LDeadline (deadline_of t s) :: evs). split; [exact C|].
  constructor; [exact I|]. apply (reads_only _ _ F).
Qed.

Lemma quiet_scan_next : quiet scan_next.
Proof.
  unfold scan_next, scan_next_response. apply quiet_bind; [|intro; apply quiet_ret].
  apply quiet_bind; [apply quiet_get|]. intro. apply quiet_bind; [apply quiet_lift|]. intro.
  apply quiet_try; [apply quiet_rsrt|]. intro. apply quiet_bind; [apply quiet_lift|]. intro. apply quiet_ret.
Qed.

Lemma quiet_scan_drop : forall n, quiet (scan_drop n).
Proof.
  induction n as [|n IH]; cbn [scan_drop]; [apply quiet_ret|]. apply quiet_bind; [apply quiet_scan_next|].
  intros [x|]; [exact IH|apply quiet_ret].
Qed.

Lemma quiet_cli_scan_loop : forall n acc, quiet (cli_scan_loop n acc).
Proof.
  induction n as [|n IH]; intro acc; cbn [cli_scan_loop]; [apply quiet_ret|]. apply quiet_bind; [apply quiet_scan_next|].
  intros [x|]; [apply IH|apply quiet_ret].
Qed.

Lemma api_keeps_write : forall A (D : data_impl A) id a v, data_ok D -> keeps (write D id a v).
Proof. intros. apply api_keeps, api_write. assumption. Qed.

Lemma transmits_write_int : forall w id a v bytes, In w [1; 2; 4; 8; 16] -> int_bytes false w v bytes ->
  transmitsW (write (data_int false w) id a v) id WRITE (le16 a ++ bytes).
Proof.
  intros w id a v bytes Hw B. pose proof (ct_int false w Hw) as Ct.
  assert (He : encodes_as (data_int false w) v bytes).
  { destruct (crate_good _ _ _ _ Ct) as [G1 [_ [G3 _]]]. split; [apply (G1 _ _ B)|].
    intros buf L. rewrite (G3 _ _ _ B) by lia. rewrite skipn_all2 by lia. rewrite app_nil_r. reflexivity. }
  unfold write. apply transmits_instruct.
  - apply address_and_value_writes; [apply (crate_data_ok _ _ _ _ Ct)|exact He].
  - rewrite app_length. rewrite (proj1 He). reflexivity.
Qed.

Lemma L_C53_command_sends : forall c id i params, command_request c id i params ->
  forall fuel, transmits (cli_command fuel c) id i params.
Proof.
  intros c id i params H fuel. apply transmits_of.
  destruct H as [id| |m|id a|id a|id a|id a n|m a v bytes B|m a v bytes B|m a v bytes B|m a data];
    cbn [cli_command assume_unicast tryr].
  - apply transmits_or_log; [apply api_keeps, api_ping|]. eapply request_transmits, rq_ping.
  - apply transmits_try; [apply api_keeps, api_scan|eapply request_transmits, rq_scan|].
    intro. apply quiet_bind; [apply quiet_cli_scan_loop|]. intros [l|]; [|apply quiet_lift].
    apply quiet_bind; [apply quiet_scan_drop|]. intros [|]; [apply quiet_ret|apply quiet_lift].
  - apply transmits_or_log; [apply api_keeps, api_reboot|].
    apply transmits_instruct; [apply no_params_writes|reflexivity].
  - apply transmits_or_log; [apply api_keeps, api_read|].
    unfold read. apply transmits_try; [apply keeps_read_raw|apply (transmits_read_raw id a 1)|intro; quiet_all].
  - apply transmits_or_log; [apply api_keeps, api_read|].
    unfold read. apply transmits_try; [apply keeps_read_raw|apply (transmits_read_raw id a 2)|intro; quiet_all].
  - apply transmits_or_log; [apply api_keeps, api_read|].
    unfold read. apply transmits_try; [apply keeps_read_raw|apply (transmits_read_raw id a 4)|intro; quiet_all].
  - apply transmits_or_log; [apply api_keeps, api_read_bytes|].
    unfold read_bytes. apply transmits_try; [apply keeps_read_raw|apply transmits_read_raw|intro; quiet_all].
  - apply transmits_or_log; [apply api_keeps_write; apply (crate_data_ok _ _ _ _ (ct_int false 1 ltac:(cbn; auto)))|].
    apply transmits_write_int; [cbn; auto|exact B].
  - apply transmits_or_log; [apply api_keeps_write; apply (crate_data_ok _ _ _ _ (ct_int false 2 ltac:(cbn; auto)))|].
    apply transmits_write_int; [cbn; auto|exact B].
  - apply transmits_or_log; [apply api_keeps_write; apply (crate_data_ok _ _ _ _ (ct_int false 4 ltac:(cbn; auto)))|].
    apply transmits_write_int; [cbn; auto|exact B].
  - apply transmits_or_log; [apply api_keeps, api_write_bytes|].
    apply transmits_instruct; [apply address_and_bytes_writes|]. rewrite app_length. reflexivity.
Qed.

Lemma or_log_ok : forall A E (m : M (result A E)) k s rep s', or_log m k s = (Val (Ok rep), s') ->
  exists a, m s = (Val (Ok a), s') /\ rep = k a.
Proof.
  intros A E m k s rep s' H. unfold or_log, try_, bind in H. destruct (m s) as [[[a|e]|p|] s1]; try discriminate.
  injection H as <- <-. eauto.
Qed.

Lemma read_int_reports : forall w id a s rep s', In w [1; 2; 4; 8; 16] -> reach s ->
  or_log (read (data_int false w) id a) RepValue s = (Val (Ok rep), s') ->
  exists e data, carries (incoming s) id (x55 :: e :: data) (pending s') /\ no_error e /\ length data = w /\
    rep = RepValue (mkResponse id (alert_bit e) (le_value data)).
Proof.
  intros w id a s rep s' Hw R H. apply or_log_ok in H as [r [H ->]].
  destruct (L_C25_read _ _ _ _ _ _ _ R H) as [e [data [v [C [Z [L [Dc ->]]]]]]].
  exists e, data. split; [exact C|]. split; [exact Z|]. split; [exact L|]. do 2 f_equal.
  cbn [d_decode data_int d_size] in Dc, L. unfold param_count_check in Dc. rewrite L, Nat.eqb_refl in Dc.
  rewrite slice_val in Dc by lia. cbn [obind skipn] in Dc. rewrite firstn_all2 in Dc by lia.
  injection Dc as <-. unfold int_value. cbn [andb]. symmetry. apply le_value_from_le.
Qed.

Lemma L_C53_reading_reports : forall c id n report fuel s rep s', reading c id n report -> reach s ->
  cli_command fuel c s = (Val (Ok rep), s') ->
  exists e data, carries (incoming s) id (x55 :: e :: data) (pending s') /\ no_error e /\ length data = n /\
    rep = report (alert_bit e) data.
Proof.
  intros c id n report fuel s rep s' H R E.
  destruct H as [id a|id a|id a|id a n|id]; cbn [cli_command assume_unicast tryr] in E.
  - apply read_int_reports in E; [exact E|cbn; auto|exact R].
  - apply read_int_reports in E; [exact E|cbn; auto|exact R].
  - apply read_int_reports in E; [exact E|cbn; auto|exact R].
  - apply or_log_ok in E as [r [E ->]].
    destruct (L_C25_read_bytes _ _ _ _ _ _ R E) as [e [data [C [Z [L ->]]]]]. eauto 7.
  - apply or_log_ok in E as [r [E ->]].
    destruct (L_C25_ping _ _ _ _ R E) as [e [m0 [m1 [f [C [Z ->]]]]]].
    exists e, [m0; m1; f]. split; [exact C|]. split; [exact Z|]. split; [reflexivity|].
    do 3 f_equal. cbn [firstn le_value]. lia.
Qed.

(** A command that changes something reports success only with an acknowledgement
    (of some motor, see C26), or, for all motors, as soon as it is sent. *)
Lemma L_C53_changing_reports : forall c m fuel s rep s', changing c m -> reach s ->
  cli_command fuel c s = (Val (Ok rep), s') ->
  match m with
  | MId id => id <> xfe -> exists id' e, carries (incoming s) id' [x55; e] (pending s') /\ no_error e /\
      rep = RepDone (mkResponse id' (alert_bit e) tt)
  | MBroadcast => rep = RepDone (mkResponse xfe false tt)
  end.
Proof.
  intros c m fuel s rep s' H R E.
  assert (K : exists f r, acknowledged f /\ f (motor_id_raw m) s = (Val (Ok r), s') /\ rep = RepDone r).
  { destruct H as [m|m a v|m a v|m a v|m a data]; cbn [cli_command] in E; apply or_log_ok in E as [r [E ->]].
    - exists reboot, r. split; [apply ak_reboot|]. auto.
    - exists (fun id => write (data_int false 1) id a (Z.of_N v)), r.
      split; [apply (ak_write _ (data_int false 1)); apply (crate_data_ok _ _ _ _ (ct_int false 1 ltac:(cbn; auto)))|]. auto.
    - exists (fun id => write (data_int false 2) id a (Z.of_N v)), r.
      split; [apply (ak_write _ (data_int false 2)); apply (crate_data_ok _ _ _ _ (ct_int false 2 ltac:(cbn; auto)))|]. auto.
    - exists (fun id => write (data_int false 4) id a (Z.of_N v)), r.
      split; [apply (ak_write _ (data_int false 4)); apply (crate_data_ok _ _ _ _ (ct_int false 4 ltac:(cbn; auto)))|]. auto.
    - exists (fun id => write_bytes id a data), r. split; [apply ak_write_bytes|]. auto. }
  destruct K as [f [r [Ha [Ef ->]]]]. destruct m as [id|]; cbn [motor_id_raw] in Ef.
  - intro Hid. destruct (L_C26_acknowledged_partial f s id r s' Ha Hid R Ef) as [id' [e [C [Z ->]]]]. eauto 6.
  - destruct (acknowledged_instruct f Ha) as [i [n [enc [He Hf]]]]. rewrite Hf in Ef.
    unfold instruct, try_ in Ef. unfold bind at 1 in Ef. change BROADCAST with xfe in Ef.
    destruct (write_instruction xfe i n enc s) as [[[[]|?]|?|] s1]; try discriminate.
    vm_compute in Ef. injection Ef as <- _. reflexivity.
Qed.

Lemma scan_drop_more : forall n m s s', scan_drop n s = (Val true, s') -> n <= m -> scan_drop m s = (Val true, s').
Proof.
  induction n as [|n IH]; intros m s s' E L; [discriminate|]. destruct m as [|m]; [lia|].
  cbn [scan_drop] in *. unfold bind in *. destruct (scan_next s) as [[[x|]|?|] s1]; try discriminate.
  - apply IH; [exact E|lia].
  - exact E.
Qed.

Lemma write_baud : forall id i n enc s o s', inv s -> encoder_ok enc -> write_instruction id i n enc s = (o, s') ->
  b_baud s' = b_baud s.
Proof.
  intros id i n enc s o s' H He E. unfold write_instruction in E. rewrite write_packet_gen in E by (try apply H; exact He).
  unfold write_gen in E. cbv zeta in E.
  destruct (usize_max <? N.of_nat (n + 10))%N; [injection E as <- <-; reflexivity|].
  destruct (length (b_wbuf s) <? n + 10) eqn:L; [injection E as <- <-; reflexivity|].
  destruct (enc (firstn n (skipn 8 (b_wbuf s)))) as [[params [[]|e]]|p|]; try (injection E as <- <-; reflexivity).
  unfold write_value in E. cbv zeta in E.
  destruct (length (b_wbuf s) <? length params + 10); [injection E as <- <-; reflexivity|].
  destruct (build_result (b_dbg s) (length (b_wbuf s)) (i :: params)); try (injection E as <- <-; reflexivity).
  unfold transmit in E. destruct (hd None _); injection E as <- <-; reflexivity.
Qed.

(** The items of the scan. *)
Lemma cli_scan_loop_items : forall items s k acc s', scan_nexts (length items + 1) s = (Val (map Some items ++ [None]), s') ->
  length items < k -> cli_scan_loop k acc s = (Val (Some (acc ++ items)), s').
Proof.
  induction items as [|x items IH]; intros s k acc s' H L; (destruct k as [|k]; [lia|]);
    cbn [length Nat.add map app scan_nexts cli_scan_loop] in *; unfold bind in *.
  - destruct (scan_next s) as [[y|?|] s1]; try discriminate. cbn in H. injection H as -> ->. rewrite app_nil_r. reflexivity.
  - destruct (scan_next s) as [[y|?|] s1]; try discriminate.
    destruct (scan_nexts (length items + 1) s1) as [[ys|?|] s2] eqn:N; try discriminate.
    injection H as -> -> ->. rewrite (IH s1 k (acc ++ [x]) s') by (try exact N; lia).
    rewrite <- app_assoc. reflexivity.
Qed.

(** A scan reports every status packet that arrives before the first timeout, and
    then (C52) listens until the next one: packets that arrive in between are lost. *)
Lemma L_C53_scan_reports : forall sts late s s0 e line g e2 rest fuel, reach s -> b_baud s <> 0%N ->
  (b_baud s < 2 ^ 32)%N -> 10 <= length (b_rbuf s) -> scan s = (Val (Ok tt), s0) ->
  is_timeout_error e = true -> is_timeout_error e2 = true -> ~ contains g header ->
  statuses (length (b_rbuf s)) (pending s0) sts (inr e :: line) ->
  statuses (length (b_rbuf s)) line late (map inl g ++ inr e2 :: rest) ->
  length sts < fuel -> length late < fuel ->
  exists s' g' c, cli_command fuel (CPing MBroadcast) s = (Val (Ok (RepScan (map judge_ping sts))), s') /\
    garbage_split g g' c /\ pending s' = map inl c ++ rest.
Proof.
  intros sts late s s0 e line g e2 rest fuel R Hb Hb2 L S0 Te Te2 G H1 H2 F1 F2.
  pose proof (reach_call _ scan s _ s0 R api_scan S0) as R0.
  destruct (keeps_wi BROADCAST PING 0 no_params no_params_ok s _ s0 (reach_inv _ R) S0) as [_ Ec _ _ _].
  assert (B0 : b_baud s0 = b_baud s) by (apply (write_baud _ _ _ _ _ _ _ (reach_inv _ R) no_params_ok S0)).
  rewrite <- Ec in *. rewrite <- B0 in *.
  destruct (scan_run sts s0 [] e line R0 Hb Hb2 L ltac:(intros [x [y K]]; destruct x; discriminate K) Te H1)
    as [s1 [g1 [c1 [Sp [P1 [N1 _]]]]]].
  destruct Sp as [Sp _]. destruct g1; [|discriminate]. destruct c1; [|discriminate]. cbn [map app] in P1.
  assert (L1 : cli_scan_loop fuel [] s0 = (Val (Some (map judge_ping sts)), s1)).
  { rewrite (cli_scan_loop_items (map judge_ping sts) s0 fuel [] s1); [reflexivity| |rewrite map_length; exact F1].
    rewrite map_length, map_map. exact N1. }
  assert (K1 : reach s1 /\ length (b_rbuf s1) = length (b_rbuf s0) /\ b_baud s1 = b_baud s0).
  { clear -N1 R0. revert s0 R0 N1. generalize (map (fun st => Some (judge_ping st)) sts ++ [None]).
    induction (length sts + 1) as [|n IH]; intros l s0 R0 N1; cbn [scan_nexts] in N1.
    - injection N1 as _ <-. auto.
    - unfold bind in N1. destruct (scan_next s0) as [[y|?|] s2] eqn:E; try discriminate.
      destruct (scan_nexts n s2) as [[ys|?|] s3] eqn:E2; try discriminate. injection N1 as _ <-.
      destruct (IH ys s2 (scan_next_reach _ _ _ R0 E) E2) as [A [B C]].
      destruct (scan_next_caps _ _ _ R0 E) as [C1 C2]. split; [exact A|]. split; congruence. }
  destruct K1 as [R1 [C1 B1]]. rewrite <- C1, <- B1 in *.
  rewrite <- P1 in H2.
  destruct (scan_run late s1 g e2 rest R1 Hb Hb2 L G Te2 H2) as [s2 [g2 [c2 [Sp2 [P2 [_ D2]]]]]].
  exists s2, g2, c2. split; [|split; assumption].
  cbn [cli_command]. unfold try_, bind. rewrite S0, L1.
  rewrite (scan_drop_more _ fuel _ _ D2) by lia. reflexivity.
Qed.
