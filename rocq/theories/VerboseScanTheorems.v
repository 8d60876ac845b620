(** * VerboseScanTheorems: what a scan shows of each motor (C91) *)
From Coq Require Import ZArith ZifyN ZifyNat ZifyBool Ascii String.
From Verif Require Import Base Endian Error Checksum Bytestuff Packet Time Bus Data Client Instructions Device Api Spec CallSpec
  StreamSpec DeviceSpec InstructionSpec Text Cli LogModel LogSpec CliOutput CliOutputSpec VerboseModel VerboseSpec Lib ReadProofs
  ApiProofs StreamProofs MessageProofs StuffProofs SendTheorems ReadTheorems StatusProofs TransferTheorems ScanTheorems TextTheorems
  TwinProofs DataSpec DataTheorems LogTheorems CliSpec CliTheorems CliOutputTheorems VerboseTheorems.
Local Open Scope list_scope.
Ltac Zify.zify_post_hook ::= Z.div_mod_to_equations.

Lemma story_pending : forall s t s' o g ws, pending s = pending t -> read_story s s' o g ws -> read_story t s' o g ws.
Proof. intros s t s' o g ws P H. destruct H; econstructor; first [eassumption|rewrite <- P; eassumption]. Qed.

Lemma story_after : forall s s' t' o g ws, pending s' = pending t' -> read_story s s' o g ws -> read_story s t' o g ws.
Proof. intros s s' t' o g ws P H. destruct H; econstructor; first [eassumption|rewrite <- P; eassumption]. Qed.

Ltac fin E := unfold quiet, ret, say, tbind in E; cbn in E;
  repeat match type of E with context [if is_timeout_error ?z then _ else _] => destruct (is_timeout_error z) end;
  cbn in E; injection E as _ _ <-; rewrite ?received_app, ?sent_app, ?app_nil_r; cbn; rewrite ?app_nil_r; split; reflexivity.

(** A step of a scan: one read, and what it is judged to be. *)
Lemma scan_next_told : forall s x s' l, wide s -> scan_next_log s = (Val x, s', l) ->
  exists o g ws, read_story s s' o g ws /\ received_in l = ws /\ sent_in l = [] /\ scan_judge (status_of o) = Val x /\
    ideal (List.length (b_rbuf s)) (pending s) = (o, pending s').
Proof.
  intros s x s' l [I Hc] E.
  assert (E1 : scan_next s = (Val x, s')) by (rewrite <- L_C64_scan_unchanged, E; reflexivity).
  destruct (scan_timeout (b_dbg s) (b_baud s)) as [t|q|] eqn:T.
  2,3: unfold scan_next, scan_next_response, bind, get, lift in E1; rewrite T in E1; discriminate E1.
  rewrite (scan_next_eq s t T) in E1.
  destruct (read_status_response_timeout t s) as [o2 s2] eqn:Rd. cbn [fst snd] in E1. injection E1 as J ->.
  destruct (read_status_timeout_spec _ _ _ _ I Rd) as [o1 [Id [K _]]]. subst o2.
  unfold scan_next_log, tbind at 1, scan_next_response_log in E. rewrite tbind_quiet in E. cbn [get] in E.
  rewrite tbind_quiet in E. unfold lift at 1 in E. rewrite T in E.
  unfold read_status_response_timeout_log, ttry at 1, tbind at 1 in E. rewrite tbind_quiet in E. unfold port_make_deadline in E.
  set (sd := set_port s _) in E. set (d := mkDeadline _ _) in E.
  assert (P2 : pending sd = pending s) by reflexivity.
  assert (Ok2 : rd_ok sd) by exact (proj1 I).
  assert (Hc2 : 10 <= List.length (b_rbuf sd)) by exact Hc.
  assert (Hl : List.length (b_rbuf sd) = List.length (b_rbuf s)) by reflexivity.
  clearbody sd d. unfold ttry at 1, tbind at 1 in E.
  destruct (read_packet_deadline_log d sd) as [[o3 s3] l3] eqn:R3.
  assert (R3' : read_packet_deadline d sd = (o3, s3)) by (rewrite <- L_C64_read_unchanged, R3; reflexivity).
  pose proof (read_ideal _ _ _ _ Ok2 R3') as Id3. rewrite P2, Hl, Id in Id3.
  destruct (read_log_story d sd o3 s3 l3 Ok2 Hc2 R3) as [g [ws [St [L1 [L2 _]]]]].
  injection Id3 as E3 P3.
  assert (L : received_in l = received_in l3 /\ sent_in l = sent_in l3).
  { clear - E. destruct o3 as [[p|e]|q|]; try discriminate E.
    - unfold quiet at 1 in E.
      match type of E with context [bind (lift (as_status p)) ?h s3] =>
        destruct (bind (lift (as_status p)) h s3) as [[[p4|e4]|q4|] s4] end; try discriminate E.
      + unfold quiet at 1 in E.
        match type of E with context [bind (lift (response_ping p4)) ?h s4] =>
          destruct (bind (lift (response_ping p4)) h s4) as [[[p5|[]]|q5|] s5] end; try discriminate E; fin E.
      + destruct e4; fin E.
    - destruct e; fin E. }
  destruct L as [La Lb]. subst o3. exists o1, g, ws.
  split; [|split; [congruence|split; [congruence|split; [congruence|exact Id]]]].
  apply story_pending with (s := sd); [exact P2|]. apply story_after with (s' := s3); [congruence|exact St].
Qed.

Lemma bytes_inj : forall a b : list byte, map (@inl byte io_error) a = map inl b -> a = b.
Proof. induction a as [|x a IH]; intros [|y b] E; try discriminate E; [reflexivity|]. injection E as -> E. f_equal. apply IH, E. Qed.
Lemma app_inj_r : forall a b c d : list byte, a ++ b = c ++ d -> List.length b = List.length d -> a = c /\ b = d.
Proof.
  induction a as [|x a IH]; intros b [|y c] d E L; cbn [app] in E.
  - auto.
  - apply (f_equal (@List.length byte)) in E. cbn [List.length] in E. rewrite app_length in E. lia.
  - apply (f_equal (@List.length byte)) in E. cbn [List.length] in E. rewrite app_length in E. lia.
  - injection E as -> E. destruct (IH _ _ _ E L) as [-> ->]. auto.
Qed.

(** The message the log shows is the one the packet is made of. *)
Lemma message_shown : forall cap s s' p g ws, ideal cap (pending s) = (Val (Ok p), pending s') ->
  read_story s s' (Val (Ok p)) g ws ->
  exists m id body, ws = [m] /\ m = header ++ [id] ++ le16 (N.of_nat (List.length body + 2)) ++ body /\ body <> [] /\
    packet_is p id (unst 0 body).
Proof.
  intros cap s s' p g ws Id St. destruct (ideal_ok_inv _ _ _ _ Id) as [_ [g1 [id [body [w [G [F [_ [Hb [P ->]]]]]]]]]].
  inversion St as [p0 g0 m c P1 L1 S1| | | | |]. subst. rewrite P1 in P. apply app_inv_tail in P.
  apply bytes_inj in P. destruct F as [crc [-> _]]. exists m, id, body. split; [reflexivity|].
  split; [|split; [exact Hb|apply packet_head]].
  destruct (split_unique _ _ _ S1) as [Sc _]. rewrite P in Sc.
  change (message id body crc) with (wire_of_body id body crc) in Sc. unfold wire_of_body in Sc.
  rewrite clean_garbage in Sc by exact G. apply (f_equal (@rev byte)) in Sc.
  assert (X : m ++ c = (header ++ [id] ++ le16 (N.of_nat (List.length body + 2)) ++ body) ++ le16 crc).
  { apply (f_equal (@rev byte)) in Sc. rewrite !rev_involutive in Sc. rewrite Sc, <- !app_assoc. reflexivity. }
  apply app_inj_r in X; [exact (proj1 X)|rewrite L1; reflexivity].
Qed.

Lemma item_told : forall cap s s' o g ws x, ideal cap (pending s) = (o, pending s') -> read_story s s' o g ws ->
  scan_judge (status_of o) = Val (Some x) ->
  match x with
  | Ok _ | Err (RMotorError _) => exists m, ws = [m] /\ says_ping m x
  | Err (RInvalidMessage _) => exists m, ws = [m]
  | Err (RBufferFull _) | Err (RIo _) => ws = []
  end.
Proof.
  intros cap s s' o g ws x Id St J. destruct o as [[p|e]|q|]; try discriminate J.
  - destruct (message_shown _ _ _ _ _ _ Id St) as [m [id [body [-> [-> [Hb P]]]]]]. cbn [status_of] in J.
    pose proof (unst_some body) as U.
    destruct (unst 0 body) as [|i u] eqn:Eu; [exfalso; inversion U; subst; contradiction|].
    destruct (Byte.byte_eq_dec i STATUS) as [->|Ne].
    + destruct u as [|e ps]; [rewrite (status_check_short _ _ P) in J; discriminate J|].
      rewrite (status_check_status _ _ _ _ P) in J.
      assert (M : N.land (b2n e) 127 = (b2n e mod 128)%N) by (change 127%N with (N.ones 7); apply N.land_ones).
      rewrite M in J. assert (Sp : forall y, y = judge_ping (id, e, ps) ->
        says_ping (header ++ [id] ++ le16 (N.of_nat (List.length body + 2)) ++ body) y).
      { intros y ->. exists id, e, ps, body. auto. }
      unfold judge_ping in Sp. destruct (b2n e mod 128 =? 0)%N; cbn [negb] in Sp; cbn [scan_judge] in J.
      * rewrite (response_ping_val _ _ _ _ P) in J.
        destruct ps as [|a [|b [|c [|]]]]; injection J as <-; eauto.
      * injection J as <-. eauto.
    + rewrite (status_check_other _ _ _ _ P Ne) in J. injection J as <-. eauto.
  - cbn [status_of] in J. inversion St; subst; cbn in J.
    + injection J as <-. eauto.
    + injection J as <-. reflexivity.
    + destruct (is_timeout_error _); [discriminate J|]. injection J as <-. reflexivity.
Qed.

Lemma end_told : forall s s' o g ws, read_story s s' o g ws -> scan_judge (status_of o) = Val None -> ws = [].
Proof.
  intros s s' o g ws St J. destruct o as [[p|e]|q|]; try discriminate J.
  - exfalso. cbn [status_of] in J. destruct (status_check p) as [[q|e]|q|] eqn:K; try discriminate J.
    + exact (response_ping_no_none _ J).
    + destruct e as [e|e|e|e]; try discriminate J. pose proof (status_of_io (Val (Ok p)) e K) as X. discriminate X.
  - inversion St; subst; cbn in J; try discriminate J; reflexivity.
Qed.

Lemma item_lines_told : forall io el x, item_lines io el x (scan_item_lines io el x).
Proof.
  intros io el [r|e]; cbn [item_lines scan_item_lines]; [|reflexivity].
  unfold ping_lines. do 3 eexists. split; [reflexivity|]. split; [apply dec_numeral|]. split; apply dec_numeral.
Qed.

Lemma scan_each : forall io el fuel k acc s l s' es, wide s -> scan_verbose io el fuel k acc s = (Val (Some l), s', es) ->
  exists l' each last, l = acc ++ l' /\ es = each ++ map Lib last /\ scan_entries io el k l' each /\ received_in last = [].
Proof.
  induction fuel as [|fuel IH]; intros k acc s l s' es I E; [discriminate E|].
  cbn [scan_verbose] in E. unfold wbind at 1, lib in E.
  destruct (scan_next_log s) as [[[y|p|] s1] l1] eqn:E1; try discriminate E.
  destruct (heard_scan_next s y s1 l1 I E1) as [I1 _].
  destruct (scan_next_told s y s1 l1 I E1) as [o [g [ws [St [R [_ [J Id]]]]]]].
  destruct y as [y|].
  - unfold wbind, tell in E. destruct (scan_verbose io el fuel (S k) (acc ++ [y]) s1) as [[o2 s2] l2] eqn:E2.
    injection E as -> <- <-. destruct (IH _ _ _ _ _ _ I1 E2) as [l' [each [last [-> [-> [H L]]]]]].
    exists (y :: l'), (map Lib l1 ++ map Own (scan_item_lines io (el k) y) ++ each), last.
    split; [rewrite <- app_assoc; reflexivity|]. split; [rewrite <- !app_assoc; reflexivity|]. split; [|exact L].
    constructor; [|apply item_lines_told|exact H]. rewrite R. exact (item_told _ _ _ _ _ _ _ Id St J).
  - unfold wret in E. injection E as <- <- <-. exists [], [], l1. rewrite !app_nil_r.
    split; [reflexivity|]. split; [reflexivity|]. split; [constructor|]. rewrite R. exact (end_told _ _ _ _ _ St J).
Qed.

Lemma L_C91_scan_each : forall io el fuel s l s' es, reach s -> 10 <= List.length (b_rbuf s) ->
  cli_verbose io el fuel (CPing MBroadcast) s = (Val (Ok (RepScan l)), s', es) ->
  exists w each last, es = Lib (LogSending w) :: each ++ map Lib last /\ scan_entries io el 0 l each.
Proof.
  intros io el fuel s l s' es R Hc E. pose proof (reach_inv _ R) as I.
  cbn [cli_verbose] in E. unfold wbind at 1, lib at 1, scan_log in E.
  destruct (write_packet_log BROADCAST PING 0 no_params s) as [[[[[]|e]|p|] s1] l1] eqn:W; try discriminate E.
  destruct (write_log_ok _ _ _ _ _ _ _ I no_params_ok W) as [w [-> [I1 [_ P1]]]].
  assert (W1 : write_packet BROADCAST PING 0 no_params s = (Val (Ok tt), s1)) by (rewrite <- L_C64_write_unchanged, W; reflexivity).
  assert (I2 : wide s1).
  { split; [exact I1|]. pose proof (keeps_wi BROADCAST PING 0 no_params no_params_ok s _ s1 I W1) as [_ Lr _ _ _]. lia. }
  unfold wbind at 1 in E. destruct (scan_verbose io el fuel 0 [] s1) as [[[[x|]|p|] s2] e2] eqn:E2; try discriminate E.
  destruct (scan_each _ _ _ _ _ _ _ _ _ I2 E2) as [l' [each [last [-> [-> [H _]]]]]].
  unfold wbind, lib in E. destruct (scan_drop_log fuel s2) as [[[[|]|p|] s3] l3] eqn:E3; try discriminate E.
  unfold wret in E. injection E as <- _ <-. exists w, each, (last ++ l3). split; [|exact H].
  cbn [map app]. rewrite map_app, app_nil_r, <- app_assoc. reflexivity.
Qed.

(** ** The message shown says what the tool reports *)

Lemma carried_shown : forall line id body rest g m c, carries line id body rest -> line = map inl (g ++ m ++ c) ++ rest ->
  garbage_split (g ++ m ++ c) g (m ++ c) -> List.length c = 2 ->
  exists stuffed, m = header ++ [id] ++ le16 (N.of_nat (List.length stuffed + 2)) ++ stuffed /\ some_stuffed body stuffed.
Proof.
  intros line id body rest g m c [g1 [st [w [G [[crc [-> _]] [U P]]]]]] P1 S1 L1. rewrite P1 in P. apply app_inv_tail in P.
  apply bytes_inj in P. exists st. split; [|exact U].
  destruct (split_unique _ _ _ S1) as [Sc _]. rewrite P in Sc.
  change (message id st crc) with (wire_of_body id st crc) in Sc. unfold wire_of_body in Sc. rewrite clean_garbage in Sc by exact G.
  assert (X : m ++ c = (header ++ [id] ++ le16 (N.of_nat (List.length st + 2)) ++ st) ++ le16 crc)
    by (rewrite Sc, <- !app_assoc; reflexivity).
  apply app_inj_r in X; [exact (proj1 X)|rewrite L1; reflexivity].
Qed.

Lemma command_of_verbose : forall io el fuel c s o s' es, cli_verbose io el fuel c s = (o, s', es) ->
  cli_command fuel c s = (o, s').
Proof.
  intros io el fuel c s o s' es E. rewrite <- (L_C65_same io el), (L_C91_same _ _ _ _ _ _ _ _ E). destruct o; reflexivity.
Qed.

Lemma reads_write_nothing : forall evs, Forall only_reads evs -> written_in evs = [].
Proof. intros evs H. induction H as [|e evs He H IH]; [reflexivity|]. destruct e; cbn in *; try contradiction; exact IH. Qed.

Lemma L_C91_request : forall io el c id i params fuel s o s' es verbose, command_request c id i params -> reach s ->
  cli_verbose io el fuel c s = (o, s', es) -> (2 <= verbose < 256)%N ->
  exists evs, calls s s' evs /\
    ((exists w, sent id i params evs /\ written_in evs = [w] /\
        after "Trace:  sending packet: " (screen verbose es) = [hex2_array w]) \/
     (nothing_sent evs /\ (forall r, o <> Val (Ok r)) /\ after "Trace:  sending packet: " (screen verbose es) = [])) /\
    (plenty_of_room s (List.length params) -> hd None (p_discards (b_port s)) = None -> sent id i params evs).
Proof.
  intros io el c id i params fuel s o s' es v H R E Hv.
  destruct (L_C53_command_sends c id i params H fuel s o s' R (command_of_verbose _ _ _ _ _ _ _ _ E)) as [evs [C [D Rm]]].
  destruct (L_C91_traffic io el fuel c s o s' es v R E ltac:(lia)) as [evs2 [C2 T]].
  rewrite (calls_inj _ _ _ _ C2 C) in T. replace (2 <=? v)%N with true in T by lia.
  exists evs. split; [exact C|]. split; [|exact Rm]. destruct D as [D|[D1 D2]].
  - left. pose proof D as [w [r [evs' [X [_ [_ F]]]]]]. exists w. split; [exact D|].
    assert (Wr : written_in evs = [w]) by (rewrite X; cbn; f_equal; exact (reads_write_nothing _ F)).
    split; [exact Wr|]. rewrite T, Wr. reflexivity.
  - right. split; [exact D1|]. split; [exact D2|]. rewrite T.
    assert (Wr : written_in evs = []) by (destruct D1 as [->|[e ->]]; reflexivity). rewrite Wr. reflexivity.
Qed.

Lemma L_C91_reading : forall io el c id n report fuel s rep s' es verbose, reading c id n report -> id <> BROADCAST -> reach s ->
  cli_verbose io el fuel c s = (Val (Ok rep), s', es) -> (2 <= verbose < 256)%N ->
  exists m e data stuffed, after "Trace:  read packet: " (screen verbose es) = [hex2_array m] /\
    m = header ++ [id] ++ le16 (N.of_nat (List.length stuffed + 2)) ++ stuffed /\ some_stuffed (x55 :: e :: data) stuffed /\
    no_error e /\ List.length data = n /\ rep = report (alert_bit e) data.
Proof.
  intros io el c id n report fuel s rep s' es v H B R E Hv.
  destruct (L_C53_reading_reports c id n report fuel s rep s' H R (command_of_verbose _ _ _ _ _ _ _ _ E)) as [e [data [C [Z [L Rp]]]]].
  assert (K : exists call, client_call c call /\ target c <> BROADCAST) by (destruct H; eexists; (split; [constructor|exact B])).
  destruct K as [call [Cc Tc]].
  destruct (L_C91_answer io el fuel c call s rep s' es v R Cc Tc E Hv) as [evs [w [g [m [crc [_ [_ [P [S1 [L1 [_ A]]]]]]]]]]].
  destruct (carried_shown _ _ _ _ _ _ _ C P S1 L1) as [st [-> U]]. exists (header ++ [id] ++ le16 (N.of_nat (List.length st + 2)) ++ st), e, data, st. auto 7.
Qed.

Lemma L_C91_changing : forall io el c id fuel s rep s' es verbose, changing c (MId id) -> id <> BROADCAST -> reach s ->
  cli_verbose io el fuel c s = (Val (Ok rep), s', es) -> (2 <= verbose < 256)%N ->
  exists m id' e stuffed, after "Trace:  read packet: " (screen verbose es) = [hex2_array m] /\
    m = header ++ [id'] ++ le16 (N.of_nat (List.length stuffed + 2)) ++ stuffed /\ some_stuffed [x55; e] stuffed /\
    no_error e /\ rep = RepDone (mkResponse id' (alert_bit e) tt).
Proof.
  intros io el c id fuel s rep s' es v H B R E Hv.
  destruct (L_C53_changing_reports c (MId id) fuel s rep s' H R (command_of_verbose _ _ _ _ _ _ _ _ E) B) as [id' [e [C [Z Rp]]]].
  assert (K : exists call, client_call c call /\ target c <> BROADCAST) by (inversion H; subst; eexists; (split; [constructor|exact B])).
  destruct K as [call [Cc Tc]].
  destruct (L_C91_answer io el fuel c call s rep s' es v R Cc Tc E Hv) as [evs [w [g [m [crc [_ [_ [P [S1 [L1 [_ A]]]]]]]]]]].
  destruct (carried_shown _ _ _ _ _ _ _ C P S1 L1) as [st [-> U]]. exists (header ++ [id'] ++ le16 (N.of_nat (List.length st + 2)) ++ st), id', e, st. auto 7.
Qed.
