(** * DeviceTheorems: status responses, deadlines and the device *)
From Coq Require Import ZArith ZifyN ZifyNat ZifyBool.
From Verif Require Import Base Endian Error Checksum Bytestuff Packet Time Bus Data Client
  Instructions Device Api Spec DeviceSpec CallSpec StreamSpec Demo Lib ChecksumProofs CrcErrorProofs StuffProofs
  WriteProofs ReadProofs ApiProofs StreamProofs MessageProofs SendProofs SendTheorems ReadTheorems StatusProofs.

(** ** C16 *)

Lemma ideal_panic_iff : forall cap p pn p', 10 <= cap ->
  (ideal cap p = (Panic pn, p') <->
   pn = PIndex /\ exists g id w, ~ contains g header /\ framed id [] w /\ p = map inl (g ++ w) ++ p').
Proof.
  intros cap p pn p' L. unfold ideal. replace (cap <? 10) with false by lia. split.
  - intro E. destruct (next_event cap (upto p)) as [[ev r]|] eqn:N.
    2:{ destruct (from_err p) as [|[b|e] q]; discriminate E. }
    assert (ev = EvPanic pn) as ->.
    { destruct ev; cbn [ev_out] in E; congruence. }
    apply next_event_panic_iff in N; [|exact L]. destruct N as [-> [id Ec]]. split; [reflexivity|].
    assert (Em : message id [] (calculate_checksum 0 (msg_head id 2)) ++ r =
                 header ++ [id; x02; x00] ++ le16 (calculate_checksum 0 (msg_head id 2)) ++ r) by reflexivity.
    rewrite Em in Ec. apply clean_eq_garbage in Ec. destruct Ec as [g [G U]]. rewrite <- Em in U.
    exists g, id, (message id [] (calculate_checksum 0 (msg_head id 2))).
    split; [exact G|]. split.
    { exists (calculate_checksum 0 (msg_head id 2)). split; [reflexivity|]. split; [reflexivity|].
      apply checksum_iff_crc16; reflexivity. }
    rewrite (upto_split p) at 1. rewrite U. assert (p' = map inl r ++ from_err p) as -> by congruence.
    rewrite !map_app, <- !app_assoc. reflexivity.
  - intros [-> [g [id [w [G [F ->]]]]]]. apply framed_iff in F. destruct F as [crc [-> [_ C]]].
    pose proof (ideal_message cap g id [] crc p' L G (proj1 C) ltac:(reflexivity) ltac:(cbn [length]; lia)) as K.
    unfold ideal in K. replace (cap <? 10) with false in K by lia. rewrite K.
    assert (Hcrc : crc = calculate_checksum 0 (msg_head id (N.of_nat (length (@nil byte) + 2)) ++ []))
      by (apply checksum_iff_crc16 in C; [exact C|reflexivity]).
    unfold message_event. cbv zeta. rewrite <- Hcrc, N.eqb_refl. reflexivity.
Qed.

Lemma L_C16_exactly_when_status_read_panics : forall s t, reach s -> 10 <= length (b_rbuf s) ->
  ((exists p s', read_status_response_timeout t s = (Panic p, s')) <->
   (exists g id body w rest, ~ contains g header /\ (body = [] \/ body = [STATUS]) /\ framed id body w /\
      pending s = map inl (g ++ w) ++ rest)).
Proof.
  intros s t R L. destruct (read_status_response_timeout t s) as [o s'] eqn:E.
  destruct (read_status_timeout_spec _ _ _ _ (reach_inv _ R) E) as [o1 [K [-> _]]]. split.
  - intros [p [s'' E']]. assert (E1 : status_of o1 = Panic p) by congruence. clear E'.
    destruct o1 as [[pk|e]|pn|]; cbn [status_of] in E1; try discriminate E1.
    + destruct (ideal_ok_inv _ _ _ _ K) as [_ [g [id [body [w [G [F [Hc [Hb [P Pk]]]]]]]]]].
      exists g, id, body, w, (pending s'). split; [exact G|]. split; [|auto].
      right. pose proof (packet_head id (N.of_nat (length body + 2)) (unst 0 body)) as Hp. rewrite <- Pk in Hp.
      destruct body as [|b body]; [contradiction|]. rewrite unst_first in Hp.
      destruct (Byte.byte_eq_dec b STATUS) as [->|Ne].
      2:{ rewrite (status_check_other _ _ _ _ Hp Ne) in E1. discriminate. }
      destruct body as [|b body]; [reflexivity|]. exfalso. cbn [unst] in Hp.
      change (udel (unext 0 STATUS) b) with false in Hp. cbv iota in Hp.
      rewrite (status_check_status _ _ _ _ Hp) in E1. destruct (_ =? _)%N in E1; discriminate.
    + apply (proj1 (ideal_panic_iff _ _ _ _ L)) in K. destruct K as [_ [g [id [w [G [F P]]]]]].
      exists g, id, [], w, (pending s'). auto.
  - intros [g [id [body [w [rest [G [Hb [F P]]]]]]]]. destruct Hb as [->| ->].
    + assert (K2 : ideal (length (b_rbuf s)) (pending s) = (Panic PIndex, rest)).
      { apply ideal_panic_iff; [exact L|]. split; [reflexivity|]. exists g, id, w. auto. }
      rewrite K2 in K. assert (o1 = Panic PIndex) as -> by congruence. cbn [status_of]. eauto.
    + rewrite P in K. rewrite (ideal_framed _ g id [STATUS] w rest L G F) in K; [|discriminate|].
      2:{ apply framed_iff in F. destruct F as [crc [-> _]]. rewrite message_length. cbn [length]. lia. }
      assert (o1 = Val (Ok (mkPacket (msg_head id (N.of_nat (length [STATUS] + 2)) ++ unst 0 [STATUS])))) as -> by congruence.
      cbn [status_of]. rewrite (status_check_short _ id (packet_head id _ _)). eauto.
Qed.

(** ** C44 *)

Lemma u16_param_val : forall ps a b x y r, skipn a ps = x :: y :: r -> b = a + 2 ->
  u16_param ps a b = Val (b2n x + 256 * b2n y)%N.
Proof.
  intros ps a b x y r E ->. unfold u16_param.
  assert (a + 2 <= length ps).
  { apply (f_equal (@length byte)) in E. rewrite skipn_length in E. cbn [length] in E. lia. }
  rewrite slice_val by lia. replace (a + 2 - a) with 2 by lia. rewrite E.
  cbn [obind firstn]. apply read_u16_le_val.
Qed.

Lemma le16_of_bytes : forall x y, le16 (b2n x + 256 * b2n y) = [x; y] /\ (b2n x + 256 * b2n y < 2 ^ 16)%N.
Proof.
  intros x y. pose proof (b2n_lt x). pose proof (b2n_lt y). split; [|change (2 ^ 16)%N with 65536%N; lia].
  unfold le16. f_equal; [|f_equal]; apply b2n_inj; rewrite b2n_n2b.
  - rewrite N.mul_comm, N.mod_add by lia. apply N.mod_small. assumption.
  - rewrite N.mul_comm, N.div_add by lia. rewrite N.div_small, N.add_0_l, N.mod_small by assumption. reflexivity.
Qed.

Lemma le16_inj : forall a b, (a < 2 ^ 16)%N -> (b < 2 ^ 16)%N -> le16 a = le16 b -> a = b.
Proof.
  intros a b Ha Hb E. rewrite <- (le16_value a Ha), <- (le16_value b Hb).
  unfold le16 in E. assert (n2b a = n2b b) by congruence. assert (n2b (a / 256) = n2b (b / 256)) by congruence.
  congruence.
Qed.

(** The parameters with a leading number. *)
Lemma lead1 : forall ps : list byte, 2 <= length ps -> exists a d, (a < 2 ^ 16)%N /\ ps = le16 a ++ d /\
  u16_param ps 0 2 = Val a /\ slice_from ps 2 = Val d.
Proof.
  intros ps L. destruct ps as [|x [|y d]]; cbn [length] in L; try lia.
  destruct (le16_of_bytes x y) as [E1 E2].
  exists (b2n x + 256 * b2n y)%N, d. split; [exact E2|]. rewrite E1. split; [reflexivity|].
  split; [eapply u16_param_val; reflexivity|].
  rewrite slice_from_val by (cbn [length]; lia). reflexivity.
Qed.

Lemma lead2 : forall ps : list byte, 4 <= length ps -> exists a l d, (a < 2 ^ 16)%N /\ (l < 2 ^ 16)%N /\
  ps = le16 a ++ le16 l ++ d /\ u16_param ps 0 2 = Val a /\ u16_param ps 2 4 = Val l /\ slice_from ps 4 = Val d.
Proof.
  intros ps L. destruct ps as [|x [|y [|z [|w d]]]]; cbn [length] in L; try lia.
  destruct (le16_of_bytes x y) as [E1 E2]. destruct (le16_of_bytes z w) as [E3 E4].
  exists (b2n x + 256 * b2n y)%N, (b2n z + 256 * b2n w)%N, d. split; [exact E2|]. split; [exact E4|].
  rewrite E1, E3. split; [reflexivity|].
  split; [eapply u16_param_val; reflexivity|]. split; [eapply u16_param_val; reflexivity|].
  rewrite slice_from_val by (cbn [length]; lia). reflexivity.
Qed.

Ltac known_instruction :=
  unfold parse_instructions;
  repeat match goal with |- context [beq ?a ?b] =>
    let v := eval vm_compute in (beq a b) in
    match v with true => change (beq a b) with true | false => change (beq a b) with false end end;
  cbv iota zeta beta.
Ltac count_ok := match goal with
  | |- context [param_count_check ?n ?k] => unfold param_count_check; replace (n =? k) with true by lia
  | |- context [param_count_check_min ?n ?k] => unfold param_count_check_min; replace (k <=? n) with true by lia
  end.
Ltac count_bad := match goal with
  | |- context [param_count_check ?n ?k] => unfold param_count_check; replace (n =? k) with false by lia
  | |- context [param_count_check_min ?n ?k] => unfold param_count_check_min; replace (k <=? n) with false by lia
  end.

Lemma parse_spec : forall i ps,
  (follows_rule i (length ps) -> exists ins, parse_instructions i ps = Val (Ok ins) /\ means i ps ins) /\
  (~ follows_rule i (length ps) -> exists e, parameter_rule i = Some e /\
     parse_instructions i ps = Val (Err (IMParameterCount (length ps) e))).
Proof.
  intros i ps.
  destruct (in_dec Byte.byte_eq_dec i [x01; x02; x03; x04; x05; x06; x08; x10; x82; x83; x92; x93]) as [K|K].
  - cbn [In] in K.
    destruct K as [<-|[<-|[<-|[<-|[<-|[<-|[<-|[<-|[<-|[<-|[<-|[<-|[]]]]]]]]]]]]];
      unfold follows_rule; cbn [parameter_rule]; (split; [intro F|intro F; try (exfalso; apply F; exact I)]);
      known_instruction;
      try (eexists; split; [reflexivity|]; try count_bad; try reflexivity; constructor);
      count_ok.
    + destruct (lead2 ps ltac:(lia)) as [a [l [d [Ha [Hl [Ep [E1 [E2 _]]]]]]]].
      rewrite E1, E2. cbn [obind]. eexists. split; [reflexivity|].
      assert (d = []) as ->.
      { rewrite Ep in F. unfold le16 in F. cbn [app length] in F. destruct d; [reflexivity|cbn [length] in F; lia]. }
      rewrite Ep, app_nil_r. constructor; assumption.
    + destruct (lead1 ps ltac:(lia)) as [a [d [Ha [Ep [E1 E2]]]]].
      rewrite E1, E2. cbn [obind]. eexists. split; [reflexivity|]. rewrite Ep. constructor. assumption.
    + destruct (lead1 ps ltac:(lia)) as [a [d [Ha [Ep [E1 E2]]]]].
      rewrite E1, E2. cbn [obind]. eexists. split; [reflexivity|]. rewrite Ep. constructor. assumption.
    + destruct ps as [|p [|]]; try discriminate F. cbn [idx nth_error obind].
      eexists. split; [reflexivity|].
      replace (if beq p xff then FRAll else if beq p x01 then FRExceptId else if beq p x02 then FRExceptIdBaudRate
               else FRUnknown p) with (factory_reset_of p) by (destruct p; reflexivity). constructor.
    + destruct ps as [|p ps]; cbn [length] in F; [lia|]. cbn [idx nth_error obind].
      eexists. split; [reflexivity|].
      replace (if beq p x01 then ClearMultiTurns else if beq p x02 then ClearErrors else ClearReserved p)
        with (clear_of p) by (destruct p; reflexivity). constructor.
    + destruct (lead2 ps ltac:(lia)) as [a [l [d [Ha [Hl [Ep [E1 [E2 E3]]]]]]]].
      rewrite E1, E2, E3. cbn [obind]. eexists. split; [reflexivity|]. rewrite Ep. constructor; assumption.
    + destruct (lead2 ps ltac:(lia)) as [a [l [d [Ha [Hl [Ep [E1 [E2 E3]]]]]]]].
      rewrite E1, E2, E3. cbn [obind]. eexists. split; [reflexivity|]. rewrite Ep. constructor; assumption.
  - assert (B : forall x, In x [x01; x02; x03; x04; x05; x06; x08; x10; x82; x83; x92; x93] -> beq i x = false).
    { intros x Hx. destruct (beq i x) eqn:B; [|reflexivity]. apply beq_true in B. subst x. contradiction. }
    split.
    + intros _. exists (IUnknown i ps). split; [|constructor; exact K].
      unfold parse_instructions, PING, READ, WRITE, REG_WRITE, ACTION, FACTORY_RESET, REBOOT, CLEAR, SYNC_READ, SYNC_WRITE, BULK_READ, BULK_WRITE.
      rewrite !B by (cbn; tauto). reflexivity.
    + intro F. exfalso. apply F. unfold follows_rule.
      replace (parameter_rule i) with (@None expected_count); [exact I|].
      clear B F. destruct i; try reflexivity; exfalso; apply K; cbn; tauto.
Qed.

Lemma try_from_spec : forall p id i ps, packet_is p id (i :: ps) ->
  instruction_try_from p =
  (let* r := parse_instructions i ps in
   match r with Err e => Val (Err e) | Ok ins => Val (Ok (mkInstruction id ins)) end).
Proof.
  intros p id i ps H. apply L_C18_accessors in H. destruct H as [H1 [H2 [H3 _]]].
  unfold instruction_try_from. rewrite H1. cbn [obind]. rewrite H3. cbn [obind]. rewrite H2. reflexivity.
Qed.

Lemma L_C44_malformed_rejected : forall p id i params, packet_is p id (i :: params) ->
  (follows_rule i (length params) ->
     exists ins, instruction_try_from p = Val (Ok (mkInstruction id ins)) /\ means i params ins) /\
  (~ follows_rule i (length params) ->
     exists e, parameter_rule i = Some e /\
       instruction_try_from p = Val (Err (IMParameterCount (length params) e))).
Proof.
  intros p id i ps H. rewrite (try_from_spec _ _ _ _ H). destruct (parse_spec i ps) as [A B]. split.
  - intro F. destruct (A F) as [ins [E M]]. rewrite E. exists ins. auto.
  - intro F. destruct (B F) as [e [E1 E2]]. rewrite E2. exists e. auto.
Qed.

Lemma app2_inj : forall a b (c d : list byte), le16 a ++ c = le16 b ++ d -> (a < 2 ^ 16)%N -> (b < 2 ^ 16)%N -> a = b /\ c = d.
Proof.
  intros a b c d E Ha Hb. assert (le16 a = le16 b /\ c = d) as [E1 E2].
  { unfold le16 in *. cbn [app] in E. split; congruence. }
  split; [apply le16_inj; assumption|exact E2].
Qed.

Lemma L_C44_meaning_is_unique : forall i params a b, means i params a -> means i params b -> a = b.
Proof.
  intros i ps a b A B.
  assert (K : forall i ps c, means i ps c -> exists r, parse_instructions i ps = r /\ r = Val (Ok c)).
  { clear. intros i ps c H. eexists. split; [reflexivity|].
    assert (L2 : forall v d, (v < 2 ^ 16)%N -> u16_param (le16 v ++ d) 0 2 = Val v).
    { intros v d Hv. erewrite u16_param_val; [|reflexivity|reflexivity]. rewrite le16_value by exact Hv. reflexivity. }
    assert (L4 : forall u v d, (v < 2 ^ 16)%N -> u16_param (le16 u ++ le16 v ++ d) 2 4 = Val v).
    { intros u v d Hv. erewrite u16_param_val; [|reflexivity|reflexivity]. rewrite le16_value by exact Hv. reflexivity. }
    destruct H; known_instruction; try reflexivity.
    - unfold param_count_check. change (length (le16 a ++ le16 l) =? 4) with true. cbv iota beta.
      rewrite L2 by assumption. cbn [obind]. rewrite <- (app_nil_r (le16 l)), L4 by assumption. reflexivity.
    - unfold param_count_check_min. replace (2 <=? length (le16 a ++ d)) with true by (cbn [le16 app length]; lia).
      cbv iota beta. rewrite L2 by assumption. cbn [obind].
      rewrite slice_from_val by (cbn [le16 app length]; lia). reflexivity.
    - unfold param_count_check_min. replace (2 <=? length (le16 a ++ d)) with true by (cbn [le16 app length]; lia).
      cbv iota beta. rewrite L2 by assumption. cbn [obind].
      rewrite slice_from_val by (cbn [le16 app length]; lia). reflexivity.
    - destruct p; reflexivity.
    - destruct p; reflexivity.
    - unfold param_count_check_min. replace (4 <=? length (le16 a ++ le16 l ++ ids)) with true by (cbn [le16 app length]; lia).
      cbv iota beta. rewrite L2 by assumption. cbn [obind]. rewrite L4 by assumption. cbn [obind].
      rewrite slice_from_val by (cbn [le16 app length]; lia). reflexivity.
    - unfold param_count_check_min. replace (4 <=? length (le16 a ++ le16 l ++ d)) with true by (cbn [le16 app length]; lia).
      cbv iota beta. rewrite L2 by assumption. cbn [obind]. rewrite L4 by assumption. cbn [obind].
      rewrite slice_from_val by (cbn [le16 app length]; lia). reflexivity.
    - assert (B : forall x, In x [x01; x02; x03; x04; x05; x06; x08; x10; x82; x83; x92; x93] -> beq i x = false).
      { intros x Hx. destruct (beq i x) eqn:B; [|reflexivity]. apply beq_true in B. subst x. contradiction. }
      unfold PING, READ, WRITE, REG_WRITE, ACTION, FACTORY_RESET, REBOOT, CLEAR, SYNC_READ, SYNC_WRITE, BULK_READ, BULK_WRITE.
      rewrite !B by (cbn; tauto). reflexivity. }
  destruct (K _ _ _ A) as [r1 [E1 F1]]. destruct (K _ _ _ B) as [r2 [E2 F2]]. congruence.
Qed.

(** ** C42 *)

Lemma device_read_spec : forall t s o s', inv s -> device_read t s = (o, s') ->
  exists o1, listens (length (b_rbuf s)) (pending s) o1 (pending s') /\ timed t s s' /\ inv s' /\
    o = match o1 with
        | Val (Ok p) => let* r := instruction_try_from p in Val (map_err RInvalidMessage r)
        | Val (Err e) => Val (Err e)
        | Panic p => Panic p
        | Blocked => Blocked
        end.
Proof.
  intros t s o s' Hi E. unfold device_read, try_, bind, lift, ret in E.
  destruct (read_raw_instruction_timeout t s) as [o1 s1] eqn:R.
  destruct (read_raw_spec _ _ _ _ Hi R) as [K1 [K2 K3]].
  exists o1. assert (s' = s1) as ->.
  { destruct o1 as [[p|e]|pn|]; try congruence. destruct (instruction_try_from p); congruence. }
  split; [exact K1|]. split; [exact K2|]. split; [exact K3|].
  destruct o1 as [[p|e]|pn|]; try congruence. destruct (instruction_try_from p); cbn [obind]; congruence.
Qed.

Lemma L_C42_returns_the_instruction : forall s t line g id i params w rest, reach s ->
  skips (length (b_rbuf s)) (pending s) line ->
  ~ contains g header -> is_frame id (i :: params) w -> i <> STATUS -> ff_runs_ok (i :: params) ->
  length w <= length (b_rbuf s) -> line = map inl (g ++ w) ++ rest ->
  exists s', pending s' = rest /\
    (follows_rule i (length params) -> exists ins, means i params ins /\
       device_read t s = (Val (Ok (mkInstruction id ins)), s')) /\
    (~ follows_rule i (length params) -> exists e, parameter_rule i = Some e /\
       device_read t s = (Val (Err (RInvalidMessage (IMParameterCount (length params) e))), s')).
Proof.
  intros s t line g id i params w rest R Sk G F Hi Hr Hc ->.
  destruct (device_read t s) as [o s'] eqn:E.
  destruct (device_read_spec _ _ _ _ (reach_inv _ R) E) as [o1 [K1 [K2 [K3 K4]]]].
  destruct (ideal_frame _ g id (i :: params) w rest G F ltac:(discriminate) Hc) as [p [E1 Q]].
  apply unst_pstuff_iff in Hr. rewrite Hr in Q.
  assert (L : 10 <= length (b_rbuf s)) by (apply ideal_ok_inv in E1; apply E1).
  pose proof (listens_skips _ _ _ L Sk _ _ (li_packet _ _ p i rest E1 (packet_instruction _ _ _ _ Q) Hi)) as K.
  destruct (listens_fun _ _ _ _ K1 _ _ K) as [-> P]. exists s'. split; [exact P|]. subst o.
  destruct (L_C44_malformed_rejected _ _ _ _ Q) as [A B]. split.
  - intro Hf. destruct (A Hf) as [ins [E2 M]]. rewrite E2. cbn [obind map_err]. eauto.
  - intro Hf. destruct (B Hf) as [e [E2 E3]]. rewrite E3. cbn [obind map_err]. eauto.
Qed.

Lemma L_C42_reports_errors : forall s t line u d e u', reach s ->
  skips (length (b_rbuf s)) (pending s) line -> 10 <= length (b_rbuf s) ->
  reach u -> length (b_rbuf u) = length (b_rbuf s) -> pending u = line ->
  read_packet_deadline d u = (Val (Err e), u') ->
  exists s', device_read t s = (Val (Err e), s') /\ pending s' = pending u'.
Proof.
  intros s t line u d e u' R Sk L Ru Lu Pu Eu.
  destruct (device_read t s) as [o s'] eqn:E.
  destruct (device_read_spec _ _ _ _ (reach_inv _ R) E) as [o1 [K1 [K2 [K3 K4]]]].
  pose proof (read_ideal _ _ _ _ (proj1 (reach_inv _ Ru)) Eu) as K. symmetry in K. rewrite Lu, Pu in K.
  pose proof (listens_skips _ _ _ L Sk _ _ (li_other _ _ _ _ K ltac:(discriminate))) as J.
  destruct (listens_fun _ _ _ _ K1 _ _ J) as [-> P]. exists s'. subst o. auto.
Qed.

Lemma L_C42_only_instructions : forall s t ins s', reach s -> device_read t s = (Val (Ok ins), s') ->
  exists line i params, skips (length (b_rbuf s)) (pending s) line /\
    carries line (i_id ins) (i :: params) (pending s') /\ i <> STATUS /\ means i params (i_instruction ins).
Proof.
  intros s t ins s' R E.
  destruct (device_read_spec _ _ _ _ (reach_inv _ R) E) as [o1 [K1 [K2 [K3 K4]]]].
  destruct (listens_inv _ _ _ _ K1) as [line [Sk [[pk [i [-> [I1 [I2 I3]]]]]|[I1 I2]]]].
  - destruct (ideal_ok_packet _ _ _ _ I1) as [id [body [Hb [C Pk]]]].
    destruct body as [|i' params]; [contradiction|].
    assert (i' = i) as -> by (rewrite (packet_instruction _ _ _ _ Pk) in I2; congruence).
    exists line, i, params. split; [exact Sk|].
    rewrite (try_from_spec _ _ _ _ Pk) in K4. destruct (parse_spec i params) as [A B].
    destruct (parse_instructions i params) as [[x|x]|x|] eqn:Ep; cbn [obind map_err] in K4; try discriminate K4.
    injection K4 as ->. cbn [i_id i_instruction]. split; [exact C|]. split; [exact I3|].
    assert (D : follows_rule i (length params) \/ ~ follows_rule i (length params)).
    { unfold follows_rule. destruct (parameter_rule i) as [[n|n|n]|]; [| | |left; exact I]; lia. }
    destruct D as [D|D].
    + destruct (A D) as [ins' [E1 E2]]. congruence.
    + destruct (B D) as [e [_ E2]]. discriminate E2.
  - destruct o1 as [[pk|e]|pn|]; try discriminate K4. exfalso. apply (I2 pk). reflexivity.
Qed.

(** ** C16, the device *)

Lemma try_from_no_panic : forall p id i ps, packet_is p id (i :: ps) ->
  exists r, instruction_try_from p = Val r.
Proof.
  intros p id i ps H. destruct (L_C44_malformed_rejected _ _ _ _ H) as [A B].
  assert (D : follows_rule i (length ps) \/ ~ follows_rule i (length ps)).
  { unfold follows_rule. destruct (parameter_rule i) as [[n|n|n]|]; [| | |left; exact I]; lia. }
  destruct D as [D|D]; [destruct (A D) as [x [E _]]|destruct (B D) as [x [_ E]]]; rewrite E; eauto.
Qed.

Lemma L_C16_exactly_when_device_read_panics : forall s t, reach s -> 10 <= length (b_rbuf s) ->
  ((exists p s', device_read t s = (Panic p, s')) <->
   (exists line g id w rest, skips (length (b_rbuf s)) (pending s) line /\
      ~ contains g header /\ framed id [] w /\ line = map inl (g ++ w) ++ rest)).
Proof.
  intros s t R L. destruct (device_read t s) as [o s'] eqn:E.
  destruct (device_read_spec _ _ _ _ (reach_inv _ R) E) as [o1 [K1 [K2 [K3 K4]]]]. split.
  - intros [p [s'' E']]. assert (o = Panic p) as -> by congruence.
    destruct (listens_inv _ _ _ _ K1) as [line [Sk [[pk [i [-> [I1 [I2 I3]]]]]|[I1 I2]]]].
    + exfalso. destruct (ideal_ok_packet _ _ _ _ I1) as [id [body [Hb [C Pk]]]].
      destruct body as [|i' params]; [contradiction|].
      destruct (try_from_no_panic _ _ _ _ Pk) as [r Er]. rewrite Er in K4. discriminate K4.
    + destruct o1 as [[pk|e]|pn|]; try discriminate K4. { exfalso. apply (I2 pk). reflexivity. }
      apply (proj1 (ideal_panic_iff _ _ _ _ L)) in I1. destruct I1 as [_ [g [id [w [G [F P]]]]]].
      exists line, g, id, w, (pending s'). auto.
  - intros [line [g [id [w [rest [Sk [G [F P]]]]]]]].
    assert (I1 : ideal (length (b_rbuf s)) line = (Panic PIndex, rest)).
    { apply ideal_panic_iff; [exact L|]. split; [reflexivity|]. exists g, id, w. auto. }
    pose proof (listens_skips _ _ _ L Sk _ _ (li_other _ _ _ _ I1 ltac:(discriminate))) as J.
    destruct (listens_fun _ _ _ _ K1 _ _ J) as [-> _]. subst o. eauto.
Qed.

(** ** C41 *)

Lemma L_C41_status_response_timeout : forall s t o s', reach s -> read_status_response_timeout t s = (o, s') ->
  exists d evs, dl_timeout d = t /\ calls s s' (LDeadline d :: evs) /\ Forall (reads_with d) evs.
Proof.
  intros s t o s' R E. destruct (read_status_timeout_spec _ _ _ _ (reach_inv _ R) E) as [o1 [_ [_ [_ T]]]].
  destruct (timed_calls _ _ _ T) as [evs [C F]]. exists (deadline_of t s), evs. auto.
Qed.

Lemma L_C41_status_response : forall s n o s', reach s -> read_status_response n s = (o, s') ->
  match response_timeout (b_dbg s) (b_baud s) n with
  | Val t => exists d evs, dl_timeout d = t /\ calls s s' (LDeadline d :: evs) /\ Forall (reads_with d) evs
  | _ => calls s s' []
  end.
Proof.
  intros s n o s' R E. destruct (read_status_spec _ _ _ _ (reach_inv _ R) E) as [[p [T [_ ->]]]|[t [o1 [T [_ [_ [_ K]]]]]]].
  - rewrite T. unfold calls. rewrite app_nil_r. reflexivity.
  - rewrite T. destruct (timed_calls _ _ _ K) as [evs [C F]]. exists (deadline_of t s), evs. auto.
Qed.

Lemma L_C41_device_read : forall s t o s', reach s -> device_read t s = (o, s') ->
  exists d evs, dl_timeout d = t /\ calls s s' (LDeadline d :: evs) /\ Forall (reads_with d) evs.
Proof.
  intros s t o s' R E. destruct (device_read_spec _ _ _ _ (reach_inv _ R) E) as [o1 [_ [T _]]].
  destruct (timed_calls _ _ _ T) as [evs [C F]]. exists (deadline_of t s), evs. auto.
Qed.

(** ** C45 *)

Lemma device_read_owned_eq : forall t s,
  device_read_owned t s =
  match device_read t s with
  | (Val (Ok i), s') => (Val (Ok (mkInstruction (i_id i) (to_owned_instructions (i_instruction i)))), s')
  | x => x
  end.
Proof.
  intros t s. unfold device_read, device_read_owned, try_, bind, lift, ret, instruction_try_from_owned.
  destruct (read_raw_instruction_timeout t s) as [[[p|e]|pn|] s1]; try reflexivity.
  destruct (instruction_try_from p) as [[i|e]|pn|]; reflexivity.
Qed.

Lemma L_C45_read_owned_refuted :
  ~ (forall s t, reach s -> device_read_owned t s = device_read t s).
Proof.
  intro H. set (body := [BULK_WRITE; x01; x20; x00; x01; x00; x2a]).
  set (w := wire_of_body BROADCAST body (calculate_checksum 0 (header ++ [BROADCAST] ++ le16 9 ++ body))).
  specialize (H (fresh true [RdData w] 32 32) dur_34ms (fresh_reach true [RdData w] 32 32 ltac:(lia))).
  apply (f_equal fst) in H. vm_compute in H. discriminate.
Qed.

Lemma L_C45_read_owned_exactly : forall s t,
  device_read_owned t s = device_read t s <->
  forall id ps s', device_read t s <> (Val (Ok (mkInstruction id (IBulkWrite ps))), s').
Proof.
  intros s t. rewrite device_read_owned_eq. split.
  - intros H id ps s' K. rewrite K in H. discriminate H.
  - intro H. destruct (device_read t s) as [[[[id i]|e]|pn|] s']; try reflexivity.
    destruct i; try reflexivity. exfalso. eapply H. reflexivity.
Qed.

(** ** C28 *)

Lemma L_C28_error_and_alert : forall p id e params, packet_is p id (STATUS :: e :: params) ->
  st_error p = Val e /\
  st_alert p = Val (N.testbit (b2n e) 7) /\
  st_error_number p = Val (n2b (b2n e mod 128)) /\
  motor_error_alert e = N.testbit (b2n e) 7 /\
  motor_error_number e = n2b (b2n e mod 128) /\
  (motor_error_check e = Ok tt <-> b2n e mod 128 = 0)%N /\
  (forall raw, motor_error_check e = Err raw -> raw = e).
Proof.
  intros p id e params H. destruct (packet_error _ _ _ _ _ H) as [E1 _].
  assert (A : negb (N.land (b2n e) 0x80 =? 0)%N = N.testbit (b2n e) 7) by (destruct e; reflexivity).
  assert (B : N.land (b2n e) 0x7F = (b2n e mod 128)%N) by (destruct e; reflexivity).
  unfold st_alert, st_error_number, motor_error_alert, motor_error_number. rewrite E1. cbn [obind].
  rewrite A, B. repeat split; auto.
  - intro K. apply motor_error_check_ok in K. congruence.
  - intro K. apply motor_error_check_ok. congruence.
  - intros raw K. unfold motor_error_check in K. destruct (N.land (b2n e) 127 =? 0)%N; congruence.
Qed.

Lemma status_step : forall t s g id e params w rest, inv s -> ~ contains g header ->
  is_frame id (STATUS :: e :: params) w -> ff_runs_ok (STATUS :: e :: params) ->
  length w <= length (b_rbuf s) -> pending s = map inl (g ++ w) ++ rest ->
  exists p s', packet_is p id (STATUS :: e :: params) /\ pending s' = rest /\ inv s' /\
    read_status_response_timeout t s =
      (Val (if (b2n e mod 128 =? 0)%N then Ok p else Err (RMotorError e)), s').
Proof.
  intros t s g id e params w rest Hi G F Hr Hc P.
  destruct (ideal_frame _ g id _ w rest G F ltac:(discriminate) Hc) as [p [E Q]].
  apply unst_pstuff_iff in Hr. rewrite Hr in Q.
  destruct (read_status_response_timeout t s) as [o s'] eqn:R.
  destruct (read_status_timeout_spec _ _ _ _ Hi R) as [o1 [K1 [K2 [K3 K4]]]].
  rewrite P, E in K1. assert (o1 = Val (Ok p)) as -> by congruence.
  exists p, s'. split; [exact Q|]. split; [congruence|]. split; [exact K3|].
  subst o. cbn [status_of]. rewrite (status_check_status _ _ _ _ Q).
  assert (B : N.land (b2n e) 127 = (b2n e mod 128)%N) by (destruct e; reflexivity).
  rewrite B. destruct (_ =? _)%N; reflexivity.
Qed.

Lemma L_C28_client_reports : forall t s g id e params w rest, reach s -> ~ contains g header ->
  is_frame id (STATUS :: e :: params) w -> ff_runs_ok (STATUS :: e :: params) ->
  length w <= length (b_rbuf s) -> pending s = map inl (g ++ w) ++ rest ->
  exists s', pending s' = rest /\
    ((b2n e mod 128 = 0)%N -> exists p, packet_is p id (STATUS :: e :: params) /\
       read_status_response_timeout t s = (Val (Ok p), s')) /\
    ((b2n e mod 128 <> 0)%N -> read_status_response_timeout t s = (Val (Err (RMotorError e)), s')).
Proof.
  intros t s g id e params w rest R G F Hr Hc P.
  destruct (status_step t s g id e params w rest (reach_inv _ R) G F Hr Hc P) as [p [s' [Q [P' [_ E]]]]].
  exists s'. split; [exact P'|]. split; intro K.
  - rewrite K in E. exists p. auto.
  - apply N.eqb_neq in K. rewrite K in E. exact E.
Qed.

(** A motor error is only reported for a status that carries one. *)
Lemma L_C28_no_false_motor_error : forall t s raw s', reach s ->
  read_status_response_timeout t s = (Val (Err (RMotorError raw)), s') ->
  (b2n raw mod 128 <> 0)%N /\
  exists id params, carries (pending s) id (STATUS :: raw :: params) (pending s').
Proof.
  intros t s raw s' R E.
  destruct (read_status_timeout_spec _ _ _ _ (reach_inv _ R) E) as [o1 [K1 [K2 [K3 K4]]]].
  assert (B : forall e, N.land (b2n e) 127 = (b2n e mod 128)%N) by (intro e; destruct e; reflexivity).
  destruct o1 as [[pk|e]|pn|]; cbn [status_of] in K2; try discriminate K2.
  - destruct (ideal_ok_packet _ _ _ _ K1) as [id [body [Hb [C Pk]]]].
    destruct body as [|i body]; [contradiction|].
    destruct (Byte.byte_eq_dec i STATUS) as [->|Ne].
    2:{ rewrite (status_check_other _ _ _ _ Pk Ne) in K2. discriminate. }
    destruct body as [|e params]; [rewrite (status_check_short _ _ Pk) in K2; discriminate|].
    rewrite (status_check_status _ _ _ _ Pk), B in K2.
    destruct (b2n e mod 128 =? 0)%N eqn:Z; [discriminate|]. injection K2 as ->.
    apply N.eqb_neq in Z. split; [exact Z|]. eauto.
  - exfalso. assert (e = RMotorError raw) as -> by congruence. clear K2.
    unfold ideal in K1. destruct (length (b_rbuf s) <? 10); [discriminate|].
    destruct (next_event (length (b_rbuf s)) (upto (pending s))) as [[ev r]|] eqn:N.
    + pose proof (next_event_front (length (b_rbuf s)) (upto (pending s))) as F. rewrite N in F.
      injection K1 as K1 _.
      remember (Some (ev, r)) as oe eqn:Eo. destruct F; try discriminate Eo; injection Eo as <- <-; try discriminate K1.
      unfold message_event in K1. cbv zeta in K1. destruct (_ =? _)%N; [destruct (unst 0 body)|]; discriminate K1.
    + destruct (from_err (pending s)) as [|[b|e'] q]; discriminate K1.
Qed.

(** ** C46 *)

Lemma L_C46_status_arrives_refuted :
  ~ (forall s id error params enc s' w c t g rest,
     reach s -> writes_parameters enc params ->
     device_write_status id error (length params) enc s = (Val (Ok tt), s') ->
     calls s s' [LDiscard None; LWrite w None] -> (N.of_nat (length w) < 2 ^ 16)%N ->
     reach c -> ~ contains g header -> length w <= length (b_rbuf c) ->
     pending c = map inl (g ++ w) ++ rest -> (b2n error mod 128 = 0)%N ->
     exists p c', read_status_response_timeout t c = (Val (Ok p), c') /\ packet_is p id (STATUS :: error :: params)).
Proof.
  intro H. set (params := [xff; xff; xfd; x00; xff; xff; xff; xfd]).
  assert (E : exists s', device_write_status x01 x00 (length params) (fill params) (fresh true [] 32 32) = (Val (Ok tt), s')).
  { eexists. vm_compute. reflexivity. }
  destruct E as [s' E].
  pose proof (fresh_reach true [] 32 32 ltac:(lia)) as R.
  pose proof (sends_status x01 x00 params _ (fill_writes params)) as Sd.
  destruct (sends_ok _ _ _ _ _ _ R Sd E) as [C _].
  set (w := code_wire x01 (STATUS :: x00 :: params)) in *.
  destruct (H _ _ _ _ _ _ w (fresh true [RdData w] 32 32) dur_34ms [] [] R (fill_writes params) E C)
    as [p [t' [E' P]]].
  - vm_compute. reflexivity.
  - apply fresh_reach. lia.
  - apply no_header_nil.
  - vm_compute. lia.
  - reflexivity.
  - reflexivity.
  - vm_compute in E'. injection E' as <- _. destruct P as [_ P]. vm_compute in P. discriminate.
Qed.

Lemma L_C46_status_arrives_partial : forall s id error params enc s' w c t g rest,
  reach s -> writes_parameters enc params ->
  device_write_status id error (length params) enc s = (Val (Ok tt), s') ->
  calls s s' [LDiscard None; LWrite w None] -> (N.of_nat (length w - 7) < 2 ^ 16)%N ->
  reach c -> ~ contains g header -> length w <= length (b_rbuf c) ->
  pending c = map inl (g ++ w) ++ rest ->
  exists c', pending c' = rest /\
    ((b2n error mod 128 = 0)%N -> exists p ps, packet_is p id (STATUS :: error :: ps) /\
       (ps = params <-> comes_back (STATUS :: error :: params)) /\
       read_status_response_timeout t c = (Val (Ok p), c')) /\
    ((b2n error mod 128 <> 0)%N -> read_status_response_timeout t c = (Val (Err (RMotorError error)), c')).
Proof.
  intros s id error params enc s' w c t g rest R Wp E C L Rc G Lc P.
  pose proof (sends_status id error params _ Wp) as Sd.
  destruct (sends_ok _ _ _ _ _ _ R Sd E) as [C' _].
  assert (w = code_wire id (STATUS :: error :: params)) as ->.
  { pose proof (calls_inj _ _ _ _ C C') as K. congruence. }
  destruct (ideal_code_wire _ g id STATUS (error :: params) rest G L Lc) as [p [EI Q]].
  assert (B2 : exists ps, unst 0 (code_stuff (STATUS :: error :: params)) = STATUS :: error :: ps).
  { eexists. unfold code_stuff. cbn [gstuff]. change (tnext 0 STATUS) with 0. change (thit 0 STATUS) with false.
    change (thit 0 error) with false. cbv iota. cbn [unst]. change (udel 0 STATUS) with false.
    change (unext 0 STATUS) with 0. change (udel 0 error) with false. cbv iota. reflexivity. }
  destruct B2 as [ps B2]. pose proof (unst_code_stuff_iff (STATUS :: error :: params)) as U.
  rewrite B2 in Q, U.
  destruct (read_status_response_timeout t c) as [o c'] eqn:Er.
  destruct (read_status_timeout_spec _ _ _ _ (reach_inv _ Rc) Er) as [o1 [K1 [K2 [K3 K4]]]].
  rewrite P, EI in K1. assert (o1 = Val (Ok p)) as -> by congruence.
  exists c'. split; [congruence|]. cbn [status_of] in K2.
  rewrite (status_check_status _ _ _ _ Q) in K2.
  assert (B : N.land (b2n error) 127 = (b2n error mod 128)%N) by (destruct error; reflexivity).
  rewrite B in K2. subst o. split; intro Z.
  - rewrite Z. exists p, ps. split; [exact Q|]. split; [|reflexivity]. rewrite <- U. intuition congruence.
  - apply N.eqb_neq in Z. rewrite Z. reflexivity.
Qed.
