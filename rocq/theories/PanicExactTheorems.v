(** * PanicExactTheorems: when exactly a call panics (C81) *)
From Coq Require Import ZArith ZifyN ZifyNat ZifyBool.
From Verif Require Import Base Endian Error Checksum Bytestuff Packet Time Bus Data Client
  Instructions Device MockDevice Api Spec CallSpec StreamSpec DeviceSpec DataSpec InstructionSpec Demo Lib ChecksumProofs
  CrcErrorProofs StuffProofs WriteProofs ReadProofs ApiProofs StreamProofs MessageProofs SendProofs
  SendTheorems ReadTheorems StatusProofs DeviceTheorems InstructionProofs DataTheorems DemoProofs TransferTheorems ScanTheorems
  GenericTheorems UnderstoodTheorems TwinSpec TwinProofs TwinTheorems RemoteSpec RemoteProofs RemoteTheorems SurviveSpec SurviveTheorems
  PanicSpec PanicTheorems ConformSpec ConformTheorems PanicExactSpec.
Ltac Zify.zify_post_hook ::= Z.div_mod_to_equations.

(** ** Sending *)

Lemma inflated_code : forall body, inflated body = length (code_stuff body).
Proof. intro body. unfold inflated. rewrite (noticed_fcount body 0), code_stuff_length. reflexivity. Qed.

Lemma fcount_inflated : forall i params, inflated (i :: params) = 1 + length params + fcount 0 (i :: params).
Proof. intros. rewrite inflated_code, code_stuff_length. reflexivity. Qed.

Lemma sends_exactly : forall m id i params s, inv s -> sends m id i params ->
  (panics (fst (m s)) <-> write_trouble (b_dbg s) (length (b_wbuf s)) (i :: params)) /\
  (goes_out s (i :: params) <-> fst (m s) = Val (Ok tt)).
Proof.
  intros m id i params s Iv Sd. unfold goes_out, port_ready.
  assert (Tr : write_trouble (b_dbg s) (length (b_wbuf s)) (i :: params) <->
    (usize_max < N.of_nat (length params + 10))%N \/
    length params + 10 <= length (b_wbuf s) /\ exists p, build_result (b_dbg s) (length (b_wbuf s)) (i :: params) = BPanic p).
  { unfold write_trouble, build_result. cbv zeta. rewrite fcount_inflated. cbn [length].
    replace (1 + length params + fcount 0 (i :: params)) with (S (length params) + fcount 0 (i :: params)) by lia.
    set (n := S (length params) + fcount 0 (i :: params)).
    replace (S (length params) + 9) with (length params + 10) by lia.
    apply or_iff_compat_l, and_iff_compat_l.
    replace (7 + S (length params) + fcount 0 (i :: params)) with (7 + n) by lia.
    replace (9 + S (length params) + fcount 0 (i :: params)) with (9 + n) by lia.
    destruct (length (b_wbuf s) <? 7 + n) eqn:L1.
    { split; [intros [K _]; exfalso; lia|intros [p K]; discriminate]. }
    destruct (b_dbg s && (2 ^ 16 <=? N.of_nat n mod 2 ^ 16 + 2)%N) eqn:L2.
    { apply andb_true_iff in L2. destruct L2 as [L2 L3]. apply N.leb_le in L3.
      split; [intros _; eexists; reflexivity|intros _]. split; [lia|]. right. auto. }
    apply andb_false_iff in L2.
    destruct (length (b_wbuf s) <? 9 + n) eqn:L3.
    { split; [intros _; eexists; reflexivity|intros _]. split; [lia|]. left. lia. }
    split; [|intros [p K]; discriminate]. intros [_ [K|[K1 K2]]]; exfalso; [lia|].
    destruct L2 as [L2|L2]; [congruence|]. apply N.leb_gt in L2. lia. }
  destruct (N.lt_ge_cases usize_max (N.of_nat (length params + 10))) as [O|O].
  { rewrite (sends_overflow _ _ _ _ _ Sd Iv O). cbn [fst]. split; split.
    - intros _. apply Tr. left. exact O.
    - intros _. eexists. reflexivity.
    - intros [K _]. exfalso. apply K, Tr. left. exact O.
    - discriminate. }
  rewrite (sends_value _ _ _ _ _ Sd Iv O). unfold write_value. cbv zeta.
  destruct (length (b_wbuf s) <? length params + 10) eqn:L; cbn [fst].
  { split; split.
    - intros [k K]. discriminate.
    - intro K. apply Tr in K. exfalso. destruct K as [K|[K _]]; lia.
    - intros [_ [K _]]. exfalso. cbn [length] in K. lia.
    - discriminate. }
  destruct (build_result (b_dbg s) (length (b_wbuf s)) (i :: params)) as [|e|p] eqn:B; cbn [fst].
  - pose proof (build_ok_room _ _ _ B) as R. cbn [length] in R.
    assert (N : ~ write_trouble (b_dbg s) (length (b_wbuf s)) (i :: params)).
    { intro K. apply Tr in K. destruct K as [K|[_ [p K]]]; [lia|discriminate]. }
    unfold transmit. cbn [set_port set_used set_rlen set_wbuf b_port b_baud b_rbuf b_rlen b_used b_wbuf b_dbg].
    split.
    + split; [|intro K; contradiction]. destruct (hd None (p_discards (b_port s))); intros [k K]; discriminate.
    + rewrite fcount_inflated. cbn [length].
      destruct (hd None (p_discards (b_port s))) as [e|] eqn:D; cbn [fst].
      * split; [intros [_ [_ [_ [K _]]]]; discriminate|discriminate].
      * destruct (hd None (p_writes (b_port s))) as [e|] eqn:W.
        { split; [intros [_ [_ [_ [_ K]]]]; discriminate|discriminate]. }
        split; [reflexivity|intros _]. split; [exact N|]. split; [lia|]. split; [lia|]. auto.
  - split; split.
    + intros [k K]. discriminate.
    + intro K. apply Tr in K. exfalso. destruct K as [K|[_ [p K]]]; [lia|discriminate].
    + intros [_ [_ [K _]]]. exfalso. rewrite fcount_inflated in K. unfold build_result in B. cbv zeta in B.
      case_if B; [|case_if B; [discriminate|case_if B; discriminate]]. cbn [length] in *. lia.
    + discriminate.
  - split; split.
    + intros _. apply Tr. right. split; [lia|]. eauto.
    + intros _. eexists. reflexivity.
    + intros [K _]. exfalso. apply K, Tr. right. split; [lia|]. eauto.
    + discriminate.
Qed.

Lemma L_C81_exactly_when_sending_panics : forall s m id i params, survives s -> sends m id i params ->
  (panics (fst (m s)) <-> write_trouble (b_dbg s) (length (b_wbuf s)) (i :: params)).
Proof. intros s m id i params R Sd. apply (sends_exactly m id i params s (survives_inv _ R) Sd). Qed.

Lemma L_C81_exactly_when_a_message_goes_out : forall s m id i params, survives s -> sends m id i params ->
  (fst (m s) = Val (Ok tt) <-> goes_out s (i :: params)).
Proof. intros s m id i params R Sd. symmetry. apply (sends_exactly m id i params s (survives_inv _ R) Sd). Qed.

(** ** Calls that wait for an answer *)

Definition staged {B} (m : M (result B transfer_error)) (wr : M (result unit write_error)) (k : N)
    (fin : result packet read_error -> out (result B transfer_error)) : Prop :=
  forall s, m s = match wr s with
    | (Val (Ok _), s1) => (r <- read_status_response k ;; lift (fin r)) s1
    | (Val (Err e), s1) => (Val (Err (TWriteError e)), s1)
    | (Panic p, s1) => (Panic p, s1)
    | (Blocked, s1) => (Blocked, s1)
    end.

(** What the client makes of an answer does not panic. *)
Definition harmless {R} (fin : result packet read_error -> out R) : Prop :=
  (forall e, ~ panics (fin (Err e))) /\ forall p, status_packet p -> ~ panics (fin (Ok p)).

Lemma staged_instruct : forall id i n enc, id <> xfe ->
  staged (instruct id i n enc) (write_instruction id i n enc) 0 fin_instruct.
Proof.
  intros id i n enc Hid s. unfold instruct. unfold try_ at 1. unfold bind at 1.
  destruct (write_instruction id i n enc s) as [[[u|e]|p|] s1]; try reflexivity.
  unfold read_response_if_not_broadcast, try_, bind, lift, ret.
  destruct (beq id BROADCAST) eqn:B; [apply beq_true in B; contradiction|].
  destruct (read_status_response 0 s1) as [[[p|e]|x|] s2]; try reflexivity.
  cbn [fin_instruct]. destruct (response_unit p) as [[y|y]|y|]; reflexivity.
Qed.

Lemma staged_transfer : forall id i n k enc,
  staged (transfer_single id i n k enc) (write_instruction id i n enc) k (fin_transfer id).
Proof.
  intros id i n k enc s. unfold transfer_single, try_, tryr, bind, lift, ret.
  destruct (write_instruction id i n enc s) as [[[u|e]|p|] s1]; try reflexivity.
  destruct (read_status_response k s1) as [[[p|e]|x|] s2]; try reflexivity.
  cbn [fin_transfer]. destruct (pk_id p) as [rid|y|]; try reflexivity. cbn [obind].
  destruct (packet_id_check rid id); reflexivity.
Qed.

Lemma staged_then : forall B C (m : M (result B transfer_error)) (m' : M (result C transfer_error)) wr k fin
    (f : result B transfer_error -> out (result C transfer_error)),
  staged m wr k fin -> (forall s, m' s = (r <- m ;; lift (f r)) s) -> (forall e, f (Err e) = Val (Err e)) ->
  staged m' wr k (fun r => let* x := fin r in f x).
Proof.
  intros B C m m' wr k fin f St E F s. rewrite E. unfold bind at 1. rewrite (St s).
  destruct (wr s) as [[[u|e]|p|] s1]; try reflexivity.
  - unfold bind, lift. destruct (read_status_response k s1) as [[r|x|] s2]; try reflexivity.
    destruct (fin r); reflexivity.
  - unfold lift. rewrite F. reflexivity.
Qed.

Lemma harmless_instruct : harmless fin_instruct.
Proof.
  split; [intros e [k K]; discriminate|]. intros p H [k K]. cbn [fin_instruct] in K.
  destruct (response_unit_safe _ H) as [r E]. rewrite E in K. discriminate.
Qed.

Lemma harmless_transfer : forall id, harmless (fin_transfer id).
Proof.
  intro id. split; [intros e [k K]; discriminate|]. intros p H [k K]. cbn [fin_transfer] in K.
  destruct (status_fields _ H) as [id' [e [ps [E1 _]]]]. rewrite E1 in K. discriminate.
Qed.

(** The packet [fin] hands on is the one it got. *)
Definition hands_on (fin : result packet read_error -> out (result packet transfer_error)) : Prop :=
  harmless fin /\ (forall e, fin (Err e) = Val (Err (TReadError e))) /\ forall p q, fin (Ok p) = Val (Ok q) -> q = p.

Lemma hands_on_transfer : forall id, hands_on (fin_transfer id).
Proof.
  intro id. split; [apply harmless_transfer|]. split; [reflexivity|]. intros p q K. cbn [fin_transfer] in K.
  destruct (pk_id p); try discriminate. cbn [obind] in K. destruct (packet_id_check _ _); [|discriminate].
  injection K as ->. reflexivity.
Qed.

Lemma hands_on_then : forall fin B (f : result packet transfer_error -> out (result B transfer_error)), hands_on fin ->
  (forall e, f (Err e) = Val (Err e)) -> (forall p, fin (Ok p) = Val (Ok p) -> status_packet p -> ~ panics (f (Ok p))) ->
  harmless (fun r => let* x := fin r in f x).
Proof.
  intros fin B f [[H1 H2] [H3 H4]] F1 F2. split.
  - intros e [k K]. rewrite H3 in K. cbn [obind] in K. rewrite F1 in K. discriminate.
  - intros p Hp [k K]. destruct (fin (Ok p)) as [[q|e]|x|] eqn:E; cbn [obind] in K.
    + assert (q = p) by (apply H4, E). subst q. apply (F2 p E Hp). exists k. exact K.
    + rewrite F1 in K. discriminate.
    + apply (H2 p Hp). exists x. exact E.
    + discriminate.
Qed.

Lemma hands_on_read : forall id n, hands_on (fun r => let* x := fin_transfer id r in fin_read n x).
Proof.
  intros id n. split; [|split; [reflexivity|]].
  - apply hands_on_then; [apply hands_on_transfer|reflexivity|]. intros p _ H [k K]. cbn [fin_read] in K.
    destruct (status_fields _ H) as [id' [e [ps [_ [_ E]]]]]. rewrite E in K. discriminate.
  - intros p q K. destruct (fin_transfer id (Ok p)) as [[r|e]|x|] eqn:E; try discriminate K. cbn [obind fin_read] in K.
    destruct (st_parameters r); try discriminate K. cbn [obind] in K. destruct (param_count_check _ _); [|discriminate K].
    injection K as <-. apply (proj2 (proj2 (hands_on_transfer id)) _ _ E).
Qed.

Lemma read_count : forall id n p ps, (let* x := fin_transfer id (Ok p) in fin_read n x) = Val (Ok p) ->
  st_parameters p = Val ps -> length ps = N.to_nat n.
Proof.
  intros id n p ps K E. destruct (fin_transfer id (Ok p)) as [[r|e]|x|] eqn:T; try discriminate K. cbn [obind] in K.
  rewrite (proj2 (proj2 (hands_on_transfer id)) _ _ T) in K. cbn [fin_read] in K. rewrite E in K. cbn [obind] in K.
  unfold param_count_check in K. destruct (length ps =? N.to_nat n) eqn:L; [apply Nat.eqb_eq, L|discriminate].
Qed.

Lemma waits_staged : forall B (m : M (result B transfer_error)) id i params, waits m id i params ->
  exists enc k fin, writes_parameters enc params /\ is_u16 k /\
    staged m (write_instruction id i (length params) enc) k fin /\ harmless fin.
Proof.
  intros B m id i params W.
  destruct W as [id i k enc params Hw Hk|id|id a n Hn|A D id a Hn Hd|A D id a v bytes Hid Ok En|id a d Hid|A D id a v bytes Hid Ok S1 En|id a d Hid|id Hid|id k Hid|id Hid|id Hid|id Hid].
  - exists enc, k, (fin_transfer id). split; [exact Hw|]. split; [exact Hk|]. split; [apply staged_transfer|apply harmless_transfer].
  - eexists no_params, 3%N, _. split; [exact no_params_writes|]. split; [reflexivity|]. split.
    + eapply staged_then with (f := fun x => match x with
        | Err e => Val (Err e)
        | Ok p => let* y := response_ping p in Val (map_err (fun e => TReadError (RInvalidMessage e)) y) end).
      * apply staged_transfer.
      * intro s. unfold ping, try_, bind, lift, ret.
        match goal with |- match ?run with _ => _ end = _ => change run with (transfer_single id PING 0 3 no_params s) end.
        change (transfer_single id x01 (length (@nil byte)) 3 no_params s) with (transfer_single id PING 0 3 no_params s).
        destruct (transfer_single id PING 0 3 no_params s) as [[[p|e]|x|] s2]; try reflexivity.
        destruct (response_ping p); reflexivity.
      * reflexivity.
    + apply hands_on_then; [apply hands_on_transfer|reflexivity|]. intros p _ H [k K].
      destruct (response_ping_safe _ H) as [r E]. rewrite E in K. discriminate.
  - eexists _, n, _. split; [exact (read_params_writes a n)|]. split; [exact Hn|].
    split.
    + eapply staged_then with (f := fun x => match x with
        | Err e => Val (Err e)
        | Ok p => let* y := decode_status_packet_bytes p in Val (map_err TReadError y) end).
      * eapply staged_then with (f := fin_read n); [apply (staged_transfer id READ 4 n)| |reflexivity].
        instantiate (1 := read_raw id a n).
        intro s. unfold read_raw, try_, tryr, bind, lift, ret.
        match goal with |- match ?run with _ => _ end = _ => destruct run as [[[p|e]|x|] s2] end; try reflexivity.
        cbn [fin_read]. destruct (st_parameters p) as [ps|y|]; try reflexivity. cbn [obind].
        destruct (param_count_check (length ps) (N.to_nat n)); reflexivity.
      * intro s. unfold read_bytes, try_, bind, lift, ret.
        match goal with |- match ?run with _ => _ end = _ => destruct run as [[[p|e]|x|] s2] end; try reflexivity.
        destruct (decode_status_packet_bytes p); reflexivity.
      * reflexivity.
    + apply hands_on_then; [apply hands_on_read|reflexivity|]. intros p _ H [k K].
      unfold decode_status_packet_bytes in K. destruct (status_fields _ H) as [id' [e [ps [E1 [E2 E3]]]]].
      rewrite E2 in K. cbn [obind] in K. destruct (motor_error_check e); [|discriminate].
      destruct (alert_val _ _ E2) as [al E4]. rewrite E1, E3, E4 in K. discriminate.
  - eexists _, (N.of_nat (d_size D)), _. split; [exact (read_params_writes a (N.of_nat (d_size D)))|]. split; [exact Hn|].
    split.
    + eapply staged_then with (f := fun x => match x with
        | Err e => Val (Err e)
        | Ok p => let* y := decode_status_packet D p in Val (map_err TReadError y) end).
      * eapply staged_then with (f := fin_read (N.of_nat (d_size D))); [apply (staged_transfer id READ 4)| |reflexivity].
        instantiate (1 := read_raw id a (N.of_nat (d_size D))).
        intro s. unfold read_raw, try_, tryr, bind, lift, ret.
        match goal with |- match ?run with _ => _ end = _ => destruct run as [[[p|e]|x|] s2] end; try reflexivity.
        cbn [fin_read]. destruct (st_parameters p) as [ps|y|]; try reflexivity. cbn [obind].
        destruct (param_count_check (length ps) (N.to_nat (N.of_nat (d_size D)))); reflexivity.
      * intro s. unfold read, try_, bind, lift, ret.
        match goal with |- match ?run with _ => _ end = _ => destruct run as [[[p|e]|x|] s2] end; try reflexivity.
        destruct (decode_status_packet D p); reflexivity.
      * reflexivity.
    + apply hands_on_then; [apply hands_on_read|reflexivity|]. intros p Hp H [k K].
      unfold decode_status_packet in K. destruct (status_fields _ H) as [id' [e [ps [E1 [E2 E3]]]]].
      pose proof (read_count _ _ _ _ Hp E3) as L. rewrite Nat2N.id in L.
      rewrite E2 in K. cbn [obind] in K. destruct (motor_error_check e); [|discriminate].
      destruct (alert_val _ _ E2) as [al E4]. rewrite E1, E3, E4 in K. cbn [obind] in K.
      specialize (Hd ps L). destruct (d_decode D ps) as [[v|er]|x|]; cbn [obind] in K; try discriminate.
      apply Hd. eexists. reflexivity.
  - eexists _, 0%N, _. split; [exact (address_and_value_writes _ _ a _ _ Ok En)|]. split; [reflexivity|].
    split; [|exact harmless_instruct]. replace (length (le16 a ++ bytes)) with (2 + d_size D)
      by (rewrite app_length, (proj1 En); reflexivity). exact (staged_instruct _ _ _ _ Hid).
  - eexists _, 0%N, _. split; [exact (address_and_bytes_writes a d)|]. split; [reflexivity|].
    split; [|exact harmless_instruct]. rewrite app_length. exact (staged_instruct _ _ _ _ Hid).
  - eexists _, 0%N, _. split; [exact (address_and_value_writes _ _ a _ _ Ok En)|]. split; [reflexivity|].
    split; [|exact harmless_instruct]. replace (length (le16 a ++ bytes)) with (2 + 1)
      by (rewrite app_length, (proj1 En), S1; reflexivity). exact (staged_instruct _ _ _ _ Hid).
  - eexists _, 0%N, _. split; [exact (address_and_bytes_writes a d)|]. split; [reflexivity|].
    split; [|exact harmless_instruct]. rewrite app_length. exact (staged_instruct _ _ _ _ Hid).
  - eexists _, 0%N, _. split; [exact no_params_writes|]. split; [reflexivity|].
    split; [|exact harmless_instruct]. exact (staged_instruct _ _ _ _ Hid).
  - eexists _, 0%N, _. split; [exact (factory_reset_writes k)|]. split; [reflexivity|].
    split; [|exact harmless_instruct]. exact (staged_instruct _ _ _ _ Hid).
  - eexists _, 0%N, _. split; [exact no_params_writes|]. split; [reflexivity|].
    split; [|exact harmless_instruct]. exact (staged_instruct _ _ _ _ Hid).
  - eexists _, 0%N, _. split; [exact clear_revolution_writes|]. split; [reflexivity|].
    split; [|exact harmless_instruct]. exact (staged_instruct _ _ _ _ Hid).
  - eexists _, 0%N, _. split; [exact clear_error_writes|]. split; [reflexivity|].
    split; [|exact harmless_instruct]. exact (staged_instruct _ _ _ _ Hid).
Qed.

(** ** Waiting *)

Lemma status_exactly : forall cap p o p', ideal cap p = (o, p') ->
  (panics (status_of o) <->
   10 <= cap /\ exists g w rest, ~ contains g header /\ fatal w /\ p = map inl (g ++ w) ++ rest).
Proof.
  intros cap p o p' Id. split.
  - intros [x K]. destruct (le_lt_dec 10 cap) as [L|L].
    { split; [exact L|]. destruct (status_panic_inv _ _ _ _ x L Id K) as [g [w [G [F P]]]]. exists g, w, p'. auto. }
    exfalso. unfold ideal in Id. replace (cap <? 10) with true in Id by lia.
    assert (o = Val (Err (RBufferFull (mkBTS 10 cap)))) as -> by congruence. discriminate.
  - intros [L [g [w [rest [G [[id [body [Hb F]]] P]]]]]]. destruct Hb as [->| ->].
    { assert (K2 : ideal cap p = (Panic PIndex, rest)).
      { apply ideal_panic_iff; [exact L|]. split; [reflexivity|]. exists g, id, w. auto. }
      rewrite K2 in Id. assert (o = Panic PIndex) as -> by congruence. cbn [status_of]. eexists. reflexivity. }
    rewrite P in Id. rewrite (ideal_framed _ g id [STATUS] w rest L G F) in Id; [|discriminate|].
    2:{ apply framed_iff in F. destruct F as [crc [-> _]]. rewrite message_length. cbn [length]. lia. }
    assert (o = Val (Ok (mkPacket (msg_head id (N.of_nat (length [STATUS] + 2)) ++ unst 0 [STATUS])))) as -> by congruence.
    cbn [status_of]. rewrite (status_check_short _ id (packet_head id _ _)). eexists. reflexivity.
Qed.

Lemma ok_status : forall cap q o q' p, ideal cap q = (o, q') -> status_of o = Val (Ok p) -> status_packet p.
Proof.
  intros cap q o q' p Id K. destruct o as [[pk|er]|x|]; try discriminate. cbn [status_of] in K.
  destruct (ideal_ok_packet _ _ _ _ Id) as [id [body [Hb [Ca P]]]].
  destruct (status_check_ok_inv _ _ _ _ P Hb K) as [-> [e [ps [-> Hz]]]].
  exists id, e, ps. exact P.
Qed.

Lemma response_exactly : forall k s, is_u16 k -> inv s ->
  (panics (fst (read_status_response k s)) <-> b_baud s = 0%N \/ fatal_next s) /\
  (forall p s', read_status_response k s = (Val (Ok p), s') -> status_packet p).
Proof.
  intros k s Hk Iv. destruct (read_status_response k s) as [o s'] eqn:E. cbn [fst].
  destruct (read_status_spec _ _ _ _ Iv E) as [[x [T [-> ->]]]|[t [o1 [T [Id [-> [_ _]]]]]]].
  - split; [|discriminate]. split; [intros _|intros _; eexists; reflexivity]. left.
    destruct (N.eq_dec (b_baud s) 0) as [Z|Nz]; [exact Z|]. exfalso.
    destruct (response_timeout_val (b_dbg s) (b_baud s) k Hk Nz) as [t' T']. congruence.
  - assert (Nz : b_baud s <> 0%N).
    { intro Z. rewrite Z in T. destruct (response_timeout_zero (b_dbg s) k) as [x K]. congruence. }
    split.
    + rewrite (status_exactly _ _ _ _ Id). unfold fatal_next. tauto.
    + intros p s'' K. apply (ok_status _ _ _ _ _ Id). congruence.
Qed.

Lemma sends_out : forall m id i params s s1, inv s -> sends m id i params -> m s = (Val (Ok tt), s1) ->
  inv s1 /\ pending s1 = incoming s /\ length (b_rbuf s1) = length (b_rbuf s) /\ b_baud s1 = b_baud s.
Proof.
  intros m id i params s s1 Iv Sd E. pose proof (sends_effect _ _ _ _ _ Sd Iv) as X. rewrite E in X.
  remember (Val (Ok tt), s1) as os eqn:Eo.
  destruct X as [X|e w' X1 X2 X3|p X1 X2 X3|e w' X1 X2 X3 X4|w' X1 X2 X3 X4 X5]; try discriminate Eo.
  injection Eo as _ <-. split; [|repeat split; reflexivity].
  split; [|exact X1]. split; cbn [b_used b_rlen b_rbuf]; lia.
Qed.

Lemma L_C81_exactly_when_a_call_panics : forall B (m : M (result B transfer_error)) id i params s, survives s ->
  waits m id i params ->
  (panics (fst (m s)) <->
   write_trouble (b_dbg s) (length (b_wbuf s)) (i :: params) \/
   goes_out s (i :: params) /\ (b_baud s = 0%N \/ fatal_answer s)).
Proof.
  intros B m id i params s R W. destruct (waits_staged _ _ _ _ _ W) as [enc [k [fin [Hw [Hk [St Hf]]]]]].
  pose proof (sends_instruction id i params enc Hw) as Sd. pose proof (survives_inv _ R) as Iv.
  destruct (sends_exactly _ _ _ _ s Iv Sd) as [X1 X2]. rewrite (St s).
  destruct (write_instruction id i (length params) enc s) as [[[[]|e]|p|] s1] eqn:E; cbn [fst] in X1, X2 |- *.
  - destruct (sends_out _ _ _ _ _ _ Iv Sd E) as [I1 [P1 [L1 B1]]].
    destruct (response_exactly k s1 Hk I1) as [Y1 Y2]. unfold fatal_next in Y1. rewrite B1, L1, P1 in Y1.
    assert (G : goes_out s (i :: params)) by (apply X2; reflexivity).
    assert (Nt : ~ write_trouble (b_dbg s) (length (b_wbuf s)) (i :: params)) by apply G.
    assert (Z : panics (fst ((r <- read_status_response k ;; lift (fin r)) s1)) <-> panics (fst (read_status_response k s1))).
    { unfold bind, lift. destruct (read_status_response k s1) as [[r|x|] s2] eqn:E2; cbn [fst].
      2,3: split; intros [y K]; try discriminate; eexists; reflexivity.
      split; [|intros [x K]; discriminate]. intro K. exfalso. destruct Hf as [F1 F2]. destruct r as [pk|e].
      - destruct (fin (Ok pk)) as [y|y|] eqn:Fe; cbn [fst] in K; destruct K as [x K]; try discriminate.
        apply (F2 pk (Y2 _ _ eq_refl)). exists y. exact Fe.
      - destruct (fin (Err e)) as [y|y|] eqn:Fe; cbn [fst] in K; destruct K as [x K]; try discriminate.
        apply (F1 e). exists y. exact Fe. }
    rewrite Z, Y1. unfold fatal_answer. tauto.
  - split; [intros [k' K]; discriminate|]. intros [K|[K _]]; [apply X1 in K; destruct K; discriminate|].
    apply X2 in K. discriminate.
  - split; [intros _; left; apply X1; eexists; reflexivity|]. intros _. eexists. reflexivity.
  - split; [intros [k' K]; discriminate|]. intros [K|[K _]]; [apply X1 in K; destruct K; discriminate|].
    apply X2 in K. discriminate.
Qed.

(** ** Calls that wait for nothing *)

Definition panics_with {A} (wr : M (result unit write_error)) (m : M A) : Prop :=
  forall s, panics (fst (m s)) <-> panics (fst (wr s)).

Lemma panics_with_self : forall wr, panics_with wr wr.
Proof. intros wr s. reflexivity. Qed.

Lemma panics_with_try : forall B (wr : M (result unit write_error)) (x : B),
  panics_with wr (try_ (fun e => e) wr (fun _ => ret (Ok x))).
Proof.
  intros B wr x s. unfold try_, bind, ret. destruct (wr s) as [[[u|e]|p|] s1]; cbn [fst];
    (split; intros [k K]; try discriminate; eexists; reflexivity).
Qed.

Lemma panics_with_instruct : forall i n enc, panics_with (write_instruction xfe i n enc) (instruct xfe i n enc).
Proof.
  intros i n enc s. unfold instruct. unfold try_ at 1. unfold bind at 1.
  destruct (write_instruction xfe i n enc s) as [[[u|e]|p|] s1]; cbn [fst];
    (split; intros [k K]; try discriminate; eexists; reflexivity).
Qed.

Lemma nothing_written : forall c : encoder, (forall b, c b = Val (b, Ok tt)) -> writes_parameters c [].
Proof.
  intros c H. split.
  - intros b b' r E. rewrite H in E. injection E as <- <-. auto.
  - intros b L. rewrite H. apply length_zero_iff_nil in L. subst b. reflexivity.
Qed.

Lemma sync_write_writes : forall A (D : data_impl A) a l l', data_ok D -> d_size D = 1 ->
  Forall2 (fun c c' => sw_id c = sw_id c' /\ encodes_as D (sw_data c) (sw_data c')) l l' ->
  writes_parameters (fun b => let* b := write_u16_at b 0 a in let* b := write_u16_at b 2 (N.of_nat 1 mod 2 ^ 16) in
    sync_write_loop D 1 0 l b) (le16 a ++ le16 1 ++ sync_entries l') /\
  4 + length l * (1 + 1) = length (le16 a ++ le16 1 ++ sync_entries l').
Proof.
  intros A D a l l' HD H1 F.
  assert (Ll : length (sync_entries l') = 2 * length l).
  { clear HD. induction F as [|c c' l l' [_ [He _]] _ IH]; [reflexivity|].
    cbn [sync_entries flat_map length]. rewrite app_length. fold (sync_entries l'). rewrite IH. cbn [length]. rewrite He, H1. lia. }
  split; [split; [apply sync_write_params_ok; exact HD|]|].
  - intros b L. rewrite !app_length, Ll in L. cbn [length le16] in L.
    destruct (four_bytes b (2 * length l) ltac:(lia)) as [x [y [z [u [r [-> Lr]]]]]].
    rewrite u16_at0. cbn [obind]. rewrite u16_at2. cbn [obind].
    change (N.of_nat 1 mod 2 ^ 16)%N with 1%N.
    change (n2b a :: n2b (a / 256) :: n2b 1 :: n2b (1 / 256) :: r) with ([n2b a; n2b (a / 256); n2b 1; n2b (1 / 256)] ++ r).
    rewrite (sync_write_loop_val A D l l' H1 F 0) by (try reflexivity; lia). reflexivity.
  - rewrite !app_length, Ll. cbn [length le16]. lia.
Qed.

Lemma tells_sends : forall B E (m : M (result B E)) body, tells m body ->
  exists wr id i params, body = i :: params /\ sends wr id i params /\ panics_with wr m.
Proof.
  intros B E m body T.
  assert (In : forall i n params enc, writes_parameters enc params -> n = length params ->
    exists wr id i' params', i :: params = i' :: params' /\ sends wr id i' params' /\ panics_with wr (instruct xfe i n enc)).
  { intros i n params enc Hw ->. exists (write_instruction xfe i (length params) enc), xfe, i, params. split; [reflexivity|].
    split; [apply sends_instruction, Hw|apply panics_with_instruct]. }
  assert (Wr : forall id i n params enc, writes_parameters enc params -> n = length params ->
    exists wr id' i' params', i :: params = i' :: params' /\ sends wr id' i' params' /\
      panics_with wr (write_instruction id i n enc)).
  { intros id i n params enc Hw ->. exists (write_instruction id i (length params) enc), id, i, params. split; [reflexivity|].
    split; [apply sends_instruction, Hw|apply panics_with_self]. }
  assert (St : forall id e n params enc, writes_parameters enc params -> n = length params ->
    exists wr id' i' params', x55 :: e :: params = i' :: params' /\ sends wr id' i' params' /\
      panics_with wr (device_write_status id e n enc)).
  { intros id e n params enc Hw ->. exists (write_status id e (length params) enc), id, STATUS, (e :: params). split; [reflexivity|].
    split; [apply sends_status, Hw|apply panics_with_self]. }
  destruct T as [id i enc params Hw|id e enc params Hw|id e|id| | |k| | | |a n l Hl|A D a l l' Ok S1 F|l Hl|ids a n|A D ids a|l Hl|A D a v bytes Ok En
    |a d|A D a v bytes Ok S1 En|a d| |k| | |].
  - apply Wr; auto.
  - apply St; auto.
  - apply (St id e 0 [] (fun b => Val (b, Ok tt))); [apply nothing_written|]; reflexivity.
  - apply (St id x00 0 [] (fun b => Val (b, Ok tt))); [apply nothing_written|]; reflexivity.
  - apply (Wr xfe x01 0 [] no_params no_params_writes eq_refl).
  - apply (Wr xfe x05 0 [] no_params no_params_writes eq_refl).
  - eapply (Wr xfe x06); [apply factory_reset_writes|reflexivity].
  - apply (Wr xfe x08 0 [] no_params no_params_writes eq_refl).
  - eapply (Wr xfe x10); [apply clear_revolution_writes|reflexivity].
  - eapply (Wr xfe x10); [apply clear_error_writes|reflexivity].
  - rewrite (sync_write_sends a n l Hl). apply Wr; [apply sync_write_bytes_writes, Hl|reflexivity].
  - destruct (sync_write_writes A D a l l' Ok S1 F) as [W L]. eapply (Wr xfe x83); [exact W|exact L].
  - eexists _, xfe, x93, _. split; [reflexivity|]. split; [apply (sends_instruction xfe x93 _ _ (bulk_write_writes l Hl))|].
    intro s. rewrite (bulk_write_sends l Hl s). reflexivity.
  - eexists _, xfe, x82, _. split; [reflexivity|]. split; [apply (sends_instruction xfe x82 _ _ (sync_read_writes a n ids))|].
    apply (panics_with_try _ (write_sync_read ids a n)).
  - eexists _, xfe, x82, _. split; [reflexivity|].
    split; [apply (sends_instruction xfe x82 _ _ (sync_read_writes a (N.of_nat (d_size D)) ids))|].
    apply (panics_with_try _ (write_sync_read ids a (N.of_nat (d_size D)))).
  - eexists _, xfe, x92, _. split; [reflexivity|]. split; [apply (sends_instruction xfe x92 _ _ (bulk_read_writes l))|].
    rewrite bulk_read_entries_length. intro s. unfold bulk_read_bytes.
    assert (Eq : write_bulk_read_instruction l = write_instruction xfe x92 (5 * length l) (enc_ok (bulk_read_loop 0 l)))
      by (unfold write_bulk_read_instruction; rewrite (proj2 (bulk_read_dup_iff l) Hl); reflexivity).
    rewrite Eq. apply panics_with_try.
  - eapply (In x03); [apply address_and_value_writes; eassumption|]. rewrite app_length, (proj1 En). reflexivity.
  - eapply (In x03); [apply address_and_bytes_writes|]. rewrite app_length. reflexivity.
  - eapply (In x04); [apply address_and_value_writes; eassumption|]. rewrite app_length, (proj1 En), S1. reflexivity.
  - eapply (In x04); [apply address_and_bytes_writes|]. rewrite app_length. reflexivity.
  - apply (In x05 0 [] no_params no_params_writes eq_refl).
  - eapply (In x06); [apply factory_reset_writes|reflexivity].
  - apply (In x08 0 [] no_params no_params_writes eq_refl).
  - eapply (In x10); [apply clear_revolution_writes|reflexivity].
  - eapply (In x10); [apply clear_error_writes|reflexivity].
Qed.

Lemma L_C81_exactly_when_telling_panics : forall B E (m : M (result B E)) body s, survives s -> tells m body ->
  (panics (fst (m s)) <-> write_trouble (b_dbg s) (length (b_wbuf s)) body).
Proof.
  intros B E m body s R T. destruct (tells_sends _ _ _ _ T) as [wr [id [i [params [-> [Sd P]]]]]].
  rewrite (P s). apply (L_C81_exactly_when_sending_panics s wr id i params R Sd).
Qed.

(** ** Iterators *)

Lemma scan_timeout_zero : forall dbg, exists p, scan_timeout dbg 0 = Panic p.
Proof.
  intro dbg. unfold scan_timeout, message_transfer_time, u64_mul.
  destruct (u64_max <? _)%N; [destruct dbg|]; cbn [obind N.eqb]; eauto.
Qed.

Lemma scan_exactly : forall s, inv s -> (b_baud s < 2 ^ 32)%N ->
  (panics (fst (scan_next s)) <-> b_baud s = 0%N \/ fatal_next s).
Proof.
  intros s Iv B. destruct (N.eq_dec (b_baud s) 0) as [Z|Nz].
  - split; [auto|intros _]. destruct (scan_timeout_zero (b_dbg s)) as [p T].
    unfold scan_next, scan_next_response, bind, get, lift. rewrite Z, T. eexists. reflexivity.
  - destruct (scan_timeout_val (b_dbg s) (b_baud s) Nz B) as [t T]. rewrite (scan_next_eq s t T). cbn [fst].
    destruct (read_status_response_timeout t s) as [o s'] eqn:E. cbn [fst].
    destruct (read_status_timeout_spec _ _ _ _ Iv E) as [o1 [Id [-> _]]].
    assert (X : panics (scan_judge (status_of o1)) <-> panics (status_of o1)).
    { destruct (status_of o1) as [[p|e]|x|] eqn:S; cbn [scan_judge].
      - split; [|intros [x K]; discriminate]. intros [x K].
        destruct (response_ping_safe p (ok_status _ _ _ _ _ Id S)) as [r Er]. rewrite Er in K. destruct r; discriminate.
      - destruct e; try destruct (is_timeout_error e); split; intros [x K]; discriminate.
      - split; intros _; eexists; reflexivity.
      - split; intros [x K]; discriminate. }
    rewrite X, (status_exactly _ _ _ _ Id). unfold fatal_next. tauto.
Qed.

Lemma expect_exactly : forall B k (m : M (result B read_error)) (fin : packet -> out (result B read_error)) s, inv s -> is_u16 k ->
  (forall s, m s = try_ (fun e => e) (read_status_response k) (fun p => lift (fin p)) s) ->
  (forall p, status_packet p -> ~ panics (fin p)) ->
  (panics (fst (m s)) <-> b_baud s = 0%N \/ fatal_next s).
Proof.
  intros B k m fin s Iv Hk E Hf. rewrite E. destruct (response_exactly k s Hk Iv) as [Y1 Y2]. rewrite <- Y1.
  unfold try_, bind, lift, ret. destruct (read_status_response k s) as [[[p|e]|x|] s'] eqn:R; cbn [fst].
  - split; [|intros [y K]; discriminate]. specialize (Hf p (Y2 _ _ eq_refl)).
    destruct (fin p) as [y|y|]; cbn [fst]; intros [x K]; try discriminate. exfalso. apply Hf. eexists. reflexivity.
  - split; intros [y K]; discriminate.
  - split; intros _; eexists; reflexivity.
  - split; intros [y K]; discriminate.
Qed.

Definition fin_bytes (id : byte) (count : nat) (p : packet) : out (result (response (list byte)) read_error) :=
  let* rid := pk_id p in
  match packet_id_check rid id with
  | Err e => Val (Err (RInvalidMessage e))
  | Ok _ =>
      let* ps := st_parameters p in
      match param_count_check (length ps) count with
      | Err e => Val (Err (RInvalidMessage e))
      | Ok _ => decode_status_packet_bytes p
      end
  end.

Definition fin_value {A} (D : data_impl A) (id : byte) (p : packet) : out (result (response A) read_error) :=
  let* rid := pk_id p in
  match packet_id_check rid id with
  | Err e => Val (Err (RInvalidMessage e))
  | Ok _ =>
      let* ps := st_parameters p in
      match param_count_check (length ps) (d_size D) with
      | Err e => Val (Err (RInvalidMessage e))
      | Ok _ => decode_status_packet D p
      end
  end.

Lemma response_expected : forall id n s, inv s -> is_u16 n ->
  (panics (fst (expect_response id n s)) <-> b_baud s = 0%N \/ fatal_next s).
Proof.
  intros id n s Iv Hn. apply (expect_exactly _ n _ (fin_bytes id (N.to_nat n)) s Iv Hn).
  - intro s0. unfold expect_response, try_, tryr, bind, lift, ret.
    destruct (read_status_response n s0) as [[[p|e]|x|] s1]; try reflexivity. unfold fin_bytes.
    destruct (pk_id p); try reflexivity. cbn [obind]. destruct (packet_id_check _ _); try reflexivity.
    destruct (st_parameters p); try reflexivity. cbn [obind]. destruct (param_count_check _ _); reflexivity.
  - intros p H [k K]. unfold fin_bytes in K. destruct (status_fields _ H) as [id' [e [ps [E1 [E2 E3]]]]].
    rewrite E1, E3 in K. cbn [obind] in K. destruct (packet_id_check _ _); [|discriminate].
    destruct (param_count_check _ _); [|discriminate]. unfold decode_status_packet_bytes in K.
    rewrite E2 in K. cbn [obind] in K. destruct (motor_error_check e); [|discriminate].
    destruct (alert_val _ _ E2) as [al E4]. rewrite E1, E3, E4 in K. discriminate.
Qed.

Lemma value_expected : forall A (D : data_impl A) id s, inv s -> is_u16 (N.of_nat (d_size D)) -> safe_decode D ->
  (panics (fst (expect_value D id s)) <-> b_baud s = 0%N \/ fatal_next s).
Proof.
  intros A D id s Iv Hn Hd. apply (expect_exactly _ (N.of_nat (d_size D)) _ (fin_value D id) s Iv Hn).
  - intro s0. unfold expect_value, try_, tryr, bind, lift, ret.
    destruct (read_status_response (N.of_nat (d_size D)) s0) as [[[p|e]|x|] s1]; try reflexivity. unfold fin_value.
    destruct (pk_id p); try reflexivity. cbn [obind]. destruct (packet_id_check _ _); try reflexivity.
    destruct (st_parameters p); try reflexivity. cbn [obind]. destruct (param_count_check _ _); reflexivity.
  - intros p H [k K]. unfold fin_value in K. destruct (status_fields _ H) as [id' [e [ps [E1 [E2 E3]]]]].
    rewrite E1, E3 in K. cbn [obind] in K. destruct (packet_id_check _ _); [|discriminate].
    unfold param_count_check in K. destruct (length ps =? d_size D) eqn:L; [|discriminate]. apply Nat.eqb_eq in L.
    unfold decode_status_packet in K.
    rewrite E2 in K. cbn [obind] in K. destruct (motor_error_check e); [|discriminate].
    destruct (alert_val _ _ E2) as [al E4]. rewrite E1, E3, E4 in K. cbn [obind] in K.
    specialize (Hd ps L). destruct (d_decode D ps) as [[v|er]|x|]; cbn [obind] in K; try discriminate.
    apply Hd. eexists. reflexivity.
Qed.

Lemma panics_bind_ret : forall A B (m : M A) (f : A -> B) s,
  panics (fst ((r <- m ;; ret (f r)) s)) <-> panics (fst (m s)).
Proof.
  intros A B m f s. unfold bind, ret. destruct (m s) as [[a|x|] s']; cbn [fst];
    (split; intros [k K]; try discriminate; eexists; reflexivity).
Qed.

Lemma due_nth : forall A (l : list A) j, match nth_error l j with Some _ => j < length l | None => length l <= j end.
Proof.
  intros A l j. destruct (nth_error l j) eqn:E; [apply nth_error_Some; congruence|apply nth_error_None, E].
Qed.

Lemma L_C81_exactly_when_waiting_panics : forall B (m : M B) due s, survives s -> (b_baud s < 2 ^ 32)%N -> listens_once m due ->
  (panics (fst (m s)) <-> due = true /\ (b_baud s = 0%N \/ fatal_next s)).
Proof.
  intros B m due s R Bd W. pose proof (survives_inv _ R) as Iv.
  destruct W as [k Hk| |n ids j Hn|A D ids j Hn Hd|l j Hl].
  - rewrite (proj1 (response_exactly k s Hk Iv)). tauto.
  - rewrite (scan_exactly s Iv Bd). tauto.
  - unfold srb_next, srb_pop. cbn [srb_ids srb_index srb_count]. pose proof (due_nth _ ids j) as Du.
    destruct (nth_error ids j) as [id|].
    + rewrite panics_bind_ret, (response_expected id n s Iv Hn). replace (j <? length ids) with true by lia. tauto.
    + replace (j <? length ids) with false by lia. split; [intros [k K]|intros [K _]]; discriminate.
  - unfold sr_next, sr_pop. cbn [sr_ids sr_index]. pose proof (due_nth _ ids j) as Du.
    destruct (nth_error ids j) as [id|].
    + rewrite panics_bind_ret, (value_expected A D id s Iv Hn Hd). replace (j <? length ids) with true by lia. tauto.
    + replace (j <? length ids) with false by lia. split; [intros [k K]|intros [K _]]; discriminate.
  - unfold br_next, br_pop. cbn [br_reads br_index]. pose proof (due_nth _ l j) as Du.
    destruct (nth_error l j) as [q|] eqn:E.
    + assert (Hq : is_u16 (br_count q)) by (rewrite Forall_forall in Hl; apply Hl; eapply nth_error_In, E).
      rewrite panics_bind_ret, (response_expected (br_id q) (br_count q) s Iv Hq).
      replace (j <? length l) with true by lia. tauto.
    + replace (j <? length l) with false by lia. split; [intros [k K]|intros [K _]]; discriminate.
Qed.

(** ** Examples *)

Lemma tight_trouble : survives healthy /\ waits (write_bytes x01 100 tight_data) x01 x03 (le16 100 ++ tight_data) /\
  write_trouble (b_dbg healthy) (length (b_wbuf healthy)) (x03 :: le16 100 ++ tight_data) /\
  ~ write_trouble (b_dbg healthy) (length (b_wbuf healthy)) (x03 :: le16 100 ++ repeat x00 51) /\
  tells (sync_write_bytes 100 2 [mkSync x01 [x01; x02]]) [x83; x64; x00; x02; x00; x01; x01; x02] /\
  goes_out healthy [x83; x64; x00; x02; x00; x01; x01; x02].
Proof.
  split; [exact healthy_survives|]. split; [apply wa_write_bytes; discriminate|].
  assert (U : forall n, (N.of_nat n <= 100)%N -> ~ (usize_max < N.of_nat n)%N) by (intros n L K; rewrite usize_max_val in K; lia).
  split; [|split; [|split; [|split; [|split; [|split]]]]].
  - right. split; [vm_compute; lia|]. split; [vm_compute; lia|]. left. vm_compute. lia.
  - intros [K|[_ [_ [K|[_ K]]]]].
    + apply U in K; [exact K|vm_compute; discriminate].
    + vm_compute in K. lia.
    + vm_compute in K. apply K. reflexivity.
  - apply (te_sync_write_bytes 100 2 [mkSync x01 [x01; x02]]). constructor; [reflexivity|constructor].
  - intros [K|[_ [_ [K|[_ K]]]]].
    + apply U in K; [exact K|vm_compute; discriminate].
    + vm_compute in K. lia.
    + vm_compute in K. apply K. reflexivity.
  - vm_compute. lia.
  - vm_compute. lia.
  - split; reflexivity.
Qed.

Lemma void_trouble : survives two_voids /\ waits (ping x01) x01 x01 [] /\ goes_out two_voids [x01] /\ fatal_answer two_voids /\
  ~ fatal_answer healthy.
Proof.
  split; [apply two_voids_ready|]. split; [apply wa_ping|]. split; [|split].
  - split; [|split; [vm_compute; lia|split; [vm_compute; lia|split; reflexivity]]].
    intros [K|[_ [_ [K|[_ K]]]]].
    + rewrite usize_max_val in K. cbn [length Nat.add] in K. lia.
    + vm_compute in K. lia.
    + vm_compute in K. apply K. reflexivity.
  - split; [vm_compute; lia|]. exists [], void_message, (map inl void_message). split; [exact empty_no_header|].
    split; [exact void_fatal|]. vm_compute. reflexivity.
  - intros [_ [g [w [rest [_ [[id [body [_ F]]] E]]]]]]. apply framed_iff in F. destruct F as [crc [-> _]].
    change (incoming healthy) with (@nil item) in E. symmetry in E. apply app_eq_nil in E. destruct E as [E _].
    apply map_eq_nil, app_eq_nil in E. destruct E as [_ E]. discriminate E.
Qed.

Lemma waiting_trouble : (b_baud two_voids < 2 ^ 32)%N /\ fatal_next two_voids /\
  listens_once (srb_next (mkSRB 4 [x01; x02] 1)) true /\ listens_once (srb_next (mkSRB 4 [x01; x02] 2)) false.
Proof.
  split; [reflexivity|]. split.
  - split; [vm_compute; lia|]. exists [], void_message, (map inl void_message). split; [exact empty_no_header|].
    split; [exact void_fatal|]. vm_compute. reflexivity.
  - split; [apply (lo_srb_next 4 [x01; x02] 1)|apply (lo_srb_next 4 [x01; x02] 2)]; reflexivity.
Qed.
