(** * EchoTheorems: an echo is never taken for an answer *)
From Coq Require Import ZArith ZifyN ZifyNat ZifyBool.
From Verif Require Import Base Endian Error Checksum Bytestuff Packet Time Bus Data Client
  Instructions Device MockDevice Api Spec CallSpec StreamSpec DeviceSpec InstructionSpec Demo Lib ChecksumProofs
  CrcErrorProofs StuffProofs WriteProofs ReadProofs ApiProofs StreamProofs MessageProofs SendProofs
  SendTheorems ReadTheorems StatusProofs DeviceTheorems InstructionProofs DemoProofs TransferTheorems
  UnderstoodTheorems ScanTheorems RemoteSpec RemoteProofs RemoteTheorems IterTheorems SlotSpec SlotTheorems
  TurnSpec TurnTheorems ConformSpec ConformTheorems EchoSpec.
Ltac Zify.zify_post_hook ::= Z.div_mod_to_equations.

Lemma fits_length : forall cap id i params, fits cap (i :: params) ->
  length (code_wire id (i :: params)) <= cap /\ (N.of_nat (length (code_wire id (i :: params)) - 7) < 2 ^ 16)%N.
Proof.
  intros cap id i params [P1 [P2 _]]. rewrite code_wire_length.
  pose proof (fcount_third (i :: params)) as F. cbn [length] in *. lia.
Qed.

(** [sends_works] for messages that need not be understood. *)
Lemma sends_fits : forall cap m id i params s, sends m id i params -> hardy cap s -> fits cap (i :: params) ->
  exists s', works cap m s (Ok tt) (code_wire id (i :: params)) s' /\ pending s' = incoming s /\
    length (b_rbuf s') = length (b_rbuf s).
Proof.
  intros cap m id i params s Sd [H1 H2 H3 H4 H4' H5 H6] [P1 [P2 _]].
  pose proof (sends_effect _ _ _ _ _ Sd H1) as X. pose proof (fcount_third (i :: params)) as F.
  cbn [length] in *.
  destruct (m s) as [o s'] eqn:E. remember (o, s') as os eqn:Eo.
  destruct X as [X|e w' X1 X2 X3|p X1 X2 X3|e w' X1 X2 X3 X4|w' X1 X2 X3 X4 X5]; injection Eo as <- <-.
  - exfalso. rewrite usize_max_val in X. change (2 ^ 16)%N with 65536%N in P2. lia.
  - exfalso. lia.
  - exfalso. rewrite code_stuff_length in X3. cbn [length] in X3. destruct X3 as [[_ [_ X3]]|[_ X3]]; [|lia].
    rewrite N.mod_small in X3; change (2 ^ 16)%N with 65536%N in *; lia.
  - rewrite H2 in X4. discriminate.
  - rewrite H3 in E. cbn [hd tl] in E. eexists. split; [split; [exact E|]|].
    + split; [constructor|].
      * split; [split; cbn; lia|exact X1].
      * cbn. rewrite H2. reflexivity.
      * reflexivity.
      * exact H4.
      * exact H4'.
      * exact H5.
      * cbn [b_wbuf]. lia.
      * eexists. split; [reflexivity|]. cbn. rewrite app_nil_r. reflexivity.
    + split; reflexivity.
Qed.

Lemma unst_code_stuff_head : forall i params, exists body, unst 0 (code_stuff (i :: params)) = i :: body.
Proof. intros i params. eexists. reflexivity. Qed.

(** The receiver sees the echo of [i] as a packet that is no status. *)
Lemma echo_status : forall cap g id i params q, i <> x55 -> ~ contains g header -> fits cap (i :: params) ->
  forall room, cap <= room ->
  exists o, ideal room (map inl (g ++ code_wire id (i :: params)) ++ q) = (o, q) /\
    status_of o = Val (Err (own_echo i)).
Proof.
  intros cap g id i params q Hi Hg F room Hr. destruct (fits_length cap id i params F) as [L1 L2].
  destruct (ideal_code_wire room g id i params q Hg L2) as [p [E P]]; [lia|].
  destruct (unst_code_stuff_head i params) as [body B]. rewrite B in P.
  exists (Val (Ok p)). split; [exact E|]. apply (status_check_other p id i body P Hi).
Qed.

Lemma shaped_echo : forall B (m : M (result B transfer_error)) id i params k fin cap s o s' evs g q,
  shaped m id i params k fin -> fin (Err (own_echo i)) = Val (Err (TReadError (own_echo i))) -> i <> x55 ->
  hardy cap s -> fits cap (i :: params) ->
  m s = (o, s') -> calls s s' evs -> ~ contains g header -> incoming s = map inl (g ++ transmitted evs) ++ q ->
  o = Val (Err (TReadError (own_echo i))) /\ pending s' = q.
Proof.
  intros B m id i params k fin cap s o s' evs g q [enc [Hw [Hk Sh]]] Hf Hi H F E C Hg In.
  destruct (sends_fits cap _ id i params s (sends_instruction id i params enc Hw) H F) as [s1 [[W [H1 [e1 [C1 T1]]]] [P1 _]]].
  rewrite (Sh _ _ W) in E. unfold bind, lift in E.
  destruct (read_status_response k s1) as [x s2] eqn:Er.
  destruct H1 as [I1 D1 W1 B1 B2 L1 L2].
  destruct (read_status_spec _ _ _ _ I1 Er) as [[p [T _]]|[t [o1 [_ [Id [Ho [I2 Ti]]]]]]].
  { exfalso. destruct (response_timeout_val (b_dbg s1) (b_baud s1) k Hk B1) as [t T']. congruence. }
  assert (Es : s' = s2) by (destruct x; injection E; auto). subst s2.
  destruct (timed_hardy cap t _ _ Ti I2 ltac:(constructor; assumption)) as [_ [e2 [C2 T2]]].
  rewrite (calls_inj _ _ _ _ C (calls_app _ _ _ _ _ C1 C2)), transmitted_app, T1, T2, app_nil_r in In.
  destruct (echo_status cap g id i params q Hi Hg F (length (b_rbuf s1)) L1) as [o2 [Id' So]].
  rewrite P1, In, Id' in Id. injection Id as <- Q. split; [|auto].
  rewrite So in Ho. subst x. rewrite Hf in E. injection E as <-. reflexivity.
Qed.

Lemma L_C75_answer : forall B (m : M (result B transfer_error)) id i params cap s o s' evs g rest,
  asks m id i params -> ready cap s -> fits cap (i :: params) ->
  m s = (o, s') -> calls s s' evs -> ~ contains g header -> incoming s = map inl (g ++ transmitted evs) ++ rest ->
  o = Val (Err (TReadError (own_echo i))) /\ pending s' = rest.
Proof.
  intros B m id i params cap s o s' evs g rest A R F E C Hg In. apply ready_hardy in R.
  assert (X : exists k fin, shaped m id i params k fin /\ fin (Err (own_echo i)) = Val (Err (TReadError (own_echo i)))).
  { clear - A. destruct A as [id|id a n Hn|A D id a Hn|A D id a v bytes Hid Ok En|id a d Hid|A D id a v bytes Hid Ok S1 En|id a d Hid|id Hid|id k Hid|id Hid|id Hid|id Hid].
    - do 2 eexists. split; [apply ping_shaped|reflexivity].
    - do 2 eexists. split; [apply read_bytes_shaped, Hn|reflexivity].
    - do 2 eexists. split; [apply read_shaped, Hn|reflexivity].
    - exists 0%N, fin_instruct. split; [|reflexivity].
      { apply instruct_shaped; [apply address_and_value_writes; assumption| |exact Hid].
        rewrite app_length, (proj1 En). reflexivity. }
    - do 2 eexists. split; [apply instruct_shaped; [apply address_and_bytes_writes|rewrite app_length; reflexivity|exact Hid]|reflexivity].
    - exists 0%N, fin_instruct. split; [|reflexivity].
      { apply instruct_shaped; [apply address_and_value_writes; assumption| |exact Hid].
        rewrite app_length, (proj1 En), S1. reflexivity. }
    - do 2 eexists. split; [apply instruct_shaped; [apply address_and_bytes_writes|rewrite app_length; reflexivity|exact Hid]|reflexivity].
    - do 2 eexists. split; [apply instruct_shaped; [apply no_params_writes|reflexivity|exact Hid]|reflexivity].
    - do 2 eexists. split; [apply instruct_shaped; [apply factory_reset_writes|reflexivity|exact Hid]|reflexivity].
    - do 2 eexists. split; [apply instruct_shaped; [apply no_params_writes|reflexivity|exact Hid]|reflexivity].
    - do 2 eexists. split; [apply instruct_shaped; [apply clear_revolution_writes|reflexivity|exact Hid]|reflexivity].
    - do 2 eexists. split; [apply instruct_shaped; [apply clear_error_writes|reflexivity|exact Hid]|reflexivity]. }
  destruct X as [k [fin [Sh Hf]]].
  assert (Hi : i <> x55) by (clear - A; destruct A; discriminate).
  exact (shaped_echo B m id i params k fin cap s o s' evs g rest Sh Hf Hi R F E C Hg In).
Qed.

(** ** several motors *)

(** The echo takes the place of the first answer, and each answer that of the next. *)
Lemma shifted_by_echo : forall Q X (key : Q -> byte) (f : Q -> byte * byte * list byte -> result X read_error),
  (forall q id e ps, id <> key q -> exists er, f q (id, e, ps) = Err er) ->
  forall reqs first sts lst, NoDup (map key (first :: reqs)) ->
  map key (first :: reqs) = map (fun st => fst (fst st)) sts ++ [lst] ->
  Forall failed (map (fun '(q, sl) => Some (verdict (f q) sl))
    (combine reqs (map (fun '(id, e, ps) => Answered id e ps) sts))).
Proof.
  intros Q X key f Hf. induction reqs as [|q reqs IH]; intros first sts lst N E; [constructor|].
  destruct sts as [|[[id er] ps] sts]; [discriminate|]. cbn [map combine]. cbn [map app fst] in E. injection E as <- E.
  inversion N as [|? ? N1 N2]; subst. constructor.
  - cbn [verdict]. destruct (Hf q (key first) er ps) as [x ->]; [|exists x; reflexivity].
    intro K. apply N1. left. auto.
  - apply (IH q sts lst N2). exact E.
Qed.

Lemma echo_items : forall Q X (key : Q -> byte) (f : Q -> byte * byte * list byte -> result X read_error),
  (forall q id e ps, id <> key q -> exists er, f q (id, e, ps) = Err er) ->
  forall reqs i sts lst, NoDup (map key reqs) -> map key reqs = map (fun st => fst (fst st)) sts ++ [lst] ->
  let xs := map (fun '(q, sl) => Some (verdict (f q) sl))
    (firstn (length reqs) (combine reqs (Alien i :: map (fun '(id, e, ps) => Answered id e ps) sts))) in
  length xs = length reqs /\ hd None xs = Some (Err (own_echo i)) /\ Forall failed xs.
Proof.
  intros Q X key f Hf reqs i sts lst N E xs.
  assert (L : length reqs = S (length sts)).
  { apply (f_equal (@length byte)) in E. rewrite app_length, !map_length in E. cbn [length] in E. lia. }
  unfold xs. clear xs.
  rewrite firstn_all2 by (rewrite combine_length; lia).
  destruct reqs as [|q reqs]; [discriminate L|]. cbn [length] in L.
  split; [|split].
  - rewrite map_length, combine_length. cbn [length]. rewrite map_length. lia.
  - reflexivity.
  - cbn [combine map]. constructor; [eexists; reflexivity|].
    apply (shifted_by_echo Q X key f Hf reqs q sts lst N E).
Qed.

Lemma echo_slots : forall cap id i params g line sts rest, fits cap (i :: params) -> ff_runs_ok (i :: params) -> i <> x55 ->
  ~ contains g header -> forall room, cap <= room -> statuses room line sts rest ->
  slots room (map inl (g ++ code_wire id (i :: params)) ++ line)
    (Alien i :: map (fun '(id, e, ps) => Answered id e ps) sts) rest.
Proof.
  intros cap id i params g line sts rest F Ff Hi Hg room Hr H. destruct (fits_length cap id i params F) as [L1 L2].
  apply sl_alien with (id := id) (ps := params); [exact Hg| |exact Ff|exact Hi|lia|].
  - apply (passes_frame cap). destruct F as [F1 [F2 _]]. split; [exact F1|]. split; [exact F2|exact Ff].
  - rewrite <- (app_nil_r (map _ sts)). apply (statuses_slots _ _ _ _ _ _ H). constructor.
Qed.

Lemma sent_first : forall cap wr id i params s o s1 evs, sends wr id i params -> hardy cap s -> fits cap (i :: params) ->
  wr s = (o, s1) -> calls s s1 evs ->
  o = Val (Ok tt) /\ transmitted evs = code_wire id (i :: params) /\ hardy cap s1 /\ pending s1 = incoming s /\
  length (b_rbuf s1) = length (b_rbuf s).
Proof.
  intros cap wr id i params s o s1 evs Sd H F E C.
  destruct (sends_fits cap wr id i params s Sd H F) as [s2 [[W [H1 [e1 [C1 T1]]]] [P1 L1]]].
  rewrite W in E. injection E as <- <-. rewrite (calls_inj _ _ _ _ C C1). auto.
Qed.

Lemma L_C75_sync_read_bytes : forall ids a n cap s it s1 evs g line sts lst rest,
  ready cap s -> 10 <= cap -> is_u16 n -> NoDup ids -> fits cap (sync_read_message ids a n) ->
  ff_runs_ok (sync_read_message ids a n) ->
  sync_read_bytes ids a n s = (Val (Ok it), s1) -> calls s s1 evs ->
  ~ contains g header -> incoming s = map inl (g ++ transmitted evs) ++ line ->
  ids = map (fun st => fst (fst st)) sts ++ [lst] -> statuses (length (b_rbuf s)) line sts rest ->
  exists xs s2, take_then_drop srb_next srb_drop (length ids) it s1 = (Val xs, s2) /\
    length xs = length ids /\ hd None xs = Some (Err (own_echo x82)) /\ Forall failed xs /\ pending s2 = rest.
Proof.
  intros ids a n cap s it s1 evs g line sts lst rest R H10 Hn N F Ff E C Hg In Ids Sts.
  pose proof (ready_hardy _ _ R) as H. destruct R as [R _].
  assert (R1 : reach s1) by (eapply reach_call; [exact R|apply api_sync_read_bytes|exact E]).
  pose proof (sends_instruction xfe x82 _ _ (sync_read_writes a n ids)) as Sd.
  unfold sync_read_bytes, write_sync_read, try_ in E. unfold bind at 1 in E.
  change BROADCAST with xfe in E. change SYNC_READ with x82 in E.
  change (4 + length ids) with (length (le16 a ++ le16 n ++ ids)) in E.
  match type of E with context [write_instruction ?a1 ?b1 ?c1 ?d1 s] => destruct (write_instruction a1 b1 c1 d1 s) as [o s'] eqn:W end.
  assert (Es : s' = s1).
  { destruct o as [[[]|e]|x|]; unfold ret in E; injection E; intros; congruence. }
  subst s'. destruct (sent_first cap _ _ _ _ s o s1 evs Sd H F W C) as [-> [T [H1 [P1 L1]]]].
  unfold ret in E. injection E as <-.
  rewrite T in In.
  pose proof (echo_slots cap xfe x82 _ g line sts rest F Ff ltac:(discriminate) Hg (length (b_rbuf s1))
    (ha_rcap _ _ H1) ltac:(rewrite L1; exact Sts)) as Sl.
  rewrite <- In, <- P1 in Sl.
  assert (Ln : length ids = S (length sts)) by (rewrite Ids, app_length, map_length; apply Nat.add_1_r).
  destruct (L_C66_sync_read_bytes_partial n ids (length ids) s1 (Alien x82 :: map (fun '(id, e, ps) => Answered id e ps) sts) rest R1 ltac:(pose proof (ha_rcap _ _ H1); lia) Hn
    (ha_baud _ _ H1) (le_n _) ltac:(cbn [length]; rewrite map_length; exact (eq_sym Ln)) Sl) as [s2 [E2 P2]].
  destruct (echo_items _ _ (fun id : byte => id) (fun id => judge id (N.to_nat n))
    (fun q id er ps K => judge_wrong q _ id er ps K) ids x82 sts lst) as [X1 [X2 X3]];
    [rewrite map_id; exact N|rewrite map_id; exact Ids|].
  do 2 eexists. split; [exact E2|]. auto.
Qed.

Lemma L_C75_sync_read : forall A (D : data_impl A) decode ids a cap s it s1 evs g line sts lst rest,
  ready cap s -> 10 <= cap -> is_u16 (N.of_nat (d_size D)) ->
  (forall ps, length ps = d_size D -> d_decode D ps = Val (decode ps)) ->
  NoDup ids -> fits cap (sync_read_message ids a (N.of_nat (d_size D))) ->
  ff_runs_ok (sync_read_message ids a (N.of_nat (d_size D))) ->
  sync_read D ids a s = (Val (Ok it), s1) -> calls s s1 evs ->
  ~ contains g header -> incoming s = map inl (g ++ transmitted evs) ++ line ->
  ids = map (fun st => fst (fst st)) sts ++ [lst] -> statuses (length (b_rbuf s)) line sts rest ->
  exists xs s2, take_then_drop (sr_next D) (sr_drop D) (length ids) it s1 = (Val xs, s2) /\
    length xs = length ids /\ hd None xs = Some (Err (own_echo x82)) /\ Forall failed xs /\ pending s2 = rest.
Proof.
  intros A D decode ids a cap s it s1 evs g line sts lst rest R H10 Hn Hd N F Ff E C Hg In Ids Sts.
  pose proof (ready_hardy _ _ R) as H. destruct R as [R _].
  assert (R1 : reach s1) by (eapply reach_call; [exact R|apply (api_sync_read A D)|exact E]).
  set (n := N.of_nat (d_size D)) in *.
  pose proof (sends_instruction xfe x82 _ _ (sync_read_writes a n ids)) as Sd.
  unfold sync_read, write_sync_read, try_ in E. unfold bind at 1 in E.
  change BROADCAST with xfe in E. change SYNC_READ with x82 in E.
  change (4 + length ids) with (length (le16 a ++ le16 n ++ ids)) in E.
  match type of E with context [write_instruction ?a1 ?b1 ?c1 ?d1 s] => destruct (write_instruction a1 b1 c1 d1 s) as [o s'] eqn:W end.
  assert (Es : s' = s1).
  { destruct o as [[[]|e]|x|]; unfold ret in E; injection E; intros; congruence. }
  subst s'. destruct (sent_first cap _ _ _ _ s o s1 evs Sd H F W C) as [-> [T [H1 [P1 L1]]]].
  unfold ret in E. injection E as <-.
  rewrite T in In.
  pose proof (echo_slots cap xfe x82 _ g line sts rest F Ff ltac:(discriminate) Hg (length (b_rbuf s1))
    (ha_rcap _ _ H1) ltac:(rewrite L1; exact Sts)) as Sl.
  rewrite <- In, <- P1 in Sl.
  assert (Ln : length ids = S (length sts)) by (rewrite Ids, app_length, map_length; apply Nat.add_1_r).
  destruct (L_C66_sync_read_partial A D decode ids (length ids) s1 (Alien x82 :: map (fun '(id, e, ps) => Answered id e ps) sts) rest R1 ltac:(pose proof (ha_rcap _ _ H1); lia) Hn
    (ha_baud _ _ H1) Hd (le_n _) ltac:(cbn [length]; rewrite map_length; exact (eq_sym Ln)) Sl) as [s2 [E2 P2]].
  destruct (echo_items _ _ (fun id : byte => id) (fun id => judge_value decode id (d_size D))
    (fun q id er ps K => judge_value_wrong A decode q _ id er ps K) ids x82 sts lst) as [X1 [X2 X3]];
    [rewrite map_id; exact N|rewrite map_id; exact Ids|].
  do 2 eexists. split; [exact E2|]. auto.
Qed.

Lemma L_C75_bulk_read : forall qs cap s it s1 evs g line sts lst rest,
  ready cap s -> 10 <= cap -> Forall (fun q => is_u16 (br_count q)) qs -> NoDup (map br_id qs) ->
  fits cap (bulk_read_message qs) -> ff_runs_ok (bulk_read_message qs) ->
  bulk_read_bytes qs s = (Val (Ok it), s1) -> calls s s1 evs ->
  ~ contains g header -> incoming s = map inl (g ++ transmitted evs) ++ line ->
  map br_id qs = map (fun st => fst (fst st)) sts ++ [lst] -> statuses (length (b_rbuf s)) line sts rest ->
  exists xs s2, take_then_drop br_next br_drop (length qs) it s1 = (Val xs, s2) /\
    length xs = length qs /\ hd None xs = Some (Err (own_echo x92)) /\ Forall failed xs /\ pending s2 = rest.
Proof.
  intros qs cap s it s1 evs g line sts lst rest R H10 Hn N F Ff E C Hg In Ids Sts.
  pose proof (ready_hardy _ _ R) as H. destruct R as [R _].
  assert (R1 : reach s1) by (eapply reach_call; [exact R|apply api_bulk_read_bytes|exact E]).
  pose proof (sends_instruction xfe x92 _ _ (bulk_read_writes qs)) as Sd. rewrite bulk_read_entries_length in Sd.
  unfold bulk_read_bytes, write_bulk_read_instruction, try_ in E. unfold bind at 1 in E.
  rewrite (proj2 (bulk_read_dup_iff qs) N) in E.
  change BROADCAST with xfe in E. change BULK_READ with x92 in E.
  match type of E with context [write_instruction ?a1 ?b1 ?c1 ?d1 s] => destruct (write_instruction a1 b1 c1 d1 s) as [o s'] eqn:W end.
  assert (Es : s' = s1).
  { destruct o as [[[]|e]|x|]; unfold ret in E; injection E; intros; congruence. }
  subst s'. destruct (sent_first cap _ _ _ _ s o s1 evs Sd H F W C) as [-> [T [H1 [P1 L1]]]].
  unfold ret in E. injection E as <-.
  rewrite T in In.
  pose proof (echo_slots cap xfe x92 _ g line sts rest F Ff ltac:(discriminate) Hg (length (b_rbuf s1))
    (ha_rcap _ _ H1) ltac:(rewrite L1; exact Sts)) as Sl.
  rewrite <- In, <- P1 in Sl.
  assert (Ln : length qs = S (length sts)).
  { rewrite <- (map_length br_id), Ids, app_length, map_length. apply Nat.add_1_r. }
  destruct (L_C66_bulk_read_partial qs (length qs) s1 (Alien x92 :: map (fun '(id, e, ps) => Answered id e ps) sts) rest R1 ltac:(pose proof (ha_rcap _ _ H1); lia) Hn
    (ha_baud _ _ H1) (le_n _) ltac:(cbn [length]; rewrite map_length; exact (eq_sym Ln)) Sl) as [s2 [E2 P2]].
  destruct (echo_items _ _ br_id (fun q => judge (br_id q) (N.to_nat (br_count q)))
    (fun q id er ps K => judge_wrong (br_id q) _ id er ps K) qs x92 sts lst N Ids) as [X1 [X2 X3]].
  do 2 eexists. split; [exact E2|]. auto.
Qed.

(** ** Scanning *)

Lemma L_C75_scan : forall cap s s1 evs g line sts g2 e rest,
  ready cap s -> 13 <= cap -> scan s = (Val (Ok tt), s1) -> calls s s1 evs ->
  ~ contains g header -> incoming s = map inl (g ++ transmitted evs) ++ line ->
  ~ contains g2 header -> is_timeout_error e = true ->
  statuses (length (b_rbuf s)) line sts (map inl g2 ++ inr e :: rest) ->
  exists s2, scan_nexts (length sts + 2) s1 =
    (Val (Some (Err (own_echo x01)) :: map (fun st => Some (judge_ping st)) sts ++ [None]), s2).
Proof.
  intros cap s s1 evs g line sts g2 e rest R Hc E C Hg In Hg2 He Sts.
  pose proof (ready_hardy _ _ R) as H. destruct R as [R _].
  assert (R1 : reach s1) by (eapply reach_call; [exact R|apply api_scan|exact E]).
  assert (F : fits cap [x01]) by (split; [cbn; lia|split; [reflexivity|exact I]]).
  destruct (sent_first cap _ _ _ _ s _ s1 evs (sends_instruction xfe x01 [] _ no_params_writes) H F E C)
    as [_ [T [H1 [P1 L1]]]].
  rewrite T in In. destruct H1 as [I1 D1 W1 B1 B2 C1 C2].
  destruct (scan_next s1) as [o s2] eqn:Sn.
  destruct (scan_next_spec s1 o s2 R1 Sn) as [[x [Tx [K _]]]|[t [o1 [_ [Id [Ho [Ti I2]]]]]]].
  { exfalso. destruct (scan_timeout_val (b_dbg s1) (b_baud s1) B1 B2) as [t Et]. apply (K t). congruence. }
  destruct (echo_status cap g xfe x01 [] line ltac:(discriminate) Hg F (length (b_rbuf s1)) C1) as [o2 [Id' So]].
  rewrite P1, In, Id' in Id. injection Id as <- Q. rewrite So in Ho. cbn [scan_judge own_echo] in Ho. subst o.
  pose proof (scan_next_reach s1 _ s2 R1 Sn) as R2. destruct (scan_next_caps s1 _ s2 R1 Sn) as [L2 Bd].
  destruct (L_C35_complete_scan sts s2 g2 e rest R2 ltac:(congruence) ltac:(congruence) ltac:(lia) Hg2 He
    ltac:(rewrite L2, L1, <- Q; exact Sts)) as [s3 [g' [c [E3 _]]]].
  exists s3. replace (length sts + 2) with (S (length sts + 1)) by lia. cbn [scan_nexts]. unfold bind at 1.
  rewrite Sn. unfold bind. rewrite E3. reflexivity.
Qed.

(** ** Devices *)

Lemma L_C75_device : forall m id params cap s s1 evs rest t u,
  sends m id x55 params -> ready cap s -> 10 <= cap -> fits cap (x55 :: params) ->
  m s = (Val (Ok tt), s1) -> reach s1 -> calls s s1 evs -> incoming s = map inl (transmitted evs) ++ rest ->
  reach u -> length (b_rbuf u) = length (b_rbuf s) -> pending u = rest ->
  fst (device_read t s1) = fst (device_read t u) /\
  pending (snd (device_read t s1)) = pending (snd (device_read t u)).
Proof.
  intros m id params cap s s1 evs rest t u Sd R Hc F E R1 C In Ru Lu Pu.
  destruct (sent_first cap _ _ _ _ s _ s1 evs Sd (ready_hardy _ _ R) F E C) as [_ [T [H1 [P1 L1]]]].
  destruct (fits_length cap id x55 params F) as [W1 W2].
  apply L_C68_deaf; [exact R1|exact Ru|pose proof (ha_rcap _ _ H1); lia|congruence|].
  rewrite P1, In, T, Pu.
  apply (skip_status _ [] id (tl (code_stuff (x55 :: params))) _ _ _ empty_no_header).
  - change STATUS with x55. rewrite <- code_stuff_cons by discriminate.
    exists (calculate_checksum 0 (covered id (x55 :: params))). split; [apply code_wire_wire_of_body|].
    split; [|apply covered_crc].
    rewrite code_wire_length in W2. rewrite code_stuff_length. lia.
  - eapply Nat.le_trans; [exact W1|exact (ha_rcap _ _ H1)].
  - constructor.
Qed.
