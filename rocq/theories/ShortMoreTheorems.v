(** * ShortMoreTheorems: short messages, further consequences; debug and release builds, exactly *)
From Coq Require Import ZArith ZifyN ZifyNat ZifyBool.
From Verif Require Import Base Endian Error Checksum Bytestuff Packet Time Bus Data Client
  Instructions Device MockDevice Api Spec CallSpec StreamSpec DeviceSpec DataSpec InstructionSpec Demo Lib ChecksumProofs
  CrcErrorProofs StuffProofs WriteProofs ReadProofs ApiProofs StreamProofs MessageProofs SendProofs
  SendTheorems ReadTheorems StatusProofs DeviceTheorems InstructionProofs DataTheorems DemoProofs TransferTheorems ScanTheorems
  GenericTheorems UnderstoodTheorems TwinSpec RemoteSpec RemoteProofs RemoteTheorems RemoteExtra ShortSpec ShortTheorems
  ProfileSpec ProfileTheorems SurviveSpec PanicSpec PanicExactSpec PanicExactTheorems.
Ltac Zify.zify_post_hook ::= Z.div_mod_to_equations.

(** ** Short messages *)

Lemma written_message : forall m id i params s s' w, inv s -> sends m id i params -> m s = (Val (Ok tt), s') ->
  calls s s' [LDiscard None; LWrite w None] -> w = code_wire id (i :: params).
Proof.
  intros m id i params s s' w Iv Sd E C. pose proof (sends_effect _ _ _ _ _ Sd Iv) as X. rewrite E in X.
  remember (Val (Ok tt), s') as os eqn:Eo.
  destruct X as [X|e w' X1 X2 X3|p X1 X2 X3|e w' X1 X2 X3 X4|w' X1 X2 X3 X4 X5]; try discriminate Eo.
  injection Eo as K <-. unfold calls in C. cbn [b_port p_log] in C. apply app_inv_head in C. congruence.
Qed.

Lemma short_wire : forall id i params, length params <= 8 -> (N.of_nat (length (code_wire id (i :: params)) - 7) < 2 ^ 16)%N.
Proof.
  intros id i params L. rewrite code_wire_length. pose proof (fcount_third (i :: params)) as T. cbn [length] in *.
  change (2 ^ 16)%N with 65536%N. lia.
Qed.

Lemma L_C18_short_messages : forall s m id i params s' w t d g rest,
  reach s -> sends m id i params -> m s = (Val (Ok tt), s') -> i <> xff -> length params <= 7 ->
  calls s s' [LDiscard None; LWrite w None] ->
  reach t -> ~ contains g header -> length w <= length (b_rbuf t) ->
  pending t = map inl (g ++ w) ++ rest ->
  exists p t', read_packet_deadline d t = (Val (Ok p), t') /\ pending t' = rest /\ packet_is p id (i :: params).
Proof.
  intros s m id i params s' w t d g rest R Sd E Hi Sh C Rt G L P.
  pose proof (written_message _ _ _ _ _ _ _ (reach_inv _ R) Sd E C) as Ew.
  assert (Lw : (N.of_nat (length w - 7) < 2 ^ 16)%N) by (rewrite Ew; apply short_wire; lia).
  destruct (L_C18_write_then_read_partial s m id i params s' w t d g rest R Sd E C Lw Rt G L P) as [p [t' [K1 [K2 K3]]]].
  exists p, t'. split; [exact K1|]. split; [exact K2|]. apply K3. apply short_comes_back; assumption.
Qed.

Lemma L_C43_short_instructions : forall B E (m : M (result B E)) id i params ins s o s' evs w r c t line g rest,
  request m id i params ins -> length params <= 7 -> reach s -> m s = (o, s') -> calls s s' evs -> In (LWrite w r) evs ->
  reach c -> skips (length (b_rbuf c)) (pending c) line -> ~ contains g header -> length w <= length (b_rbuf c) ->
  line = map inl (g ++ w) ++ rest ->
  exists c', device_read t c = (Val (Ok (mkInstruction id ins)), c') /\ pending c' = rest.
Proof.
  intros B E m id i params ins s o s' evs w r c t line g rest Rq Sh R Eq C In_w Rc Sk G Lc P.
  assert (Hi : i <> xff) by (destruct Rq; discriminate).
  eapply (L_C43_understood_partial B E m id i params ins s o s' evs w r c t line g rest); try eassumption.
  - apply short_comes_back; assumption.
  - destruct (request_transmits _ _ _ _ _ _ _ Rq s o s' R Eq) as [evs' [C' [S _]]].
    pose proof (calls_inj _ _ _ _ C C') as K. subst evs'.
    assert (w = code_wire id (i :: params)) as ->.
    { destruct S as [[r' [e' [-> Fo]]]|[[->|[e ->]] _]]; cbn [In] in In_w.
      - destruct In_w as [K|[K|K]]; [discriminate|congruence|]. rewrite Forall_forall in Fo. destruct (Fo _ K).
      - contradiction.
      - destruct In_w as [K|[]]. discriminate. }
    apply short_wire. lia.
Qed.

Lemma L_C46_short_answers : forall s id error params enc s' w c t g rest,
  reach s -> writes_parameters enc params -> length params <= 7 ->
  device_write_status id error (length params) enc s = (Val (Ok tt), s') ->
  calls s s' [LDiscard None; LWrite w None] ->
  reach c -> ~ contains g header -> length w <= length (b_rbuf c) ->
  pending c = map inl (g ++ w) ++ rest ->
  exists c', pending c' = rest /\
    ((b2n error mod 128 = 0)%N -> exists p, packet_is p id (STATUS :: error :: params) /\
       read_status_response_timeout t c = (Val (Ok p), c')) /\
    ((b2n error mod 128 <> 0)%N -> read_status_response_timeout t c = (Val (Err (RMotorError error)), c')).
Proof.
  intros s id error params enc s' w c t g rest R Hw Sh E C Rc G L P.
  pose proof (written_message _ _ _ _ _ _ _ (reach_inv _ R) (sends_status id error params enc Hw) E C) as Ew.
  assert (Lw : (N.of_nat (length w - 7) < 2 ^ 16)%N) by (rewrite Ew; apply short_wire; cbn [length]; lia).
  destruct (L_C46_status_arrives_partial s id error params enc s' w c t g rest R Hw E C Lw Rc G L P) as [c' [K1 [K2 K3]]].
  exists c'. split; [exact K1|]. split; [|exact K3]. intro Z. destruct (K2 Z) as [p [ps [K4 [K5 K6]]]].
  assert (ps = params) as ->.
  { apply K5. apply comes_back_cons; [discriminate|]. apply short_comes_back; [|exact Sh].
    intros ->. vm_compute in Z. discriminate. }
  exists p. auto.
Qed.

Lemma L_C55_short_write_then_read : forall cap c ds ms m a d mem' xs c' ds',
  let os := [OpWrite (m_id m) a d; OpRead (m_id m) a (N.of_nat (length d))] in
  connected cap c ds ms -> 21 <= cap -> In m ms -> is_u16 a -> length d <= 5 -> session c ds os xs c' ds' ->
  store (m_memory m) a d = Some mem' ->
  xs = [Val (RepDone (Ok (mkResponse (m_id m) false tt))); Val (RepData (Ok (mkResponse (m_id m) false d)))].
Proof.
  intros cap c ds ms m a d mem' xs c' ds' os Co Hc Hin Ha L Se St.
  eapply (L_C55_write_then_read_partial cap c ds ms m a d mem'); try eassumption.
  pose proof (connected_not_all _ _ _ _ _ Co Hin) as Na.
  apply short_all_possible; [exact Hc|]. constructor; [split; [exact Ha|lia]|].
  constructor; [split; [exact Na|]; split; [exact Ha|lia]|constructor].
Qed.

Lemma L_C55_short_registered_write : forall cap c ds ms m a d mem' b n before after xs c' ds',
  let os := [OpRegWrite (m_id m) a d; OpRead (m_id m) b n; OpAction (m_id m); OpRead (m_id m) b n] in
  connected cap c ds ms -> 21 <= cap -> In m ms -> is_u16 a -> length d <= 5 -> is_u16 b -> (n <= 7)%N ->
  session c ds os xs c' ds' ->
  store (m_memory m) a d = Some mem' -> load (m_memory m) b n = Some before -> load mem' b n = Some after ->
  xs = [Val (RepDone (Ok (mkResponse (m_id m) false tt))); Val (RepData (Ok (mkResponse (m_id m) false before)));
        Val (RepDone (Ok (mkResponse (m_id m) false tt))); Val (RepData (Ok (mkResponse (m_id m) false after)))].
Proof.
  intros cap c ds ms m a d mem' b n before after xs c' ds' os Co Hc Hin Ha L Hb Hn Se St L1 L2.
  eapply (L_C55_registered_write_waits_partial cap c ds ms m a d mem' b n before after); try eassumption.
  pose proof (connected_not_all _ _ _ _ _ Co Hin) as Na.
  apply short_all_possible; [exact Hc|]. repeat (constructor; [repeat split; assumption|]). constructor.
Qed.

Lemma L_C55_short_others_untouched : forall cap c ds ms m os xs c' ds',
  connected cap c ds ms -> 21 <= cap -> In m ms -> Forall short_op os -> session c ds os xs c' ds' ->
  Forall (elsewhere (m_id m)) os ->
  exists d, In d ds' /\ is_motor d m.
Proof.
  intros cap c ds ms m os xs c' ds' Co Hc Hin S Se El.
  eapply L_C55_others_untouched_partial; try eassumption. apply short_all_possible; assumption.
Qed.

Lemma L_C55_short_broadcast : forall cap c ds ms a d xs c' ds',
  let os := [OpRegWrite xfe a d; OpAction xfe] in
  connected cap c ds ms -> 21 <= cap -> is_u16 a -> length d <= 5 -> session c ds os xs c' ds' ->
  xs = [Val (RepDone (Ok (mkResponse xfe false tt))); Val (RepDone (Ok (mkResponse xfe false tt)))] /\
  Forall2 is_motor ds' (map (fun m => mkMotor (m_id m) (stored (m_memory m) a d) None) ms).
Proof.
  intros cap c ds ms a d xs c' ds' os Co Hc Ha L Se.
  eapply L_C55_broadcast_reaches_all_partial; try eassumption.
  apply short_all_possible; [exact Hc|]. constructor; [split; assumption|]. constructor; [exact I|constructor].
Qed.

(** ** Debug and release builds *)

Lemma L_C59_exactly_for_messages : forall s m id i params, reach s -> sends m id i params -> b_dbg s = true ->
  (m (release s) = (fst (m s), release (snd (m s))) <->
   ~ ((N.of_nat (length params + 10) <= usize_max)%N /\ length params + 10 <= length (b_wbuf s) /\
      7 + inflated (i :: params) <= length (b_wbuf s) /\
      (2 ^ 16 <= N.of_nat (inflated (i :: params)) mod 2 ^ 16 + 2)%N)).
Proof.
  intros s m id i params R Sd D. pose proof (reach_inv _ R) as Iv.
  assert (Ir : inv (release s)) by exact Iv. rewrite fcount_inflated.
  destruct (N.lt_ge_cases usize_max (N.of_nat (length params + 10))) as [O|O].
  { rewrite (sends_overflow _ _ _ _ _ Sd Iv O), (sends_overflow _ _ _ _ _ Sd Ir O). cbn [fst snd].
    split; [intros _ [K _]; lia|reflexivity]. }
  rewrite (sends_value _ _ _ _ _ Sd Iv O), (sends_value _ _ _ _ _ Sd Ir O). unfold write_value. cbv zeta.
  cbn [release b_wbuf b_dbg]. rewrite D.
  destruct (length (b_wbuf s) <? length params + 10) eqn:L.
  { cbn [fst snd]. split; [intros _ [_ [K _]]; lia|reflexivity]. }
  unfold build_result. cbv zeta. cbn [length].
  replace (S (length params) + fcount 0 (i :: params)) with (1 + length params + fcount 0 (i :: params)) by lia.
  destruct (length (b_wbuf s) <? 7 + S (length params) + fcount 0 (i :: params)) eqn:L1.
  { cbn [fst snd]. split; [intros _ [_ [_ [K _]]]; lia|reflexivity]. }
  cbn [andb].
  destruct (2 ^ 16 <=? N.of_nat (1 + length params + fcount 0 (i :: params)) mod 2 ^ 16 + 2)%N eqn:L2.
  - apply N.leb_le in L2. split.
    + intro K. exfalso.
      destruct (length (b_wbuf s) <? 9 + S (length params) + fcount 0 (i :: params)); cbn [fst snd] in K; [discriminate|].
      unfold transmit in K. destruct (hd None _) in K; discriminate.
    + intro K. exfalso. apply K. split; [exact O|]. split; [lia|]. split; [lia|exact L2].
  - apply N.leb_gt in L2. split.
    + intros _ [_ [_ [_ K]]]. lia.
    + intros _. destruct (length (b_wbuf s) <? 9 + S (length params) + fcount 0 (i :: params)); [reflexivity|].
      unfold transmit. cbn [release set_used set_rlen set_wbuf set_port b_port].
      destruct (hd None (p_discards (b_port s))); reflexivity.
Qed.

Lemma short_registered_example : exists mem' before after xs c' ds',
  let c := fresh true [] 64 64 in let mem := repeat xff 8 in
  let m := mkMotor x02 mem None in let ms := [mkMotor x01 mem None; m] in
  let d := [xff; xff; xff; xfd; xfd] in
  let os := [OpRegWrite (m_id m) 3 d; OpRead (m_id m) 1 7; OpAction (m_id m); OpRead (m_id m) 1 7] in
  connected 64 c (two_motors mem mem) ms /\ In m ms /\ Forall short_op os /\ Forall (elsewhere x01) os /\
  session c (two_motors mem mem) os xs c' ds' /\
  store mem 3 d = Some mem' /\ load mem 1 7 = Some before /\ load mem' 1 7 = Some after /\
  before = repeat xff 7 /\ after = [xff; xff] ++ d.
Proof.
  set (mem := repeat xff 8). set (m := mkMotor x02 mem None). set (d := [xff; xff; xff; xfd; xfd]).
  set (os := [OpRegWrite (m_id m) 3 d; OpRead (m_id m) 1 7; OpAction (m_id m); OpRead (m_id m) 1 7]).
  assert (S : Forall short_op os) by (unfold os; repeat (apply Forall_cons || apply Forall_nil); cbn; repeat split; try discriminate; lia).
  destruct (L_C54_sessions_exist 64 _ _ _ os (two_connected mem mem) (short_all_possible 64 os _ ltac:(lia) S)) as [xs [c' [ds' Se]]].
  do 3 eexists. exists xs, c', ds'. cbv zeta. split; [apply two_connected|].
  split; [right; left; reflexivity|]. split; [exact S|].
  split; [repeat (apply Forall_cons || apply Forall_nil); try exact I; split; discriminate|]. split; [exact Se|].
  repeat (apply conj; [vm_compute; reflexivity|]). vm_compute. reflexivity.
Qed.
