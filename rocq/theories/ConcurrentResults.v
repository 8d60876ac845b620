(** * ConcurrentResults: what the conversation comes to *)
From Coq Require Import ZArith ZifyN ZifyNat ZifyBool.
From Verif Require Import Base Endian Error Checksum Bytestuff Packet Time Bus Data Client
  Instructions Device MockDevice Api Spec CallSpec StreamSpec DeviceSpec InstructionSpec Demo Lib ChecksumProofs
  CrcErrorProofs StuffProofs WriteProofs ReadProofs ApiProofs StreamProofs MessageProofs SendProofs
  SendTheorems ReadTheorems StatusProofs DeviceTheorems InstructionProofs DemoProofs TransferTheorems
  UnderstoodTheorems ScanTheorems RemoteSpec RemoteProofs RemoteTheorems EchoSpec EchoTheorems LateSpec LateTheorems
  FitTheorems TestBus TestBusSpec TestBusTheorems ConcurrentSpec ConcurrentProofs ConcurrentTheorems.
Ltac Zify.zify_post_hook ::= Z.div_mod_to_equations.

Lemma gathers_start : forall ids e, gathers ids [] [] net_init e [] [].
Proof.
  intros ids e. constructor; [reflexivity|reflexivity|intros l []|intros x []|].
  intros f Lf Ne. exists []. split; [reflexivity|]. split; [cbn; lia|]. split; [reflexivity|]. discriminate.
Qed.

Lemma run_conversation : forall cap c ds ms os tr n, connected cap c ds ms -> all_possible comes_back cap ms os ->
  Forall directed os -> bus_run (map m_id ms) tr n -> test_run c ds os tr -> ~ In (TTimedOut 0) tr ->
  exists h Q pend tail, conversation cap ds ms os tr n h Q pend tail.
Proof.
  intros cap c ds ms os tr n Cn P D R. induction R as [|tr n ev n' R IH St]; intros Tr Nt.
  - exists [], [], [], os. constructor; [reflexivity|left; reflexivity|left; reflexivity|constructor|reflexivity| |].
    + exists []. apply gathers_start.
    + intros i m d _ _. exists [], []. split; [apply gathers_start|]. split; constructor.
  - destruct IH as [h [Q [pend [tail Cv]]]].
    + destruct Tr as [T1 T2]. split; [exact (plays_prefix _ _ _ _ T1)|]. intros i d E. exact (plays_prefix _ _ _ _ (T2 i d E)).
    + intro K. apply Nt, in_or_app. auto.
    + apply (conversation_step cap c ds ms os tr n ev n' h Q pend tail); auto; [|exact (run_acts _ _ _ R)].
      intros ->. apply Nt, in_or_app. right. left. reflexivity.
Qed.

Lemma conversation_rest : forall cap ds ms os tr n h Q pend tail, conversation cap ds ms os tr n h Q pend tail ->
  exists q, os = h ++ q /\ (Q = h /\ q = pend ++ tail \/ exists o id, Q = h ++ [o] /\ target o = Some id /\ pend = [] /\ q = o :: tail).
Proof.
  intros cap ds ms os tr n h Q pend tail [C1 C2 C3 C4 C5 C6 C7]. destruct C3 as [<-|[o [id [-> [Ht ->]]]]].
  - exists (pend ++ tail). auto.
  - exists (o :: tail). split; [rewrite C1, <- app_assoc; reflexivity|]. right. exists o, id. auto.
Qed.

Lemma nth_split_op : forall (l : list op) j o, nth_error l j = Some o -> exists a b, l = a ++ o :: b /\ length a = j.
Proof. intros l j o E. exact (nth_error_split l j E). Qed.

Lemma L_C78_threads_agree_partial : forall cap c ds ms os tr n, connected cap c ds ms -> all_possible comes_back cap ms os ->
  Forall directed os -> bus_run (map m_id ms) tr n -> test_run c ds os tr -> ~ In (TTimedOut 0) tr ->
  exists rs x s ms', perform_all os (set_script c (reads 0 tr)) = (rs, x, s) /\
    (x = Val tt /\ length rs = length os \/
     x = Blocked /\ exists o id, nth_error os (length rs) = Some o /\ target o = Some id) /\
    remote ms (firstn (length rs) os) rs ms' /\
    forall i m d, nth_error ms i = Some m -> nth_error ds i = Some d ->
      exists k evs, mock_run (n_id d) (state_of m) (set_script (n_bus d) (reads (S i) tr)) evs
                      (state_of (after_ops (firstn k os) m)) Blocked /\
        forall j o, j < length rs -> nth_error os j = Some o -> target o = Some (m_id m) -> j < k.
Proof.
  intros cap c ds ms os tr n Cn P D R Tr Nt.
  destruct (run_conversation cap c ds ms os tr n Cn P D R Tr Nt) as [h [Q [pend [tail Cv]]]].
  destruct (conversation_rest _ _ _ _ _ _ _ _ _ _ Cv) as [q [Oq Hq]].
  assert (Tr' : test_run c ds os (tr ++ [])) by (rewrite app_nil_r; exact Tr).
  destruct (client_behind cap c ds ms os tr [] n h q Q pend tail Cn P D Tr' Cv Oq)
    as [rs [x [s' [ahead [ms' [E [_ [_ [Hx [L [N Re]]]]]]]]]]].
  exists rs, x, s', ms'. split; [exact E|]. split; [exact Hx|]. split; [exact Re|].
  intros i m d Em Ed. destruct Cv as [C1 C2 C3 C4 C5 C6 C7]. destruct (C7 i m d Em Ed) as [gs [cur [G [Ok Ca]]]].
  destruct (device_behind cap c ds ms os tr [] n Q pend tail i m d gs cur Cn P Tr' C1 C5 Em Ed G Ok Ca)
    as [p [more [evs [ahead' [_ [Eq [_ [W [_ Ru]]]]]]]]].
  assert (Hp : p = firstn (length p) os).
  { apply (prefix_firstn _ os p (reqs (map snd cur) ++ more ++ tail)). rewrite C1, app_assoc, Eq, <- !app_assoc. reflexivity. }
  exists (length p), evs. rewrite <- Hp. split; [exact Ru|].
  intros j o Lj Ej Ht. destruct (Nat.lt_ge_cases j (length p)) as [K|K]; [exact K|exfalso].
  assert (Lh : j < length h).
  { destruct (Nat.lt_ge_cases j (length h)) as [K'|K']; [exact K'|exfalso]. rewrite Oq, nth_error_app2 in Ej by lia.
    rewrite Forall_forall in N. rewrite (N o) in Ht; [discriminate Ht|].
    assert (Lq : length h + length q = length os) by (rewrite Oq, app_length; reflexivity).
    apply (nth_error_In _ (j - length h)). rewrite <- Ej. symmetry.
    rewrite <- (firstn_skipn (length rs - length h) q) at 1. apply nth_error_app1. rewrite firstn_length. lia. }
  assert (Eo : nth_error Q j = Some o).
  { rewrite Oq, nth_error_app1 in Ej by lia. destruct Hq as [[-> _]|[o' [id' [-> _]]]]; [exact Ej|].
    rewrite nth_error_app1 by lia. exact Ej. }
  destruct (nth_split_op Q j o Eo) as [a [b [Ea La]]].
  assert (exists r, a = p ++ r) as [r Hr].
  { rewrite Ea, <- app_assoc in Eq. apply (app_prefix _ a ((o :: b) ++ pend) p (reqs (map snd cur) ++ more) Eq).
    apply (f_equal (@length _)) in Eq. rewrite !app_length in *. cbn [length] in *. lia. }
  apply (f_equal (@length _)) in W. rewrite app_length, !map_length, Ea, notes_app, app_length in W. cbn [notes] in W.
  rewrite (responds_target o _ _ Ht), after_ops_id, beq_refl in W. cbn [app length] in W.
  pose proof (notes_grow p m r). rewrite Hr in W. lia.
Qed.

Lemma wire_some : forall n, wire n <> [].
Proof. intros [o|id e ps]; discriminate. Qed.

Lemma wires_none : forall l, wires l = [] -> l = [].
Proof.
  intros [|x l] E; [reflexivity|]. unfold wires in E. cbn [map concat] in E. apply app_eq_nil in E. destruct (wire_some x (proj1 E)).
Qed.

Lemma lead_none : forall os, lead os = [] -> os = [].
Proof. intros [|o os] E; [reflexivity|]. cbn [lead] in E. destruct (target o); discriminate E. Qed.

Lemma L_C78_no_deadlock_partial : forall cap c ds ms os tr n, connected cap c ds ms -> all_possible comes_back cap ms os ->
  Forall directed os -> bus_run (map m_id ms) tr n -> test_run c ds os tr -> ~ In (TTimedOut 0) tr ->
  stuck c ds os tr n ->
  exists rs x s, perform_all os (set_script c (reads 0 tr)) = (rs, x, s) /\
    (x = Val tt \/
     x = Blocked /\ exists o id, nth_error os (length rs) = Some o /\ target o = Some id /\ ~ In id (map m_id ms)).
Proof.
  intros cap c ds ms os tr n Cn P D R Tr Nt [Sq [Sc Sd]].
  destruct (run_conversation cap c ds ms os tr n Cn P D R Tr Nt) as [h [Q [pend [tail Cv]]]].
  destruct (conversation_rest _ _ _ _ _ _ _ _ _ _ Cv) as [q [Oq Hq]].
  assert (Tr' : test_run c ds os (tr ++ [])) by (rewrite app_nil_r; exact Tr).
  destruct (client_behind cap c ds ms os tr [] n h q Q pend tail Cn P D Tr' Cv Oq)
    as [rs [x [s' [ahead [ms' [E [Wa [[evs [Cp V]] [Hx [L [N Re]]]]]]]]]]].
  exists rs, x, s'. split; [exact E|].
  pose proof Cn as [_ [_ [_ [F2 [Nd _]]]]]. assert (Ll : length ds = length ms) by (clear -F2; induction F2; cbn; congruence).
  destruct Cv as [C1 C2 C3 C4 C5 [cur C6] C7].
  (* the client has written all *)
  assert (ahead = []) as ->.
  { destruct Sc as [evs2 [Cp2 V2]]. unfold client_program in Cp, Cp2. rewrite (calls_inj _ _ _ _ Cp2 Cp), V in V2.
    apply (f_equal (@length _)) in V2. rewrite app_length, map_length in V2. destruct ahead; [reflexivity|cbn in V2; lia]. }
  rewrite app_nil_r in Wa. apply (f_equal (@length _)) in Wa. rewrite !map_length, !app_length in Wa.
  (* and has got all *)
  destruct Hq as [[-> Hq]|[o [id [-> [Ht [-> Hq]]]]]].
  2:{ exfalso. assert (cur = []) as ->.
      { apply map_eq_nil with (f := snd), wires_none. rewrite <- (ga_waits _ _ _ _ _ _ _ C6). apply Sq. lia. }
      apply Forall_app in C4. destruct C4 as [_ C4]. inversion C4 as [|? ? So _]; subst. specialize (So id Ht).
      rewrite <- (all_after_ids h) in So. apply in_map_iff in So. destruct So as [m [Hm So]]. apply In_nth_error in So. destruct So as [i Em]. subst id.
      assert (Li : i < length ms). { rewrite <- (map_length m_id), <- (all_after_ids h), map_length. apply nth_error_Some. congruence. }
      destruct (ga_by _ _ _ _ _ _ _ C6 (S i) ltac:(rewrite map_length; lia) ltac:(lia)) as [rest [B1 [_ [B3 _]]]].
      rewrite (B3 (proj1 (Sq (S i) ltac:(lia)))), !app_nil_r, singles_all, (by_back h ms (S i) ltac:(lia)) in B1.
      unfold spoken in B1. cbn [map] in B1. rewrite app_nil_r, talk_app, by_app in B1. cbn [talk] in B1.
      rewrite app_nil_r, by_cons in B1. cbn [fst Nat.eqb app] in B1.
      rewrite (answers_target o (all_after h ms) 1 i m Ht ltac:(rewrite all_after_ids; exact Nd) Em), by_one in B1.
      cbn [Nat.add] in B1. rewrite Nat.eqb_refl in B1. apply (f_equal (@length _)) in B1. rewrite app_length in B1. cbn [length] in B1. lia. }
  destruct C2 as [->|[o [id [-> Ht]]]].
  - assert (q = []) as ->. { apply lead_none. destruct (lead q); [reflexivity|cbn in Wa; lia]. }
    rewrite app_nil_r in Oq. left. destruct Hx as [[-> _]|[-> [o [id [Eo _]]]]]; [reflexivity|exfalso].
    assert (length rs < length os) by (apply nth_error_Some; congruence). rewrite Oq in *. lia.
  - assert (Lr : length rs = length h).
    { rewrite Hq in N. destruct (length rs - length h) as [|k] eqn:Ek; [lia|]. cbn [app firstn] in N. inversion N; congruence. }
    assert (Eo : nth_error os (length rs) = Some o).
    { rewrite Oq, Lr, nth_error_app2, Nat.sub_diag, Hq by lia. reflexivity. }
    destruct Hx as [[-> Hx]|[-> _]].
    { exfalso. assert (length rs < length os) by (apply nth_error_Some; congruence). lia. }
    right. split; [reflexivity|]. exists o, id. split; [exact Eo|]. split; [exact Ht|]. intro Hin.
    apply in_map_iff in Hin. destruct Hin as [m [<- Hin]]. apply In_nth_error in Hin. destruct Hin as [i Em].
    destruct (connected_device _ _ _ _ _ _ Cn Em) as [d [Ed [_ [_ [I1 I2]]]]].
    assert (Li : i < length ms) by (apply nth_error_Some; congruence).
    destruct (C7 i m d Em Ed) as [gs [cur' [G [Ok Ca]]]].
    destruct (device_behind cap c ds ms os tr [] n h [o] tail i m d gs cur' Cn P Tr' C1 C5 Em Ed G Ok Ca)
      as [p [more [evs' [ahead' [_ [Eq [Bz [W [V' Ru]]]]]]]]].
    rewrite (Bz (proj1 (Sq 0 ltac:(lia)))), app_nil_r in Eq.
    assert (cur' = []) as ->.
    { apply map_eq_nil with (f := snd), wires_none. rewrite <- (ga_waits _ _ _ _ _ _ _ G). apply Sq. lia. }
    cbn [map reqs flat_map] in Eq. rewrite app_nil_r in Eq. subst p.
    assert (ahead' = []) as ->.
    { destruct (Sd i d Ed) as [evs2 [[st [st' [o0 [E2 Ru2]]]] V2]].
      assert (st = state_of m) as -> by (rewrite I2 in E2; injection E2 as <-; reflexivity).
      destruct (mock_run_fun _ _ _ _ _ _ Ru _ _ _ Ru2) as [-> _]. rewrite V' in V2.
      apply (f_equal (@length _)) in V2. rewrite app_length, map_length in V2. destruct ahead'; [reflexivity|cbn in V2; lia]. }
    apply (f_equal (@length _)) in W. rewrite app_nil_r, !map_length, notes_app, app_length in W. cbn [notes] in W.
    rewrite (responds_target o _ _ Ht), after_ops_id, beq_refl in W. cbn [app length] in W. lia.
Qed.

(** ** Room for the answers *)

Lemma shaped_awaits : forall R (m : M R) id i params k fin cap s, shaped m id i params k fin -> 16 <= cap -> hardy cap s ->
  passes comes_back cap (i :: params) -> p_script (b_port s) = [] ->
  exists s' evs dl room, m s = (Blocked, s') /\ calls s s' (evs ++ [LReadWait dl room]) /\ cap <= room.
Proof.
  intros R m id i params k fin cap s Sh Hc H P S.
  destruct (shaped_sent _ _ _ _ _ _ _ cap s Sh H P) as [s1 [H1 [[S1 [S2 [S3 S4]]] E]]].
  destruct Sh as [enc [_ [Hk _]]].
  destruct (response_timeout_val (b_dbg s1) (b_baud s1) k Hk (ha_baud _ _ H1)) as [t T].
  set (K := length (b_rbuf s1)).
  assert (B : box cap K (after_deadline t s1) [] []).
  { apply box_deadline. constructor; [exact H1|reflexivity|exact S1|congruence]. }
  destruct (box_end cap K (deadline_of t s1) _ ltac:(pose proof (ha_rcap _ _ H1); lia) B) as [s' [Er [_ C]]].
  exists s', ([LDiscard None; LWrite (code_wire id (i :: params)) None] ++ [LDeadline (deadline_of t s1)]), (deadline_of t s1), K.
  split; [|split; [|apply (ha_rcap _ _ H1)]].
  - rewrite E. unfold read_status_response, bind, lift, get. cbv beta iota. rewrite T. unfold read_status_response_timeout, bind at 1.
    change (port_make_deadline t s1) with (Val (deadline_of t s1), after_deadline t s1). cbv beta iota. unfold try_, bind. rewrite Er. reflexivity.
  - rewrite <- app_assoc. apply (calls_app s s1 s'); [exact S4|]. apply (calls_app s1 (after_deadline t s1) s'); [reflexivity|exact C].
Qed.

Lemma L_C78_room_for_answers_partial : forall cap c ds ms os tr n room, connected cap c ds ms -> all_possible comes_back cap ms os ->
  Forall directed os -> bus_run (map m_id ms) tr n -> test_run c ds os tr -> ~ In (TTimedOut 0) tr ->
  awaits (client_program c os) (reads 0 tr) room -> length (waiting n 0) <= room.
Proof.
  intros cap c ds ms os tr n room Cn P D R Tr Nt [evs [dl Aw]].
  destruct (run_conversation cap c ds ms os tr n Cn P D R Tr Nt) as [h [Q [pend [tail Cv]]]].
  pose proof Cn as [Hc [Rc [_ [_ [Nd _]]]]]. destruct Cv as [C1 C2 C3 C4 C5 [cur C6] C7].
  assert (Wt : forall x, In x cur -> exists rest, by_ (fst x) (talk ms Q) = by_ (fst x) (talk ms h) ++ by_ (fst x) cur ++ rest).
  { intros x Hx. destruct (ga_from _ _ _ _ _ _ _ C6 x ltac:(apply in_or_app; right; exact Hx)) as [Lf Nf].
    destruct (ga_by _ _ _ _ _ _ _ C6 (fst x) Lf Nf) as [rest [B _]]. exists rest.
    rewrite by_app, singles_all, (by_back h ms _ Nf) in B. rewrite app_assoc, <- B. unfold spoken.
    rewrite by_app, (by_none _ (map _ _)); [symmetry; apply app_nil_r|]. intros y Hy. apply in_map_iff in Hy.
    destruct Hy as [o [<- _]]. cbn. auto. }
  rewrite (ga_waits _ _ _ _ _ _ _ C6). destruct C3 as [->|[o [id [-> [Ht ->]]]]].
  - destruct cur as [|x cur]; [cbn; lia|exfalso]. destruct (Wt x (or_introl eq_refl)) as [rest B].
    apply (f_equal (@length _)) in B. rewrite by_cons, Nat.eqb_refl, !app_length in B. cbn [length] in B. lia.
  - rewrite <- app_assoc in C1. cbn [app] in C1. pose proof P as P'. rewrite C1 in P'. destruct (possible_app _ _ _ _ P') as [P1 [P2 _]].
    pose proof D as D'. rewrite C1 in D'. apply Forall_app in D'. destruct D' as [D1 _].
    apply Forall_app in C4. destruct C4 as [C4 C4']. inversion C4' as [|? ? So _]; subst. specialize (So id Ht).
    rewrite <- (all_after_ids h) in So. apply in_map_iff in So. destruct So as [m [Hm So]].
    pose proof (In_nth_error _ _ So) as [i Em]. subst id.
    assert (S : p_script (b_port (set_script c (reads 0 tr))) = map single (answers_of ms h) ++ []).
    { rewrite app_nil_r. cbn [set_script b_port p_script]. rewrite <- back_snd, <- singles_reads. exact (ga_reads _ _ _ _ _ _ _ C6). }
    destruct (perform_all_answered cap h ms _ (o :: tail) [] Hc Nd P1 D1 C4 (hardy_script cap c _ (ready_hardy _ _ Rc)) S)
      as [rs [s1 [evs1 [E [H1 [S1 [Ca _]]]]]]].
    pose proof P2 as [Pr [Pm _]]. destruct (op_shaped _ o _ Pr Ht) as [ii [params [k [fin [Eo [Sh _]]]]]]. rewrite Eo in Pm.
    destruct (shaped_awaits _ _ _ _ _ _ _ cap s1 Sh Hc H1 Pm S1) as [s' [evs2 [dl2 [room2 [Ew [Cw Lw]]]]]].
    specialize (E [] Blocked s'). cbn [perform_all] in E. rewrite Ew in E. specialize (E eq_refl).
    unfold client_program in Aw. rewrite E in Aw. cbn [snd] in Aw.
    pose proof (calls_inj _ _ _ _ Aw (calls_app _ _ _ _ _ Ca Cw)) as K. rewrite app_assoc in K.
    apply app_inj_tail in K. destruct K as [_ K]. injection K as _ ->.
    assert (Nd' : NoDup (map m_id (all_after h ms))) by (rewrite all_after_ids; exact Nd).
    pose proof (answers_target o (all_after h ms) 1 i m Ht Nd' Em) as Ea. cbn [Nat.add] in Ea.
    assert (Re : responds o m = true) by (rewrite (responds_target o m _ Ht); apply beq_refl).
    assert (Ps : passes comes_back cap (x55 :: fst (status_for o m) :: snd (status_for o m))).
    { apply (status_passes cap (all_after h ms) o m); auto. destruct (status_for o m); reflexivity. }
    assert (Hcur : cur = [] \/ cur = [(Datatypes.S i, answer_note o m)]).
    { destruct cur as [|x0 cur0] eqn:Ecur; [left; reflexivity|right]. rewrite <- Ecur in *. apply only_last.
      - rewrite Ecur. discriminate.
      - intros y Hy. apply (ga_from _ _ _ _ _ _ _ C6 y). apply in_or_app. right. exact Hy.
      - intros f Hf. destruct (existsb (fun y => fst y =? f) cur) eqn:Ex.
        + apply existsb_exists in Ex. destruct Ex as [y [Hy Fy]]. apply Nat.eqb_eq in Fy. subst f. destruct (Wt y Hy) as [rest B].
          exists rest. rewrite talk_app, by_app in B. apply app_inv_head in B. cbn [talk] in B. rewrite by_cons, app_nil_r, Ea in B.
          cbn [fst] in B. destruct (fst y) eqn:Ef; [contradiction|]. exact B.
        + rewrite (by_none f cur); [eexists; reflexivity|]. intros y Hy Fy. rewrite <- not_true_iff_false in Ex. apply Ex.
          apply existsb_exists. exists y. split; [exact Hy|]. apply Nat.eqb_eq, Fy. }
    destruct Hcur as [->| ->]; [cbn; lia|]. cbn [map snd wires concat]. unfold wires. cbn [map concat]. rewrite app_nil_r.
    destruct (passes_length cap (m_id m) _ _ Ps) as [L1 _]. cbn [wire answer_note]. lia.
Qed.
