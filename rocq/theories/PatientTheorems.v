(** * PatientTheorems: what comes of the calls of a patient client *)
From Coq Require Import ZArith ZifyN ZifyNat ZifyBool Permutation.
From Verif Require Import Base Endian Error Checksum Bytestuff Packet Time Bus Data Client
  Instructions Device MockDevice Api Spec CallSpec StreamSpec DeviceSpec InstructionSpec Demo Lib ChecksumProofs
  CrcErrorProofs StuffProofs WriteProofs ReadProofs ApiProofs StreamProofs MessageProofs SendProofs
  SendTheorems ReadTheorems StatusProofs DeviceTheorems InstructionProofs DemoProofs TransferTheorems
  UnderstoodTheorems ScanTheorems RemoteSpec RemoteProofs RemoteTheorems EchoSpec EchoTheorems LateSpec LateTheorems
  FitTheorems ConformTheorems TestBus TestBusSpec TestBusTheorems ConcurrentSpec ConcurrentProofs ConcurrentTheorems ConcurrentResults
  ConcurrentExamples ConcurrentScan PatientSpec ConcurrentPatient RemoteExtra.
Ltac Zify.zify_post_hook ::= Z.div_mod_to_equations.

Lemma L_C78_patient_client : forall cap c ds ms os tr n, connected cap c ds ms -> all_possible comes_back cap ms os ->
  Forall ordinary os -> bus_run (map m_id ms) tr n -> test_run c ds os tr -> patient (map m_id ms) c ds os tr ->
  exists rs x s ms', perform_all os (set_script c (reads 0 tr)) = (rs, x, s) /\
    (x = Val tt /\ length rs = length os \/
     x = Blocked /\ exists o, nth_error os (length rs) = Some o /\ waits_for_answer o) /\
    remote_in_any_order ms (firstn (length rs) os) rs ms' /\
    forall i m d, nth_error ms i = Some m -> nth_error ds i = Some d ->
      exists k evs, mock_run (n_id d) (state_of m) (set_script (n_bus d) (reads (S i) tr)) evs
                      (state_of (after_ops (firstn k os) m)) Blocked /\
        forall j o, j < length rs -> nth_error os j = Some o -> target o = Some (m_id m) \/ o = OpScan -> j < k.
Proof.
  intros cap c ds ms os tr n Cn P D R Tr Pt.
  destruct (run_dialogue cap c ds ms os Cn P D tr n R Tr Pt) as [Q [pend [tail [T [Gs [Gc [rs Dg]]]]]]].
  assert (Tr' : test_run c ds os (tr ++ [])) by (rewrite app_nil_r; exact Tr).
  destruct (client_now cap c ds ms os Cn P D tr [] n Q pend tail T Gs Gc rs Tr' Dg)
    as [rs2 [x [s' [ms' [_ [_ [E [_ [_ [_ [Hx [L [N [Re _]]]]]]]]]]]]]].
  exists (rs ++ rs2), x, s', ms'. split; [exact E|]. split; [exact Hx|]. split; [exact Re|].
  intros i m d Em Ed. destruct (dg_device _ _ _ _ _ _ _ _ _ _ _ _ _ _ Dg i m d Em Ed) as [gs [cur [G [Ok Ca]]]].
  destruct (motor_behind cap _ c ds ms os Cn P tr [] n Q pend tail T Gs Gc rs i m d gs cur Tr' Dg Em Ed G Ok Ca)
    as [p [more [evs [ahead' [_ [Eq [_ [W [_ Ru]]]]]]]]].
  pose proof (dg_split _ _ _ _ _ _ _ _ _ _ _ _ _ _ Dg) as C1.
  pose proof (rounds_length _ _ _ _ _ (dg_rounds _ _ _ _ _ _ _ _ _ _ _ _ _ _ Dg)) as Lr.
  assert (Hp : p = firstn (length p) os).
  { apply (prefix_firstn _ os p (reqs (map snd cur) ++ more ++ tail)). rewrite C1, app_assoc, Eq, <- !app_assoc. reflexivity. }
  exists (length p), evs. rewrite <- Hp. split; [exact Ru|].
  intros j o Lj Ej Ht. destruct (Nat.lt_ge_cases j (length p)) as [K|K]; [exact K|exfalso].
  assert (Rm : awaited o = true /\ responds o m = true).
  { destruct Ht as [Ht| ->]; [|split; [reflexivity|apply scan_responds]]. split; [unfold awaited; rewrite Ht; destruct o; reflexivity|].
    rewrite (responds_target o _ _ Ht). apply beq_refl. }
  destruct Rm as [Aw Rm]. rewrite app_length in Lj.
  assert (Eo : nth_error Q j = Some o).
  { destruct (Nat.lt_ge_cases j (length Q)) as [K'|K']; [rewrite C1, nth_error_app1 in Ej by lia; exact Ej|exfalso].
    rewrite C1, nth_error_app2 in Ej by lia. rewrite Forall_forall in N. rewrite (N o) in Aw; [discriminate Aw|].
    apply (nth_error_In _ (j - length Q)). rewrite <- Ej. symmetry.
    rewrite <- (firstn_skipn (length rs2) (pend ++ tail)) at 1. apply nth_error_app1. rewrite firstn_length. lia. }
  destruct (nth_split_op Q j o Eo) as [a [b [Ea La]]].
  assert (exists r, a = p ++ r) as [r Hr].
  { rewrite Ea, <- app_assoc in Eq. apply (app_prefix _ a ((o :: b) ++ pend) p (reqs (map snd cur) ++ more) Eq).
    apply (f_equal (@length _)) in Eq. rewrite !app_length in *. cbn [length] in *. lia. }
  destruct (dg_motor _ _ _ _ _ _ _ _ _ _ _ _ _ _ Dg i m Em) as [ext [Eb _]].
  apply (f_equal (@length _)) in W. rewrite app_length, !map_length, Eb, app_length, Ea, notes_app, app_length in W. cbn [notes] in W.
  rewrite responds_after, Rm in W. cbn [app length] in W.
  pose proof (notes_grow p m r). rewrite Hr in W. lia.
Qed.

Lemma L_C78_patient_no_deadlock : forall cap c ds ms os tr n, connected cap c ds ms -> all_possible comes_back cap ms os ->
  Forall ordinary os -> bus_run (map m_id ms) tr n -> test_run c ds os tr -> patient (map m_id ms) c ds os tr ->
  stuck c ds os tr n ->
  exists rs x s, perform_all os (set_script c (reads 0 tr)) = (rs, x, s) /\
    (x = Val tt \/
     x = Blocked /\ exists o, nth_error os (length rs) = Some o /\
       (o = OpScan \/ exists id, target o = Some id /\ ~ In id (map m_id ms))).
Proof.
  intros cap c ds ms os tr n Cn P D R Tr Pt Sk.
  destruct (run_dialogue cap c ds ms os Cn P D tr n R Tr Pt) as [Q [pend [tail [T [Gs [Gc [rs Dg]]]]]]].
  assert (Tr' : test_run c ds os (tr ++ [])) by (rewrite app_nil_r; exact Tr).
  destruct (client_now cap c ds ms os Cn P D tr [] n Q pend tail T Gs Gc rs Tr' Dg)
    as [rs2 [x [s' [ms' [_ [_ [E [_ [_ [_ [Hx [L [N [Re Hw]]]]]]]]]]]]]].
  exists (rs ++ rs2), x, s'. split; [exact E|]. destruct Hx as [[-> _]|[-> [o [Eo Wo]]]]; [left; reflexivity|right].
  split; [reflexivity|]. exists o. split; [exact Eo|].
  pose proof (dg_split _ _ _ _ _ _ _ _ _ _ _ _ _ _ Dg) as C1.
  pose proof (rounds_length _ _ _ _ _ (dg_rounds _ _ _ _ _ _ _ _ _ _ _ _ _ _ Dg)) as Lr.
  pose proof (dg_going _ _ _ _ _ _ _ _ _ _ _ _ _ _ Dg) as Go.
  assert (Lo : length (rs ++ rs2) < length os) by (apply nth_error_Some; congruence). rewrite app_length in Lo.
  destruct (going_awaited _ _ _ _ _ Go) as [->|[o' [-> Aw]]].
  - exfalso. rewrite (stuck_idle cap c ds ms os Cn P D tr n Q tail T Gs Gc rs Tr Dg Sk), app_nil_r in C1. rewrite C1 in Lo. lia.
  - rewrite (Hw ltac:(discriminate)), app_nil_r, Lr, C1, nth_error_app2, Nat.sub_diag in Eo by lia. injection Eo as ->.
    destruct Wo as [Ht| ->]; [right|left; reflexivity]. destruct (target o) as [id|] eqn:Et; [|contradiction]. exists id. split; [reflexivity|].
    intro Hin. apply in_map_iff in Hin. destruct Hin as [m [<- Hin]]. apply In_nth_error in Hin. destruct Hin as [i Em].
    pose proof (stuck_heard cap c ds ms os Cn P tr n Q o tail T Gs Gc rs i m Tr Dg Sk Em
      ltac:(rewrite (responds_target o m _ Et); apply beq_refl)) as Kx.
    assert (Gc = []) as -> by (inversion Go; subst; [reflexivity|discriminate Et..]). discriminate Kx.
Qed.

(** ** A missing motor, a scan and a read *)

Lemma rests_by : forall e (program : list rd_event -> list io_event -> Prop) tr l k,
  (forall k, k <= length (reads e tr) -> program (firstn k (reads e tr)) (nth k l [])) ->
  flat_map (visible e) (nth (length (reads e (firstn k tr))) l []) = moves e (firstn k tr) -> rests e program (firstn k tr).
Proof.
  intros e program tr l k H E. exists (nth (length (reads e (firstn k tr))) l []). split; [|exact E].
  assert (T : tr = firstn k tr ++ skipn k tr) by (symmetry; apply firstn_skipn).
  assert (R : reads e (firstn k tr) = firstn (length (reads e (firstn k tr))) (reads e tr)).
  { rewrite T at 3. unfold reads. rewrite flat_map_app, firstn_app, firstn_all, Nat.sub_diag. cbn. rewrite app_nil_r. reflexivity. }
  rewrite R at 1. apply H. rewrite T at 2. unfold reads. rewrite flat_map_app, app_length. lia.
Qed.

Lemma patient_by : forall ids c ds os tr,
  (forall k, nth_error tr k = Some (TTimedOut 0) -> exists n, bus_run ids (firstn k tr) n /\ stuck c ds os (firstn k tr) n) ->
  patient ids c ds os tr.
Proof.
  intros ids c ds os tr H past future n E R.
  assert (F : firstn (length past) tr = past) by (rewrite E, firstn_app, firstn_all, Nat.sub_diag; apply app_nil_r).
  destruct (H (length past)) as [n' [R' S]]; [rewrite E, nth_error_app2, Nat.sub_diag by lia; reflexivity|].
  rewrite F in R', S. rewrite (run_fun _ _ _ R _ R'). exact S.
Qed.

Definition mixed_ops : list op := [OpPing x05; OpScan; OpRead x01 2 1].
Definition lost_msg : list byte := Eval vm_compute in wire (NReq (OpPing x05)).
Definition old1_msg : list byte := Eval vm_compute in wire (NSts x01 x00 [x07]).

(** Motor 2 is slow and once gives up waiting itself. *)
Definition mixed_talk : list bus_event :=
  [TWrite 0 lost_msg; TDeliver 0 1; TRead 1 48 lost_msg; TTimedOut 2; TDeliver 0 2; TWritten 0; TRead 2 48 lost_msg; TTimedOut 0;
   TWrite 0 scan_msg; TDeliver 0 1; TDeliver 0 2; TRead 1 48 scan_msg; TWrite 1 pong1; TDeliver 1 0; TWritten 0; TRead 2 48 scan_msg;
   TRead 0 48 pong1; TWrite 2 pong2; TDeliver 2 0; TDeliver 2 1; TDeliver 1 2; TWritten 1; TWritten 2;
   TRead 0 48 pong2; TRead 1 48 pong2; TRead 2 48 pong1; TTimedOut 0; TTimedOut 0;
   TWrite 0 get_msg; TDeliver 0 1; TDeliver 0 2; TWritten 0; TRead 1 48 get_msg; TWrite 1 old1_msg; TDeliver 1 0; TRead 0 48 old1_msg].

Definition mixed_client_does : list (list io_event) := Eval vm_compute in
  map (fun k => p_log (b_port (snd (perform_all mixed_ops (fresh true (firstn k (reads 0 mixed_talk)) 48 48))))) (seq 0 7).
Definition mixed_motor1_does : list (list io_event) := Eval vm_compute in
  map (fun k => logs_of 9 (mkMotor x01 (repeat x07 4) None) 48 (firstn k (reads 1 mixed_talk))) (seq 0 5).
Definition mixed_motor2_does : list (list io_event) := Eval vm_compute in
  map (fun k => logs_of 9 (mkMotor x02 (repeat x07 4) None) 48 (firstn k (reads 2 mixed_talk))) (seq 0 5).

Lemma mixed_client : forall k, k <= length (reads 0 mixed_talk) ->
  client_program (fresh true [] 48 48) mixed_ops (firstn k (reads 0 mixed_talk)) (nth k mixed_client_does []).
Proof. change (length (reads 0 mixed_talk)) with 6. reads_one_by_one; (eapply client_by; [vm_compute; reflexivity|reflexivity]). Qed.

Lemma mixed_motor1 : forall k, k <= length (reads 1 mixed_talk) ->
  device_program (node_of 48 (mkMotor x01 (repeat x07 4) None)) (firstn k (reads 1 mixed_talk)) (nth k mixed_motor1_does []).
Proof. change (length (reads 1 mixed_talk)) with 4. reads_one_by_one; (eapply (device_by 9); [lia|vm_compute; reflexivity]). Qed.

Lemma mixed_motor2 : forall k, k <= length (reads 2 mixed_talk) ->
  device_program (node_of 48 (mkMotor x02 (repeat x07 4) None)) (firstn k (reads 2 mixed_talk)) (nth k mixed_motor2_does []).
Proof. change (length (reads 2 mixed_talk)) with 4. reads_one_by_one; (eapply (device_by 9); [lia|vm_compute; reflexivity]). Qed.

Lemma mixed_test : test_run (fresh true [] 48 48) (map (node_of 48) pair_of_motors) mixed_ops mixed_talk.
Proof.
  split; [apply (plays_by _ _ _ mixed_client_does mixed_client); vm_compute; reflexivity|].
  intros [|[|i]] d E; cbn in E; [| |destruct i; discriminate E]; injection E as <-.
  - apply (plays_by _ _ _ mixed_motor1_does mixed_motor1). vm_compute. reflexivity.
  - apply (plays_by _ _ _ mixed_motor2_does mixed_motor2). vm_compute. reflexivity.
Qed.

Lemma run_of : forall ids tr f, option_map fst (bus_execs ids net_init tr) = Some tr ->
  option_map (fun r => f (snd r)) (bus_execs ids net_init tr) = Some true -> exists n, bus_run ids tr n /\ f n = true.
Proof.
  intros ids tr f E F. destruct (bus_execs ids net_init tr) as [[tr' n]|] eqn:B; [|discriminate E]. cbn in E, F. injection E as ->. injection F as F.
  exists n. split; [|exact F]. exact (bus_execs_run _ _ [] _ _ _ (run_init _) B).
Qed.

Definition nothing_waits (n : net) : bool :=
  match waiting n 0, waiting n 1, waiting n 2 with [], [], [] => true | _, _, _ => false end.

Lemma nothing_waiting : forall n, nothing_waits n = true -> forall e, e <= 2 -> waiting n e = [].
Proof.
  intros n H e L. unfold nothing_waits in H. destruct (waiting n 0) eqn:E0; [|discriminate H]. destruct (waiting n 1) eqn:E1; [|discriminate H].
  destruct (waiting n 2) eqn:E2; [|discriminate H]. destruct e as [|[|[|e]]]; auto; lia.
Qed.

Definition timeouts (tr : list bus_event) : list nat :=
  filter (fun k => match nth_error tr k with Some (TTimedOut 0) => true | _ => false end) (seq 0 (length tr)).

Lemma timeouts_all : forall tr k, nth_error tr k = Some (TTimedOut 0) -> In k (timeouts tr).
Proof.
  intros tr k E. apply filter_In. split; [|rewrite E; reflexivity]. apply in_seq. assert (k < length tr) by (apply nth_error_Some; congruence). lia.
Qed.

Lemma mixed_patient : patient (map m_id pair_of_motors) (fresh true [] 48 48) (map (node_of 48) pair_of_motors) mixed_ops mixed_talk.
Proof.
  apply patient_by. intros k E. apply timeouts_all in E.
  assert (X : exists n, bus_run (map m_id pair_of_motors) (firstn k mixed_talk) n /\ nothing_waits n = true).
  { apply run_of; cbv in E; decompose [or] E; try contradiction; subst; vm_compute; reflexivity. }
  destruct X as [n [R W]]. exists n. split; [exact R|]. split; [|split].
  - intros e L. split; [|exact (nothing_waiting n W e L)]. cbn in L. cbv in E.
    decompose [or] E; try contradiction; subst; (destruct e as [|[|[|e]]]; [vm_compute; reflexivity..|lia]).
  - apply (rests_by _ _ _ _ _ mixed_client). cbv in E. decompose [or] E; try contradiction; subst; vm_compute; reflexivity.
  - intros [|[|i]] d Ed; cbn in Ed; [| |destruct i; discriminate Ed]; injection Ed as <-.
    + apply (rests_by _ _ _ _ _ mixed_motor1). cbv in E. decompose [or] E; try contradiction; subst; vm_compute; reflexivity.
    + apply (rests_by _ _ _ _ _ mixed_motor2). cbv in E. decompose [or] E; try contradiction; subst; vm_compute; reflexivity.
Qed.

Lemma L_C78_patient_example : exists n, let ms := pair_of_motors in let c := fresh true [] 48 48 in
  connected 48 c (map (node_of 48) ms) ms /\ all_possible comes_back 48 ms mixed_ops /\ Forall ordinary mixed_ops /\
  bus_run (map m_id ms) mixed_talk n /\ test_run c (map (node_of 48) ms) mixed_ops mixed_talk /\
  patient (map m_id ms) c (map (node_of 48) ms) mixed_ops mixed_talk /\
  fst (perform_all mixed_ops (set_script c (reads 0 mixed_talk))) =
    ([unanswered (OpPing x05) 0;
      RepFound (Ok [Ok (mkResponse x01 false (mkPing 5130 x2e)); Ok (mkResponse x02 false (mkPing 5130 x2e))]);
      RepData (Ok (mkResponse x01 false [x07]))], Val tt).
Proof.
  destruct (run_of (map m_id pair_of_motors) mixed_talk (fun _ => true)) as [n [R _]]; [vm_compute; reflexivity|vm_compute; reflexivity|].
  exists n. cbv zeta. split; [exact busy_connected|].
  split; [unfold mixed_ops; repeat (apply conj; [small_possible|]); exact I|].
  split; [repeat (apply Forall_cons; [first [left; left; discriminate|right; reflexivity]|]); constructor|].
  split; [exact R|]. split; [exact mixed_test|]. split; [exact mixed_patient|]. vm_compute. reflexivity.
Qed.

(** ** Answers to a scan need not fit *)

Definition crowded_talk : list bus_event :=
  [TWrite 0 scan_msg; TDeliver 0 1; TDeliver 0 2; TWritten 0; TRead 1 16 scan_msg; TRead 2 16 scan_msg;
   TWrite 2 pong2; TWrite 1 pong1; TDeliver 2 0; TDeliver 1 0].

Definition crowded_client_does : list (list io_event) := Eval vm_compute in
  map (fun k => p_log (b_port (snd (perform_all [OpScan] (fresh true (firstn k (reads 0 crowded_talk)) 16 16))))) (seq 0 1).
Definition crowded_motor1_does : list (list io_event) := Eval vm_compute in
  map (fun k => logs_of 9 (mkMotor x01 (repeat x07 4) None) 16 (firstn k (reads 1 crowded_talk))) (seq 0 2).
Definition crowded_motor2_does : list (list io_event) := Eval vm_compute in
  map (fun k => logs_of 9 (mkMotor x02 (repeat x07 4) None) 16 (firstn k (reads 2 crowded_talk))) (seq 0 2).

Lemma crowded_test : test_run (fresh true [] 16 16) (map (node_of 16) pair_of_motors) [OpScan] crowded_talk.
Proof.
  split.
  - apply (plays_by _ _ _ crowded_client_does); [|vm_compute; reflexivity]. change (length (reads 0 crowded_talk)) with 0.
    reads_one_by_one; (eapply client_by; [vm_compute; reflexivity|reflexivity]).
  - intros [|[|i]] d E; cbn in E; [| |destruct i; discriminate E]; injection E as <-.
    + apply (plays_by _ _ _ crowded_motor1_does); [|vm_compute; reflexivity]. change (length (reads 1 crowded_talk)) with 1.
      reads_one_by_one; (eapply (device_by 9); [lia|vm_compute; reflexivity]).
    + apply (plays_by _ _ _ crowded_motor2_does); [|vm_compute; reflexivity]. change (length (reads 2 crowded_talk)) with 1.
      reads_one_by_one; (eapply (device_by 9); [lia|vm_compute; reflexivity]).
Qed.

Lemma L_C78_room_for_scan_refuted : ~ forall cap c ds ms os tr n room, connected cap c ds ms -> all_possible comes_back cap ms os ->
  Forall ordinary os -> bus_run (map m_id ms) tr n -> test_run c ds os tr -> ~ In (TTimedOut 0) tr ->
  awaits (client_program c os) (reads 0 tr) room -> length (waiting n 0) <= room.
Proof.
  intro H.
  destruct (run_of (map m_id pair_of_motors) crowded_talk (fun n => length (waiting n 0) =? 28)) as [n [R W]]; [vm_compute; reflexivity|vm_compute; reflexivity|].
  apply Nat.eqb_eq in W. assert (28 <= 16); [|lia]. rewrite <- W.
  apply (H 16 (fresh true [] 16 16) (map (node_of 16) pair_of_motors) pair_of_motors [OpScan] crowded_talk n 16).
  - exact slow_connected.
  - apply conj; [small_possible|exact I].
  - apply Forall_cons; [right; reflexivity|constructor].
  - exact R.
  - exact crowded_test.
  - cbn. intuition discriminate.
  - exists (removelast (nth 0 crowded_client_does [])). eexists. eapply client_by; [vm_compute; reflexivity|reflexivity].
Qed.
