(** * ConcurrentExamples: concrete interleavings *)
From Coq Require Import ZArith ZifyN ZifyNat ZifyBool.
From Verif Require Import Base Error Packet Time Bus Data Client Instructions Device MockDevice Api Spec CallSpec StreamSpec
  Demo Lib ApiProofs StreamProofs DemoProofs RemoteSpec RemoteProofs RemoteTheorems RemoteExtra FitTheorems
  TestBus TestBusSpec TestBusTheorems ConcurrentSpec ConcurrentProofs ConcurrentTheorems ConcurrentResults.
Ltac Zify.zify_post_hook ::= Z.div_mod_to_equations.

(** ** Checking that a thread takes part: [l] has the calls after 0, 1, 2, ... reads *)

Definition does (e : nat) (l : list (list io_event)) (tr : list bus_event) (k : nat) : list bus_event :=
  flat_map (visible e) (nth (length (reads e (firstn k tr))) l []).
Definition has_done (e : nat) (l : list (list io_event)) (tr : list bus_event) (k : nat) : list bus_event :=
  let m := moves e (firstn k tr) in m ++ map (TWrite e) (writes (skipn (length m) (does e l tr k))).

Lemma plays_by : forall e (program : list rd_event -> list io_event -> Prop) tr l,
  (forall k, k <= length (reads e tr) -> program (firstn k (reads e tr)) (nth k l [])) ->
  map (does e l tr) (seq 0 (S (length tr))) = map (has_done e l tr) (seq 0 (S (length tr))) ->
  plays e program tr.
Proof.
  intros e program tr l H E past future T.
  assert (F : firstn (length past) tr = past) by (rewrite T, firstn_app, firstn_all, Nat.sub_diag; apply app_nil_r).
  assert (R : reads e past = firstn (length (reads e past)) (reads e tr)).
  { rewrite T. unfold reads. rewrite flat_map_app, firstn_app, firstn_all, Nat.sub_diag. cbn. rewrite app_nil_r. reflexivity. }
  exists (nth (length (reads e past)) l []), (writes (skipn (length (moves e past)) (does e l tr (length past)))). split.
  - rewrite R at 1. apply H. rewrite T. unfold reads. rewrite flat_map_app, app_length. lia.
  - apply (f_equal (fun x => nth (length past) x (does e l tr 0))) in E. rewrite map_nth, seq_nth in E by (rewrite T, app_length; lia).
    rewrite (nth_indep _ _ (has_done e l tr 0)) in E by (rewrite map_length, seq_length, T, app_length; lia).
    rewrite map_nth, seq_nth in E by (rewrite T, app_length; lia). cbn [Nat.add] in E.
    unfold has_done in E. unfold does in *. rewrite F in E. cbv zeta in E. rewrite F. exact E.
Qed.

Lemma each_up_to : forall (P : nat -> Prop) k, (forall i, i < S k -> P i) -> forall i, i <= k -> P i.
Proof. intros P k H i L. apply H. lia. Qed.

Lemma each_zero : forall (P : nat -> Prop) i, i < 0 -> P i.
Proof. intros P i L. lia. Qed.

Lemma each_succ : forall (P : nat -> Prop) k, P k -> (forall i, i < k -> P i) -> forall i, i < S k -> P i.
Proof. intros P k H1 H2 i L. destruct (Nat.eq_dec i k) as [->|N]; [exact H1|apply H2; lia]. Qed.

(** ** The loop of a simulated motor *)

Fixpoint mock_go (k : nat) (id : byte) (st : mock_state) (s : bus) : option (list io_event * mock_state * out mock_state) :=
  match k with
  | O => None
  | S k' =>
      match mock_iteration id st s with
      | (Val st1, s1) => mock_go k' id st1 s1
      | (o, s1) => Some (p_log (b_port s1), st, o)
      end
  end.

Lemma mock_go_runs : forall k id st s l st' o, inv s -> mock_go k id st s = Some (l, st', o) ->
  exists evs, l = p_log (b_port s) ++ evs /\ mock_run id st s evs st' o.
Proof.
  induction k as [|k IH]; intros id st s l st' o Hi E; [discriminate E|]. cbn [mock_go] in E.
  destruct (mock_iteration id st s) as [x s1] eqn:Em. destruct (mock_iteration_modest id st) as [Kp Ro].
  destruct (Ro _ _ _ Hi Em) as [evs [C _]]. pose proof (Kp _ _ _ Hi Em) as Ev. destruct x as [st1|p|].
  - destruct (IH _ _ _ _ _ _ (ev_inv _ _ Ev) E) as [evs2 [-> Ru]]. exists (evs ++ evs2).
    split; [rewrite C, app_assoc; reflexivity|]. eapply run_goes; eauto.
  - injection E as <- <- <-. exists evs. split; [exact C|]. eapply run_stops; [exact Em|discriminate|exact C].
  - injection E as <- <- <-. exists evs. split; [exact C|]. eapply run_stops; [exact Em|discriminate|exact C].
Qed.

Lemma device_by : forall k id cap input mem l st o, 10 <= cap ->
  mock_go k id mem (fresh true input cap cap) = Some (l, st, o) ->
  device_program (mkNode id (fresh true [] cap cap) (Val mem)) input l.
Proof.
  intros k id cap input mem l st o Hc E.
  assert (Hi : inv (fresh true input cap cap)) by (apply reach_inv, fresh_reach; exact Hc).
  destruct (mock_go_runs _ _ _ _ _ _ _ Hi E) as [evs [-> Ru]]. exists mem, st, o. split; [reflexivity|]. exact Ru.
Qed.

Lemma client_by : forall os cap input l rs x s, perform_all os (fresh true input cap cap) = (rs, x, s) -> p_log (b_port s) = l ->
  client_program (fresh true [] cap cap) os input l.
Proof.
  intros os cap input l rs x s E <-. unfold client_program.
  change (set_script (fresh true [] cap cap) input) with (fresh true input cap cap). rewrite E. reflexivity.
Qed.

(** ** Motors with buffers of the same size *)

Definition node_of (cap : nat) (m : motor) : node := mkNode (m_id m) (fresh true [] cap cap) (Val (mkMock (m_memory m) (m_waiting m))).

Lemma equal_connected : forall cap ms, 16 <= cap -> NoDup (map m_id ms) -> ~ In xfe (map m_id ms) ->
  connected cap (fresh true [] cap cap) (map (node_of cap) ms) ms.
Proof.
  intros cap ms Hc Nd Nb.
  assert (R : ready cap (fresh true [] cap cap)).
  { split; [apply fresh_reach; lia|]. cbn [fresh b_port p_discards p_writes b_baud b_rbuf b_wbuf].
    split; [reflexivity|]. split; [reflexivity|]. split; [discriminate|]. split; [reflexivity|].
    rewrite app_length, !repeat_length. cbn [header length]. lia. }
  split; [exact Hc|]. split; [exact R|]. split; [|split; [|auto]].
  - apply Forall_forall. intros d H. apply in_map_iff in H. destruct H as [m [<- _]]. split; [exact R|reflexivity].
  - clear. induction ms as [|m ms IH]; constructor; [split; reflexivity|exact IH].
Qed.

Ltac reads_one_by_one := apply each_up_to; repeat first [apply each_succ|apply each_zero].
(** ** A conversation with two motors *)

Definition pair_of_motors : list motor := [mkMotor x01 (repeat x07 4) None; mkMotor x02 (repeat x07 4) None].
Definition set_and_get : list op := [OpSyncWrite 2 1 [mkSync x01 [x55]; mkSync x02 [x66]]; OpRead x01 2 1].

Definition set_msg : list byte := [xff; xff; xfd; x00; xfe; x0b; x00; x83; x02; x00; x01; x00; x01; x55; x02; x66; x12; xc0].
Definition get_msg : list byte := [xff; xff; xfd; x00; x01; x07; x00; x02; x02; x00; x01; x00; x22; xf3].
Definition new_msg : list byte := [xff; xff; xfd; x00; x01; x05; x00; x55; x00; x55; xad; x20].

(** Motor 2 gives up waiting once; motor 1 gets both messages at once and answers
    while the second message is on its way to motor 2. *)
Definition busy_talk : list bus_event :=
  [TWrite 0 set_msg; TDeliver 0 1; TDeliver 0 2; TTimedOut 2; TWritten 0; TWrite 0 get_msg; TDeliver 0 1;
   TRead 1 48 (set_msg ++ get_msg); TWrite 1 new_msg; TDeliver 1 0; TRead 2 48 set_msg; TDeliver 0 2; TWritten 0;
   TRead 0 48 new_msg; TDeliver 1 2; TWritten 1; TRead 2 48 (get_msg ++ new_msg)].

Definition client_does : list (list io_event) := Eval vm_compute in
  map (fun k => p_log (b_port (snd (perform_all set_and_get (fresh true (firstn k (reads 0 busy_talk)) 48 48))))) (seq 0 2).
Definition logs_of (k : nat) (m : motor) (cap : nat) (input : list rd_event) : list io_event :=
  match mock_go k (m_id m) (mkMock (m_memory m) (m_waiting m)) (fresh true input cap cap) with Some (l, _, _) => l | None => [] end.
Definition motor1_does : list (list io_event) := Eval vm_compute in
  map (fun k => logs_of 9 (mkMotor x01 (repeat x07 4) None) 48 (firstn k (reads 1 busy_talk))) (seq 0 2).
Definition motor2_does : list (list io_event) := Eval vm_compute in
  map (fun k => logs_of 9 (mkMotor x02 (repeat x07 4) None) 48 (firstn k (reads 2 busy_talk))) (seq 0 4).

Lemma busy_client : forall k, k <= length (reads 0 busy_talk) ->
  client_program (fresh true [] 48 48) set_and_get (firstn k (reads 0 busy_talk)) (nth k client_does []).
Proof. change (length (reads 0 busy_talk)) with 1. reads_one_by_one; (eapply client_by; [vm_compute; reflexivity|reflexivity]). Qed.

Lemma busy_motor1 : forall k, k <= length (reads 1 busy_talk) ->
  device_program (node_of 48 (mkMotor x01 (repeat x07 4) None)) (firstn k (reads 1 busy_talk)) (nth k motor1_does []).
Proof. change (length (reads 1 busy_talk)) with 1. reads_one_by_one; (eapply (device_by 9); [lia|vm_compute; reflexivity]). Qed.

Lemma busy_motor2 : forall k, k <= length (reads 2 busy_talk) ->
  device_program (node_of 48 (mkMotor x02 (repeat x07 4) None)) (firstn k (reads 2 busy_talk)) (nth k motor2_does []).
Proof. change (length (reads 2 busy_talk)) with 3. reads_one_by_one; (eapply (device_by 9); [lia|vm_compute; reflexivity]). Qed.

Lemma busy_possible : all_possible comes_back 48 pair_of_motors set_and_get.
Proof.
  unfold set_and_get. repeat (apply conj; [small_possible|]); try exact I.
  split; [reflexivity|]. split; [reflexivity|]. split; [repeat constructor|]. split; [repeat constructor; cbn; intuition discriminate|].
  intros m e Hm He. cbn in Hm, He. intuition subst; cbn in *; intuition discriminate.
Qed.

Lemma busy_connected : connected 48 (fresh true [] 48 48) (map (node_of 48) pair_of_motors) pair_of_motors.
Proof. apply equal_connected; [lia|repeat constructor; cbn; intuition discriminate|cbn; intuition discriminate]. Qed.

Lemma busy_run : exists n, bus_run (map m_id pair_of_motors) busy_talk n /\ forall e, e <= 2 -> waiting n e = [].
Proof.
  destruct (bus_execs (map m_id pair_of_motors) net_init busy_talk) as [[tr m]|] eqn:E; [|vm_compute in E; discriminate E].
  exists m. pose proof (bus_execs_run _ _ [] _ _ _ (run_init _) E) as R. cbn [app] in R.
  assert (tr = busy_talk /\ forall e, e <= 2 -> waiting m e = []) as [<- W].
  { vm_compute in E. injection E as <- <-. split; [reflexivity|]. intros [|[|[|e]]] L; try reflexivity; lia. }
  split; [exact R|exact W].
Qed.

Lemma busy_test : test_run (fresh true [] 48 48) (map (node_of 48) pair_of_motors) set_and_get busy_talk.
Proof.
  split; [apply (plays_by _ _ _ client_does busy_client); vm_compute; reflexivity|].
  intros [|[|i]] d E; cbn in E; [| |destruct i; discriminate E]; injection E as <-.
  - apply (plays_by _ _ _ motor1_does busy_motor1). vm_compute. reflexivity.
  - apply (plays_by _ _ _ motor2_does busy_motor2). vm_compute. reflexivity.
Qed.

Lemma busy_directed : Forall directed set_and_get.
Proof. apply Forall_cons; [right; do 3 eexists; reflexivity|]. apply Forall_cons; [left; discriminate|constructor]. Qed.

Lemma L_C78_example : exists n, let ms := pair_of_motors in let c := fresh true [] 48 48 in
  connected 48 c (map (node_of 48) ms) ms /\ all_possible comes_back 48 ms set_and_get /\ Forall directed set_and_get /\
  bus_run (map m_id ms) busy_talk n /\ test_run c (map (node_of 48) ms) set_and_get busy_talk /\ ~ In (TTimedOut 0) busy_talk /\
  stuck c (map (node_of 48) ms) set_and_get busy_talk n /\
  fst (fst (perform_all set_and_get (set_script c (reads 0 busy_talk)))) =
    [RepSent (Ok tt); RepData (Ok (mkResponse x01 false [x55]))].
Proof.
  destruct busy_run as [n [R W]]. exists n. cbv zeta.
  split; [exact busy_connected|]. split; [exact busy_possible|]. split; [exact busy_directed|]. split; [exact R|].
  split; [exact busy_test|]. split; [cbn; intuition discriminate|]. split; [|vm_compute; reflexivity].
  split; [|split].
  - intros e L. split; [|exact (W e L)]. cbn in L. destruct e as [|[|[|e]]]; try reflexivity; lia.
  - eexists. split; [exact (busy_client 1 (le_n _))|reflexivity].
  - intros [|[|i]] d E; cbn in E; [| |destruct i; discriminate E]; injection E as <-.
    + eexists. split; [exact (busy_motor1 1 (le_n _))|reflexivity].
    + eexists. split; [exact (busy_motor2 3 (le_n _))|reflexivity].
Qed.

(** ** Answers that come too late *)

Definition lone_motor : list motor := [mkMotor x01 (repeat x07 4) None].
Definition get_set_get : list op := [OpRead x01 2 1; OpSyncWrite 2 1 [mkSync x01 [x55]]; OpRead x01 2 1].
Definition set1_msg : list byte := Eval vm_compute in wire (NReq (OpSyncWrite 2 1 [mkSync x01 [x55]])).
Definition old_msg : list byte := Eval vm_compute in wire (NSts x01 x00 [x07]).

(** The client gives up on the first answer, which then passes for the answer to the
    second request. *)
Definition late_talk : list bus_event :=
  [TWrite 0 get_msg; TDeliver 0 1; TWritten 0; TRead 1 48 get_msg; TTimedOut 0; TWrite 0 set1_msg; TDeliver 0 1; TWritten 0;
   TWrite 0 get_msg; TDeliver 0 1; TWritten 0; TWrite 1 old_msg; TDeliver 1 0; TWritten 1; TRead 0 48 old_msg].

Definition late_client_does : list (list io_event) := Eval vm_compute in
  map (fun k => p_log (b_port (snd (perform_all get_set_get (fresh true (firstn k (reads 0 late_talk)) 48 48))))) (seq 0 3).
Definition late_motor_does : list (list io_event) := Eval vm_compute in
  map (fun k => logs_of 9 (mkMotor x01 (repeat x07 4) None) 48 (firstn k (reads 1 late_talk))) (seq 0 2).

Lemma late_test : test_run (fresh true [] 48 48) (map (node_of 48) lone_motor) get_set_get late_talk.
Proof.
  split.
  - apply (plays_by _ _ _ late_client_does); [|vm_compute; reflexivity]. change (length (reads 0 late_talk)) with 2.
    reads_one_by_one; (eapply client_by; [vm_compute; reflexivity|reflexivity]).
  - intros [|i] d E; cbn in E; [|destruct i; discriminate E]. injection E as <-.
    apply (plays_by _ _ _ late_motor_does); [|vm_compute; reflexivity]. change (length (reads 1 late_talk)) with 1.
    reads_one_by_one; (eapply (device_by 9); [lia|vm_compute; reflexivity]).
Qed.

Lemma late_possible : all_possible comes_back 48 lone_motor get_set_get.
Proof.
  unfold get_set_get. repeat (apply conj; [small_possible|]); try exact I.
  split; [reflexivity|]. split; [reflexivity|]. split; [repeat constructor|]. split; [repeat constructor; cbn; intuition discriminate|].
  intros m e Hm He. cbn in Hm, He. intuition subst; cbn in *; intuition discriminate.
Qed.

Lemma L_C78_impatient_client_refuted : ~ forall cap c ds ms os tr n, connected cap c ds ms -> all_possible comes_back cap ms os ->
  Forall directed os -> bus_run (map m_id ms) tr n -> test_run c ds os tr ->
  exists rs x s ms', perform_all os (set_script c (reads 0 tr)) = (rs, x, s) /\ excused ms (firstn (length rs) os) rs ms'.
Proof.
  intro H.
  assert (R : exists n, bus_run (map m_id lone_motor) late_talk n).
  { destruct (bus_execs (map m_id lone_motor) net_init late_talk) as [[tr m]|] eqn:E; [|vm_compute in E; discriminate E].
    exists m. pose proof (bus_execs_run _ _ [] _ _ _ (run_init _) E) as R. cbn [app] in R.
    assert (tr = late_talk) as <- by (vm_compute in E; injection E as <- _; reflexivity). exact R. }
  destruct R as [n R].
  destruct (H 48 (fresh true [] 48 48) (map (node_of 48) lone_motor) lone_motor get_set_get late_talk n) as [rs [x [s [ms' [E X]]]]].
  - apply equal_connected; [lia|repeat constructor; cbn; intuition discriminate|cbn; intuition discriminate].
  - exact late_possible.
  - apply Forall_cons; [left; discriminate|]. apply Forall_cons; [right; do 3 eexists; reflexivity|].
    apply Forall_cons; [left; discriminate|constructor].
  - exact R.
  - exact late_test.
  - assert (rs = [unanswered (OpRead x01 2 1) 0; RepSent (Ok tt); RepData (Ok (mkResponse x01 false [x07]))]) as ->.
    { apply (f_equal (fun x => fst (fst x))) in E. vm_compute in E. cbn [fst] in E. rewrite <- E. reflexivity. }
    cbn [length firstn get_set_get] in X. inversion X as [|? ? ? ? ? ? _ X1]; subst. inversion X1 as [|? ? ? ? ? ? _ X2]; subst.
    inversion X2 as [|? ? ? ? ? ? A _]; subst. destruct A as [A|[e A]]; [|discriminate A].
    unfold answers in A. cbn [target] in A. destruct A as [[m [Hin [_ A]]]|[_ [e A]]]; [|discriminate A].
    destruct Hin as [<-|[]]. vm_compute in A. discriminate A.
Qed.

(** ** Slow motors *)

Definition ping_msg : list byte := Eval vm_compute in wire (NReq (OpPing x01)).
Definition pong_msg : list byte := Eval vm_compute in wire (answer_note (OpPing x01) (mkMotor x01 (repeat x07 4) None)).
Definition slow_talk : list bus_event :=
  [TWrite 0 ping_msg; TDeliver 0 1; TDeliver 0 2; TWritten 0; TRead 1 16 ping_msg; TWrite 1 pong_msg; TDeliver 1 0; TDeliver 1 2; TWritten 1].

Definition slow_client_does : list (list io_event) := Eval vm_compute in
  map (fun k => p_log (b_port (snd (perform_all [OpPing x01] (fresh true (firstn k (reads 0 slow_talk)) 16 16))))) (seq 0 1).
Definition slow_motor1_does : list (list io_event) := Eval vm_compute in
  map (fun k => logs_of 9 (mkMotor x01 (repeat x07 4) None) 16 (firstn k (reads 1 slow_talk))) (seq 0 2).
Definition slow_motor2_does : list (list io_event) := Eval vm_compute in
  map (fun k => logs_of 9 (mkMotor x02 (repeat x07 4) None) 16 (firstn k (reads 2 slow_talk))) (seq 0 1).

Lemma slow_motor2 : device_program (node_of 16 (mkMotor x02 (repeat x07 4) None)) [] (nth 0 slow_motor2_does []).
Proof. eapply (device_by 9); [lia|vm_compute; reflexivity]. Qed.

Lemma slow_test : test_run (fresh true [] 16 16) (map (node_of 16) pair_of_motors) [OpPing x01] slow_talk.
Proof.
  split.
  - apply (plays_by _ _ _ slow_client_does); [|vm_compute; reflexivity]. change (length (reads 0 slow_talk)) with 0.
    reads_one_by_one; (eapply client_by; [vm_compute; reflexivity|reflexivity]).
  - intros [|[|i]] d E; cbn in E; [| |destruct i; discriminate E]; injection E as <-.
    + apply (plays_by _ _ _ slow_motor1_does); [|vm_compute; reflexivity]. change (length (reads 1 slow_talk)) with 1.
      reads_one_by_one; (eapply (device_by 9); [lia|vm_compute; reflexivity]).
    + apply (plays_by _ _ _ slow_motor2_does); [|vm_compute; reflexivity]. change (length (reads 2 slow_talk)) with 0.
      reads_one_by_one. exact slow_motor2.
Qed.

Lemma slow_run : exists n, bus_run (map m_id pair_of_motors) slow_talk n /\ length (waiting n 0) = 14 /\ length (waiting n 2) = 24.
Proof.
  destruct (bus_execs (map m_id pair_of_motors) net_init slow_talk) as [[tr m]|] eqn:E; [|vm_compute in E; discriminate E].
  exists m. pose proof (bus_execs_run _ _ [] _ _ _ (run_init _) E) as R. cbn [app] in R.
  assert (tr = slow_talk /\ length (waiting m 0) = 14 /\ length (waiting m 2) = 24) as [<- W]
    by (vm_compute in E; injection E as <- <-; split; [|split]; reflexivity).
  split; [exact R|exact W].
Qed.

Lemma slow_connected : connected 16 (fresh true [] 16 16) (map (node_of 16) pair_of_motors) pair_of_motors.
Proof. apply equal_connected; [lia|repeat constructor; cbn; intuition discriminate|cbn; intuition discriminate]. Qed.

Lemma slow_possible : all_possible comes_back 16 pair_of_motors [OpPing x01].
Proof. apply conj; [small_possible|exact I]. Qed.

Lemma L_C78_room_example : exists n, let ms := pair_of_motors in let c := fresh true [] 16 16 in
  connected 16 c (map (node_of 16) ms) ms /\ all_possible comes_back 16 ms [OpPing x01] /\ Forall directed [OpPing x01] /\
  bus_run (map m_id ms) slow_talk n /\ test_run c (map (node_of 16) ms) [OpPing x01] slow_talk /\ ~ In (TTimedOut 0) slow_talk /\
  awaits (client_program c [OpPing x01]) (reads 0 slow_talk) 16 /\ length (waiting n 0) = 14.
Proof.
  destruct slow_run as [n [R [W _]]]. exists n. cbv zeta. split; [exact slow_connected|]. split; [exact slow_possible|].
  split; [apply Forall_cons; [left; discriminate|constructor]|]. split; [exact R|]. split; [exact slow_test|].
  split; [cbn; intuition discriminate|]. split; [|exact W].
  exists (removelast (nth 0 slow_client_does [])). eexists. eapply client_by; [vm_compute; reflexivity|reflexivity].
Qed.

Lemma L_C78_room_for_motors_refuted : ~ forall cap c ds ms os tr n i d room, connected cap c ds ms -> all_possible comes_back cap ms os ->
  Forall directed os -> bus_run (map m_id ms) tr n -> test_run c ds os tr -> ~ In (TTimedOut 0) tr -> nth_error ds i = Some d ->
  awaits (device_program d) (reads (S i) tr) room -> length (waiting n (S i)) <= room.
Proof.
  intro H.
  destruct slow_run as [n [R [_ W]]].
  assert (24 <= 16); [|lia]. rewrite <- W.
  apply (H 16 (fresh true [] 16 16) (map (node_of 16) pair_of_motors) pair_of_motors [OpPing x01] slow_talk n 1
           (node_of 16 (mkMotor x02 (repeat x07 4) None)) 16).
  - exact slow_connected.
  - exact slow_possible.
  - apply Forall_cons; [left; discriminate|constructor].
  - exact R.
  - exact slow_test.
  - cbn. intuition discriminate.
  - reflexivity.
  - exists (removelast (nth 0 slow_motor2_does [])). eexists. exact slow_motor2.
Qed.

(** ** Calls for all motors *)

Definition all_then_one : list op := [OpWrite xfe 2 [x55]; OpRead x01 2 1].
Definition all_msg : list byte := Eval vm_compute in wire (NReq (OpWrite xfe 2 [x55])).
Definition ack_msg : list byte := Eval vm_compute in wire (NSts x01 x00 []).

(** The motor acknowledges the write that was for all motors; the client takes this
    for the answer to the next call. *)
Definition talk_back : list bus_event :=
  [TWrite 0 all_msg; TDeliver 0 1; TWritten 0; TRead 1 48 all_msg; TWrite 1 ack_msg; TDeliver 1 0; TWritten 1;
   TWrite 0 get_msg; TDeliver 0 1; TWritten 0; TRead 0 48 ack_msg].

Definition back_client_does : list (list io_event) := Eval vm_compute in
  map (fun k => p_log (b_port (snd (perform_all all_then_one (fresh true (firstn k (reads 0 talk_back)) 48 48))))) (seq 0 2).
Definition back_motor_does : list (list io_event) := Eval vm_compute in
  map (fun k => logs_of 9 (mkMotor x01 (repeat x07 4) None) 48 (firstn k (reads 1 talk_back))) (seq 0 2).

Lemma back_test : test_run (fresh true [] 48 48) (map (node_of 48) lone_motor) all_then_one talk_back.
Proof.
  split.
  - apply (plays_by _ _ _ back_client_does); [|vm_compute; reflexivity]. change (length (reads 0 talk_back)) with 1.
    reads_one_by_one; (eapply client_by; [vm_compute; reflexivity|reflexivity]).
  - intros [|i] d E; cbn in E; [|destruct i; discriminate E]. injection E as <-.
    apply (plays_by _ _ _ back_motor_does); [|vm_compute; reflexivity]. change (length (reads 1 talk_back)) with 1.
    reads_one_by_one; (eapply (device_by 9); [lia|vm_compute; reflexivity]).
Qed.

Lemma back_possible : all_possible comes_back 48 lone_motor all_then_one.
Proof. unfold all_then_one. repeat (apply conj; [small_possible|]); try exact I. Qed.

Lemma L_C78_for_all_motors_refuted : ~ forall cap c ds ms os tr n, connected cap c ds ms -> all_possible comes_back cap ms os ->
  bus_run (map m_id ms) tr n -> test_run c ds os tr -> ~ In (TTimedOut 0) tr ->
  exists rs x s ms', perform_all os (set_script c (reads 0 tr)) = (rs, x, s) /\ remote ms (firstn (length rs) os) rs ms'.
Proof.
  intro H.
  assert (R : exists n, bus_run (map m_id lone_motor) talk_back n).
  { destruct (bus_execs (map m_id lone_motor) net_init talk_back) as [[tr m]|] eqn:E; [|vm_compute in E; discriminate E].
    exists m. pose proof (bus_execs_run _ _ [] _ _ _ (run_init _) E) as R. cbn [app] in R.
    assert (tr = talk_back) as <- by (vm_compute in E; injection E as <- _; reflexivity). exact R. }
  destruct R as [n R].
  destruct (H 48 (fresh true [] 48 48) (map (node_of 48) lone_motor) lone_motor all_then_one talk_back n) as [rs [x [s [ms' [E X]]]]].
  - apply equal_connected; [lia|repeat constructor; cbn; intuition discriminate|cbn; intuition discriminate].
  - exact back_possible.
  - exact R.
  - exact back_test.
  - cbn; intuition discriminate.
  - assert (rs = [RepDone (Ok (mkResponse xfe false tt));
                  RepData (Err (TReadError (RInvalidMessage (IMParameterCount 0 (Exact 1)))))]) as ->.
    { apply (f_equal (fun x => fst (fst x))) in E. vm_compute in E. cbn [fst] in E. rewrite <- E. reflexivity. }
    cbn [length firstn all_then_one] in X. inversion X as [|? ? ? ? ? ? _ X1]; subst. inversion X1 as [|? ? ? ? ? ? A _]; subst.
    unfold answers in A. cbn [target] in A. destruct A as [[m [Hin [_ A]]]|[_ [e A]]]; [|discriminate A].
    destruct Hin as [<-|[]]. vm_compute in A. discriminate A.
Qed.
