(** * RemoteExtra: a bus with two simulated motors, and the cases where the
    motors do not behave like memories. *)
From Coq Require Import ZArith.
From Verif Require Import Base Lib Error Packet Time Bus Data Client Instructions Device MockDevice
  Spec Api CallSpec StreamSpec DeviceSpec InstructionSpec RemoteSpec RemoteProofs RemoteTheorems
  DataSpec DataTheorems GenericTheorems Demo DemoProofs.

Definition two_motors (m1 m2 : list byte) : list node :=
  [mkNode x01 (fresh true [] 64 64) (Val (mkMock m1 None)); mkNode x02 (fresh true [] 64 64) (Val (mkMock m2 None))].

Lemma two_connected : forall m1 m2,
  connected 64 (fresh true [] 64 64) (two_motors m1 m2) [mkMotor x01 m1 None; mkMotor x02 m2 None].
Proof.
  intros m1 m2.
  assert (R : ready 64 (fresh true [] 64 64)).
  { split; [apply fresh_reach; lia|]. vm_compute. repeat split; try lia; discriminate. }
  split; [lia|]. split; [exact R|]. split; [|split; [|split]].
  - do 2 (apply Forall_cons; [split; [exact R|reflexivity]|]). apply Forall_nil.
  - repeat constructor.
  - repeat constructor; cbn; intuition discriminate.
  - cbn. intuition discriminate.
Qed.

Lemma hears_all : forall s bs s', s' = set_script s (p_script (b_port s) ++ [RdData bs]) -> hears s bs s'.
Proof. intros s bs s' ->. exists [RdData bs]. split; [apply app_nil_r|reflexivity]. Qed.

(** One exchange with two motors that send [r1] and [r2]. *)
Lemma exchange_two : forall R (m : M R) c d1 d2 w r1 r2 o c' st1 st2 x1 x2 s1 s2 evs e1 e2,
  m (set_script c [RdData (r1 ++ r2); RdErr (IoTimeout 0); RdErr (IoTimeout 0)]) = (o, c') ->
  calls c c' evs -> transmitted evs = w ->
  n_state d1 = Val st1 -> n_state d2 = Val st2 ->
  let h1 := set_script (n_bus d1) (p_script (b_port (n_bus d1)) ++ [RdData w]) in
  let h2 := set_script (n_bus d2) (p_script (b_port (n_bus d2)) ++ [RdData w]) in
  mock_iteration (n_id d1) st1 h1 = (x1, s1) -> calls h1 s1 e1 -> transmitted e1 = r1 ->
  mock_iteration (n_id d2) st2 h2 = (x2, s2) -> calls h2 s2 e2 -> transmitted e2 = r2 ->
  exchange m c [d1; d2] o c'
    [mkNode (n_id d1) (set_script s1 (p_script (b_port s1) ++ [RdData r2])) x1;
     mkNode (n_id d2) (set_script s2 (p_script (b_port s2) ++ [RdData r1])) x2].
Proof.
  intros R m c d1 d2 w r1 r2 o c' st1 st2 x1 x2 s1 s2 evs e1 e2 E C T S1 S2 h1 h2 I1 C1 T1 I2 C2 T2.
  eapply (exchange_ 2 m c [d1; d2] [RdData (r1 ++ r2)] [0%N; 0%N] o c' evs [r1; r2]).
  - apply le_n.
  - exact E.
  - exact C.
  - rewrite T, <- T1. eapply re_cons; [exact S1|apply hears_all; reflexivity|exact I1|exact C1|].
    rewrite <- T2. eapply re_cons; [exact S2|apply hears_all; reflexivity|exact I2|exact C2|]. apply re_nil.
  - cbn [items concat]. rewrite !app_nil_r. reflexivity.
  - eapply (oh_cons [] (mkNode (n_id d1) s1 x1)); [apply hears_all; cbn [concat app n_bus]; rewrite app_nil_r; reflexivity|].
    eapply (oh_cons _ (mkNode (n_id d2) s2 x2)); [apply hears_all; cbn [concat app n_bus]; rewrite app_nil_r; reflexivity|].
    apply oh_nil.
Qed.

Lemma L_C54_remote_memory_refuted : ~ (forall cap c ds ms os xs c' ds',
  connected cap c ds ms -> all_possible (fun _ => True) cap ms os -> session c ds os xs c' ds' ->
  exists rs ms', xs = map Val rs /\ remote ms os rs ms' /\ Forall2 is_motor ds' ms').
Proof.
  intro H. set (m1 := repeat x00 16). set (d := [xff; xff; xfd; x00; xff; xff; xff; xfd]).
  set (c := fresh true [] 64 64). set (ds := two_motors m1 m1).
  assert (E : exists x c' ds', exchange (perform (OpWrite x01 0 d)) c ds x c' ds' /\
            match ds' with
            | n :: _ => match n_state n with Val st => bytes_eqb (mk_table st) (d ++ repeat x00 8) | _ => false end
            | _ => true end = false).
  { do 3 eexists. split.
    - eapply (exchange_two _ _ _ _ _ _ (frame x01 [STATUS; x00]) []). all: [> (vm_compute; reflexivity) ..].
    - vm_compute. reflexivity. }
  destruct E as [x [c' [ds' [E K]]]].
  destruct (H 64 c ds [mkMotor x01 m1 None; mkMotor x02 m1 None] [OpWrite x01 0 d] [x] c' ds') as [rs [ms' [_ [Re F]]]].
  - apply two_connected.
  - cbn [all_possible possible proper]. split; [|exact I]. split; [reflexivity|].
    split; [|exact I]. vm_compute. repeat split; lia.
  - econstructor; [exact E|constructor].
  - inversion Re as [|? ? ? ? ? ? _ Re1]; subst. inversion Re1; subst. inversion F as [|n ? ? ? [_ M] _]; subst.
    rewrite M in K. vm_compute in K. discriminate K.
Qed.

(** The simulated motor looks for its id among all bytes of a synchronous write,
    here it finds the data of the other motor: a defect of the test code. *)
Lemma L_C54_sync_write_refuted : ~ (forall cap c ds ms a n l x c' ds',
  connected cap c ds ms -> is_u16 a -> is_u16 n -> Forall (fun e => length (sw_data e) = N.to_nat n) l ->
  NoDup (map sw_id l) -> passes comes_back cap (message_of (OpSyncWrite a n l)) ->
  exchange (perform (OpSyncWrite a n l)) c ds x c' ds' ->
  Forall2 is_motor ds' (map (touched (OpSyncWrite a n l)) ms)).
Proof.
  intro H. set (m1 := repeat x00 4). set (l := [mkSync x01 [x02; x09]; mkSync x02 [x05; x06]]).
  set (c := fresh true [] 64 64). set (ds := two_motors m1 m1).
  assert (E : exists x c' ds', exchange (perform (OpSyncWrite 0 2 l)) c ds x c' ds' /\
            match ds' with
            | _ :: n :: _ => match n_state n with Val st => bytes_eqb (mk_table st) [x05; x06; x00; x00] | _ => false end
            | _ => true end = false).
  { do 3 eexists. split.
    - eapply (exchange_two _ _ _ _ _ _ [] []). all: [> (vm_compute; reflexivity) ..].
    - vm_compute. reflexivity. }
  destruct E as [x [c' [ds' [E K]]]].
  pose proof (H 64 c ds [mkMotor x01 m1 None; mkMotor x02 m1 None] 0%N 2%N l x c' ds' (two_connected m1 m1) eq_refl eq_refl) as F.
  assert (F' : Forall2 is_motor ds' (map (touched (OpSyncWrite 0 2 l)) [mkMotor x01 m1 None; mkMotor x02 m1 None])).
  { apply F; [repeat constructor|repeat constructor; cbn; intuition discriminate| |exact E].
    vm_compute. repeat split; lia. }
  inversion F' as [|? ? ? ? _ F2]; subst. inversion F2 as [|n ? ? ? [_ M] _]; subst.
  rewrite M in K. vm_compute in K. discriminate K.
Qed.

(** ** Values *)

Lemma L_C56_value_read_partial : forall A (D : data_impl A) V R v bytes cap c ds ms m a y c' ds',
  crate_type D V R -> R v bytes -> connected cap c ds ms -> In m ms ->
  possible comes_back cap ms (OpRead (m_id m) a (N.of_nat (length bytes))) ->
  load (m_memory m) a (N.of_nat (length bytes)) = Some bytes ->
  exchange (read D (m_id m) a) c ds y c' ds' ->
  y = Val (Ok (mkResponse (m_id m) false v)).
Proof.
  intros A D V R v bytes cap c ds ms m a y c' ds' Ct Rv Co Hin P Ld Ex.
  eapply (value_read A D v bytes); try eassumption.
  - apply connected_ok, Co.
  - apply (connected_nodup _ _ _ _ Co).
  - apply (crate_encodes_as _ _ _ _ _ _ Ct Rv).
  - apply (L_C36_round_trip _ _ _ _ _ _ Ct Rv).
Qed.

Lemma L_C56_value_round_trip_partial : forall A (D : data_impl A) V R v bytes cap c ds ms m a mem' x y c1 ds1 c2 ds2,
  crate_type D V R -> R v bytes -> connected cap c ds ms -> In m ms ->
  all_possible comes_back cap ms [OpWrite (m_id m) a bytes; OpRead (m_id m) a (N.of_nat (length bytes))] ->
  store (m_memory m) a bytes = Some mem' ->
  exchange (write D (m_id m) a v) c ds x c1 ds1 -> exchange (read D (m_id m) a) c1 ds1 y c2 ds2 ->
  x = Val (Ok (mkResponse (m_id m) false tt)) /\ y = Val (Ok (mkResponse (m_id m) false v)).
Proof.
  intros A D V R v bytes cap c ds ms m a mem' x y c1 ds1 c2 ds2 Ct Rv Co Hin Al St E1 E2.
  pose proof (connected_nodup _ _ _ _ Co) as N. pose proof (connected_not_all _ _ _ _ _ Co Hin) as Na. apply connected_ok in Co. destruct Al as [P1 [P2 _]].
  pose proof (crate_encodes_as _ _ _ _ _ _ Ct Rv) as En.
  destruct (value_written A D v bytes cap c ds ms m a mem' x c1 ds1 Co Hin N Na (crate_data_ok _ _ _ _ Ct) En P1 St E1) as [W1 Hx].
  split; [exact Hx|].
  set (o1 := OpWrite (m_id m) a bytes) in *. rewrite <- (touched_id o1 m) in *.
  eapply (value_read A D v bytes cap c1 ds1 _ (touched o1 m)).
  - exact W1.
  - apply in_map, Hin.
  - rewrite touched_ids. exact N.
  - apply En.
  - apply (L_C36_round_trip _ _ _ _ _ _ Ct Rv).
  - exact P2.
  - cbn [o1 touched]. rewrite addressed_self. cbn [m_memory]. unfold stored. rewrite St. apply (load_stored _ _ _ _ St).
  - exact E2.
Qed.

(** ** Cases for the examples *)

Definition some_operations : list op :=
  [OpPing x01; OpPing x09; OpRead x02 0 4; OpWrite x01 2 [x17; xff; xff; xfd]; OpWrite x01 7 [x01; x02];
   OpRegWrite x02 1 [x21]; OpAction x02; OpAction x02; OpSyncWrite 0 1 [mkSync x01 [x31]; mkSync x02 [x32]];
   OpRead x01 0 8; OpRead x02 0 9;
   OpScan; OpWrite xfe 6 [x41]; OpRegWrite xfe 5 [x42]; OpAction xfe; OpRead x02 0 8; OpScan].

Ltac small_message := vm_compute; repeat split; lia.
Ltac small_answer := let m := fresh in let bs := fresh in let H := fresh in let L := fresh in
  intros m bs H _ L; repeat (destruct H as [<-|H]; [vm_compute in L; try discriminate L; injection L as <-; small_message|]); contradiction.

Ltac small_possible :=
  split; [cbn [proper]; first [exact I|discriminate|reflexivity|split; [discriminate|split; reflexivity]|idtac]
         |split; [small_message|first [exact I|small_answer]]].

Lemma some_operations_possible :
  all_possible comes_back 64 [mkMotor x01 (repeat x07 8) None; mkMotor x02 (repeat x07 8) None] some_operations.
Proof.
  unfold some_operations.
  repeat (apply conj; [small_possible|]); try exact I.
  split; [reflexivity|]. split; [reflexivity|]. split; [repeat constructor|]. split; [repeat constructor; cbn; intuition discriminate|].
  intros m e Hm He. cbn in Hm, He. intuition subst; cbn in *; intuition discriminate.
Qed.

Lemma some_operations_meaning : exists r1 r2 rs ms', let m := repeat x07 8 in
  remote [mkMotor x01 m None; mkMotor x02 m None] some_operations (r1 :: r2 :: rs) ms' /\
  map m_memory ms' = [[x31; x07; x17; xff; xff; x42; x41; x07]; [x32; x21; x07; x07; x07; x42; x41; x07]] /\
  r1 = RepPing (Ok (mkResponse x01 false (mkPing 5130 x2e))) /\
  r2 = RepPing (Err (TReadError (RIo (IoTimeout 0)))) /\
  nth 3 rs (RepSent (Ok tt)) = RepDone (Ok (mkResponse x02 false tt)) /\
  nth 5 rs (RepSent (Ok tt)) = RepDone (Err (TReadError (RMotorError x07))) /\
  nth 7 rs (RepSent (Ok tt)) = RepData (Ok (mkResponse x01 false [x31; x07; x17; xff; xff; xfd; x07; x07])) /\
  nth 8 rs (RepSent (Ok tt)) = RepData (Err (TReadError (RMotorError x07))) /\
  nth 9 rs (RepSent (Ok tt)) = RepFound (Ok [Ok (mkResponse x01 false (mkPing 5130 x2e)); Ok (mkResponse x02 false (mkPing 5130 x2e))]) /\
  nth 10 rs (RepSent (Ok tt)) = RepDone (Ok (mkResponse xfe false tt)).
Proof.
  do 4 eexists. cbv zeta. split.
  - unfold some_operations.
    assert (One : forall o ms m r, In m ms -> target o = Some (m_id m) -> r = answered o m -> answers o ms r).
    { intros o ms m r Hi Ht ->. unfold answers. rewrite Ht. left. eauto. }
    eapply remote_cons; [eapply One; [left; reflexivity|reflexivity|vm_compute; reflexivity]|cbn [map]].
    eapply remote_cons; [right; split; [cbn; intuition discriminate|exists 0%N; reflexivity]|cbn [map]].
    eapply remote_cons; [eapply One; [right; left; reflexivity|reflexivity|vm_compute; reflexivity]|cbn [map]].
    eapply remote_cons; [eapply One; [left; reflexivity|reflexivity|vm_compute; reflexivity]|cbn [map]].
    eapply remote_cons; [eapply One; [left; reflexivity|reflexivity|vm_compute; reflexivity]|cbn [map]].
    eapply remote_cons; [eapply One; [right; left; reflexivity|reflexivity|vm_compute; reflexivity]|cbn [map]].
    eapply remote_cons; [eapply One; [right; left; reflexivity|reflexivity|vm_compute; reflexivity]|cbn [map]].
    eapply remote_cons; [eapply One; [right; left; reflexivity|reflexivity|vm_compute; reflexivity]|cbn [map]].
    eapply remote_cons; [reflexivity|cbn [map]].
    eapply remote_cons; [eapply One; [left; reflexivity|reflexivity|vm_compute; reflexivity]|cbn [map]].
    eapply remote_cons; [eapply One; [right; left; reflexivity|reflexivity|vm_compute; reflexivity]|cbn [map]].
    do 4 (eapply remote_cons; [reflexivity|cbn [map]]).
    eapply remote_cons; [eapply One; [right; left; reflexivity|reflexivity|vm_compute; reflexivity]|cbn [map]].
    eapply remote_cons; [reflexivity|cbn [map]].
    apply remote_nil.
  - repeat split; vm_compute; reflexivity.
Qed.

Lemma registered_example : exists mem' before after xs c' ds',
  let c := fresh true [] 64 64 in let mem := repeat x07 8 in
  let m := mkMotor x02 mem None in let ms := [mkMotor x01 mem None; m] in
  let os := [OpRegWrite (m_id m) 3 [x11; x12]; OpRead (m_id m) 2 3; OpAction (m_id m); OpRead (m_id m) 2 3] in
  connected 64 c (two_motors mem mem) ms /\ In m ms /\ all_possible comes_back 64 ms os /\
  session c (two_motors mem mem) os xs c' ds' /\
  store mem 3 [x11; x12] = Some mem' /\ load mem 2 3 = Some before /\ load mem' 2 3 = Some after /\
  before = [x07; x07; x07] /\ after = [x07; x11; x12] /\ Forall (elsewhere x01) os.
Proof.
  set (m := mkMotor x02 (repeat x07 8) None). set (ms := [mkMotor x01 (repeat x07 8) None; m]).
  set (os := [OpRegWrite (m_id m) 3 [x11; x12]; OpRead (m_id m) 2 3; OpAction (m_id m); OpRead (m_id m) 2 3]).
  assert (A : all_possible comes_back 64 ms os).
  { unfold os.
    repeat (apply conj; [small_possible|]); exact I. }
  destruct (L_C54_sessions_exist 64 _ _ _ _ (two_connected (repeat x07 8) (repeat x07 8)) A) as [xs [c' [ds' S]]].
  do 3 eexists. exists xs, c', ds'. cbv zeta. split; [apply two_connected|].
  split; [right; left; reflexivity|]. split; [exact A|]. split; [exact S|].
  repeat (apply conj; [vm_compute; reflexivity|]). repeat (apply Forall_cons || apply Forall_nil); try exact I; split; discriminate.
Qed.

Lemma value_example : exists mem' x y c1 ds1 c2 ds2,
  let c := fresh true [] 64 64 in let mem := repeat x07 8 in
  let m := mkMotor x02 mem None in let ms := [mkMotor x01 mem None; m] in
  let D := data_int true 4 in let bytes := [xfe; xff; xff; xff] in
  crate_type D (int_range true 4) (int_bytes true 4) /\ int_bytes true 4 (-2)%Z bytes /\
  connected 64 c (two_motors mem mem) ms /\ In m ms /\
  all_possible comes_back 64 ms [OpWrite (m_id m) 1 bytes; OpRead (m_id m) 1 (N.of_nat (length bytes))] /\
  store mem 1 bytes = Some mem' /\
  exchange (write D (m_id m) 1 (-2)%Z) c (two_motors mem mem) x c1 ds1 /\
  exchange (read D (m_id m) 1) c1 ds1 y c2 ds2.
Proof.
  do 7 eexists. cbv zeta. split; [apply ct_int; cbn; tauto|].
  split. { split; [vm_compute; split; [discriminate|reflexivity]|]. split; [reflexivity|]. exists (-1)%Z. vm_compute. reflexivity. }
  split; [apply two_connected|]. split; [right; left; reflexivity|].
  split. {
    repeat (apply conj; [small_possible|]); exact I. }
  split; [vm_compute; reflexivity|]. split.
  - eapply (exchange_two _ _ _ _ _ _ [] (frame x02 [STATUS; x00])). all: [> (vm_compute; reflexivity) ..].
  - eapply (exchange_two _ _ _ _ _ _ [] (frame x02 [STATUS; x00; xfe; xff; xff; xff])). all: [> (vm_compute; reflexivity) ..].
Qed.

Lemma broadcast_example : exists xs c' ds',
  let c := fresh true [] 64 64 in let mem := repeat x07 8 in
  let ms := [mkMotor x01 mem None; mkMotor x02 mem None] in
  connected 64 c (two_motors mem mem) ms /\
  all_possible comes_back 64 ms [OpRegWrite xfe 5 [x42]; OpAction xfe; OpScan] /\
  session c (two_motors mem mem) ([OpRegWrite xfe 5 [x42]; OpAction xfe] ++ [OpScan]) xs c' ds' /\
  map (fun m => stored (m_memory m) 5 [x42]) ms = repeat [x07; x07; x07; x07; x07; x42; x07; x07] 2.
Proof.
  set (ms := [mkMotor x01 (repeat x07 8) None; mkMotor x02 (repeat x07 8) None]).
  assert (A : all_possible comes_back 64 ms [OpRegWrite xfe 5 [x42]; OpAction xfe; OpScan])
    by (repeat (apply conj; [small_possible|]); exact I).
  destruct (L_C54_sessions_exist 64 _ _ _ _ (two_connected (repeat x07 8) (repeat x07 8)) A) as [xs [c' [ds' S]]].
  exists xs, c', ds'. cbv zeta. split; [apply two_connected|]. split; [exact A|]. split; [exact S|]. vm_compute. reflexivity.
Qed.

Definition three_motors : list node :=
  [mkNode x07 (fresh true [] 64 64) (Val (mkMock [] None)); mkNode x01 (fresh true [] 64 64) (Val (mkMock [x00; x01] None));
   mkNode x02 (fresh true [] 64 64) (Val (mkMock [x05] None))].

Lemma three_connected : connected 64 (fresh true [] 64 64) three_motors
  [mkMotor x07 [] None; mkMotor x01 [x00; x01] None; mkMotor x02 [x05] None].
Proof.
  assert (R : ready 64 (fresh true [] 64 64)).
  { split; [apply fresh_reach; lia|]. vm_compute. repeat split; try lia; discriminate. }
  split; [lia|]. split; [exact R|]. split; [|split; [|split]].
  - do 3 (apply Forall_cons; [split; [exact R|reflexivity]|]). apply Forall_nil.
  - repeat constructor.
  - repeat constructor; cbn; intuition discriminate.
  - cbn. intuition discriminate.
Qed.

(** ** Without the condition on the bytes that come back

    The eight bytes below look like a stuffed header once they are sent, so the answer to the read does not arrive as sent. *)

(** What the motor answers when the bytes are read. *)
Definition odd_bytes := [xff; xff; xfd; x00; xff; xff; xff; xfd].
Definition odd_answer : list byte :=
  transmitted (p_log (b_port (snd (device_write_status x01 x00 8 (mock_copy odd_bytes) (fresh true [] 64 64))))).
Definition two_odd := two_motors (repeat x00 16) (repeat x00 16).

Lemma odd_session : exists x1 x2 c1 c2 ds1 ds2, let c := fresh true [] 64 64 in
  exchange (perform (OpWrite x01 0 odd_bytes)) c two_odd x1 c1 ds1 /\
  exchange (perform (OpRead x01 0 8)) c1 ds1 x2 c2 ds2 /\
  match x2 with Val (RepData (Ok _)) => true | _ => false end = false.
Proof.
  do 6 eexists. cbv zeta. split; [|split].
  - eapply (exchange_two _ _ _ _ _ _ (frame x01 [STATUS; x00]) []). all: [> (vm_compute; reflexivity) ..].
  - eapply (exchange_two _ _ _ _ _ _ odd_answer []). all: [> (vm_compute; reflexivity) ..].
  - vm_compute. reflexivity.
Qed.

Lemma odd_possible : all_possible (fun _ => True) 64 [mkMotor x01 (repeat x00 16) None; mkMotor x02 (repeat x00 16) None]
  [OpWrite x01 0 odd_bytes; OpRead x01 0 8].
Proof.
  cbn [all_possible possible proper]. split; [split; [reflexivity|]|split; [split|exact I]].
  - split; [|exact I]. vm_compute. repeat split; lia.
  - split; [discriminate|]. split; reflexivity.
  - split; [vm_compute; repeat split; lia|]. intros m bs Hm Hi L.
    assert (length bs = 8) as Lb.
    { unfold load in L. destruct (0 + 8 <=? _)%N eqn:B; [|discriminate L]. 
      assert (bs = firstn (N.to_nat 8) (skipn (N.to_nat 0) (m_memory m))) by congruence. subst bs.
      rewrite firstn_length, skipn_length. change (N.to_nat 8) with 8. change (N.to_nat 0) with 0.
      apply N.leb_le in B. Lia.lia. }
    unfold passes. cbn [length]. rewrite Lb. vm_compute. repeat split; lia.
Qed.

Lemma L_C55_write_then_read_refuted : ~ (forall cap c ds ms m a d mem' xs c' ds',
  let os := [OpWrite (m_id m) a d; OpRead (m_id m) a (N.of_nat (length d))] in
  connected cap c ds ms -> In m ms -> all_possible (fun _ => True) cap ms os -> session c ds os xs c' ds' ->
  store (m_memory m) a d = Some mem' ->
  xs = [Val (RepDone (Ok (mkResponse (m_id m) false tt))); Val (RepData (Ok (mkResponse (m_id m) false d)))]).
Proof.
  intro H. destruct odd_session as [x1 [x2 [c1 [c2 [ds1 [ds2 [E1 [E2 K]]]]]]]].
  pose proof (H 64 _ two_odd _ (mkMotor x01 (repeat x00 16) None) 0%N odd_bytes (odd_bytes ++ repeat x00 8) [x1; x2] c2 ds2
    (two_connected (repeat x00 16) (repeat x00 16)) (or_introl eq_refl) odd_possible) as Y.
  cbn [m_id m_memory] in Y. assert (Z : [x1; x2] = [Val (RepDone (Ok (mkResponse x01 false tt))); Val (RepData (Ok (mkResponse x01 false odd_bytes)))]).
  { apply Y; [|reflexivity]. econstructor; [exact E1|]. econstructor; [exact E2|]. constructor. }
  injection Z as _ ->. discriminate K.
Qed.


(** The same with the value whose little-endian bytes these are. *)
Lemma odd_value_session : exists x1 x2 c1 c2 ds1 ds2, let c := fresh true [] 64 64 in
  exchange (write (data_int false 8) x01 0 18302628881355374591%Z) c two_odd x1 c1 ds1 /\
  exchange (read (data_int false 8) x01 0) c1 ds1 x2 c2 ds2 /\
  match x2 with Val (Ok _) => true | _ => false end = false.
Proof.
  do 6 eexists. cbv zeta. split; [|split].
  - eapply (exchange_two _ _ _ _ _ _ (frame x01 [STATUS; x00]) []). all: [> (vm_compute; reflexivity) ..].
  - eapply (exchange_two _ _ _ _ _ _ odd_answer []). all: [> (vm_compute; reflexivity) ..].
  - vm_compute. reflexivity.
Qed.
Lemma L_C56_value_round_trip_refuted : ~ (forall A (D : data_impl A) V R v bytes cap c ds ms m a mem' x y c1 ds1 c2 ds2,
  crate_type D V R -> R v bytes -> connected cap c ds ms -> In m ms ->
  all_possible (fun _ => True) cap ms [OpWrite (m_id m) a bytes; OpRead (m_id m) a (N.of_nat (length bytes))] ->
  store (m_memory m) a bytes = Some mem' ->
  exchange (write D (m_id m) a v) c ds x c1 ds1 -> exchange (read D (m_id m) a) c1 ds1 y c2 ds2 ->
  x = Val (Ok (mkResponse (m_id m) false tt)) /\ y = Val (Ok (mkResponse (m_id m) false v))).
Proof.
  intro H. destruct odd_value_session as [x1 [x2 [c1 [c2 [ds1 [ds2 [E1 [E2 K]]]]]]]].
  destruct (H Z (data_int false 8) (int_range false 8) (int_bytes false 8) 18302628881355374591%Z odd_bytes 64 (fresh true [] 64 64) two_odd
    [mkMotor x01 (repeat x00 16) None; mkMotor x02 (repeat x00 16) None] (mkMotor x01 (repeat x00 16) None) 0%N
    (odd_bytes ++ repeat x00 8) x1 x2 c1 ds1 c2 ds2) as [_ Y].
  - apply ct_int. cbn. auto 10.
  - split; [vm_compute; split; [discriminate|reflexivity]|]. split; [reflexivity|]. exists 0%Z. vm_compute. reflexivity.
  - apply two_connected.
  - left. reflexivity.
  - exact odd_possible.
  - reflexivity.
  - exact E1.
  - exact E2.
  - rewrite Y in K. discriminate K.
Qed.
