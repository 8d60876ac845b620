(** * RemoteTheorems: the motors behave as memories read and written from a distance *)
From Coq Require Import ZArith ZifyN ZifyNat ZifyBool.
From Verif Require Import Base Endian Error Checksum Bytestuff Packet Time Bus Data Client
  Instructions Device MockDevice Api Spec CallSpec StreamSpec DeviceSpec InstructionSpec Demo Lib ChecksumProofs
  CrcErrorProofs StuffProofs WriteProofs ReadProofs ApiProofs StreamProofs MessageProofs SendProofs
  SendTheorems ReadTheorems StatusProofs DeviceTheorems InstructionProofs DemoProofs TransferTheorems
  UnderstoodTheorems ScanTheorems RemoteSpec RemoteProofs.
Ltac Zify.zify_post_hook ::= Z.div_mod_to_equations.

(** The part of [instruct] after the transmission. *)
Definition fin_instruct (r : result packet read_error) : out (result (response unit) transfer_error) :=
  match r with
  | Err e => Val (Err (TReadError e))
  | Ok p => let* x := response_unit p in Val (map_err (fun e => TReadError (RInvalidMessage e)) x)
  end.

Lemma instruct_shaped : forall id i n enc params, writes_parameters enc params -> n = length params -> id <> xfe ->
  shaped (instruct id i n enc) id i params 0 fin_instruct.
Proof.
  intros id i n enc params Hw -> Hid. exists enc. split; [exact Hw|]. split; [reflexivity|].
  intros s s1 W. unfold instruct, try_, bind, lift, ret. rewrite W.
  unfold read_response_if_not_broadcast, try_, bind, lift, ret.
  destruct (beq id BROADCAST) eqn:B; [apply beq_true in B; contradiction|].
  destruct (read_status_response 0 s1) as [[[p|e]|x|] s2]; try reflexivity.
  cbn [fin_instruct]. destruct (response_unit p) as [[y|y]|y|]; reflexivity.
Qed.

Definition fin_transfer (id : byte) (r : result packet read_error) : out (result packet transfer_error) :=
  match r with
  | Err e => Val (Err (TReadError e))
  | Ok p =>
      let* rid := pk_id p in
      Val (match packet_id_check rid id with
           | Ok _ => Ok p
           | Err e => Err (TReadError (RInvalidMessage e))
           end)
  end.

Lemma transfer_shaped : forall id i n k enc params, writes_parameters enc params -> n = length params -> is_u16 k ->
  shaped (transfer_single id i n k enc) id i params k (fin_transfer id).
Proof.
  intros id i n k enc params Hw -> Hk. exists enc. split; [exact Hw|]. split; [exact Hk|].
  intros s s1 W. unfold transfer_single, try_, tryr, bind, lift, ret. rewrite W.
  destruct (read_status_response k s1) as [[[p|e]|x|] s2]; try reflexivity.
  cbn [fin_transfer]. destruct (pk_id p) as [rid|y|]; try reflexivity. cbn [obind].
  destruct (packet_id_check rid id); reflexivity.
Qed.

(** Followed by a computation that does not use the bus. *)
Lemma shaped_then : forall R S (m : M R) (m' : M S) id i params k fin (f : R -> out S),
  shaped m id i params k fin -> (forall s, m' s = (r <- m ;; lift (f r)) s) ->
  shaped m' id i params k (fun r => let* x := fin r in f x).
Proof.
  intros R S m m' id i params k fin f [enc [Hw [Hk Sh]]] E. exists enc. split; [exact Hw|]. split; [exact Hk|].
  intros s s1 W. rewrite E. unfold bind at 1. rewrite (Sh s s1 W). unfold bind, lift.
  destruct (read_status_response k s1) as [r s2]. destruct r as [r|x|]; try reflexivity.
  destruct (fin r); reflexivity.
Qed.

Lemma ping_shaped : forall id, shaped (ping id) id x01 [] 3 (fun r => let* x := fin_transfer id r in
  match x with
  | Err e => Val (Err e)
  | Ok p => let* y := response_ping p in Val (map_err (fun e => TReadError (RInvalidMessage e)) y)
  end).
Proof.
  intro id. eapply shaped_then; [exact (transfer_shaped id PING 0 3 no_params [] no_params_writes eq_refl eq_refl)|].
  intro s. unfold ping, try_, bind, lift, ret.
  match goal with |- match ?run with _ => _ end = _ => destruct run as [[[p|e]|x|] s2] end; try reflexivity.
  destruct (response_ping p); reflexivity.
Qed.

Definition fin_read (n : N) (x : result packet transfer_error) : out (result packet transfer_error) :=
  match x with
  | Err e => Val (Err e)
  | Ok p =>
      let* ps := st_parameters p in
      Val (match param_count_check (length ps) (N.to_nat n) with
           | Err e => Err (TReadError (RInvalidMessage e))
           | Ok _ => Ok p
           end)
  end.

Lemma read_raw_shaped : forall id a n, is_u16 n ->
  shaped (read_raw id a n) id x02 (le16 a ++ le16 n) n (fun r => let* x := fin_transfer id r in fin_read n x).
Proof.
  intros id a n Hn. eapply shaped_then; [exact (transfer_shaped id READ 4 n _ _ (read_params_writes a n) eq_refl Hn)|].
  intro s. unfold read_raw, try_, tryr, bind, lift, ret.
  match goal with |- match ?run with _ => _ end = _ => destruct run as [[[p|e]|x|] s2] end; try reflexivity.
  cbn [fin_read]. destruct (st_parameters p) as [ps|y|]; try reflexivity. cbn [obind].
  destruct (param_count_check (length ps) (N.to_nat n)); reflexivity.
Qed.

Lemma read_bytes_shaped : forall id a n, is_u16 n ->
  shaped (read_bytes id a n) id x02 (le16 a ++ le16 n) n
    (fun r => let* x := (let* x := fin_transfer id r in fin_read n x) in
       match x with
       | Err e => Val (Err e)
       | Ok p => let* y := decode_status_packet_bytes p in Val (map_err TReadError y)
       end).
Proof.
  intros id a n Hn. eapply shaped_then; [apply read_raw_shaped, Hn|].
  intro s. unfold read_bytes, try_, bind, lift, ret.
  match goal with |- match ?run with _ => _ end = _ => destruct run as [[[p|e]|x|] s2] end; try reflexivity.
  destruct (decode_status_packet_bytes p); reflexivity.
Qed.

Lemma read_shaped : forall A (D : data_impl A) id a, is_u16 (N.of_nat (d_size D)) ->
  shaped (read D id a) id x02 (le16 a ++ le16 (N.of_nat (d_size D))) (N.of_nat (d_size D))
    (fun r => let* x := (let* x := fin_transfer id r in fin_read (N.of_nat (d_size D)) x) in
       match x with
       | Err e => Val (Err e)
       | Ok p => let* y := decode_status_packet D p in Val (map_err TReadError y)
       end).
Proof.
  intros A D id a Hn. eapply shaped_then; [apply read_raw_shaped, Hn|].
  intro s. unfold read, try_, bind, lift, ret.
  match goal with |- match ?run with _ => _ end = _ => destruct run as [[[p|e]|x|] s2] end; try reflexivity.
  destruct (decode_status_packet D p); reflexivity.
Qed.

(** ** What the client makes of the answer *)

Lemma fin_transfer_ok : forall id p body, packet_is p id body -> fin_transfer id (Ok p) = Val (Ok p).
Proof.
  intros id p body H. cbn [fin_transfer]. replace (pk_id p) with (@Val byte id) by (symmetry; apply H).
  cbn [obind]. unfold packet_id_check. rewrite beq_refl. reflexivity.
Qed.

Lemma perform_then : forall R (m : M R) (C : R -> reply) id i params k fin, shaped m id i params k fin ->
  shaped (r <- m ;; ret (C r)) id i params k (fun r => let* x := fin r in Val (C x)).
Proof. intros R m C id i params k fin Sh. eapply shaped_then; [exact Sh|]. reflexivity. Qed.

Lemma no_error_0 : no_error x00. Proof. reflexivity. Qed.
Lemma no_error_7 : ~ no_error x07. Proof. discriminate. Qed.

Lemma op_shaped : forall ms o id, proper ms o -> target o = Some id ->
  exists i params k fin, message_of o = i :: params /\ shaped (perform o) id i params k fin /\
    (forall p mo, m_id mo = id -> no_error (fst (status_for o mo)) ->
       packet_is p id (x55 :: fst (status_for o mo) :: snd (status_for o mo)) -> fin (Ok p) = Val (answered o mo)) /\
    (forall mo, ~ no_error (fst (status_for o mo)) ->
       fin (Err (RMotorError (fst (status_for o mo)))) = Val (answered o mo)) /\
    (forall e, fin (Err (RIo (IoTimeout e))) = Val (unanswered o e)).
Proof.
  intros ms o id Pr Ht.
  assert (Ack : forall p, packet_is p id [x55; x00] ->
            fin_instruct (Ok p) = Val (Ok (mkResponse id false tt))).
  { intros p Hp. cbn [fin_instruct]. rewrite (response_unit_val p id x00 [] Hp). reflexivity. }
  destruct o as [id'|id' a n|id' a d|id' a d|id'|a n l|]; cbn [target] in Ht; try discriminate Ht;
    apply target_one in Ht; destruct Ht as [-> Nb]; cbn [message_of perform proper] in *.
  - do 4 eexists. split; [reflexivity|]. split; [apply perform_then, ping_shaped|]. cbn [status_for fst snd]. split; [|split].
    + intros p mo _ _ Hp. rewrite (fin_transfer_ok id p _ Hp). cbn [obind].
      rewrite (response_ping_val p id x00 [x0a; x14; x2e] Hp). reflexivity.
    + intros mo N. exfalso. apply N. reflexivity.
    + reflexivity.
  - do 4 eexists. split; [reflexivity|]. split; [apply perform_then, read_bytes_shaped, Pr|]. cbn [status_for fst snd answered]. split; [|split].
    + intros p mo Hm. destruct (load (m_memory mo) a n) as [bs|] eqn:L; cbn [fst snd];
        [intros _|intro N; destruct (no_error_7 N)].
      intro Hp. rewrite (fin_transfer_ok id p _ Hp). cbn [obind fin_read].
      destruct (status_accessors _ _ _ _ Hp) as [A1 [A2 [A3 A4]]]. rewrite A4. cbn [obind].
      unfold param_count_check. rewrite (load_length _ _ _ _ L), Nat.eqb_refl. cbn [obind].
      unfold decode_status_packet_bytes. rewrite A2. cbn [obind]. rewrite (no_error_check _ no_error_0), A1, A3, A4. reflexivity.
    + intros mo. destruct (load (m_memory mo) a n) as [bs|]; cbn [fst]; [intro N; destruct (N no_error_0)|reflexivity].
    + reflexivity.
  - do 4 eexists. split; [reflexivity|]. split.
    { apply perform_then. apply instruct_shaped; [apply address_and_bytes_writes| |exact Nb]. rewrite app_length. reflexivity. }
    cbn [status_for fst snd answered]. split; [|split].
    + intros p mo Hm. destruct (store (m_memory mo) a d); [intros _ Hp; rewrite (Ack p Hp); reflexivity|].
      intro N. destruct (no_error_7 N).
    + intros mo. destruct (store (m_memory mo) a d); [intro N; destruct (N no_error_0)|reflexivity].
    + reflexivity.
  - do 4 eexists. split; [reflexivity|]. split.
    { apply perform_then. apply instruct_shaped; [apply address_and_bytes_writes| |exact Nb]. rewrite app_length. reflexivity. }
    cbn [status_for fst snd answered]. split; [|split].
    + intros p mo Hm _ Hp. rewrite (Ack p Hp). reflexivity.
    + intros mo N. destruct (N no_error_0).
    + reflexivity.
  - do 4 eexists. split; [reflexivity|]. split.
    { apply perform_then. apply instruct_shaped; [apply no_params_writes|reflexivity|exact Nb]. }
    cbn [status_for fst snd answered]. split; [|split].
    + intros p mo Hm. destruct (m_waiting mo) as [[a d]|]; [destruct (store (m_memory mo) a d)|];
        try (intro N; destruct (no_error_7 N)).
      intros _ Hp. rewrite (Ack p Hp). reflexivity.
    + intros mo. destruct (m_waiting mo) as [[a d]|]; [destruct (store (m_memory mo) a d)|]; try reflexivity.
      intro N. destruct (N no_error_0).
    + reflexivity.
Qed.

(** ** One exchange *)

Definition world_ok (cap : nat) (c : bus) (ds : list node) (ms : list motor) : Prop :=
  16 <= cap /\ hardy cap c /\ Forall2 (motor_ok cap) ds ms /\ NoDup (map m_id ms).

Lemma touched_id : forall o m, m_id (touched o m) = m_id m.
Proof.
  intros o m. destruct o; cbn; try reflexivity;
    repeat match goal with |- context [if ?c then _ else _] => destruct c | |- context [match ?c with _ => _ end] => destruct c end; reflexivity.
Qed.

Lemma touched_ids : forall o ms, map m_id (map (touched o) ms) = map m_id ms.
Proof. intros o ms. rewrite map_map. apply map_ext. intro m. apply touched_id. Qed.

Lemma answerer : forall id ms, (exists m, In m ms /\ m_id m = id) \/ ~ In id (map m_id ms).
Proof.
  intros id ms. destruct (in_dec Byte.byte_eq_dec id (map m_id ms)) as [H|H]; [left|right; exact H].
  apply in_map_iff in H. destruct H as [m [H1 H2]]. eauto.
Qed.

Lemma connected_ok : forall cap c ds ms, connected cap c ds ms -> world_ok cap c ds ms.
Proof.
  intros cap c ds ms [H1 [H2 [H3 [H4 [H5 H6]]]]]. split; [exact H1|]. split; [apply ready_hardy, H2|]. split; [|exact H5].
  clear -H3 H4. induction H4 as [|d m ds ms M F IH]; [constructor|]. inversion H3 as [|? ? [R P] H3']; subst.
  constructor; [|apply IH, H3']. split; [exact M|]. split; [apply ready_hardy, R|]. rewrite P. constructor.
Qed.

(** The motors' side, whatever call transmits the message of [o]. *)
Lemma exchange_motors : forall cap c ds ms o w rs ds1 ds', world_ok cap c ds ms -> possible comes_back cap ms o ->
  w = code_wire (packet_id_for o) (message_of o) -> reacts w ds rs ds1 -> overhears [] ds1 rs ds' ->
  rs = map (sent_by o) ms /\ Forall2 (motor_ok cap) ds' (map (touched o) ms) /\ NoDup (map m_id (map (touched o) ms)).
Proof.
  intros cap c ds ms o w rs ds1 ds' [Hc [Hh [F N]]] P Hw R O.
  destruct (reacts_fun cap ms o Hc P w ds rs ds1 Hw R ms F (fun x H => H)) as [-> F1].
  split; [reflexivity|]. split; [|rewrite touched_ids; exact N].
  apply (overhears_ok cap [] ds1 _ ds' O [] _ eq_refl); [constructor| |exact F1].
  apply Forall_forall. intros r Hr. apply in_map_iff in Hr. destruct Hr as [m [<- Hm]].
  apply (sent_chatter cap ms o m Hc P Hm).
Qed.

Lemma exchange_targeted : forall R (m : M R) cap c ds ms o id i params k fin x c' ds',
  world_ok cap c ds ms -> possible comes_back cap ms o -> target o = Some id -> message_of o = i :: params ->
  shaped m id i params k fin -> exchange m c ds x c' ds' ->
  world_ok cap c' ds' (map (touched o) ms) /\
  ((exists mo, In mo ms /\ m_id mo = id /\
      (no_error (fst (status_for o mo)) -> exists p,
         packet_is p id (x55 :: fst (status_for o mo) :: snd (status_for o mo)) /\ x = fin (Ok p)) /\
      (~ no_error (fst (status_for o mo)) -> x = fin (Err (RMotorError (fst (status_for o mo)))))) \/
   (~ In id (map m_id ms) /\ exists e, x = fin (Err (RIo (IoTimeout e))))).
Proof.
  intros R m cap c ds ms o id i params k fin x c' ds' Wo P Ht Em Sh Ex.
  destruct Ex as [c ds sc es x c' evs rs ds1 ds' Es E C Re Isc Ov].
  pose proof Wo as [Hc [Hh [F N]]]. pose proof P as [_ [Pm _]]. rewrite Em in Pm.
  set (s := set_script c (sc ++ silence es)) in *.
  assert (Hs : hardy cap s) by apply hardy_script, Hh.
  destruct (shaped_transmits _ _ _ _ _ _ _ cap s _ _ _ Sh Hs Pm E C) as [T H'].
  destruct (exchange_motors cap c ds ms o (transmitted evs) rs ds1 ds' Wo P) as [-> [F' N']]; try assumption.
  { rewrite T, Em. unfold packet_id_for. rewrite Ht. reflexivity. }
  split; [split; [exact Hc|split; [exact H'|split; assumption]]|].
  assert (Inc : incoming s = map inl (concat (map (sent_by o) ms)) ++ items (silence es)).
  { unfold s, incoming, set_script. cbn [set_port b_port p_script]. rewrite items_app, Isc. reflexivity. }
  destruct es as [|e es]; [cbn in Es; lia|].
  destruct (shaped_reads _ _ _ _ _ _ _ cap s Sh Hs Pm Hc) as [K1 K2]. rewrite E in K1, K2. cbn [fst] in K1, K2.
  destruct (answerer id ms) as [[mo [Hin Hm]]|Nin].
  - left. exists mo. split; [exact Hin|]. split; [exact Hm|].
    rewrite (concat_sent_one o id ms mo Ht N Hin Hm) in Inc.
    apply (K1 id (fst (status_for o mo)) (snd (status_for o mo)) (items (silence (e :: es)))); [|exact Inc].
    apply (status_passes cap ms o mo); auto; [rewrite (responds_target o mo id Ht), Hm; apply beq_refl|destruct (status_for o mo); reflexivity].
  - right. split; [exact Nin|]. exists e. apply (K2 _ (items (silence es))). rewrite Inc, (concat_sent_none o id ms Ht Nin). reflexivity.
Qed.

Lemma sync_write_works : forall cap ms a n l s, proper ms (OpSyncWrite a n l) -> hardy cap s ->
  passes comes_back cap (message_of (OpSyncWrite a n l)) ->
  exists s', works cap (perform (OpSyncWrite a n l)) s (RepSent (Ok tt)) (code_wire xfe (message_of (OpSyncWrite a n l))) s'.
Proof.
  intros cap ms a n l s [Ha [Hn [Hl _]]] H P.
  pose proof (sends_instruction xfe x83 _ _ (sync_write_bytes_writes a n l Hl)) as Sd.
  destruct (sends_works cap _ xfe x83 _ s Sd H P) as [s' [W _]].
  exists s'. cbn [perform message_of]. rewrite <- (app_nil_r (code_wire _ _)).
  eapply works_bind; [|apply works_ret, W].
  assert (E : 4 + length l * (1 + N.to_nat n) = length (le16 a ++ le16 n ++ sync_entries l)).
  { rewrite !app_length, (sync_entries_length _ _ Hl). reflexivity. }
  destruct W as [W1 W2]. split; [|exact W2]. rewrite <- W1. unfold sync_write_bytes. cbv zeta. rewrite E. reflexivity.
Qed.

(** Calls for everybody that wait for nothing. *)
Lemma together_works : forall cap ms o s, possible comes_back cap ms o -> hardy cap s -> target o = None -> o <> OpScan ->
  exists s', works cap (perform o) s (together o ms) (code_wire xfe (message_of o)) s'.
Proof.
  intros cap ms o s P H Ht Ns. pose proof P as [Pr [Pm _]].
  assert (Ins : forall i n enc params, writes_parameters enc params -> n = length params -> passes comes_back cap (i :: params) ->
            exists s', works cap (r <- instruct xfe i n enc ;; ret (RepDone r)) s (RepDone (Ok (mkResponse xfe false tt)))
              (code_wire xfe (i :: params)) s').
  { intros i n enc params Hw -> Ps.
    destruct (sends_works cap _ xfe i params s (sends_instruction xfe i params enc Hw) H Ps) as [s' [[W1 W2] _]].
    exists s'. split; [|exact W2]. unfold instruct, try_, bind. rewrite W1. reflexivity. }
  destruct o as [id|id a n|id a d|id a d|id|a n l|]; cbn [target] in Ht; try (apply target_none in Ht; subst id);
    cbn [perform together message_of proper] in *.
  - contradiction.
  - destruct Pr as [Pr _]. contradiction.
  - apply Ins; [apply address_and_bytes_writes|rewrite app_length; reflexivity|exact Pm].
  - apply Ins; [apply address_and_bytes_writes|rewrite app_length; reflexivity|exact Pm].
  - apply Ins; [apply no_params_writes|reflexivity|exact Pm].
  - apply (sync_write_works cap ms a n l s Pr H Pm).
  - contradiction.
Qed.

(** ** Scanning *)

Lemma scan_next_hardy : forall cap s, hardy cap s -> exists t o1 s',
  scan_next s = (scan_judge (status_of o1), s') /\ ideal (length (b_rbuf s)) (pending s) = (o1, pending s') /\
  timed t s s' /\ inv s'.
Proof.
  intros cap s H. destruct (scan_timeout_val (b_dbg s) (b_baud s) (ha_baud _ _ H) (ha_baud_u32 _ _ H)) as [t T].
  destruct (read_status_response_timeout t s) as [o s'] eqn:Rd.
  destruct (read_status_timeout_spec _ _ _ _ (ha_inv _ _ H) Rd) as [o1 [I [K [Iv Ti]]]].
  exists t, o1, s'. rewrite (scan_next_eq s t T), Rd. subst o. auto.
Qed.

Lemma scan_next_motor : forall cap m s rest, 16 <= cap -> hardy cap s ->
  pending s = map inl (sent_by OpScan m) ++ rest ->
  exists s', works cap scan_next s (Some (found m)) [] s' /\ pending s' = rest.
Proof.
  intros cap m s rest Hc H Pe. destruct (scan_next_hardy cap s H) as [t [o1 [s' [E [I [T Iv]]]]]].
  destruct (timed_hardy cap t s s' T Iv H) as [H' Ev].
  assert (Ps : passes comes_back cap [x55; x00; x0a; x14; x2e]) by (split; [cbn; lia|]; split; [reflexivity|exact Logic.I]).
  destruct (passes_length cap (m_id m) x55 _ Ps) as [W1 W2].
  destruct (ideal_code_wire (length (b_rbuf s)) [] (m_id m) x55 [x00; x0a; x14; x2e] rest empty_no_header W2) as [p [E1 Q]];
    [pose proof (ha_rcap _ _ H); lia|].
  unfold sent_by in Pe. cbn [responds] in Pe. unfold packet_id_for in Pe. cbn [target] in Pe. rewrite addressed_all in Pe.
  cbn [status_for fst snd] in Pe. cbn [app] in E1. rewrite Pe, E1 in I. injection I as <- Pr.
  rewrite unst_code_stuff in Q by apply Ps. cbn [status_of] in E.
  rewrite (status_check_status _ _ _ _ Q) in E.
  change (N.land (b2n x00) 127) with 0%N in E. cbn [N.eqb scan_judge] in E.
  rewrite (response_ping_val _ _ _ _ Q) in E.
  exists s'. split; [split; [exact E|split; [exact H'|exact Ev]]|symmetry; exact Pr].
Qed.

Lemma scan_next_silence : forall cap s e rest, 16 <= cap -> hardy cap s ->
  pending s = inr (IoTimeout e) :: rest ->
  exists s', works cap scan_next s None [] s' /\ pending s' = rest.
Proof.
  intros cap s e rest Hc H Pe. destruct (scan_next_hardy cap s H) as [t [o1 [s' [E [I [T Iv]]]]]].
  destruct (timed_hardy cap t s s' T Iv H) as [H' Ev].
  rewrite Pe, ideal_timeout in I by (pose proof (ha_rcap _ _ H); lia). injection I as <- Pr.
  exists s'. split; [split; [exact E|split; [exact H'|exact Ev]]|symmetry; exact Pr].
Qed.

Lemma scan_items_works : forall cap ms s e rest fuel, 16 <= cap -> hardy cap s ->
  pending s = map inl (concat (map (sent_by OpScan) ms)) ++ inr (IoTimeout e) :: rest -> length ms < fuel ->
  exists s', works cap (scan_items fuel) s (map found ms) [] s' /\ pending s' = rest.
Proof.
  intros cap ms. induction ms as [|m ms IH]; intros s e rest fuel Hc H Pe Lf; (destruct fuel as [|fuel]; [cbn in Lf; lia|]);
    cbn [map concat app] in Pe; cbn [scan_items].
  - destruct (scan_next_silence cap s e rest Hc H Pe) as [s' [W P]]. exists s'. split; [|exact P].
    change (@nil byte) with ((@nil byte) ++ []). eapply works_bind; [exact W|]. apply (works_ret _ _ _ _ (proj1 (proj2 W))).
  - rewrite map_app, <- app_assoc in Pe.
    destruct (scan_next_motor cap m s _ Hc H Pe) as [s1 [W1 P1]].
    destruct (IH s1 e rest fuel Hc (proj1 (proj2 W1)) P1) as [s2 [W2 P2]]; [cbn [length] in Lf; lia|].
    exists s2. split; [|exact P2]. change (@nil byte) with ((@nil byte) ++ [] ++ []). eapply works_bind; [exact W1|].
    eapply works_bind; [exact W2|]. apply (works_ret _ _ _ _ (proj1 (proj2 W2))).
Qed.

Lemma works_get : forall cap s, hardy cap s -> works cap get s s [] s.
Proof. intros cap s H. split; [reflexivity|]. split; [exact H|]. exists []. split; [apply calls_same|reflexivity]. Qed.

Lemma items_size : forall sc, length (items sc) <= script_size sc.
Proof. induction sc as [|[bs|e] sc IH]; cbn [items script_size]; rewrite ?app_length, ?map_length; cbn [length]; unfold item in *; lia. Qed.

Lemma sent_scan_length : forall ms, length ms <= length (concat (map (sent_by OpScan) ms)).
Proof.
  induction ms as [|m ms IH]; [apply Nat.le_0_l|]. cbn [map concat length]. rewrite app_length.
  unfold sent_by at 1. cbn [responds]. unfold packet_id_for. cbn [target]. rewrite addressed_all, code_wire_length. cbn [length]. lia.
Qed.

Lemma scan_works : forall cap ms s e1 e2 rest, 16 <= cap -> hardy cap s ->
  incoming s = map inl (concat (map (sent_by OpScan) ms)) ++ inr (IoTimeout e1) :: inr (IoTimeout e2) :: rest ->
  exists s', works cap (perform OpScan) s (together OpScan ms) (code_wire xfe [x01]) s'.
Proof.
  intros cap ms s e1 e2 rest Hc H Inc.
  assert (Ps : passes comes_back cap [x01]) by (split; [cbn; lia|]; split; [reflexivity|exact I]).
  destruct (sends_works cap _ xfe x01 [] s (sends_instruction xfe x01 [] _ no_params_writes) H Ps) as [s1 [W1 [P1 [I1 _]]]].
  rewrite Inc in P1, I1.
  assert (H1 : hardy cap s1) by apply W1.
  destruct (scan_items_works cap ms s1 e1 _ (S (script_size (p_script (b_port s1)))) Hc H1 P1) as [s2 [W2 P2]].
  { pose proof (items_size (p_script (b_port s1))) as L. unfold incoming in I1. rewrite I1, app_length, map_length in L.
    pose proof (sent_scan_length ms). lia. }
  assert (H2 : hardy cap s2) by apply W2.
  destruct (scan_next_silence cap s2 e2 rest Hc H2 P2) as [s3 [W3 _]].
  exists s3. cbn [perform together]. unfold scan_all.
  replace (code_wire xfe [x01]) with (code_wire xfe [x01] ++ [] ++ [] ++ [] ++ ([] ++ []) ++ []) by (cbn [app]; apply app_nil_r).
  eapply works_bind; [exact W1|]. eapply works_bind; [apply works_get, H1|]. eapply works_bind; [exact W2|].
  eapply works_bind; [apply works_get, H2|].
  eapply (works_bind _ _ _ _ _ _ true); [|apply works_ret, W3].
  cbn [scan_drop]. eapply works_bind; [exact W3|]. apply works_ret, W3.
Qed.

(** Whatever is answered, nothing but the ping is transmitted. *)
Definition mute {A} (cap : nat) (m : M A) : Prop := forall s o s', hardy cap s -> m s = (o, s') ->
  hardy cap s' /\ exists evs, calls s s' evs /\ transmitted evs = [].

Lemma mute_lift : forall A cap (x : out A), mute cap (lift x).
Proof. intros A cap x s o s' H E. injection E as _ <-. split; [exact H|]. exists []. split; [apply calls_same|reflexivity]. Qed.

Lemma mute_ret : forall A cap (x : A), mute cap (ret x).
Proof. intros A cap x. apply (mute_lift A cap (Val x)). Qed.

Lemma mute_get : forall cap, mute cap get.
Proof. intros cap s o s' H E. injection E as _ <-. split; [exact H|]. exists []. split; [apply calls_same|reflexivity]. Qed.

Lemma mute_bind : forall A B cap (m : M A) (k : A -> M B), mute cap m -> (forall a, mute cap (k a)) -> mute cap (bind m k).
Proof.
  intros A B cap m k Hm Hk s o s' H E. unfold bind in E. destruct (m s) as [x s1] eqn:E1.
  destruct (Hm s x s1 H E1) as [H1 [e1 [C1 T1]]]. destruct x as [a|p|].
  - destruct (Hk a s1 o s' H1 E) as [H2 [e2 [C2 T2]]]. split; [exact H2|]. exists (e1 ++ e2).
    split; [eapply calls_app; eassumption|]. rewrite transmitted_app, T1, T2. reflexivity.
  - injection E as _ <-. eauto.
  - injection E as _ <-. eauto.
Qed.

Lemma scan_next_mute : forall cap, mute cap scan_next.
Proof.
  intros cap s o s' H E. destruct (scan_next_hardy cap s H) as [t [o1 [s2 [E2 [_ [T Iv]]]]]].
  rewrite E2 in E. injection E as _ <-. apply (timed_hardy cap t s s2 T Iv H).
Qed.

Lemma scan_items_mute : forall cap n, mute cap (scan_items n).
Proof.
  intros cap n. induction n as [|n IH]; cbn [scan_items]; [apply mute_lift|].
  apply mute_bind; [apply scan_next_mute|]. intros [x|]; [|apply mute_ret].
  apply mute_bind; [exact IH|]. intro l. apply mute_ret.
Qed.

Lemma scan_drop_mute : forall cap n, mute cap (scan_drop n).
Proof.
  intros cap n. induction n as [|n IH]; cbn [scan_drop]; [apply mute_ret|].
  apply mute_bind; [apply scan_next_mute|]. intros [x|]; [exact IH|apply mute_ret].
Qed.

Lemma scan_mute : forall cap s o s', 16 <= cap -> hardy cap s -> perform OpScan s = (o, s') ->
  hardy cap s' /\ exists evs, calls s s' evs /\ transmitted evs = code_wire xfe [x01].
Proof.
  intros cap s o s' Hc H E.
  assert (Ps : passes comes_back cap [x01]) by (split; [cbn; lia|]; split; [reflexivity|exact I]).
  destruct (sends_works cap _ xfe x01 [] s (sends_instruction xfe x01 [] _ no_params_writes) H Ps) as [s1 [W1 _]].
  cbn [perform] in E. unfold scan_all, bind at 1, scan in E. destruct W1 as [W1 [H1 [e1 [C1 T1]]]].
  change BROADCAST with xfe in E. change PING with x01 in E. change (length (@nil byte)) with 0 in W1. rewrite W1 in E.
  match type of E with ?m s1 = _ => assert (Mu : mute cap m) end.
  { apply mute_bind; [apply mute_get|]. intro s2. apply mute_bind; [apply scan_items_mute|]. intro l.
    apply mute_bind; [apply mute_get|]. intro s3. apply mute_bind; [apply scan_drop_mute|].
    intros [|]; [apply mute_ret|apply mute_lift]. }
  destruct (Mu s1 o s' H1 E) as [H2 [e2 [C2 T2]]]. split; [exact H2|]. exists (e1 ++ e2).
  split; [eapply calls_app; eassumption|]. rewrite transmitted_app, T1, T2. apply app_nil_r.
Qed.

(** ** Any operation *)

Lemma exchange_op : forall cap c ds ms o x c' ds', world_ok cap c ds ms -> possible comes_back cap ms o ->
  exchange (perform o) c ds x c' ds' ->
  world_ok cap c' ds' (map (touched o) ms) /\ exists r, x = Val r /\ answers o ms r.
Proof.
  intros cap c ds ms o x c' ds' Wo P Ex. unfold answers. destruct (target o) as [id|] eqn:Ht.
  - pose proof P as [Pr _]. destruct (op_shaped ms o id Pr Ht) as [i [params [k [fin [Em [Sh [F1 [F2 F3]]]]]]]].
    destruct (exchange_targeted _ _ cap c ds ms o id i params k fin x c' ds' Wo P Ht Em Sh Ex) as [W K].
    split; [exact W|]. destruct K as [[mo [Hin [Hm [K1 K2]]]]|[Nin [e ->]]].
    + exists (answered o mo). split; [|left; exists mo; auto].
      destruct (N.eq_dec (b2n (fst (status_for o mo)) mod 128) 0) as [Z|Z].
      * destruct (K1 Z) as [p [Hp ->]]. apply (F1 p mo Hm Z Hp).
      * rewrite (K2 Z). apply (F2 mo Z).
    + exists (unanswered o e). split; [apply F3|]. right. eauto.
  - inversion Ex as [? ? sc es ? ? evs rs ds1 ? Es E C Re Isc Ov]; subst.
    pose proof Wo as [Hc [Hh [F N]]].
    set (s := set_script c (sc ++ silence es)) in *.
    assert (Hs : hardy cap s) by apply hardy_script, Hh.
    assert (Pk : packet_id_for o = xfe) by (unfold packet_id_for; rewrite Ht; reflexivity).
    assert (Fin : forall w', transmitted evs = code_wire xfe (message_of o) -> hardy cap c' -> x = Val w' -> w' = together o ms ->
              world_ok cap c' ds' (map (touched o) ms) /\ exists r, x = Val r /\ r = together o ms).
    { intros w' T H' -> ->. rewrite <- Pk in T.
      destruct (exchange_motors cap c ds ms o (transmitted evs) rs ds1 ds' Wo P T Re Ov) as [_ [F' N']].
      split; [split; [exact Hc|split; [exact H'|split; assumption]]|]. eauto. }
    assert (D : o = OpScan \/ o <> OpScan) by (destruct o; try (right; discriminate); left; reflexivity).
    destruct D as [->|Ns].
    + destruct (scan_mute cap s x c' Hc Hs E) as [H' [evs2 [C2 T2]]].
      pose proof (calls_inj _ _ _ _ C C2) as K. subst evs2.
      destruct (exchange_motors cap c ds ms OpScan (transmitted evs) rs ds1 ds' Wo P T2 Re Ov) as [-> _].
      destruct es as [|e1 [|e2 es]]; [cbn in Es; lia|cbn in Es; lia|].
      destruct (scan_works cap ms s e1 e2 (items (silence es)) Hc Hs) as [s' [W1 _]].
      { unfold s, incoming, set_script. cbn [set_port b_port p_script]. rewrite items_app, Isc. reflexivity. }
      rewrite W1 in E. injection E as <- <-. apply (Fin (together OpScan ms)); auto.
    + destruct (together_works cap ms o s P Hs Ht Ns) as [s' [W1 [W2 [evs2 [W3 W4]]]]].
      rewrite W1 in E. injection E as <- <-. pose proof (calls_inj _ _ _ _ C W3) as K. subst evs2.
      apply (Fin (together o ms)); auto.
Qed.

Lemma session_ok : forall c ds os xs c' ds', session c ds os xs c' ds' -> forall cap ms,
  world_ok cap c ds ms -> all_possible comes_back cap ms os ->
  exists rs ms', xs = map Val rs /\ remote ms os rs ms' /\ Forall2 is_motor ds' ms'.
Proof.
  intros c ds os xs c' ds' Se. induction Se as [c ds|c ds o r c1 ds1 os rs c2 ds2 Ex Se IH]; intros cap ms Wo Al.
  - exists [], ms. split; [reflexivity|]. split; [constructor|]. destruct Wo as [_ [_ [F _]]].
    clear -F. induction F as [|d m ds ms M F IH]; constructor; [apply M|exact IH].
  - destruct Al as [P Al]. destruct (exchange_op cap c ds ms o r c1 ds1 Wo P Ex) as [W1 [y [-> A]]].
    destruct (IH cap _ W1 Al) as [rs' [ms' [-> [Re F]]]].
    exists (y :: rs'), ms'. split; [reflexivity|]. split; [econstructor; eassumption|exact F].
Qed.

Lemma L_C54_remote_memory_partial : forall cap c ds ms os xs c' ds',
  connected cap c ds ms -> all_possible comes_back cap ms os -> session c ds os xs c' ds' ->
  exists rs ms', xs = map Val rs /\ remote ms os rs ms' /\ Forall2 is_motor ds' ms'.
Proof.
  intros cap c ds ms os xs c' ds' Co Al Se. apply (session_ok _ _ _ _ _ _ Se cap ms); [|exact Al].
  apply connected_ok, Co.
Qed.

(** ** Sessions exist *)

Lemma hears_now : forall s w, exists s', hears s w s'.
Proof.
  intros s w. eexists. exists [RdData w]. split; [|reflexivity]. cbn [items]. apply app_nil_r.
Qed.

Lemma reacts_exists : forall w ds, Forall (fun d => exists st, n_state d = Val st) ds ->
  (forall d s o s', In d ds -> hears (n_bus d) w s -> mock_iteration (n_id d) (match n_state d with Val st => st | _ => mkMock [] None end) s = (o, s') ->
     exists evs, calls s s' evs) ->
  exists rs ds1, reacts w ds rs ds1.
Proof.
  intros w ds F H. induction F as [|d ds [st Hd] F IH]; [exists [], []; constructor|].
  destruct IH as [rs [ds1 R]]; [intros d' s o s' Hi; apply H; right; exact Hi|].
  destruct (hears_now (n_bus d) w) as [s He].
  destruct (mock_iteration (n_id d) st s) as [o s'] eqn:E.
  destruct (H d s o s' (or_introl eq_refl) He) as [evs C]; [rewrite Hd; exact E|].
  do 2 eexists. eapply re_cons; eassumption.
Qed.

Lemma overhears_exists : forall ds rs before, length rs = length ds -> exists ds', overhears before ds rs ds'.
Proof.
  induction ds as [|d ds IH]; intros rs before L; destruct rs as [|r rs]; try discriminate L; [exists []; constructor|].
  injection L as L. destruct (IH rs (before ++ r) L) as [ds' O].
  destruct (hears_now (n_bus d) (before ++ concat rs)) as [s He]. eexists. econstructor; eassumption.
Qed.

Lemma reacts_length : forall w ds rs ds1, reacts w ds rs ds1 -> length rs = length ds1.
Proof. intros w ds rs ds1 R. induction R; cbn [length]; congruence. Qed.

Lemma op_works : forall cap ms o s, world_ok cap s [] [] \/ hardy cap s -> 16 <= cap -> possible comes_back cap ms o ->
  forall x s', perform o s = (x, s') -> exists evs, calls s s' evs /\ transmitted evs = code_wire (packet_id_for o) (message_of o).
Proof.
  intros cap ms o s Hs Hc P x s' E.
  assert (H : hardy cap s) by (destruct Hs as [[_ [H _]]|H]; exact H).
  pose proof P as [Pr [Pm _]]. unfold packet_id_for. destruct (target o) as [id|] eqn:Ht.
  - destruct (op_shaped ms o id Pr Ht) as [i [params [k [fin [Em [Sh _]]]]]]. rewrite Em in *.
    destruct (shaped_works _ _ _ _ _ _ _ cap s Sh H Pm) as [s1 [[_ [H1 [e1 [C1 T1]]]] [_ Er]]].
    rewrite Er in E. unfold bind, lift in E. destruct (read_status_response k s1) as [y s2] eqn:Rd.
    assert (s' = s2) as -> by (destruct y; injection E; auto).
    destruct (read_status_spec _ _ _ _ (ha_inv _ _ H1) Rd) as [[p [_ [_ ->]]]|[t [o1 [_ [_ [_ [I T]]]]]]].
    + exists e1. split; [exact C1|exact T1].
    + destruct (timed_hardy cap t _ _ T I H1) as [_ [e2 [C2 T2]]].
      exists (e1 ++ e2). split; [eapply calls_app; eassumption|]. rewrite transmitted_app, T1, T2, app_nil_r. reflexivity.
  - assert (D : o = OpScan \/ o <> OpScan) by (destruct o; try (right; discriminate); left; reflexivity).
    destruct D as [->|Ns].
    + apply (scan_mute cap s x s' Hc H E).
    + destruct (together_works cap ms o s P H Ht Ns) as [s1 [W1 [_ [evs [C T]]]]].
      rewrite W1 in E. injection E as <- <-. eauto.
Qed.

Lemma exchange_exists : forall cap c ds ms o, world_ok cap c ds ms -> possible comes_back cap ms o ->
  exists x c' ds', exchange (perform o) c ds x c' ds'.
Proof.
  intros cap c ds ms o Wo P. pose proof Wo as [Hc [Hh [F N]]].
  set (w := code_wire (packet_id_for o) (message_of o)).
  destruct (reacts_exists w ds) as [rs [ds1 R]].
  { clear -F. induction F as [|d m ds ms [M _] F IH]; constructor; [|exact IH]. eexists. apply M. }
  { intros d s x s' Hi He E.
    assert (K : exists m, In m ms /\ motor_ok cap d m).
    { clear -F Hi. induction F as [|d' m' ds ms M F IH]; [contradiction|]. destruct Hi as [->|Hi].
      - exists m'. split; [left; reflexivity|exact M].
      - destruct (IH Hi) as [m [H1 H2]]. exists m. split; [right; exact H1|exact H2]. }
    destruct K as [m [Hm [[M1 M2] [Hd Sk]]]]. rewrite M2, M1 in E.
    destruct (iteration_works cap ms o m s Hc (hears_hardy _ _ _ _ He Hd) P Hm) as [s2 [[W1 [W2 [evs2 [W3 W4]]]] Pe]].
    { rewrite (hears_pending _ _ _ He). destruct He as [sc [_ ->]].
      change (length (b_rbuf (set_script _ _))) with (length (b_rbuf (n_bus d))).
      apply (skips_app _ _ [] _ Sk). }
    change (mkMock (m_memory m) (m_waiting m)) with (state_of m) in E. rewrite W1 in E. injection E as <- <-. eauto. }
  destruct (overhears_exists ds1 rs [] (reacts_length _ _ _ _ R)) as [ds' O].
  set (sc := [RdData (concat rs)]). set (s := set_script c (sc ++ silence [0%N; 0%N])).
  destruct (perform o s) as [x c'] eqn:E.
  destruct (op_works cap ms o s (or_intror (hardy_script _ _ _ Hh)) Hc P x c' E) as [evs [C T]].
  exists x, c', ds'. eapply (exchange_ 2 _ c ds sc [0%N; 0%N]); [apply le_n|exact E|exact C|rewrite T; exact R| |exact O].
  unfold sc. cbn [items]. apply app_nil_r.
Qed.

Lemma L_C54_sessions_exist : forall cap c ds ms os, connected cap c ds ms -> all_possible comes_back cap ms os ->
  exists xs c' ds', session c ds os xs c' ds'.
Proof.
  intros cap c ds ms os Co Al. apply connected_ok in Co. revert c ds ms Co Al.
  induction os as [|o os IH]; intros c ds ms Wo Al; [exists [], c, ds; constructor|].
  destruct Al as [P Al]. destruct (exchange_exists cap c ds ms o Wo P) as [x [c1 [ds1 Ex]]].
  destruct (exchange_op cap c ds ms o x c1 ds1 Wo P Ex) as [W1 _].
  destruct (IH c1 ds1 _ W1 Al) as [xs [c2 [ds2 Se]]].
  exists (x :: xs), c2, ds2. econstructor; eassumption.
Qed.

(** ** Consequences *)

Lemma answers_target : forall o ms r m, NoDup (map m_id ms) -> In m ms -> target o = Some (m_id m) ->
  answers o ms r -> r = answered o m.
Proof.
  intros o ms r m N Hin Ht A. unfold answers in A. rewrite Ht in A.
  destruct A as [[m' [Hin' [Hm ->]]]|[Nin _]].
  - f_equal. clear -N Hin Hin' Hm. induction ms as [|x ms IH]; [contradiction|]. inversion N as [|? ? N1 N2]; subst.
    destruct Hin as [->|Hin]; destruct Hin' as [->|Hin']; auto.
    + exfalso. apply N1. rewrite <- Hm. apply in_map, Hin'.
    + exfalso. apply N1. rewrite Hm. apply in_map, Hin.
  - exfalso. apply Nin. apply in_map, Hin.
Qed.

Lemma load_stored : forall mem a d mem', store mem a d = Some mem' -> load mem' a (N.of_nat (length d)) = Some d.
Proof.
  intros mem a d mem'. unfold store. destruct (a + N.of_nat (length d) <=? N.of_nat (length mem))%N eqn:E; [|discriminate].
  intro H. injection H as <-. unfold load. rewrite !app_length, firstn_length, skipn_length, Nat2N.id.
  replace (a + N.of_nat (length d) <=? _)%N with true by lia. f_equal.
  rewrite skipn_app, firstn_length. rewrite skipn_all2 by (rewrite firstn_length; lia).
  replace (N.to_nat a - Nat.min (N.to_nat a) (length mem)) with 0 by lia. cbn [app skipn].
  rewrite firstn_app, firstn_all, Nat.sub_diag. cbn [firstn]. apply app_nil_r.
Qed.

Lemma connected_nodup : forall cap c ds ms, connected cap c ds ms -> NoDup (map m_id ms).
Proof. intros cap c ds ms H. apply H. Qed.

Lemma connected_not_all : forall cap c ds ms m, connected cap c ds ms -> In m ms -> m_id m <> xfe.
Proof. intros cap c ds ms m H Hin K. apply H. rewrite <- K. apply in_map, Hin. Qed.

Lemma L_C55_write_then_read_partial : forall cap c ds ms m a d mem' xs c' ds',
  let os := [OpWrite (m_id m) a d; OpRead (m_id m) a (N.of_nat (length d))] in
  connected cap c ds ms -> In m ms -> all_possible comes_back cap ms os -> session c ds os xs c' ds' ->
  store (m_memory m) a d = Some mem' ->
  xs = [Val (RepDone (Ok (mkResponse (m_id m) false tt))); Val (RepData (Ok (mkResponse (m_id m) false d)))].
Proof.
  intros cap c ds ms m a d mem' xs c' ds' os Co Hin Al Se St.
  destruct (L_C54_remote_memory_partial _ _ _ _ _ _ _ _ Co Al Se) as [rs [ms' [-> [Re _]]]].
  pose proof (connected_nodup _ _ _ _ Co) as N. unfold os in Re.
  inversion Re as [|? ? r1 ? rs1 ? A1 Re1]; subst. inversion Re1 as [|? ? r2 ? rs2 ? A2 Re2]; subst.
  inversion Re2; subst. clear Re Re1 Re2.
  set (o1 := OpWrite (m_id m) a d) in *.
  pose proof (connected_not_all _ _ _ _ _ Co Hin) as Na.
  pose proof (answers_target o1 ms r1 m N Hin (target_not _ Na) A1) as ->.
  assert (N2 : NoDup (map m_id (map (touched o1) ms))) by (rewrite touched_ids; exact N).
  assert (T : target (OpRead (m_id m) a (N.of_nat (length d))) = Some (m_id (touched o1 m))) by (rewrite touched_id; apply (target_not _ Na)).
  pose proof (answers_target _ _ r2 (touched o1 m) N2 (in_map _ _ _ Hin) T A2) as ->.
  cbn [map answered o1 touched]. rewrite addressed_self. cbn [m_memory]. unfold stored. rewrite St. cbn [done].
  rewrite (load_stored _ _ _ _ St). reflexivity.
Qed.

Lemma L_C55_registered_write_waits_partial : forall cap c ds ms m a d mem' b n before after xs c' ds',
  let os := [OpRegWrite (m_id m) a d; OpRead (m_id m) b n; OpAction (m_id m); OpRead (m_id m) b n] in
  connected cap c ds ms -> In m ms -> all_possible comes_back cap ms os -> session c ds os xs c' ds' ->
  store (m_memory m) a d = Some mem' -> load (m_memory m) b n = Some before -> load mem' b n = Some after ->
  xs = [Val (RepDone (Ok (mkResponse (m_id m) false tt))); Val (RepData (Ok (mkResponse (m_id m) false before)));
        Val (RepDone (Ok (mkResponse (m_id m) false tt))); Val (RepData (Ok (mkResponse (m_id m) false after)))].
Proof.
  intros cap c ds ms m a d mem' b n before after xs c' ds' os Co Hin Al Se St L1 L2.
  destruct (L_C54_remote_memory_partial _ _ _ _ _ _ _ _ Co Al Se) as [rs [ms' [-> [Re _]]]].
  pose proof (connected_nodup _ _ _ _ Co) as N. unfold os in Re.
  inversion Re as [|? ? r1 ? rs1 ? A1 Re1]; subst. inversion Re1 as [|? ? r2 ? rs2 ? A2 Re2]; subst.
  inversion Re2 as [|? ? r3 ? rs3 ? A3 Re3]; subst. inversion Re3 as [|? ? r4 ? rs4 ? A4 Re4]; subst.
  inversion Re4; subst. clear Re Re1 Re2 Re3 Re4.
  set (o1 := OpRegWrite (m_id m) a d) in *. set (o2 := OpRead (m_id m) b n) in *. set (o3 := OpAction (m_id m)) in *.
  assert (Tid : forall o m', m_id (touched o m') = m_id m') by apply touched_id.
  assert (N2 : NoDup (map m_id (map (touched o1) ms))) by (rewrite touched_ids; exact N).
  assert (N3 : NoDup (map m_id (map (touched o2) (map (touched o1) ms)))) by (rewrite touched_ids; exact N2).
  assert (N4 : NoDup (map m_id (map (touched o3) (map (touched o2) (map (touched o1) ms))))) by (rewrite touched_ids; exact N3).
  pose proof (connected_not_all _ _ _ _ _ Co Hin) as Na.
  pose proof (answers_target o1 ms r1 m N Hin (target_not _ Na) A1) as ->.
  pose proof (in_map (touched o1) _ _ Hin) as H2. pose proof (in_map (touched o2) _ _ H2) as H3.
  pose proof (in_map (touched o3) _ _ H3) as H4.
  rewrite (answers_target o2 _ r2 _ N2 H2) by (try exact A2; cbn [target o2]; rewrite Tid; apply (target_not _ Na)).
  rewrite (answers_target o3 _ r3 _ N3 H3) by (try exact A3; cbn [target o3]; rewrite !Tid; apply (target_not _ Na)).
  rewrite (answers_target o2 _ r4 _ N4 H4) by (try exact A4; cbn [target o2]; rewrite !Tid; apply (target_not _ Na)).
  cbn [map answered o1 o2 o3 touched]. rewrite addressed_self. cbn [m_id m_memory m_waiting].
  replace (addressed (m_id m) (mkMotor (m_id m) (m_memory m) (Some (a, d)))) with true by (symmetry; apply (addressed_self (mkMotor (m_id m) _ _))).
  cbn [m_id m_memory m_waiting]. unfold stored. rewrite St, L1, L2. reflexivity.
Qed.

Lemma addressed_other : forall id m, id <> m_id m -> id <> xfe -> addressed id m = false.
Proof.
  intros id m H1 H2. unfold addressed. destruct (beq id (m_id m)) eqn:B1; [apply beq_true in B1; contradiction|].
  destruct (beq id xfe) eqn:B2; [apply beq_true in B2; contradiction|reflexivity].
Qed.

Lemma elsewhere_touched : forall o m, elsewhere (m_id m) o -> touched o m = m.
Proof.
  intros o m H. destruct o as [id|id a n|id a d|id a d|id|a n l|]; cbn [elsewhere touched] in *; try reflexivity;
    try (rewrite (addressed_other id m (proj1 H) (proj2 H)); reflexivity).
  destruct (find (fun c => beq (sw_id c) (m_id m)) l) as [c|] eqn:Fi; [|reflexivity].
  apply find_some in Fi. destruct Fi as [F1 F2]. apply beq_true in F2. exfalso. apply H. rewrite <- F2. apply in_map, F1.
Qed.

Lemma remote_elsewhere : forall ms os rs ms', remote ms os rs ms' -> forall m, In m ms ->
  Forall (elsewhere (m_id m)) os -> In m ms'.
Proof.
  intros ms os rs ms' R. induction R as [ms|ms o r os rs ms' A R IH]; intros m Hin F; [exact Hin|].
  inversion F as [|? ? F1 F2]; subst. apply IH; [|exact F2].
  rewrite <- (elsewhere_touched o m F1). apply in_map, Hin.
Qed.

Lemma L_C55_others_untouched_partial : forall cap c ds ms m os xs c' ds',
  connected cap c ds ms -> In m ms -> all_possible comes_back cap ms os -> session c ds os xs c' ds' ->
  Forall (elsewhere (m_id m)) os ->
  exists d, In d ds' /\ is_motor d m.
Proof.
  intros cap c ds ms m os xs c' ds' Co Hin Al Se El.
  destruct (L_C54_remote_memory_partial _ _ _ _ _ _ _ _ Co Al Se) as [rs [ms' [_ [Re F]]]].
  pose proof (remote_elsewhere _ _ _ _ Re m Hin El) as Hi.
  clear -F Hi. induction F as [|d m' ds ms M F IH]; [contradiction|].
  destruct Hi as [->|Hi]; [exists d; split; [left; reflexivity|exact M]|].
  destruct (IH Hi) as [d' [H1 H2]]. exists d'. split; [right; exact H1|exact H2].
Qed.

Lemma L_C55_broadcast_reaches_all_partial : forall cap c ds ms a d xs c' ds',
  let os := [OpRegWrite xfe a d; OpAction xfe] in
  connected cap c ds ms -> all_possible comes_back cap ms os -> session c ds os xs c' ds' ->
  xs = [Val (RepDone (Ok (mkResponse xfe false tt))); Val (RepDone (Ok (mkResponse xfe false tt)))] /\
  Forall2 is_motor ds' (map (fun m => mkMotor (m_id m) (stored (m_memory m) a d) None) ms).
Proof.
  intros cap c ds ms a d xs c' ds' os Co Al Se.
  destruct (L_C54_remote_memory_partial _ _ _ _ _ _ _ _ Co Al Se) as [rs [ms' [-> [Re F]]]]. unfold os in Re.
  inversion Re as [|? ? r1 ? rs1 ? A1 Re1]; subst. inversion Re1 as [|? ? r2 ? rs2 ? A2 Re2]; subst.
  inversion Re2; subst. cbn in A1, A2. subst r1 r2. split; [reflexivity|].
  rewrite map_map in F. replace (map _ ms) with (map (fun m => touched (OpAction xfe) (touched (OpRegWrite xfe a d) m)) ms); [exact F|].
  apply map_ext. intro m. cbn [touched]. rewrite addressed_all. cbn [m_waiting m_memory m_id]. rewrite addressed_all. reflexivity.
Qed.

(** ** Scanning *)

Lemma scan_possible : forall cap ms, 16 <= cap -> possible comes_back cap ms OpScan.
Proof. intros cap ms H. split; [exact I|]. split; [|exact I]. split; [cbn; lia|]. split; [reflexivity|exact I]. Qed.

Lemma L_C61_scan_finds_the_motors : forall cap c ds ms x c' ds', connected cap c ds ms ->
  exchange scan_all c ds x c' ds' ->
  x = Val (RepFound (Ok (map (fun m => Ok (mkResponse (m_id m) false (mkPing 5130 x2e))) ms))) /\
  Forall2 is_motor ds' ms.
Proof.
  intros cap c ds ms x c' ds' Co Ex. pose proof (connected_ok _ _ _ _ Co) as Wo.
  destruct (exchange_op cap c ds ms OpScan x c' ds' Wo (scan_possible cap ms (proj1 Wo)) Ex) as [W [r [-> A]]].
  cbn in A. subst r. split; [reflexivity|]. destruct W as [_ [_ [F _]]]. rewrite map_id in F.
  clear -F. induction F as [|d m ds ms M F IH]; constructor; [apply M|exact IH].
Qed.

Lemma L_C61_scans_exist : forall cap c ds ms, connected cap c ds ms -> exists x c' ds', exchange scan_all c ds x c' ds'.
Proof.
  intros cap c ds ms Co. apply connected_ok in Co.
  apply (exchange_exists cap c ds ms OpScan Co (scan_possible cap ms (proj1 Co))).
Qed.

(** Also in the middle of other calls, whatever these leave in the receivers. *)
Lemma L_C55_scan_during_a_session_partial : forall cap c ds ms os xs x c' ds', connected cap c ds ms ->
  all_possible comes_back cap ms os -> session c ds (os ++ [OpScan]) (xs ++ [x]) c' ds' ->
  x = Val (RepFound (Ok (map (fun m => Ok (mkResponse (m_id m) false (mkPing 5130 x2e))) ms))).
Proof.
  intros cap c ds ms os xs x c' ds' Co. apply connected_ok in Co.
  assert (Gen : forall os c ds ms ys, world_ok cap c ds ms -> all_possible comes_back cap ms os ->
            session c ds (os ++ [OpScan]) ys c' ds' -> exists ys', ys = ys' ++ [Val (RepFound (Ok (map found ms)))]).
  { clear. induction os as [|o os IH]; intros c ds ms ys Wo Al Se; cbn [app] in Se; inversion Se as [|? ? ? r c1 ds1 ? rs ? ? Ex Se']; subst.
    - inversion Se'; subst. destruct (exchange_op cap c ds ms OpScan r c' ds' Wo (scan_possible cap ms (proj1 Wo)) Ex) as [_ [y [-> A]]].
      cbn in A. subst y. exists []. reflexivity.
    - destruct Al as [P Al]. destruct (exchange_op cap c ds ms o r c1 ds1 Wo P Ex) as [W1 _].
      destruct (IH c1 ds1 _ rs W1 Al Se') as [ys' ->]. exists (r :: ys'). rewrite map_map. cbn [app]. do 6 f_equal.
      apply map_ext. intro m. unfold found. rewrite touched_id. reflexivity. }
  intros Al Se. destruct (Gen os c ds ms _ Co Al Se) as [ys E]. apply app_inj_tail in E. destruct E as [_ ->]. reflexivity.
Qed.

(** ** Values *)

Lemma motor_unique : forall ms m1 m2, NoDup (map m_id ms) -> In m1 ms -> In m2 ms -> m_id m1 = m_id m2 -> m1 = m2.
Proof.
  induction ms as [|z ms IH]; intros m1 m2 N H1 H2 E; [contradiction|]. inversion N as [|? ? N1 N2]; subst.
  destruct H1 as [->|H1]; destruct H2 as [->|H2]; auto.
  - exfalso. apply N1. rewrite E. apply in_map, H2.
  - exfalso. apply N1. rewrite <- E. apply in_map, H1.
Qed.

Lemma value_read : forall A (D : data_impl A) (v : A) bytes cap c ds ms m a y c' ds',
  world_ok cap c ds ms -> In m ms -> NoDup (map m_id ms) -> length bytes = d_size D -> d_decode D bytes = Val (Ok v) ->
  possible comes_back cap ms (OpRead (m_id m) a (N.of_nat (length bytes))) ->
  load (m_memory m) a (N.of_nat (length bytes)) = Some bytes ->
  exchange (read D (m_id m) a) c ds y c' ds' ->
  y = Val (Ok (mkResponse (m_id m) false v)).
Proof.
  intros A D v bytes cap c ds ms m a y c' ds' Wo Hin N L De P Ld Ex.
  set (o2 := OpRead (m_id m) a (N.of_nat (length bytes))) in *. pose proof P as [[_ [_ Hn]] _].
  assert (Sz : N.of_nat (d_size D) = N.of_nat (length bytes)) by (rewrite L; reflexivity).
  assert (Hn' : is_u16 (N.of_nat (d_size D))) by (rewrite Sz; exact Hn).
  pose proof (read_shaped A D (m_id m) a Hn') as Sh. rewrite Sz in Sh.
  assert (T2 : target o2 = Some (m_id m)) by (apply target_not, P).
  destruct (exchange_targeted _ _ cap c ds _ o2 (m_id m) _ _ _ _ y c' ds' Wo P T2 eq_refl Sh Ex) as [_ K2].
  destruct K2 as [[mo [Ho [Hm [K _]]]]|[Nin _]]; [|exfalso; apply Nin; apply in_map, Hin].
  rewrite (motor_unique _ mo m N Ho Hin Hm) in K.
  cbn [o2 status_for] in K. rewrite Ld in K. cbn [fst snd] in K.
  destruct (K no_error_0) as [p [Hp ->]]. rewrite (fin_transfer_ok _ p _ Hp). cbn [obind fin_read].
  destruct (status_accessors _ _ _ _ Hp) as [A1 [A2 [A3 A4]]]. rewrite A4. cbn [obind].
  unfold param_count_check. rewrite Nat2N.id, Nat.eqb_refl. cbn [obind].
  unfold decode_status_packet. rewrite A2. cbn [obind]. rewrite (no_error_check _ no_error_0), A1, A3, A4.
  cbn [obind]. rewrite De. reflexivity.
Qed.

Lemma value_written : forall A (D : data_impl A) (v : A) bytes cap c ds ms m a mem' x c' ds',
  world_ok cap c ds ms -> In m ms -> NoDup (map m_id ms) -> m_id m <> xfe -> data_ok D -> encodes_as D v bytes ->
  possible comes_back cap ms (OpWrite (m_id m) a bytes) ->
  store (m_memory m) a bytes = Some mem' ->
  exchange (write D (m_id m) a v) c ds x c' ds' ->
  world_ok cap c' ds' (map (touched (OpWrite (m_id m) a bytes)) ms) /\ x = Val (Ok (mkResponse (m_id m) false tt)).
Proof.
  intros A D v bytes cap c ds ms m a mem' x c' ds' Wo Hin N Hid Dk En P1 St E1. set (o1 := OpWrite (m_id m) a bytes) in *.
  assert (Sh1 : shaped (write D (m_id m) a v) (m_id m) x03 (le16 a ++ bytes) 0 fin_instruct).
  { apply instruct_shaped; [apply address_and_value_writes; assumption| |exact Hid].
    rewrite app_length, (proj1 En). reflexivity. }
  destruct (exchange_targeted _ _ cap c ds ms o1 (m_id m) _ _ _ _ x c' ds' Wo P1 (target_not _ Hid) eq_refl Sh1 E1) as [W1 K1].
  split; [exact W1|].
  destruct K1 as [[mo [Ho [Hm [K _]]]]|[Nin _]]; [|exfalso; apply Nin, in_map, Hin].
  rewrite (motor_unique ms mo m N Ho Hin Hm) in K. cbn [o1 status_for fst snd] in K. rewrite St in K.
  destruct (K no_error_0) as [p [Hp ->]]. cbn [fin_instruct]. rewrite (response_unit_val p _ x00 [] Hp). reflexivity.
Qed.
