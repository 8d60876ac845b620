(** * HandoverTheorems: C88 *)
From Coq Require Import ZArith ZifyN ZifyNat ZifyBool.
From Verif Require Import Base Endian Error Checksum Bytestuff Packet Time Bus Data Client
  Instructions Device Api Spec CallSpec StreamSpec InstructionSpec DataSpec TwinSpec HandoverSpec Demo DemoProofs
  Lib ChecksumProofs CrcErrorProofs StuffProofs WriteProofs ReadProofs ApiProofs StreamProofs MessageProofs SendProofs
  SendTheorems ReadTheorems StatusProofs DeviceTheorems InstructionProofs DataTheorems TwinProofs TwinTheorems.

(** The same bus with nothing read ahead. *)
Definition blank (s : bus) : bus := set_used (set_rlen s 0) 0.

Lemma blank_inv : forall s, inv s -> inv (blank s).
Proof. intros s [_ W]. split; [split; cbn; lia|exact W]. Qed.

Lemma blank_twice : forall s, blank (blank s) = blank s.
Proof. reflexivity. Qed.

(** Runs are determined by the program and the state. *)
Fixpoint exec {R} (p : program R) (s : bus) : out R * bus :=
  match p with
  | Done r => (Val r, s)
  | Call m _ k => match m s with
                  | (Val a, s1) => exec (k a) s1
                  | (Panic q, s1) => (Panic q, s1)
                  | (Blocked, s1) => (Blocked, s1)
                  end
  end.

Lemma runs_exec : forall R (p : program R) s o evs s', runs p s o evs s' -> exec p s = (o, s') /\ calls s s' evs.
Proof.
  intros R p s o evs s' H.
  induction H as [r s|A m Hm k s a s1 evs o evs' s2 E C _ [IH1 IH2]|A m Hm k s p s1 evs E C|A m Hm k s s1 evs E C];
    cbn [exec]; try rewrite E.
  - split; [reflexivity|apply calls_refl].
  - split; [exact IH1|]. apply (calls_trans _ _ _ _ _ C IH2).
  - auto.
  - auto.
Qed.

Lemma runs_det : forall R (p : program R) s o evs s' o2 evs2 s2, runs p s o evs s' -> runs p s o2 evs2 s2 ->
  o = o2 /\ evs = evs2 /\ s' = s2.
Proof.
  intros R p s o evs s' o2 evs2 s2 H K. destruct (runs_exec _ _ _ _ _ _ H) as [H1 H2].
  destruct (runs_exec _ _ _ _ _ _ K) as [K1 K2]. rewrite H1 in K1. injection K1 as <- <-.
  split; [reflexivity|]. split; [|reflexivity]. apply (calls_inj _ _ _ _ H2 K2).
Qed.

Lemma same_runs_of : forall R (p : program R) s t o evs s' t', runs p s o evs s' -> runs p t o evs t' -> same_runs p s t.
Proof.
  intros R p s t o evs s' t' H K o2 evs2. split; intros [u J].
  - destruct (runs_det _ _ _ _ _ _ _ _ _ H J) as [<- [<- _]]. eauto.
  - destruct (runs_det _ _ _ _ _ _ _ _ _ K J) as [<- [<- _]]. eauto.
Qed.

(** ** Requests forget what was read ahead *)

Definition forgets {A} (m : M A) (w : A -> bool) : Prop := forall s, inv s ->
  m (blank s) = m s \/
  fst (m (blank s)) = fst (m s) /\ snd (m (blank s)) = blank (snd (m s)) /\ p_log (b_port (snd (m s))) = p_log (b_port s)
    /\ inv (snd (m s)) /\ forall a, fst (m s) = Val a -> w a = false.

Lemma forgets_bind : forall A B (m : M A) (k : A -> M B) w w', forgets m w ->
  (forall a, w a = false -> exists b, k a = ret b /\ w' b = false) -> forgets (bind m k) w'.
Proof.
  intros A B m k w w' Hm Hk s I. unfold bind. destruct (Hm s I) as [E|[E1 [E2 [E3 [E4 E5]]]]].
  - left. rewrite E. reflexivity.
  - right. destruct (m (blank s)) as [o u]. destruct (m s) as [o' v]. cbn [fst snd] in *. subst o' u.
    destruct o as [a|q|].
    + destruct (Hk a (E5 a eq_refl)) as [b [-> K]]. unfold ret. cbn [fst snd].
      split; [reflexivity|]. split; [reflexivity|]. split; [exact E3|]. split; [exact E4|].
      intros c Ec. injection Ec as <-. exact K.
    + cbn [fst snd]. split; [reflexivity|]. split; [reflexivity|]. split; [exact E3|]. split; [exact E4|]. intros c Ec. discriminate Ec.
    + cbn [fst snd]. split; [reflexivity|]. split; [reflexivity|]. split; [exact E3|]. split; [exact E4|]. intros c Ec. discriminate Ec.
Qed.

Lemma forgets_same : forall A (x : out A) w s, (forall a, x = Val a -> w a = false) -> inv s ->
  (fun s => (x, s)) (blank s) = (fun s => (x, s)) s \/
  fst (x, blank s) = fst (x, s) /\ snd (x, blank s) = blank (snd (x, s)) /\ p_log (b_port (snd (x, s))) = p_log (b_port s)
    /\ inv (snd (x, s)) /\ forall a, fst (x, s) = Val a -> w a = false.
Proof. intros A x w s H I. right. cbn [fst snd]. auto. Qed.

Lemma forgets_write_packet : forall id i n enc, encoder_ok enc -> forgets (write_packet id i n enc) sent_w.
Proof.
  intros id i n enc Ho s I. pose proof (blank_inv s I) as I'. pose proof I as [_ Iw].
  rewrite !write_packet_gen by (try exact Ho; apply I || apply I'). unfold write_gen. cbv zeta.
  change (b_wbuf (blank s)) with (b_wbuf s).
  destruct (usize_max <? N.of_nat (n + 10))%N.
  { right. cbn [fst snd]. repeat split; try apply I. discriminate. }
  destruct (length (b_wbuf s) <? n + 10) eqn:L.
  { right. cbn [fst snd]. repeat split; try apply I. intros a E. injection E as <-. reflexivity. }
  destruct (enc (firstn n (skipn 8 (b_wbuf s)))) as [[p [[]|e]]|p|] eqn:E.
  - unfold write_value. cbv zeta. change (b_wbuf (blank s)) with (b_wbuf s). change (b_dbg (blank s)) with (b_dbg s).
    destruct (length (b_wbuf s) <? length p + 10) eqn:L2.
    { right. cbn [fst snd]. repeat split; try apply I. intros a E2. injection E2 as <-. reflexivity. }
    destruct (build_result (b_dbg s) (length (b_wbuf s)) (i :: p)).
    + left. reflexivity.
    + right. cbn [fst snd]. split; [reflexivity|]. split; [reflexivity|]. split; [reflexivity|]. split.
      * split; [apply I|]. apply (pre_stuff_ok id i p (b_wbuf s) Iw). lia.
      * intros a E2. injection E2 as <-. reflexivity.
    + right. cbn [fst snd]. repeat split; try apply I. discriminate.
  - right. cbn [fst snd]. split; [reflexivity|]. split; [reflexivity|]. split; [reflexivity|]. split.
    + split; [apply I|]. apply Ho in E. rewrite firstn_length, skipn_length in E.
      replace (8 + n) with (8 + length p) by lia. apply (pre_stuff_ok id i p (b_wbuf s) Iw). lia.
    + intros a E2. injection E2 as <-. reflexivity.
  - right. cbn [fst snd]. repeat split; try apply I. discriminate.
  - right. cbn [fst snd]. repeat split; try apply I. discriminate.
Qed.

Lemma forgets_write_status : forall id e n enc, encoder_ok enc -> forgets (write_status id e n enc) sent_w.
Proof.
  intros id e n enc Ho s I. unfold write_status.
  destruct (usize_max <? N.of_nat (st_message_len n))%N.
  { right. cbn [fst snd lift]. repeat split; try apply I. discriminate. }
  unfold bind, get. change (b_wbuf (blank s)) with (b_wbuf s).
  destruct (bts_check (st_message_len n) (length (b_wbuf s))) as [u|x]; cbn [tryr].
  - apply forgets_write_packet; [apply (status_encoder_ok e enc Ho)|exact I].
  - right. unfold ret. cbn [fst snd]. repeat split; try apply I. intros a E. injection E as <-. reflexivity.
Qed.

Lemma forgets_try_w : forall A B (m : M (result A write_error)) (k : A -> M (result B write_error)),
  forgets m sent_w -> forgets (try_ (fun e => e) m k) sent_w.
Proof.
  intros A B m k H. unfold try_. apply (forgets_bind _ _ _ _ _ _ H). intros [a|e] Ha; [discriminate|].
  exists (Err e). split; [reflexivity|exact Ha].
Qed.
Lemma forgets_try_wt : forall A B (m : M (result A write_error)) (k : A -> M (result B transfer_error)),
  forgets m sent_w -> forgets (try_ TWriteError m k) sent_t.
Proof.
  intros A B m k H. unfold try_. apply (forgets_bind _ _ _ _ _ _ H). intros [a|e] Ha; [discriminate|].
  exists (Err (TWriteError e)). split; [reflexivity|exact Ha].
Qed.
Lemma forgets_try_t : forall A B (m : M (result A transfer_error)) (k : A -> M (result B transfer_error)),
  forgets m sent_t -> forgets (try_ (fun e => e) m k) sent_t.
Proof.
  intros A B m k H. unfold try_. apply (forgets_bind _ _ _ _ _ _ H). intros [a|e] Ha; [discriminate|].
  exists (Err e). split; [reflexivity|exact Ha].
Qed.
Lemma forgets_panic : forall A p (w : A -> bool), forgets (lift (Panic p)) w.
Proof. intros A p w s I. right. cbn [fst snd lift]. repeat split; try apply I. discriminate. Qed.

Lemma forgets_wi : forall id i n enc, encoder_ok enc -> forgets (write_instruction id i n enc) sent_w.
Proof. intros. apply forgets_write_packet. assumption. Qed.
Lemma forgets_transfer : forall id i n e enc, encoder_ok enc -> forgets (transfer_single id i n e enc) sent_t.
Proof. intros. apply forgets_try_wt, forgets_wi. assumption. Qed.
Lemma forgets_instruct : forall id i n enc, encoder_ok enc -> forgets (instruct id i n enc) sent_t.
Proof. intros. apply forgets_try_wt, forgets_wi. assumption. Qed.
Lemma forgets_read_raw : forall id a n, forgets (read_raw id a n) sent_t.
Proof. intros. apply forgets_try_t, forgets_transfer. auto with enc. Qed.
Lemma forgets_bulk_write : forall l, forgets (bulk_write l) sent_w.
Proof.
  intros l s I. unfold bulk_write, bind, lift. destruct (bulk_write_count l 0) as [c|p|].
  - apply forgets_wi; [auto with enc|exact I].
  - right. cbn [fst snd]. repeat split; try apply I. discriminate.
  - right. cbn [fst snd]. repeat split; try apply I. discriminate.
Qed.
Lemma forgets_bulk_read : forall l, forgets (bulk_read_bytes l) sent_w.
Proof.
  intro l. apply forgets_try_w. unfold write_bulk_read_instruction.
  destruct (bulk_read_dup l); [apply forgets_panic|apply forgets_wi; auto with enc].
Qed.

Lemma request_forgets : forall A (m : M A) w, request m w -> forgets m w.
Proof.
  intros A m w H. destruct H.
  - apply forgets_transfer; assumption.
  - apply forgets_wi; assumption.
  - apply forgets_write_status; assumption.
  - apply forgets_write_status; auto with enc.
  - apply forgets_write_status; auto with enc.
  - apply forgets_try_t, forgets_transfer. auto with enc.
  - apply forgets_wi. auto with enc.
  - apply forgets_try_t, forgets_read_raw.
  - apply forgets_try_t, forgets_read_raw.
  - apply forgets_instruct. auto with enc.
  - apply forgets_instruct. auto with enc.
  - apply forgets_instruct. auto with enc.
  - apply forgets_instruct. auto with enc.
  - apply forgets_instruct. auto with enc.
  - apply forgets_wi. auto with enc.
  - apply forgets_instruct. auto with enc.
  - apply forgets_wi. auto with enc.
  - apply forgets_instruct. auto with enc.
  - apply forgets_wi. auto with enc.
  - apply forgets_instruct. auto with enc.
  - apply forgets_wi. auto with enc.
  - apply forgets_instruct. auto with enc.
  - apply forgets_wi. auto with enc.
  - apply forgets_wi. auto with enc.
  - apply forgets_wi. auto with enc.
  - apply forgets_bulk_write.
  - apply forgets_try_w, forgets_wi. auto with enc.
  - apply forgets_try_w, forgets_wi. auto with enc.
  - apply forgets_bulk_read.
Qed.

(** ** Programs *)

(** A program that asks first runs the same with nothing read ahead. *)
Lemma asks_blank : forall R (p : program R), asks_first p -> forall s, inv s ->
  exists o evs s' t', runs p s o evs s' /\ runs p (blank s) o evs t'.
Proof.
  intros R p H. induction H as [r|A m Hm k sent Hr Hk IH|baud Hm k Hk IH]; intros s I.
  - exists (Val r), [], s, (blank s). split; constructor.
  - pose proof (steady_firm _ _ Hm s s (mkTw _ _ (twins_refl s) I I)) as [_ [T [evs [C _]]]].
    destruct (request_forgets _ _ _ Hr s I) as [E|[E1 [E2 [E3 [E4 E5]]]]].
    + destruct (m s) as [o s1] eqn:Es. cbn [fst snd] in *.
      assert (C' : calls (blank s) s1 evs) by exact C.
      destruct o as [a|q|].
      * destruct (program_runs _ (k a) s1 (tw_inv1 _ _ T)) as [o2 [evs2 [s2 K]]].
        exists o2, (evs ++ evs2), s2, s2. split; eapply runs_call; eassumption.
      * exists (Panic q), evs, s1, s1. split; apply runs_panic; assumption.
      * exists Blocked, evs, s1, s1. split; apply runs_blocked; assumption.
    + destruct (m s) as [o s1] eqn:Es. destruct (m (blank s)) as [o' t1] eqn:Et. cbn [fst snd] in *. subst o' t1.
      assert (Cs : calls s s1 []) by (unfold calls; rewrite E3, app_nil_r; reflexivity).
      assert (Ct : calls (blank s) (blank s1) []) by (unfold calls; cbn; rewrite E3, app_nil_r; reflexivity).
      destruct o as [a|q|].
      * destruct (IH a (E5 a eq_refl) s1 E4) as [o2 [evs2 [s2 [t2 [K1 K2]]]]].
        exists o2, ([] ++ evs2), s2, t2. split; eapply runs_call; eassumption.
      * exists (Panic q), [], s1, (blank s1). split; apply runs_panic; assumption.
      * exists Blocked, [], s1, (blank s1). split; apply runs_blocked; assumption.
  - pose proof (steady_firm _ _ Hm s s (mkTw _ _ (twins_refl s) I I)) as [_ [T [evs [C _]]]].
    assert (E : forall s, client_set_baud_rate baud (blank s)
      = (fst (client_set_baud_rate baud s), blank (snd (client_set_baud_rate baud s)))).
    { intro u. unfold client_set_baud_rate, set_baud_rate, try_, bind, port_set_baud, get, put, ret. cbn.
      destruct (p_setbauds (b_port u)) as [|[e|] l]; reflexivity. }
    specialize (E s). destruct (client_set_baud_rate baud s) as [o s1] eqn:Es. cbn [fst snd] in *.
    assert (C' : calls (blank s) (blank s1) evs) by exact C.
    destruct o as [a|q|].
    + destruct (IH a s1 (tw_inv1 _ _ T)) as [o2 [evs2 [s2 [t2 [K1 K2]]]]].
      exists o2, (evs ++ evs2), s2, t2. split; eapply runs_call; eassumption.
    + exists (Panic q), evs, s1, (blank s1). split; apply runs_panic; assumption.
    + exists Blocked, evs, s1, (blank s1). split; apply runs_blocked; assumption.
Qed.

Lemma anew_inv : forall s p t, anew s p t -> inv t.
Proof. intros s p t [rb [wb [_ [_ H]]]]. apply reach_inv. eapply reach_new, H. Qed.

Lemma port_used_inv : forall s p, inv s -> inv (port_used s p).
Proof. intros s p I. split; apply I. Qed.

Lemma anew_twins : forall s p t, anew s p t -> twins (blank (port_used s p)) t.
Proof.
  intros s p t [rb [wb [L1 [L2 H]]]]. unfold with_buffers_and_baud_rate in H.
  destruct (HEADER_SIZE + 3 <=? length wb) eqn:E; [|discriminate].
  destruct (copy_into wb 0 4 HEADER_PREFIX) as [w| |] eqn:Ew; try discriminate. cbn [obind] in H. injection H as <-.
  assert (Lw : length w = length wb).
  { unfold copy_into in Ew. unfold HEADER_SIZE in E. rewrite slice_val in Ew by lia. cbn [obind] in Ew.
    unfold copy_from_slice in Ew. rewrite firstn_length, skipn_length in Ew.
    destruct (Nat.min (4 - 0) (length wb - 0) =? length HEADER_PREFIX); [|discriminate]. cbn [obind] in Ew.
    injection Ew as <-. apply splice_length. change (length HEADER_PREFIX) with 4. lia. }
  constructor; cbn; congruence.
Qed.

Lemma L_C88_asks_first : forall R (p : program R) s q t, reach s -> anew s q t -> asks_first p ->
  same_runs p (port_used s q) t.
Proof.
  intros R p s q t Hs Ht Hp. pose proof (port_used_inv s q (reach_inv _ Hs)) as I.
  destruct (asks_blank _ _ Hp _ I) as [o [evs [s' [u [K1 K2]]]]].
  destruct (tw_runs _ _ _ _ _ _ K2 t (mkTw _ _ (anew_twins _ _ _ Ht) (blank_inv _ I) (anew_inv _ _ _ Ht))) as [t' [K3 _]].
  exact (same_runs_of _ _ _ _ _ _ _ _ K1 K3).
Qed.

Lemma port_used_self : forall s, port_used s (b_port s) = s.
Proof. intros []. reflexivity. Qed.

Lemma L_C88_given_up : forall R (p : program R) s t, reach s -> anew s (b_port s) t -> asks_first p -> same_runs p s t.
Proof.
  intros R p s t Hs Ht Hp. pose proof (L_C88_asks_first _ _ _ _ _ Hs Ht Hp) as H. rewrite port_used_self in H. exact H.
Qed.

Lemma L_C88_nothing_read_ahead : forall R (p : program R) s q t, reach s -> anew s q t -> read_ahead s = [] ->
  same_runs p (port_used s q) t.
Proof.
  intros R p s q t Hs Ht Hr. pose proof (port_used_inv s q (reach_inv _ Hs)) as I.
  destruct (program_runs _ p _ I) as [o [evs [s' K]]].
  assert (T : twins (port_used s q) t).
  { pose proof (anew_twins _ _ _ Ht) as []. constructor; try assumption.
    change (skipn (b_used (port_used s q)) (firstn (b_rlen (port_used s q)) (b_rbuf (port_used s q)))) with (read_ahead s).
    rewrite Hr. exact tw_unread. }
  destruct (tw_runs _ _ _ _ _ _ K t (mkTw _ _ T I (anew_inv _ _ _ Ht))) as [t' [K3 _]].
  exact (same_runs_of _ _ _ _ _ _ _ _ K K3).
Qed.

(** ** The loss *)

(** A device that got two pings in one read and has returned the first. *)
Definition two_pings : list byte := code_wire x01 [PING] ++ code_wire x01 [PING].
Definition after_first : bus := snd (device_read (mkDur 1 0) (fresh true [RdData two_pings; RdErr (IoTimeout 0)] 64 32)).
Definition device_anew : bus :=
  mkBus (b_port after_first) (b_baud after_first) (repeat x00 64) 0 0 (header ++ repeat x00 28) true.

Lemma after_first_reach : reach after_first.
Proof.
  eapply reach_call; [apply (fresh_reach true [RdData two_pings; RdErr (IoTimeout 0)] 64 32); lia|apply (api_device_read (mkDur 1 0))|].
  vm_compute. reflexivity.
Qed.

Lemma device_anew_ok : anew after_first (b_port after_first) device_anew.
Proof. exists (repeat x00 64), (repeat x00 32). repeat split. Qed.

Definition listen : program (result instruction read_error) :=
  Call (device_read (mkDur 1 0)) (st_device_read _) (fun r => Done r).

Lemma listen_before : exists evs s', runs listen after_first (Val (Ok (mkInstruction x01 IPing))) evs s'.
Proof.
  do 2 eexists. eapply runs_call; [vm_compute; reflexivity|vm_compute; reflexivity|apply runs_done].
Qed.

Lemma listen_anew : exists e evs s', runs listen device_anew (Val (Err e)) evs s'.
Proof.
  do 3 eexists. eapply runs_call; [vm_compute; reflexivity|vm_compute; reflexivity|apply runs_done].
Qed.

Lemma L_C88_listens_first_refuted : ~ (forall R (p : program R) s t, reach s -> anew s (b_port s) t -> same_runs p s t).
Proof.
  intro H. destruct listen_before as [evs [s' K1]]. destruct listen_anew as [e [evs2 [s2 K2]]].
  destruct (proj1 (H _ listen _ _ after_first_reach device_anew_ok _ _) (ex_intro _ _ K1)) as [u K3].
  destruct (runs_det _ _ _ _ _ _ _ _ _ K2 K3) as [E _]. discriminate E.
Qed.
