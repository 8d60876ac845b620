(** * RemoteProofs: client and simulated motors connected to each other *)
From Coq Require Import ZArith ZifyN ZifyNat ZifyBool.
From Verif Require Import Base Endian Error Checksum Bytestuff Packet Time Bus Data Client
  Instructions Device MockDevice Api Spec CallSpec StreamSpec DeviceSpec InstructionSpec Demo Lib ChecksumProofs
  CrcErrorProofs StuffProofs WriteProofs ReadProofs ApiProofs StreamProofs MessageProofs SendProofs
  SendTheorems ReadTheorems StatusProofs DeviceTheorems InstructionProofs DemoProofs TransferTheorems
  UnderstoodTheorems RemoteSpec.
Ltac Zify.zify_post_hook ::= Z.div_mod_to_equations.

(** [ready] without the history. *)
Record hardy (cap : nat) (s : bus) : Prop := mkHardy {
  ha_inv : inv s;
  ha_discards : p_discards (b_port s) = [];
  ha_writes : p_writes (b_port s) = [];
  ha_baud : b_baud s <> 0%N;
  ha_baud_u32 : (b_baud s < 2 ^ 32)%N;
  ha_rcap : cap <= length (b_rbuf s);
  ha_wcap : cap <= length (b_wbuf s);
}.

Lemma ready_hardy : forall cap s, ready cap s -> hardy cap s.
Proof. intros cap s [R [D [W [B [B2 [L1 L2]]]]]]. constructor; auto. apply reach_inv, R. Qed.

Lemma hardy_script : forall cap s sc, hardy cap s -> hardy cap (set_script s sc).
Proof. intros cap s sc [H1 H2 H3 H4 H4' H5 H6]. constructor; assumption. Qed.

Lemma items_app : forall a b, items (a ++ b) = items a ++ items b.
Proof.
  induction a as [|[bs|e] a IH]; intro b; cbn [app items]; [reflexivity| |]; rewrite IH; [apply app_assoc|reflexivity].
Qed.

Lemma hears_pending : forall s bs s', hears s bs s' -> pending s' = pending s ++ map inl bs.
Proof.
  intros s bs s' [sc [I ->]]. unfold pending, set_script. cbn [set_port b_port b_rbuf b_rlen b_used p_script].
  rewrite items_app, I, app_assoc. reflexivity.
Qed.

Lemma hears_hardy : forall cap s bs s', hears s bs s' -> hardy cap s -> hardy cap s'.
Proof. intros cap s bs s' [sc [I ->]] H. apply hardy_script, H. Qed.

Lemma transmitted_app : forall a b, transmitted (a ++ b) = transmitted a ++ transmitted b.
Proof. intros a b. unfold transmitted. apply flat_map_app. Qed.

Lemma transmitted_reads : forall evs, Forall only_reads evs -> transmitted evs = [].
Proof.
  intros evs H. induction H as [|e evs He H IH]; [reflexivity|].
  destruct e; cbn in *; try contradiction; exact IH.
Qed.

Lemma calls_app : forall a b c e1 e2, calls a b e1 -> calls b c e2 -> calls a c (e1 ++ e2).
Proof. intros a b c e1 e2 H1 H2. unfold calls in *. rewrite H2, H1, app_assoc. reflexivity. Qed.

Lemma calls_same : forall s, calls s s [].
Proof. intro s. unfold calls. rewrite app_nil_r. reflexivity. Qed.

(** [m] succeeds, transmits [w] and leaves things in order. *)
Definition works {A} (cap : nat) (m : M A) (s : bus) (a : A) (w : list byte) (s' : bus) : Prop :=
  m s = (Val a, s') /\ hardy cap s' /\ exists evs, calls s s' evs /\ transmitted evs = w.

Lemma works_ret : forall A cap (a : A) s, hardy cap s -> works cap (ret a) s a [] s.
Proof. intros A cap a s H. split; [reflexivity|]. split; [exact H|]. exists []. split; [apply calls_same|reflexivity]. Qed.

Lemma works_bind : forall A B cap (m : M A) (k : A -> M B) s a w1 s1 b w2 s2,
  works cap m s a w1 s1 -> works cap (k a) s1 b w2 s2 -> works cap (bind m k) s b (w1 ++ w2) s2.
Proof.
  intros A B cap m k s a w1 s1 b w2 s2 [E1 [H1 [e1 [C1 T1]]]] [E2 [H2 [e2 [C2 T2]]]].
  split; [unfold bind; rewrite E1; exact E2|]. split; [exact H2|].
  exists (e1 ++ e2). split; [eapply calls_app; eassumption|]. rewrite transmitted_app, T1, T2. reflexivity.
Qed.

Lemma works_lift : forall A cap (x : out A) a s, hardy cap s -> x = Val a -> works cap (lift x) s a [] s.
Proof. intros A cap x a s H ->. apply (works_ret _ _ _ _ H). Qed.

(** ** Sending *)

(** [w] has been sent: the read buffer is cleared, the port is asked for nothing else. *)
Definition sent (s : bus) (w : list byte) (s' : bus) : Prop :=
  unread s' = [] /\ p_script (b_port s') = p_script (b_port s) /\ length (b_rbuf s') = length (b_rbuf s) /\
  calls s s' [LDiscard None; LWrite w None].

Lemma passes_length : forall cap id i params, passes comes_back cap (i :: params) ->
  length (code_wire id (i :: params)) <= cap /\ (N.of_nat (length (code_wire id (i :: params)) - 7) < 2 ^ 16)%N.
Proof.
  intros cap id i params [P1 [P2 _]]. rewrite code_wire_length.
  pose proof (fcount_third (i :: params)) as F. cbn [length] in *. lia.
Qed.

Lemma sends_works : forall cap m id i params s, sends m id i params -> hardy cap s -> passes comes_back cap (i :: params) ->
  exists s', works cap m s (Ok tt) (code_wire id (i :: params)) s' /\ pending s' = incoming s /\ incoming s' = incoming s /\
    sent s (code_wire id (i :: params)) s'.
Proof.
  intros cap m id i params s Sd [H1 H2 H3 H4 H4' H5 H6] [P1 [P2 _]].
  pose proof (sends_effect _ _ _ _ _ Sd H1) as X. pose proof (fcount_third (i :: params)) as F.
  cbn [length] in *.
  destruct (m s) as [o s'] eqn:E. remember (o, s') as os eqn:Eo.
  destruct X as [X|e w' X1 X2 X3|p X1 X2 X3|e w' X1 X2 X3 X4|w' X1 X2 X3 X4 X5]; injection Eo as <- <-.
  - exfalso. rewrite usize_max_val in X. change (2 ^ 16)%N with 65536%N in P2. lia.
  - exfalso. lia.
  - exfalso. rewrite code_stuff_length in X3. cbn [length] in X3. destruct X3 as [[_ [_ X3]]|[_ X3]]; [|lia].
    rewrite N.mod_small in X3; change (2 ^ 16)%N with 65536%N in *; lia.
  - rewrite H2 in X4. discriminate.
  - rewrite H3 in E. cbn [hd tl] in E. eexists. split; [split; [exact E|]|].
    + split; [constructor|].
      * split; [split; cbn; lia|exact X1].
      * cbn. rewrite H2. reflexivity.
      * reflexivity.
      * exact H4.
      * exact H4'.
      * exact H5.
      * cbn [b_wbuf]. lia.
      * eexists. split; [reflexivity|]. cbn. rewrite app_nil_r. reflexivity.
    + split; [reflexivity|]. split; [reflexivity|]. split; [reflexivity|]. split; [reflexivity|]. split; reflexivity.
Qed.

(** ** The motors *)

Lemma works_must : forall A E cap (m : M (result A E)) s a w s',
  works cap m s (Ok a) w s' -> works cap (must m) s a w s'.
Proof.
  intros A E cap m s a w s' [H1 [H2 H3]]. split; [|split; assumption].
  unfold must, bind. rewrite H1. reflexivity.
Qed.

Lemma mock_ping_writes : writes_parameters mock_ping_params [x0a; x14; x2e].
Proof.
  split.
  - intros s s' r H. unfold mock_ping_params in H. destruct s as [|a [|b [|c s]]]; try discriminate H.
    cbn in H. injection H as <- <-. reflexivity.
  - intros s H. destruct s as [|a [|b [|c [|]]]]; try discriminate H. reflexivity.
Qed.

Lemma mock_copy_writes : forall d, writes_parameters (mock_copy d) d.
Proof. exact fill_writes. Qed.

Lemma nothing_writes : writes_parameters (fun b => Val (b, Ok tt)) [].
Proof. exact no_params_writes. Qed.

(** A status is sent. *)
Lemma mock_status : forall cap id e n enc params s, hardy cap s -> writes_parameters enc params -> n = length params ->
  passes comes_back cap (x55 :: e :: params) ->
  exists s', works cap (must (device_write_status id e n enc)) s tt (code_wire id (x55 :: e :: params)) s' /\
    pending s' = incoming s /\ sent s (code_wire id (x55 :: e :: params)) s'.
Proof.
  intros cap id e n enc params s H Hw -> P.
  destruct (sends_works cap _ id x55 (e :: params) s (sends_status id e params enc Hw) H P) as [s' [W [Q [_ Q2]]]].
  exists s'. split; [|split; [exact Q|exact Q2]]. apply works_must, W.
Qed.

Lemma passes_short : forall cap e, 16 <= cap -> (b2n e < 253)%N -> passes comes_back cap [x55; e].
Proof.
  intros cap e H He. split; [cbn; lia|]. split; [reflexivity|]. unfold comes_back. cbn.
  destruct (beq e xff) eqn:E1; [exact I|]. destruct (beq e xfd); exact I.
Qed.

Lemma load_control : forall t a n, control_read t a n = load t a n.
Proof.
  intros t a n. unfold control_read, load.
  destruct (length t <? N.to_nat a + N.to_nat n) eqn:E.
  - replace (a + n <=? N.of_nat (length t))%N with false by lia. reflexivity.
  - replace (a + n <=? N.of_nat (length t))%N with true by lia. do 2 f_equal. lia.
Qed.

Lemma store_control : forall t a d, control_write t a d = store t a d.
Proof.
  intros t a d. unfold control_write, store.
  destruct (length t <? N.to_nat a + length d) eqn:E.
  - replace (a + N.of_nat (length d) <=? N.of_nat (length t))%N with false by lia. reflexivity.
  - replace (a + N.of_nat (length d) <=? N.of_nat (length t))%N with true by lia. reflexivity.
Qed.

Lemma load_length : forall t a n bs, load t a n = Some bs -> length bs = N.to_nat n.
Proof.
  intros t a n bs. unfold load. destruct (a + n <=? N.of_nat (length t))%N eqn:E; [|discriminate].
  intro H. injection H as <-. rewrite firstn_length, skipn_length. lia.
Qed.

(** What the motor an operation is addressed to sends. *)
Definition status_for (o : op) (m : motor) : byte * list byte :=
  match o with
  | OpPing _ => (x00, [x0a; x14; x2e])
  | OpRead _ a n => match load (m_memory m) a n with Some bs => (x00, bs) | None => (x07, []) end
  | OpWrite _ a d => ((if store (m_memory m) a d then x00 else x07), [])
  | OpRegWrite _ _ _ => (x00, [])
  | OpAction _ =>
      (match m_waiting m with
       | Some (a, d) => if store (m_memory m) a d then x00 else x07
       | None => x07
       end, [])
  | OpSyncWrite _ _ _ => (x00, [])
  | OpScan => (x00, [x0a; x14; x2e])
  end.

(** What [o] is for a device. *)
Definition instruction_for (o : op) : instructions :=
  match o with
  | OpPing _ => IPing
  | OpRead _ a n => IRead a n
  | OpWrite _ a d => IWrite a d
  | OpRegWrite _ a d => IRegWrite a d
  | OpAction _ => IAction
  | OpSyncWrite a n l => ISyncWrite a n (sync_entries l)
  | OpScan => IPing
  end.
Definition packet_id_for (o : op) : byte := match target o with Some id => id | None => xfe end.

(** A motor that the operation reaches and that sends an answer. *)
Definition responds (o : op) (m : motor) : bool :=
  match o with
  | OpSyncWrite _ _ _ => false
  | _ => addressed (packet_id_for o) m
  end.

Lemma target_one : forall id x, (if beq id xfe then None else Some id) = Some x -> id = x /\ x <> xfe.
Proof.
  intros id x H. destruct (beq id xfe) eqn:B; [discriminate|]. injection H as ->. split; [reflexivity|].
  intros ->. rewrite beq_refl in B. discriminate.
Qed.

Lemma target_none : forall id : byte, (if beq id xfe then None else Some id) = None -> id = xfe.
Proof. intros id H. destruct (beq id xfe) eqn:B; [apply beq_true, B|discriminate]. Qed.

Lemma target_id : forall id : byte, match (if beq id xfe then None else Some id) with Some i => i | None => xfe end = id.
Proof. intro id. destruct (beq id xfe) eqn:B; [symmetry; apply beq_true, B|reflexivity]. Qed.

Lemma target_not : forall id : byte, id <> xfe -> (if beq id xfe then None else Some id) = Some id.
Proof. intros id H. destruct (beq id xfe) eqn:B; [apply beq_true in B; contradiction|reflexivity]. Qed.

Lemma addressed_self : forall m, addressed (m_id m) m = true.
Proof. intro m. unfold addressed. rewrite beq_refl. reflexivity. Qed.

Lemma addressed_all : forall m, addressed xfe m = true.
Proof. intro m. unfold addressed. rewrite orb_true_r. reflexivity. Qed.

Definition state_of (m : motor) : mock_state := mkMock (m_memory m) (m_waiting m).

Lemma status_passes : forall cap ms o m e ps, 16 <= cap -> possible comes_back cap ms o -> In m ms -> responds o m = true ->
  status_for o m = (e, ps) -> passes comes_back cap (x55 :: e :: ps).
Proof.
  intros cap ms o m e ps Hc [Pr [Pm Pa]] Hin Ht S.
  assert (S0 : passes comes_back cap [x55; x00]) by (apply passes_short; [exact Hc|reflexivity]).
  assert (S7 : passes comes_back cap [x55; x07]) by (apply passes_short; [exact Hc|reflexivity]).
  assert (Sp : passes comes_back cap [x55; x00; x0a; x14; x2e]) by (split; [cbn; lia|]; split; [reflexivity|exact I]).
  destruct o as [id|id a n|id a d|id a d|id|a n l|]; cbn [status_for responds proper] in *.
  - injection S as <- <-. exact Sp.
  - unfold packet_id_for in Ht. cbn [target] in Ht. rewrite target_id in Ht. unfold addressed in Ht.
    apply orb_true_iff in Ht. destruct Ht as [Ht|Ht]; apply beq_true in Ht; [|destruct Pr; contradiction]. subst id.
    destruct (load (m_memory m) a n) as [bs|] eqn:L.
    + injection S as <- <-. apply (Pa m bs Hin eq_refl L).
    + injection S as <- <-. exact S7.
  - destruct (store (m_memory m) a d); injection S as <- <-; assumption.
  - injection S as <- <-; assumption.
  - destruct (m_waiting m) as [[a d]|]; [destruct (store (m_memory m) a d)|]; injection S as <- <-; assumption.
  - discriminate.
  - injection S as <- <-. exact Sp.
Qed.

Lemma beq_sym : forall a b, beq a b = beq b a.
Proof.
  intros a b. destruct (beq a b) eqn:E.
  - apply beq_true in E. subst. symmetry. apply beq_refl.
  - destruct (beq b a) eqn:E2; [|reflexivity]. apply beq_true in E2. subst. rewrite beq_refl in E. discriminate.
Qed.

Lemma position_app_none : forall x a b, ~ In x a -> position x (a ++ b) = option_map (Nat.add (length a)) (position x b).
Proof.
  intros x a b. induction a as [|y a IH]; intro H; cbn [app position length].
  - destruct (position x b); reflexivity.
  - destruct (beq y x) eqn:E; [apply beq_true in E; subst; exfalso; apply H; left; reflexivity|].
    rewrite IH by (intro K; apply H; right; exact K). destruct (position x b); reflexivity.
Qed.

Lemma position_entries : forall x n l, Forall (fun c => length (sw_data c) = n) l ->
  (forall c, In c l -> ~ In x (sw_data c)) ->
  match find (fun c => beq (sw_id c) x) l with
  | None => position x (sync_entries l) = None
  | Some c => exists k, position x (sync_entries l) = Some k /\
                slice (sync_entries l) (k + 1) (k + 1 + n) = Val (sw_data c) /\ In c l
  end.
Proof.
  intros x n l F H. induction F as [|c l Hc F IH]; cbn [find]; [reflexivity|].
  unfold sync_entries. cbn [flat_map app position]. fold (sync_entries l).
  assert (HL : length (sync_entries l) = length l * S n).
  { clear -F. induction F as [|c l Hc F IH]; [reflexivity|]. unfold sync_entries. cbn [flat_map].
    rewrite app_length. fold (sync_entries l). rewrite IH. cbn [length]. rewrite Hc. lia. }
  destruct (beq (sw_id c) x) eqn:E.
  - exists 0. split; [reflexivity|]. split; [|left; reflexivity].
    unfold slice. cbn [length]. rewrite app_length, Hc.
    replace ((0 + 1 <=? 0 + 1 + n) && (0 + 1 + n <=? S (n + length (sync_entries l)))) with true by lia.
    replace (0 + 1 + n - (0 + 1)) with n by lia. cbn [skipn Nat.add].
    rewrite <- Hc, firstn_app, firstn_all, Nat.sub_diag. cbn [firstn]. rewrite app_nil_r. reflexivity.
  - specialize (IH (fun c' Hi => H c' (or_intror Hi))).
    rewrite position_app_none by (apply H; left; reflexivity).
    destruct (find (fun c' => beq (sw_id c') x) l) as [c'|].
    + destruct IH as [k [P [Sl Hi]]]. rewrite P. cbn [option_map]. eexists. split; [reflexivity|]. split; [|right; exact Hi].
      unfold slice in *. cbn [length]. rewrite app_length, Hc.
      destruct ((k + 1 <=? k + 1 + n) && (k + 1 + n <=? length (sync_entries l))) eqn:B; [|discriminate].
      injection Sl as Sl.
      replace ((S (n + k) + 1 <=? S (n + k) + 1 + n) && (S (n + k) + 1 + n <=? S (n + length (sync_entries l)))) with true by lia.
      replace (S (n + k) + 1 + n - (S (n + k) + 1)) with n by lia.
      replace (k + 1 + n - (k + 1)) with n in Sl by lia.
      replace (S (n + k) + 1) with (S (n + (k + 1))) by lia. cbn [skipn].
      rewrite skipn_app, Hc. replace (n + (k + 1) - n) with (k + 1) by lia.
      rewrite (skipn_all2 (sw_data c)) by lia. cbn [app]. rewrite Sl. reflexivity.
    + rewrite IH. reflexivity.
Qed.

(** One motor carries out the instruction. *)
Lemma handle_works : forall cap ms o m s, 16 <= cap -> hardy cap s -> possible comes_back cap ms o -> In m ms ->
  responds o m = true ->
  exists s', works cap (mock_handle (m_id m) (state_of m) (instruction_for o)) s (state_of (touched o m))
               (code_wire (m_id m) (x55 :: fst (status_for o m) :: snd (status_for o m))) s' /\
    pending s' = incoming s /\ sent s (code_wire (m_id m) (x55 :: fst (status_for o m) :: snd (status_for o m))) s'.
Proof.
  intros cap ms o m s Hc H P Hin Ht.
  destruct (status_for o m) as [e ps] eqn:S.
  pose proof (status_passes cap ms o m e ps Hc P Hin Ht S) as Ps. cbn [fst snd].
  assert (Ret : forall st : mock_state, exists s', works cap (must (device_write_status_ok (m_id m)) ;;; ret st) s st
            (code_wire (m_id m) [x55; x00]) s' /\ pending s' = incoming s /\ sent s (code_wire (m_id m) [x55; x00]) s').
  { intro st. destruct (mock_status cap (m_id m) x00 0 _ [] s H nothing_writes eq_refl (passes_short cap x00 Hc eq_refl)) as [s' [W Q]].
    exists s'. split; [|exact Q]. match goal with |- works _ _ _ _ ?w _ => rewrite <- (app_nil_r w) end. eapply works_bind; [exact W|].
    apply works_ret, W. }
  assert (Ret7 : forall st : mock_state, exists s', works cap (must (device_write_status_error (m_id m) x07) ;;; ret st) s st
            (code_wire (m_id m) [x55; x07]) s' /\ pending s' = incoming s /\ sent s (code_wire (m_id m) [x55; x07]) s').
  { intro st. destruct (mock_status cap (m_id m) x07 0 _ [] s H nothing_writes eq_refl (passes_short cap x07 Hc eq_refl)) as [s' [W Q]].
    exists s'. split; [|exact Q]. match goal with |- works _ _ _ _ ?w _ => rewrite <- (app_nil_r w) end. eapply works_bind; [exact W|].
    apply works_ret, W. }
  destruct o as [id|id a n|id a d|id a d|id|a n l|]; cbn [status_for responds instruction_for mock_handle touched] in *;
    unfold packet_id_for in Ht; cbn [target] in Ht; rewrite ?target_id in Ht; cbv zeta; rewrite ?Ht.
  - injection S as <- <-.
    destruct (mock_status cap (m_id m) x00 3 _ _ s H mock_ping_writes eq_refl Ps) as [s' [W Q]].
    exists s'. split; [|exact Q]. match goal with |- works _ _ _ _ ?w _ => rewrite <- (app_nil_r w) end. eapply works_bind; [exact W|].
    apply works_ret, W.
  - unfold mock_reply_table. cbn [state_of mk_table]. rewrite load_control.
    destruct (load (m_memory m) a n) as [bs|] eqn:L; injection S as <- <-; [|apply Ret7].
    destruct (mock_status cap (m_id m) x00 (N.to_nat n) _ bs s H (mock_copy_writes bs)) as [s' [W Q]];
      [symmetry; apply (load_length _ _ _ _ L)|exact Ps|].
    exists s'. split; [|exact Q]. match goal with |- works _ _ _ _ ?w _ => rewrite <- (app_nil_r w) end. eapply works_bind; [exact W|].
    apply works_ret, W.
  - unfold mock_reply_written. cbn [state_of mk_table mk_action m_memory m_waiting]. rewrite store_control.
    unfold stored. destruct (store (m_memory m) a d) as [mem|]; injection S as <- <-; [apply Ret|apply Ret7].
  - cbn [state_of mk_table m_memory m_waiting]. injection S as <- <-. apply Ret.
  - unfold mock_reply_written. cbn [state_of mk_table mk_action].
    destruct (m_waiting m) as [[a d]|] eqn:Wt; [|injection S as <- <-; apply Ret7].
    rewrite store_control. cbn [m_memory m_waiting]. unfold stored.
    destruct (store (m_memory m) a d) as [mem|]; injection S as <- <-; [apply Ret|apply Ret7].
  - discriminate.
  - injection S as <- <-.
    destruct (mock_status cap (m_id m) x00 3 _ _ s H mock_ping_writes eq_refl Ps) as [s' [W Q]].
    exists s'. split; [|exact Q]. match goal with |- works _ _ _ _ ?w _ => rewrite <- (app_nil_r w) end. eapply works_bind; [exact W|].
    apply works_ret, W.
Qed.

Lemma handle_sync_works : forall cap ms a n l m s, hardy cap s -> possible comes_back cap ms (OpSyncWrite a n l) -> In m ms ->
  works cap (mock_handle (m_id m) (state_of m) (ISyncWrite a n (sync_entries l))) s
    (state_of (touched (OpSyncWrite a n l) m)) [] s.
Proof.
  intros cap ms a n l m s H [[Ha [Hn [Hl [Hd Hx]]]] _] Hin.
  pose proof (position_entries (m_id m) (N.to_nat n) l Hl (fun c Hc => Hx m c Hin Hc)) as K.
  cbn [mock_handle touched]. cbv zeta. destruct (find (fun c => beq (sw_id c) (m_id m)) l) as [c|].
  - destruct K as [k [P [S Hi]]]. rewrite P. change (@nil byte) with ((@nil byte) ++ []).
    eapply works_bind; [apply works_lift; [exact H|exact S]|]. cbn [state_of mk_table mk_action m_memory m_waiting].
    rewrite store_control. apply (works_ret _ _ _ _ H).
  - rewrite K. apply (works_ret _ _ _ _ H).
Qed.

Lemma means_for : forall ms o, proper ms o -> exists i params, message_of o = i :: params /\
  means i params (instruction_for o) /\ follows_rule i (length params) /\ i <> STATUS.
Proof.
  intros ms o P. destruct o as [id|id a n|id a d|id a d|id|a n l|]; cbn [message_of instruction_for proper] in *.
  - exists x01, []. split; [reflexivity|]. apply (request_means _ _ _ _ _ _ _ (rq_ping id)).
  - exists x02, (le16 a ++ le16 n). split; [reflexivity|].
    apply (request_means _ _ _ _ _ _ _ (rq_read_bytes id a n (proj1 (proj2 P)) (proj2 (proj2 P)))).
  - exists x03, (le16 a ++ d). split; [reflexivity|].
    apply (request_means _ _ _ _ _ _ _ (rq_write_bytes id a d P)).
  - exists x04, (le16 a ++ d). split; [reflexivity|].
    apply (request_means _ _ _ _ _ _ _ (rq_reg_write_bytes id a d P)).
  - exists x05, []. split; [reflexivity|]. apply (request_means _ _ _ _ _ _ _ (rq_action id)).
  - exists x83, (le16 a ++ le16 n ++ sync_entries l). split; [reflexivity|].
    destruct P as [Ha [Hn [Hl _]]]. apply (request_means _ _ _ _ _ _ _ (rq_sync_write_bytes a n l Ha Hn Hl)).
  - exists x01, []. split; [reflexivity|]. apply (request_means _ _ _ _ _ _ _ (rq_ping x00)).
Qed.

Lemma read_call_only : forall d evs, Forall (read_call d) evs -> Forall only_reads evs.
Proof. intros d evs H. apply (reads_only d), read_call_reads, H. Qed.

Lemma timed_hardy : forall cap t s s', timed t s s' -> inv s' -> hardy cap s ->
  hardy cap s' /\ exists evs, calls s s' evs /\ transmitted evs = [].
Proof.
  intros cap t s s' T I [H1 H2 H3 H4 H4' H5 H6]. destruct (timed_calls _ _ _ T) as [evs [C F]].
  destruct T as [[F1 F2 F3 F4 F5 F6 F7 F8 F9]]. split.
  - constructor.
    + exact I.
    + rewrite F5. exact H2.
    + rewrite F6. exact H3.
    + rewrite F1. exact H4.
    + rewrite F1. exact H4'.
    + rewrite F2. exact H5.
    + rewrite F3. exact H6.
  - eexists. split; [exact C|]. cbn. apply transmitted_reads, (reads_only _ _ F).
Qed.

Lemma empty_no_header : ~ contains [] header.
Proof. intros [a [b H]]. destruct a; discriminate H. Qed.

Lemma device_works : forall cap s t id i params ins, hardy cap s -> passes comes_back cap (i :: params) ->
  skips (length (b_rbuf s)) (pending s) (map inl (code_wire id (i :: params))) ->
  means i params ins -> follows_rule i (length params) -> i <> STATUS ->
  exists s', works cap (device_read t) s (Ok (mkInstruction id ins)) [] s' /\ pending s' = [].
Proof.
  intros cap s t id i params ins H Ps Sk M Fr Hi.
  destruct (passes_length cap id i params Ps) as [L1 L2].
  destruct (device_read t s) as [o s'] eqn:E.
  destruct (device_read_spec _ _ _ _ (ha_inv _ _ H) E) as [o1 [K1 [K2 [K3 K4]]]].
  destruct (ideal_code_wire (length (b_rbuf s)) [] id i params [] empty_no_header L2) as [p [E1 Q]].
  { etransitivity; [exact L1|apply H]. }
  cbn [app] in E1. rewrite app_nil_r in E1.
  rewrite unst_code_stuff in Q by apply Ps.
  assert (L : 10 <= length (b_rbuf s)) by (apply ideal_ok_inv in E1; apply E1).
  pose proof (listens_skips _ _ _ L Sk _ _ (li_packet _ _ p i [] E1 (packet_instruction _ _ _ _ Q) Hi)) as K.
  destruct (listens_fun _ _ _ _ K1 _ _ K) as [-> P]. exists s'. split; [|exact P]. subst o.
  destruct (L_C44_malformed_rejected _ _ _ _ Q) as [A _]. destruct (A Fr) as [ins' [E2 M']].
  rewrite E2 in E. cbn [obind map_err] in E. rewrite (L_C44_meaning_is_unique _ _ _ _ M M').
  destruct (timed_hardy cap t s s' K2 K3 H) as [H' Ev]. split; [exact E|]. split; [exact H'|exact Ev].
Qed.

(** What a motor sends when [o] is on the wire. *)
Definition sent_by (o : op) (m : motor) : list byte :=
  if responds o m then code_wire (m_id m) (x55 :: fst (status_for o m) :: snd (status_for o m)) else [].

Lemma responds_target : forall o m id, target o = Some id -> responds o m = beq id (m_id m).
Proof.
  intros o m id Ht.
  assert (K : responds o m = addressed id m).
  { unfold responds, packet_id_for. rewrite Ht. destruct o; try reflexivity. discriminate Ht. }
  rewrite K. unfold addressed.
  assert (N : id <> xfe) by (destruct o; cbn [target] in Ht; try discriminate; apply target_one in Ht; destruct Ht; subst; assumption).
  destruct (beq id xfe) eqn:B; [apply beq_true in B; contradiction|]. apply orb_false_r.
Qed.

Lemma touched_other : forall o m, (forall a n l, o <> OpSyncWrite a n l) -> responds o m = false -> touched o m = m.
Proof.
  intros o m Ns B. destruct o as [id|id a n|id a d|id a d|id|a n l|]; cbn [responds touched] in *; try reflexivity;
    try (destruct (Ns _ _ _ eq_refl)); unfold packet_id_for in B; cbn [target] in B; rewrite target_id in B; rewrite B; reflexivity.
Qed.

Lemma incoming_of_pending : forall s, pending s = [] -> incoming s = [].
Proof. intros s H. unfold pending in H. apply app_eq_nil in H. apply H. Qed.

Lemma iteration_works : forall cap ms o m s, 16 <= cap -> hardy cap s -> possible comes_back cap ms o -> In m ms ->
  skips (length (b_rbuf s)) (pending s) (map inl (code_wire (packet_id_for o) (message_of o))) ->
  exists s', works cap (mock_iteration (m_id m) (state_of m)) s (state_of (touched o m)) (sent_by o m) s' /\
    pending s' = [].
Proof.
  intros cap ms o m s Hc H P Hin Sk. pose proof P as [Pr [Pm _]].
  destruct (means_for ms o Pr) as [i [params [Em [Mn [Fr Hi]]]]]. rewrite Em in *.
  destruct (device_works cap s dur_10ms (packet_id_for o) i params _ H Pm Sk Mn Fr Hi) as [s1 [W1 P1]].
  assert (H1 : hardy cap s1) by apply W1.
  assert (Sy : (exists a n l, o = OpSyncWrite a n l) \/ (forall a n l, o <> OpSyncWrite a n l))
    by (destruct o; try (right; discriminate); left; eauto).
  destruct Sy as [[a [n [l ->]]]|Ns].
  { exists s1. split; [|exact P1]. change (sent_by (OpSyncWrite a n l) m) with ((@nil byte) ++ []).
    unfold mock_iteration. eapply works_bind; [exact W1|]. cbv beta iota. cbn [i_id i_instruction].
    change (packet_id_for (OpSyncWrite a n l)) with xfe.
    rewrite beq_refl, andb_false_r. apply (handle_sync_works cap ms a n l m s1 H1 P Hin). }
  assert (Ad : responds o m = addressed (packet_id_for o) m) by (destruct o; try reflexivity; destruct (Ns _ _ _ eq_refl)).
  unfold sent_by, mock_iteration. destruct (responds o m) eqn:B.
  - destruct (handle_works cap ms o m s1 Hc H1 P Hin B) as [s2 [W2 [P2 _]]].
    exists s2. split; [|rewrite P2; apply incoming_of_pending, P1].
    change (code_wire (m_id m) (x55 :: fst (status_for o m) :: snd (status_for o m)))
      with ([] ++ code_wire (m_id m) (x55 :: fst (status_for o m) :: snd (status_for o m))).
    eapply works_bind; [exact W1|]. cbv beta iota. cbn [i_id i_instruction].
    replace (_ && _) with false; [exact W2|]. rewrite <- negb_orb. symmetry in Ad. unfold addressed in Ad. rewrite Ad. reflexivity.
  - exists s1. split; [|exact P1]. change (@nil byte) with ((@nil byte) ++ []).
    eapply works_bind; [exact W1|]. cbv beta iota. cbn [i_id i_instruction].
    rewrite <- negb_orb. symmetry in Ad. unfold addressed in Ad. rewrite Ad. cbn [negb].
    rewrite (touched_other o m Ns B). apply works_ret, H1.
Qed.

(** ** All motors *)

Definition motor_ok (cap : nat) (d : node) (m : motor) : Prop :=
  is_motor d m /\ hardy cap (n_bus d) /\ skips (length (b_rbuf (n_bus d))) (pending (n_bus d)) [].

Lemma skips_app : forall cap a b x, skips cap a b -> skips cap (a ++ x) (b ++ x).
Proof.
  intros cap a b x H. induction H as [line|g id stuffed w l1 l2 G F Hc H IH]; [constructor|].
  rewrite <- app_assoc. econstructor; eassumption.
Qed.

Lemma reacts_fun : forall cap ms0 o, 16 <= cap -> possible comes_back cap ms0 o -> forall w ds rs ds1,
  w = code_wire (packet_id_for o) (message_of o) ->
  reacts w ds rs ds1 -> forall ms, Forall2 (motor_ok cap) ds ms -> incl ms ms0 ->
  rs = map (sent_by o) ms /\
  Forall2 (fun d m => motor_ok cap d m /\ pending (n_bus d) = []) ds1 (map (touched o) ms).
Proof.
  intros cap ms0 o Hc P w ds rs ds1 Hw R. induction R as [|d st s x s' evs ds rs ds' E1 He Ei C R IH]; intros ms F In_.
  - inversion F; subst. split; [reflexivity|constructor].
  - inversion F as [|? m ? ms' [[M1 M2] [Hd Sk]] F' Ea Eb]; subst.
    destruct (IH ms' F' (fun y Hy => In_ y (or_intror Hy))) as [-> F1].
    rewrite M2 in E1. injection E1 as <-.
    destruct (iteration_works cap ms0 o m s Hc (hears_hardy _ _ _ _ He Hd) P (In_ m (or_introl eq_refl))) as [s2 [[W1 [W2 [evs2 [W3 W4]]]] Pe]].
    { rewrite (hears_pending _ _ _ He). destruct He as [sc [_ ->]].
      change (length (b_rbuf (set_script _ _))) with (length (b_rbuf (n_bus d))).
      apply (skips_app _ _ [] _ Sk). }
    rewrite M1 in Ei. change (mkMock (m_memory m) (m_waiting m)) with (state_of m) in Ei.
    rewrite W1 in Ei. injection Ei as <- <-.
    pose proof (calls_inj _ _ _ _ C W3) as K. subst evs2. rewrite W4. split; [reflexivity|].
    cbn [map]. constructor; [|exact F1]. split; [split; [|split]|].
    + split; cbn [n_id n_state]; [|reflexivity]. rewrite M1. destruct o; cbn; try reflexivity;
        repeat match goal with |- context [if ?c then _ else _] => destruct c | |- context [match ?c with _ => _ end] => destruct c end; reflexivity.
    + exact W2.
    + cbn [n_bus]. rewrite Pe. constructor.
    + exact Pe.
Qed.

(** Silence or a status. *)
Definition chatter (cap : nat) (r : list byte) : Prop :=
  r = [] \/ exists id stuffed, framed id (STATUS :: stuffed) r /\ length r <= cap.

Lemma code_stuff_cons : forall i l, i <> xff -> code_stuff (i :: l) = i :: tl (code_stuff (i :: l)).
Proof.
  intros i l H. pose proof (code_stuff_some (i :: l)) as S. inversion S; subst.
  - reflexivity.
  - exfalso. congruence.
Qed.

Lemma code_wire_framed : forall cap id params, passes comes_back cap (x55 :: params) ->
  framed id (STATUS :: tl (code_stuff (x55 :: params))) (code_wire id (x55 :: params)).
Proof.
  intros cap id params P. destruct (passes_length cap id x55 params P) as [_ L].
  change STATUS with x55. rewrite <- code_stuff_cons by discriminate.
  exists (calculate_checksum 0 (covered id (x55 :: params))). split; [apply code_wire_wire_of_body|].
  split; [|apply covered_crc].
  rewrite code_wire_length in L. rewrite code_stuff_length. lia.
Qed.

Lemma chatter_skips : forall cap n rs, cap <= n -> Forall (chatter cap) rs ->
  skips n (map inl (concat rs)) [].
Proof.
  intros cap n rs L F. induction F as [|r rs Hr F IH]; cbn [concat]; [constructor|].
  destruct Hr as [->|[id [st [Fr Lr]]]]; [exact IH|].
  rewrite map_app. apply (skip_status n [] id st r _ _ empty_no_header Fr); [lia|exact IH].
Qed.

Lemma sent_chatter : forall cap ms o m, 16 <= cap -> possible comes_back cap ms o -> In m ms -> chatter cap (sent_by o m).
Proof.
  intros cap ms o m Hc P Hin. unfold sent_by. destruct (responds o m) eqn:B; [|left; reflexivity].
  assert (Ps : passes comes_back cap (x55 :: fst (status_for o m) :: snd (status_for o m))).
  { apply (status_passes cap ms o m); auto. destruct (status_for o m); reflexivity. }
  right. do 2 eexists. split; [eapply code_wire_framed, Ps|]. apply (passes_length cap _ _ _ Ps).
Qed.

Lemma overhears_ok : forall cap before ds rs ds', overhears before ds rs ds' ->
  forall bs ms, before = concat bs -> Forall (chatter cap) bs -> Forall (chatter cap) rs ->
  Forall2 (fun d m => motor_ok cap d m /\ pending (n_bus d) = []) ds ms ->
  Forall2 (motor_ok cap) ds' ms.
Proof.
  intros cap before ds rs ds' O. induction O as [before|before d s ds r rs ds' He O IH]; intros bs ms Eb Fb Fr F.
  - inversion F; subst. constructor.
  - inversion F as [|? m ? ms' [[M [Hd Sk]] Pe] F' Ea Ec]; subst. inversion Fr as [|? ? Hr Fr']; subst.
    constructor.
    + split; [exact M|]. cbn [n_bus]. split; [apply (hears_hardy _ _ _ _ He Hd)|].
      rewrite (hears_pending _ _ _ He), Pe. cbn [app]. rewrite <- concat_app.
      apply (chatter_skips cap).
      * destruct He as [sc [_ ->]]. apply Hd.
      * apply Forall_app; auto.
    + apply (IH (bs ++ [r])); [rewrite concat_app; cbn; rewrite app_nil_r; reflexivity| |exact Fr'|exact F'].
      apply Forall_app. split; [exact Fb|]. constructor; [exact Hr|constructor].
Qed.

(** Only one motor answers. *)
Lemma concat_sent_none : forall o id ms, target o = Some id -> ~ In id (map m_id ms) -> concat (map (sent_by o) ms) = [].
Proof.
  intros o id ms Ht. induction ms as [|m ms IH]; intro N; [reflexivity|]. cbn [map concat].
  rewrite IH by (intro K; apply N; right; exact K). unfold sent_by. rewrite (responds_target o m id Ht).
  destruct (beq id (m_id m)) eqn:B; [|reflexivity]. apply beq_true in B. exfalso. apply N. left. auto.
Qed.

Lemma concat_sent_one : forall o id ms m, target o = Some id -> NoDup (map m_id ms) -> In m ms -> m_id m = id ->
  concat (map (sent_by o) ms) = code_wire id (x55 :: fst (status_for o m) :: snd (status_for o m)).
Proof.
  intros o id ms m Ht N Hin Hm. induction ms as [|m' ms IH]; [contradiction|]. cbn [map concat].
  inversion N as [|? ? N1 N2]; subst. destruct Hin as [->|Hin].
  - rewrite (concat_sent_none o (m_id m) ms Ht N1), app_nil_r. unfold sent_by. rewrite (responds_target o m _ Ht), beq_refl. reflexivity.
  - rewrite (IH N2 Hin). unfold sent_by at 1. rewrite (responds_target o m' _ Ht).
    destruct (beq (m_id m) (m_id m')) eqn:B; [|reflexivity].
    apply beq_true in B. exfalso. apply N1. rewrite <- B. apply in_map, Hin.
Qed.

(** ** The client *)

(** The call transmits one instruction, waits for one status and makes its result of that. *)
Definition shaped {R} (m : M R) (id i : byte) (params : list byte) (k : N)
    (fin : result packet read_error -> out R) : Prop :=
  exists enc, writes_parameters enc params /\ is_u16 k /\
    forall s s1, write_instruction id i (length params) enc s = (Val (Ok tt), s1) ->
      m s = (r <- read_status_response k ;; lift (fin r)) s1.

Lemma shaped_works : forall R (m : M R) id i params k fin cap s, shaped m id i params k fin ->
  hardy cap s -> passes comes_back cap (i :: params) ->
  exists s1, works cap (write_instruction id i (length params) (fill params)) s (Ok tt) (code_wire id (i :: params)) s1 /\
    pending s1 = incoming s /\ m s = (r <- read_status_response k ;; lift (fin r)) s1.
Proof.
  intros R m id i params k fin cap s [enc [Hw [Hk Sh]]] H P.
  destruct (sends_works cap _ id i params s (sends_instruction id i params enc Hw) H P) as [s1 [W [Q _]]].
  exists s1. split; [|split; [exact Q|apply Sh, W]].
  destruct (sends_works cap _ id i params s (sends_instruction id i params (fill params) (fill_writes params)) H P) as [s2 [W2 [Q2 _]]].
  assert (E : write_instruction id i (length params) (fill params) s = write_instruction id i (length params) enc s).
  { pose proof P as [P1 [P2 _]]. cbn [length] in *.
    rewrite (sends_value _ id i params s (sends_instruction id i params enc Hw) (ha_inv _ _ H)),
      (sends_value _ id i params s (sends_instruction id i params _ (fill_writes params)) (ha_inv _ _ H)); [reflexivity|..];
      rewrite usize_max_val; change (2 ^ 16)%N with 65536%N in P2; lia. }
  destruct W as [W1 W']. split; [rewrite E; exact W1|exact W'].
Qed.

Lemma shaped_transmits : forall R (m : M R) id i params k fin cap s o s' evs, shaped m id i params k fin ->
  hardy cap s -> passes comes_back cap (i :: params) -> m s = (o, s') -> calls s s' evs ->
  transmitted evs = code_wire id (i :: params) /\ hardy cap s'.
Proof.
  intros R m id i params k fin cap s o s' evs Sh H P E C.
  destruct (shaped_works _ _ _ _ _ _ _ cap s Sh H P) as [s1 [[_ [H1 [e1 [C1 T1]]]] [_ Em]]].
  rewrite Em in E.
  assert (K : exists s2, s' = s2 /\ hardy cap s2 /\ exists e2, calls s1 s2 e2 /\ transmitted e2 = []).
  { unfold bind, lift in E. destruct (read_status_response k s1) as [x s2] eqn:Er. exists s2.
    split; [destruct x; injection E; auto|].
    destruct (read_status_spec _ _ _ _ (ha_inv _ _ H1) Er) as [[p [_ [_ ->]]]|[t [o1 [_ [_ [_ [I T]]]]]]].
    - split; [exact H1|]. exists []. split; [apply calls_same|reflexivity].
    - apply (timed_hardy cap t _ _ T I H1). }
  destruct K as [s2 [-> [H2 [e2 [C2 T2]]]]]. split; [|exact H2].
  rewrite (calls_inj _ _ _ _ C (calls_app _ _ _ _ _ C1 C2)), transmitted_app, T1, T2, app_nil_r. reflexivity.
Qed.

Lemma ideal_timeout : forall cap e rest, 10 <= cap -> ideal cap (inr e :: rest) = (Val (Err (RIo e)), rest).
Proof.
  intros cap e rest H. unfold ideal. replace (cap <? 10) with false by lia. cbn [upto from_err].
  destruct (next_event cap []) as [[ev r]|] eqn:N; [|reflexivity].
  exfalso. revert N. unfold next_event. cbn. discriminate.
Qed.

Lemma shaped_reads : forall R (m : M R) id i params k fin cap s, shaped m id i params k fin ->
  hardy cap s -> passes comes_back cap (i :: params) -> 16 <= cap ->
  (forall id' e ps rest, passes comes_back cap (x55 :: e :: ps) ->
     incoming s = map inl (code_wire id' (x55 :: e :: ps)) ++ rest ->
     (no_error e -> exists p, packet_is p id' (x55 :: e :: ps) /\ fst (m s) = fin (Ok p)) /\
     (~ no_error e -> fst (m s) = fin (Err (RMotorError e)))) /\
  (forall x rest, incoming s = inr x :: rest -> fst (m s) = fin (Err (RIo x))).
Proof.
  intros R m id i params k fin cap s Sh H P Hc.
  destruct (shaped_works _ _ _ _ _ _ _ cap s Sh H P) as [s1 [[_ [H1 _]] [Pe Em]]]. rewrite Em.
  destruct (read_status_response k s1) as [x s2] eqn:Er. unfold bind. rewrite Er.
  destruct Sh as [enc [_ [Hk _]]]. destruct H1 as [I1 _ _ B1 _ L1 _].
  destruct (read_status_spec _ _ _ _ I1 Er) as [[p [T _]]|[t [o1 [_ [Id [Ho _]]]]]].
  { exfalso. destruct (response_timeout_val (b_dbg s1) (b_baud s1) k Hk B1) as [t T']. congruence. }
  rewrite Pe in Id. split.
  - intros id' e ps rest Ps Hi.
    destruct (passes_length cap id' x55 (e :: ps) Ps) as [W1 W2].
    destruct (ideal_code_wire (length (b_rbuf s1)) [] id' x55 (e :: ps) rest empty_no_header W2) as [p [E1 Q]]; [lia|].
    cbn [app] in E1. rewrite Hi, E1 in Id. injection Id as <- _.
    rewrite unst_code_stuff in Q by apply Ps. cbn [status_of] in Ho.
    rewrite (status_check_status _ _ _ _ Q) in Ho.
    assert (Bz : N.land (b2n e) 127 = (b2n e mod 128)%N) by (destruct e; reflexivity).
    rewrite Bz in Ho. split; intro Z.
    + unfold no_error in Z. rewrite Z in Ho. exists p. split; [exact Q|]. subst x. reflexivity.
    + unfold no_error in Z. apply N.eqb_neq in Z. rewrite Z in Ho. subst x. reflexivity.
  - intros y rest Hi. rewrite Hi, ideal_timeout in Id by lia. injection Id as <- _. cbn in Ho. subst x. reflexivity.
Qed.
