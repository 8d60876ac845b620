(** * TurnTheorems: simulated motors do not take turns *)
From Coq Require Import ZArith ZifyN ZifyNat ZifyBool.
From Verif Require Import Base Endian Error Checksum Bytestuff Packet Time Bus Data Client
  Instructions Device MockDevice Api Spec CallSpec StreamSpec DeviceSpec InstructionSpec Demo Lib ChecksumProofs
  CrcErrorProofs StuffProofs WriteProofs ReadProofs ApiProofs StreamProofs MessageProofs SendProofs
  SendTheorems ReadTheorems StatusProofs DeviceTheorems InstructionProofs DemoProofs TransferTheorems
  UnderstoodTheorems IterProofs RemoteSpec RemoteProofs RemoteTheorems RemoteExtra TurnSpec.
Ltac Zify.zify_post_hook ::= Z.div_mod_to_equations.

(** ** A device does not hear other devices *)

Lemma L_C68_deaf : forall t s u, reach s -> reach u -> 10 <= length (b_rbuf s) ->
  length (b_rbuf u) = length (b_rbuf s) -> skips (length (b_rbuf s)) (pending s) (pending u) ->
  fst (device_read t s) = fst (device_read t u) /\
  pending (snd (device_read t s)) = pending (snd (device_read t u)).
Proof.
  intros t s u Rs Ru L Lu Sk. destruct (device_read t s) as [o s'] eqn:Es, (device_read t u) as [o2 u'] eqn:Eu. cbn [fst snd].
  destruct (device_read_spec _ _ _ _ (reach_inv _ Rs) Es) as [o1 [K1 [_ [_ ->]]]].
  destruct (device_read_spec _ _ _ _ (reach_inv _ Ru) Eu) as [o3 [K3 [_ [_ ->]]]].
  rewrite Lu in K3. pose proof (listens_skips _ _ _ L Sk _ _ K3) as K.
  destruct (listens_fun _ _ _ _ K1 _ _ K) as [-> P]. split; [reflexivity|exact P].
Qed.

Lemma device_read_mute : forall cap t, mute cap (device_read t).
Proof.
  intros cap t s o s' H E. destruct (device_read_spec _ _ _ _ (ha_inv _ _ H) E) as [o1 [_ [T [I _]]]].
  apply (timed_hardy cap t s s' T I H).
Qed.

Lemma device_read_no_status : forall t s id ps s', inv s ->
  device_read t s <> (Val (Ok (mkInstruction id (IUnknown STATUS ps))), s').
Proof.
  intros t s id ps s' I E. destruct (device_read_spec _ _ _ _ I E) as [o1 [K [_ [_ Eo]]]].
  destruct (listens_inv _ _ _ _ K) as [line [_ [[pk [i [-> [Ei [Pi Ne]]]]]|[Ei Nk]]]].
  - assert (Hi : pk_instruction pk = Val STATUS); [|congruence].
    unfold instruction_try_from in Eo. destruct (pk_id pk) as [x|x|]; try discriminate. cbn [obind] in Eo.
    destruct (in_parameters pk) as [ps'|x'|]; try discriminate. cbn [obind] in Eo. rewrite Pi in Eo. cbn [obind] in Eo.
    destruct (parse_instructions i ps') as [[ins|e]|?|] eqn:Ep; try discriminate. cbn [obind map_err] in Eo.
    injection Eo as E1 E2. subst ins. rewrite Pi. f_equal. clear -Ep. unfold parse_instructions in Ep.
    cbv zeta in Ep.
    repeat (let c := match type of Ep with (if ?c then _ else _) = _ => c end in
            destruct c;
            [try (destruct (param_count_check _ _)); try (destruct (param_count_check_min _ _));
             repeat (match type of Ep with
                     | context [obind ?c _] => lazymatch c with context [obind] => fail | _ => destruct c as [?|?|]; cbn [obind] in Ep end
                     end); congruence|]).
    congruence.
  - destruct o1 as [[p|e]|x|]; try discriminate. destruct (Nk p eq_refl).
Qed.

Lemma mock_await_mute : forall cap n id, mute cap (mock_await n id).
Proof.
  intros cap n id. induction n as [|n IH]; cbn [mock_await]; [apply mute_lift|].
  apply mute_bind; [apply device_read_mute|]. intros [p|e].
  - destruct (i_instruction p); apply mute_ret.
  - destruct e as [x|x|x|x]; try apply mute_ret; destruct (is_timeout_error x); [exact IH|apply mute_ret].
Qed.

Lemma mock_await_never : forall n id s s', inv s -> mock_await n id s <> (Val true, s').
Proof.
  induction n as [|n IH]; intros id s s' I E; [discriminate E|]. cbn [mock_await] in E. unfold bind in E.
  destruct (device_read dur_10ms s) as [[r|?|] s1] eqn:Er; try discriminate E.
  destruct (device_read_spec _ _ _ _ I Er) as [_ [_ [_ [I1 _]]]].
  destruct r as [p|e].
  - destruct p as [i ins]. cbn [i_instruction i_id] in E. destruct ins; try discriminate E.
    injection E as E _. destruct (beq instruction STATUS) eqn:B; [|discriminate E].
    apply beq_true in B. subst. apply (device_read_no_status _ _ _ _ _ I Er).
  - destruct e as [x|x|x|x]; try discriminate E. destruct (is_timeout_error x); [|discriminate E].
    apply (IH id s1 s' I1 E).
Qed.

(** ** What the motors do *)

Definition quiet {A} (m : M A) : Prop := forall s o s', inv s -> m s = (o, s') ->
  inv s' /\ exists evs, calls s s' evs /\ transmitted evs = [].

Lemma quiet_lift : forall A (x : out A), quiet (lift x).
Proof. intros A x s o s' H E. injection E as _ <-. split; [exact H|]. exists []. split; [apply calls_same|reflexivity]. Qed.

Lemma quiet_ret : forall A (x : A), quiet (ret x).
Proof. intros A x. apply (quiet_lift A (Val x)). Qed.

Lemma quiet_get : quiet get.
Proof. intros s o s' H E. injection E as _ <-. split; [exact H|]. exists []. split; [apply calls_same|reflexivity]. Qed.

Lemma quiet_bind_if : forall A B (m : M A) (k : A -> M B) (P : A -> Prop), quiet m ->
  (forall s a s', inv s -> m s = (Val a, s') -> P a) -> (forall a, P a -> quiet (k a)) -> quiet (bind m k).
Proof.
  intros A B m k P Hm HP Hk s o s' H E. unfold bind in E. destruct (m s) as [x s1] eqn:E1.
  destruct (Hm s x s1 H E1) as [H1 [e1 [C1 T1]]]. destruct x as [a|p|].
  - destruct (Hk a (HP _ _ _ H E1) s1 o s' H1 E) as [H2 [e2 [C2 T2]]]. split; [exact H2|]. exists (e1 ++ e2).
    split; [eapply calls_app; eassumption|]. rewrite transmitted_app, T1, T2. reflexivity.
  - injection E as _ <-. eauto.
  - injection E as _ <-. eauto.
Qed.

Lemma quiet_bind : forall A B (m : M A) (k : A -> M B), quiet m -> (forall a, quiet (k a)) -> quiet (bind m k).
Proof. intros A B m k Hm Hk. apply (quiet_bind_if A B m k (fun _ => True)); auto. Qed.

Lemma device_read_quiet : forall t, quiet (device_read t).
Proof.
  intros t s o s' H E. destruct (device_read_spec _ _ _ _ H E) as [o1 [_ [T [I _]]]]. split; [exact I|].
  destruct (timed_calls _ _ _ T) as [evs [C F]]. eexists. split; [exact C|]. cbn. apply transmitted_reads, (reads_only _ _ F).
Qed.

Lemma mock_await_quiet : forall n id, quiet (mock_await n id).
Proof.
  intros n id. induction n as [|n IH]; cbn [mock_await]; [apply quiet_lift|].
  apply quiet_bind; [apply device_read_quiet|]. intros [p|e].
  - destruct (i_instruction p); apply quiet_ret.
  - destruct e as [x|x|x|x]; try apply quiet_ret; destruct (is_timeout_error x); [exact IH|apply quiet_ret].
Qed.

Lemma sync_bulk_quiet : forall id t a n first ids, first <> id -> quiet (mock_sync_bulk_read id t a n (first :: ids)).
Proof.
  intros id t a n first ids Ne. cbn [mock_sync_bulk_read].
  destruct (beq first id) eqn:B; [apply beq_true in B; contradiction|].
  apply quiet_bind; [apply quiet_get|]. intro s0.
  apply (quiet_bind_if _ _ _ _ (fun b => b = false)).
  - apply mock_await_quiet.
  - intros s b s' I E. destruct b; [|reflexivity]. destruct (mock_await_never _ _ _ _ I E).
  - intros b ->. apply quiet_ret.
Qed.

Lemma every_fifth_head : forall k x l, every_fifth (S k) (x :: l) = x :: every_fifth k (skipn 5 (x :: l)).
Proof. reflexivity. Qed.

(** The instruction and the motor that is asked first. *)
Definition asks_first (ins : instructions) (first : byte) : Prop :=
  (exists a n ids, ins = ISyncRead a n (first :: ids)) \/ (exists ps, ins = IBulkRead (first :: ps)).

Lemma handle_quiet : forall id st ins first, asks_first ins first -> first <> id -> quiet (mock_handle id st ins).
Proof.
  intros id st ins first [[a [n [ids ->]]]|[ps ->]] Ne; cbn [mock_handle]; cbv zeta.
  - destruct (existsb (beq id) (first :: ids)); [|apply quiet_ret].
    apply quiet_bind; [apply sync_bulk_quiet, Ne|]. intro. apply quiet_ret.
  - cbn [length]. rewrite every_fifth_head. destruct (position id (first :: _)) as [k|]; [|apply quiet_ret].
    apply quiet_bind; [apply quiet_lift|]. intro a. apply quiet_bind; [apply quiet_lift|]. intro n.
    apply quiet_bind; [apply sync_bulk_quiet, Ne|]. intro. apply quiet_ret.
Qed.

Lemma iteration_quiet : forall id st s o s' ins pid first, inv s ->
  (exists s1, device_read dur_10ms s = (Val (Ok (mkInstruction pid ins)), s1)) -> asks_first ins first -> first <> id ->
  mock_iteration id st s = (o, s') -> exists evs, calls s s' evs /\ transmitted evs = [].
Proof.
  intros id st s o s' ins pid first I [s1 Er] As Ne E.
  destruct (device_read_quiet _ _ _ _ I Er) as [I1 [e1 [C1 T1]]].
  unfold mock_iteration, bind in E. rewrite Er in E. cbn [i_id i_instruction] in E.
  assert (K : exists e2, calls s1 s' e2 /\ transmitted e2 = []).
  { destruct (_ && _).
    - apply (quiet_ret _ st s1 o s' I1 E).
    - apply (handle_quiet id st ins first As Ne s1 o s' I1 E). }
  destruct K as [e2 [C2 T2]]. exists (e1 ++ e2). split; [eapply calls_app; eassumption|].
  rewrite transmitted_app, T1, T2. reflexivity.
Qed.

Lemma L_C68_waits_forever : forall s id st first i params w rest o s' evs, reach s ->
  (exists a n ids, is_u16 a /\ is_u16 n /\ i :: params = sync_read_message (first :: ids) a n) \/
  (exists q qs, br_id q = first /\ i :: params = bulk_read_message (q :: qs)) ->
  first <> id -> is_frame xfe (i :: params) w -> ff_runs_ok (i :: params) -> length w <= length (b_rbuf s) ->
  pending s = map inl w ++ rest ->
  mock_iteration id st s = (o, s') -> calls s s' evs -> transmitted evs = [].
Proof.
  intros s id st first i params w rest o s' evs R Msg Ne F Ff L Pe E C.
  assert (M : exists ins, means i params ins /\ asks_first ins first /\ follows_rule i (length params) /\ i <> STATUS).
  { destruct Msg as [[a [n [ids [Ha [Hn Em]]]]]|[q [qs [<- Em]]]].
    - injection Em as -> ->. exists (ISyncRead a n (first :: ids)). split; [apply m_sync_read; assumption|].
      split; [left; eauto|]. split; [|discriminate]. cbn. rewrite ?app_length. cbn. lia.
    - injection Em as -> ->. eexists. split; [apply m_bulk_read|]. split; [right; eauto|]. split; [exact I|discriminate]. }
  destruct M as [ins [Mn [As [Fr Hi]]]].
  destruct (L_C42_returns_the_instruction s dur_10ms (pending s) [] xfe i params w rest R) as [s1 [P1 [K _]]]; try assumption.
  { constructor. }
  { apply empty_no_header. }
  destruct (K Fr) as [ins' [Mn' Er]]. rewrite (L_C44_meaning_is_unique _ _ _ _ Mn' Mn) in Er.
  destruct (iteration_quiet id st s o s' ins xfe first (reach_inv _ R) (ex_intro _ s1 Er) As Ne E) as [e2 [C2 T2]].
  rewrite (calls_inj _ _ _ _ C C2). exact T2.
Qed.

(** What the first motor sends. *)
Definition answer_of (m : motor) (a n : N) : byte * list byte :=
  match load (m_memory m) a n with Some bs => (x00, bs) | None => (x07, []) end.
Definition answer_wire (m : motor) (a n : N) : list byte :=
  code_wire (m_id m) (x55 :: fst (answer_of m a n) :: snd (answer_of m a n)).

Lemma answer_of_passes : forall cap m a n, 16 <= cap -> answer_passes cap m a n ->
  passes comes_back cap (x55 :: fst (answer_of m a n) :: snd (answer_of m a n)).
Proof.
  intros cap m a n Hc H. unfold answer_of. destruct (load (m_memory m) a n) as [bs|] eqn:L; [apply H, L|].
  apply passes_short; [exact Hc|reflexivity].
Qed.

Lemma reply_table_works : forall cap m a n s, 16 <= cap -> hardy cap s -> answer_passes cap m a n ->
  exists s', works cap (mock_reply_table (m_id m) (m_memory m) a n) s tt (answer_wire m a n) s'.
Proof.
  intros cap m a n s Hc H Ap. pose proof (answer_of_passes cap m a n Hc Ap) as Ps.
  unfold mock_reply_table, answer_wire, answer_of in *. rewrite load_control.
  destruct (load (m_memory m) a n) as [bs|] eqn:L; cbn [fst snd] in *.
  - destruct (mock_status cap (m_id m) x00 (N.to_nat n) _ bs s H (mock_copy_writes bs)) as [s' [W Q]];
      [symmetry; apply (load_length _ _ _ _ L)|exact Ps|]. eauto.
  - destruct (mock_status cap (m_id m) x07 0 _ [] s H nothing_writes eq_refl Ps) as [s' [W Q]]. eauto.
Qed.

Definition asks (ins : instructions) (first : byte) (a n : N) : Prop :=
  (exists ids, ins = ISyncRead a n (first :: ids)) \/
  (exists ps, ins = IBulkRead (first :: le16 a ++ le16 n ++ ps) /\ is_u16 a /\ is_u16 n).

Lemma asks_asks_first : forall ins first a n, asks ins first a n -> asks_first ins first.
Proof. intros ins first a n [[ids ->]|[ps [-> _]]]; [left|right]; eauto. Qed.

Lemma u16_le16 : forall n l, is_u16 n -> read_u16_le (le16 n ++ l) = Val n.
Proof.
  intros n l H. cbn [le16 app]. rewrite read_u16_le_val, !b2n_n2b. unfold is_u16 in H. f_equal.
  change (2 ^ 16)%N with 65536%N in H. lia.
Qed.

Lemma u16_param_1 : forall f a n ps, is_u16 a -> u16_param (f :: le16 a ++ le16 n ++ ps) 1 3 = Val a.
Proof. intros f a n ps H. apply (u16_le16 a [] H). Qed.

Lemma u16_param_3 : forall f a n ps, is_u16 n -> u16_param (f :: le16 a ++ le16 n ++ ps) 3 5 = Val n.
Proof. intros f a n ps H. apply (u16_le16 n [] H). Qed.

Lemma works_seq : forall A B cap (m : M A) (r : B) s a w s', works cap m s a w s' -> works cap (m ;;; ret r) s r w s'.
Proof.
  intros A B cap m r s a w s' W. rewrite <- (app_nil_r w). eapply works_bind; [exact W|]. apply works_ret, W.
Qed.

Lemma handle_first : forall cap m ins a n s, 16 <= cap -> hardy cap s -> asks ins (m_id m) a n -> answer_passes cap m a n ->
  exists s', works cap (mock_handle (m_id m) (state_of m) ins) s (state_of m) (answer_wire m a n) s'.
Proof.
  intros cap m ins a n s Hc H As Ap. destruct (reply_table_works cap m a n s Hc H Ap) as [s' W]. exists s'.
  destruct As as [[ids ->]|[ps [-> [Ha Hn]]]]; cbn [mock_handle]; cbv zeta.
  - cbn [existsb]. rewrite beq_refl. cbn [orb mock_sync_bulk_read]. rewrite beq_refl. cbn [state_of mk_table].
    apply (works_seq _ _ _ _ _ _ _ _ _ W).
  - cbn [length]. rewrite every_fifth_head. cbn [position]. rewrite beq_refl. change (0 * 5 + 1) with 1.
    change (0 * 5 + 3) with 3. change (0 * 5 + 5) with 5. rewrite (u16_param_1 _ a n ps Ha), (u16_param_3 _ a n ps Hn).
    change (answer_wire m a n) with ([] ++ [] ++ answer_wire m a n).
    eapply works_bind; [apply works_lift; [exact H|reflexivity]|].
    eapply works_bind; [apply works_lift; [exact H|reflexivity]|].
    cbn [mock_sync_bulk_read]. rewrite beq_refl. cbn [state_of mk_table].
    apply (works_seq _ _ _ _ _ _ _ _ _ W).
Qed.

Definition turn_sent (first : motor) (a n : N) (m : motor) : list byte :=
  if beq (m_id m) (m_id first) then answer_wire first a n else [].

Lemma same_motor : forall ms m1 m2, NoDup (map m_id ms) -> In m1 ms -> In m2 ms -> m_id m1 = m_id m2 -> m1 = m2.
Proof.
  induction ms as [|x ms IH]; intros m1 m2 N H1 H2 E; [contradiction|]. inversion N as [|? ? N1 N2]; subst.
  destruct H1 as [->|H1]; destruct H2 as [->|H2]; auto.
  - exfalso. apply N1. rewrite E. apply in_map, H2.
  - exfalso. apply N1. rewrite <- E. apply in_map, H1.
Qed.

Lemma turn_iteration : forall cap first m a n s i params ins o s' evs, 16 <= cap -> hardy cap s ->
  passes comes_back cap (i :: params) -> means i params ins -> follows_rule i (length params) -> i <> STATUS ->
  asks ins (m_id first) a n -> answer_passes cap first a n -> (m_id m = m_id first -> m = first) ->
  skips (length (b_rbuf s)) (pending s) (map inl (code_wire xfe (i :: params))) ->
  mock_iteration (m_id m) (state_of m) s = (o, s') -> calls s s' evs -> transmitted evs = turn_sent first a n m.
Proof.
  intros cap first m a n s i params ins o s' evs Hc H Ps Mn Fr Hi As Ap Same Sk E C.
  destruct (device_works cap s dur_10ms xfe i params ins H Ps Sk Mn Fr Hi) as [s1 [W1 P1]].
  unfold turn_sent. destruct (beq (m_id m) (m_id first)) eqn:B.
  - apply beq_true in B. specialize (Same B). subst first.
    destruct (handle_first cap m ins a n s1 Hc (proj1 (proj2 W1)) As Ap) as [s2 W2].
    assert (W : works cap (mock_iteration (m_id m) (state_of m)) s (state_of m) ([] ++ answer_wire m a n) s2).
    { unfold mock_iteration. eapply works_bind; [exact W1|]. cbv beta iota. cbn [i_id i_instruction].
      rewrite beq_refl, andb_false_r. exact W2. }
    destruct W as [W [_ [e2 [C2 T2]]]]. rewrite W in E. injection E as <- <-.
    rewrite (calls_inj _ _ _ _ C C2). exact T2.
  - assert (Ne : m_id first <> m_id m) by (intro K; rewrite K, beq_refl in B; discriminate).
    destruct (iteration_quiet (m_id m) (state_of m) s o s' ins xfe (m_id first) (ha_inv _ _ H)
      (ex_intro _ s1 (proj1 W1)) (asks_asks_first _ _ _ _ As) Ne E) as [e2 [C2 T2]].
    rewrite (calls_inj _ _ _ _ C C2). exact T2.
Qed.

Lemma turn_reacts : forall cap first a n i params ins ms0, 16 <= cap ->
  passes comes_back cap (i :: params) -> means i params ins -> follows_rule i (length params) -> i <> STATUS ->
  asks ins (m_id first) a n -> answer_passes cap first a n -> NoDup (map m_id ms0) -> In first ms0 ->
  forall w ds rs ds1, w = code_wire xfe (i :: params) -> reacts w ds rs ds1 ->
  forall ms, Forall2 (motor_ok cap) ds ms -> incl ms ms0 -> rs = map (turn_sent first a n) ms.
Proof.
  intros cap first a n i params ins ms0 Hc Ps Mn Fr Hi As Ap Nd Hf w ds rs ds1 Hw R.
  induction R as [|d st s x s' evs ds rs ds' E1 He Ei C R IH]; intros ms F In_.
  - inversion F; subst. reflexivity.
  - inversion F as [|? m ? ms' [[M1 M2] [Hd Sk]] F' Ea Eb]; subst.
    rewrite (IH ms' F' (fun y Hy => In_ y (or_intror Hy))). cbn [map]. f_equal.
    rewrite M2 in E1. injection E1 as <-.
    apply (turn_iteration cap first m a n s i params ins x s'); try assumption.
    + apply (hears_hardy _ _ _ _ He Hd).
    + intro K. apply (same_motor ms0); auto. apply In_. left. reflexivity.
    + rewrite (hears_pending _ _ _ He). destruct He as [sc [_ ->]].
      change (length (b_rbuf (set_script _ _))) with (length (b_rbuf (n_bus d))).
      apply (skips_app _ _ [] _ Sk).
    + rewrite <- M1. exact Ei.
Qed.

Lemma turn_concat : forall first a n ms, NoDup (map m_id ms) -> In first ms ->
  concat (map (turn_sent first a n) ms) = answer_wire first a n.
Proof.
  intros first a n ms N Hi. induction ms as [|m ms IH]; [contradiction|]. inversion N as [|? ? N1 N2]; subst.
  cbn [map concat]. unfold turn_sent at 1. destruct Hi as [->|Hi].
  - rewrite beq_refl. rewrite <- (app_nil_r (answer_wire first a n)) at 2. f_equal.
    clear IH N N2. induction ms as [|m ms IH]; [reflexivity|]. cbn [map concat]. cbn [map In] in N1.
    rewrite IH by (intro K; apply N1; right; exact K). unfold turn_sent.
    destruct (beq (m_id m) (m_id first)) eqn:B; [|reflexivity]. apply beq_true in B. exfalso. apply N1. left. exact B.
  - rewrite (IH N2 Hi). destruct (beq (m_id m) (m_id first)) eqn:B; [|reflexivity].
    apply beq_true in B. exfalso. apply N1. rewrite B. apply in_map, Hi.
Qed.

(** ** What the client makes of it *)

Lemma rsr_hardy : forall cap n s, hardy cap s -> is_u16 n -> exists o1 s',
  read_status_response n s = (status_of o1, s') /\ ideal (length (b_rbuf s)) (pending s) = (o1, pending s') /\ hardy cap s'.
Proof.
  intros cap n s H Hn. destruct (read_status_response n s) as [o s'] eqn:E.
  destruct (read_status_spec _ _ _ _ (ha_inv _ _ H) E) as [[p [T _]]|[t [o1 [_ [Id [Ho [I T]]]]]]].
  { exfalso. destruct (response_timeout_val (b_dbg s) (b_baud s) n Hn (ha_baud _ _ H)) as [t T']. congruence. }
  exists o1, s'. subst o. split; [reflexivity|]. split; [exact Id|]. apply (timed_hardy cap t s s' T I H).
Qed.

Lemma expect_silent : forall cap id n s e rest, 16 <= cap -> hardy cap s -> is_u16 n -> pending s = inr e :: rest ->
  exists s', expect_response id n s = (Val (Err (RIo e)), s') /\ hardy cap s' /\ pending s' = rest.
Proof.
  intros cap id n s e rest Hc H Hn Pe. destruct (rsr_hardy cap n s H Hn) as [o1 [s' [E [Id H']]]].
  rewrite Pe, ideal_timeout in Id by (pose proof (ha_rcap _ _ H); lia). injection Id as <- Pr.
  exists s'. split; [|split; [exact H'|symmetry; exact Pr]].
  unfold expect_response, try_, bind. rewrite E. reflexivity.
Qed.

Lemma expect_answer : forall cap m a n s rest, 16 <= cap -> hardy cap s -> is_u16 n -> answer_passes cap m a n ->
  pending s = map inl (answer_wire m a n) ++ rest ->
  exists s', expect_response (m_id m) n s = (Val (asked_for m a n), s') /\ hardy cap s' /\ pending s' = rest.
Proof.
  intros cap m a n s rest Hc H Hn Ap Pe. destruct (rsr_hardy cap n s H Hn) as [o1 [s' [E [Id H']]]].
  pose proof (answer_of_passes cap m a n Hc Ap) as Ps. unfold answer_wire in Pe.
  destruct (passes_length cap (m_id m) _ _ Ps) as [W1 W2].
  destruct (ideal_code_wire (length (b_rbuf s)) [] (m_id m) _ _ rest empty_no_header W2) as [p [E1 Q]];
    [pose proof (ha_rcap _ _ H); lia|].
  cbn [app] in E1. rewrite Pe, E1 in Id. injection Id as <- Pr.
  rewrite unst_code_stuff in Q by apply Ps.
  exists s'. split; [|split; [exact H'|symmetry; exact Pr]].
  unfold expect_response, try_, bind. rewrite E. cbn [status_of]. rewrite (status_check_status _ _ _ _ Q).
  destruct (status_accessors _ _ _ _ Q) as [A1 [A2 [A3 A4]]].
  unfold asked_for, answer_of in *. destruct (load (m_memory m) a n) as [bs|] eqn:L; cbn [fst snd] in *; [|reflexivity].
  change (N.land (b2n x00) 127 =? 0)%N with true. cbv iota.
  unfold lift. rewrite A1. unfold tryr, packet_id_check. rewrite beq_refl. unfold lift. rewrite A4.
  unfold param_count_check. rewrite (load_length _ _ _ _ L), Nat.eqb_refl. unfold ret.
  unfold decode_status_packet_bytes. rewrite A2. cbn [obind]. rewrite (no_error_check _ no_error_0), A1, A3, A4. reflexivity.
Qed.

Lemma gnexts_silent : forall Q (key : Q -> byte) (cnt : Q -> N) reqs cap, 16 <= cap -> Forall (fun q => is_u16 (cnt q)) reqs ->
  forall k i s es rest, hardy cap s -> i + k <= length reqs -> k <= length es -> pending s = items (silence es) ++ rest ->
  exists xs s', nexts (gnext (fun q => expect_response (key q) (cnt q)) reqs) k i s = (Val (xs, i + k), s') /\
    hardy cap s' /\ length xs = k /\ Forall timed_out xs.
Proof.
  intros Q key cnt reqs cap Hc F. induction k as [|k IH]; intros i s es rest H L1 L2 Pe.
  - exists [], s. rewrite Nat.add_0_r. split; [reflexivity|]. split; [exact H|]. split; [reflexivity|constructor].
  - destruct es as [|e es]; [cbn in L2; lia|].
    destruct (nth_error reqs i) as [q|] eqn:Eq; [|apply nth_error_None in Eq; lia].
    assert (Kq : is_u16 (cnt q)) by (rewrite Forall_forall in F; apply F, (nth_error_In _ _ Eq)).
    destruct (expect_silent cap (key q) (cnt q) s (IoTimeout e) (items (silence es) ++ rest) Hc H Kq Pe) as [s1 [E1 [H1 P1]]].
    destruct (IH (S i) s1 es rest H1) as [xs [s2 [E2 [H2 [Lx Fx]]]]]; [lia|cbn in L2; lia|exact P1|].
    exists (Some (Err (RIo (IoTimeout e))) :: xs), s2. split; [|split; [exact H2|split; [cbn; lia|]]].
    + cbn [nexts]. unfold bind at 1. unfold gnext at 1. rewrite Eq. unfold bind. rewrite E1. cbn [ret]. rewrite E2.
      replace (i + S k) with (S i + k) by lia. reflexivity.
    + constructor; [exists e; reflexivity|exact Fx].
Qed.

(** The whole iteration, for both kinds of reads. *)
Lemma turn_client : forall I Q Y (next : I -> M (option (result (response (list byte)) read_error) * I)) (drop : I -> M unit)
    (f : nat -> I) (key : Q -> byte) (cnt : Q -> N) (rd' : Q -> M Y) q qs cap m a s es,
  (forall i s, next (f i) s = out_map (fun '(x, j) => (x, f j)) (gnext (fun q => expect_response (key q) (cnt q)) (q :: qs) i s)) ->
  (forall i s, i <= length (q :: qs) -> drop (f i) s = gdrop rd' (skipn i (q :: qs)) s) ->
  16 <= cap -> Forall (fun q => is_u16 (cnt q)) (q :: qs) -> key q = m_id m -> hardy cap s ->
  answer_passes cap m a (cnt q) -> length qs <= length es ->
  pending s = map inl (answer_wire m a (cnt q)) ++ items (silence es) ->
  exists xs s', take_then_drop next drop (length (q :: qs)) (f 0) s = (Val (Some (asked_for m a (cnt q)) :: xs), s') /\
    length xs = length qs /\ Forall timed_out xs.
Proof.
  intros I Q Y next drop f key cnt rd' q qs cap m a s es Hn Hd Hc F Hk H Ap L Pe.
  destruct (expect_answer cap m a (cnt q) s (items (silence es)) Hc H (Forall_inv F) Ap Pe) as [s1 [E1 [H1 P1]]].
  destruct (gnexts_silent Q key cnt (q :: qs) cap Hc F (length qs) 1 s1 es [] H1) as [xs [s2 [E2 [H2 [Lx Fx]]]]];
    [cbn; lia|exact L|rewrite app_nil_r; exact P1|].
  exists xs, s2. split; [|split; assumption].
  unfold take_then_drop, bind. rewrite (nexts_rep _ _ _ next _ f Hn).
  replace (nexts (gnext (fun q0 => expect_response (key q0) (cnt q0)) (q :: qs)) (length (q :: qs)) 0 s)
    with ((Val (Some (asked_for m a (cnt q)) :: xs, length (q :: qs)), s2) : out (list (option (result (response (list byte)) read_error)) * nat) * bus).
  - cbn [out_map]. rewrite Hd by apply le_n. rewrite skipn_all. reflexivity.
  - cbn [length nexts]. unfold bind at 1. unfold gnext at 1. cbn [nth_error]. unfold bind. rewrite Hk, E1. cbn [ret].
    rewrite E2. reflexivity.
Qed.

(** ** The exchange *)

Lemma turn_exchange : forall R k (call : M R) cap c ds ms first a n i params ins x c' ds',
  connected cap c ds ms -> In first ms -> passes comes_back cap (i :: params) ->
  means i params ins -> follows_rule i (length params) -> i <> STATUS ->
  asks ins (m_id first) a n -> answer_passes cap first a n ->
  (forall s o s', hardy cap s -> call s = (o, s') -> exists evs, calls s s' evs /\ transmitted evs = code_wire xfe (i :: params)) ->
  exchange_for k call c ds x c' ds' ->
  exists s es, hardy cap s /\ k <= length es /\
    incoming s = map inl (answer_wire first a n) ++ items (silence es) /\ fst (call s) = x.
Proof.
  intros R k call cap c ds ms first a n i params ins x c' ds' Co Hf Ps Mn Fr Hi As Ap Tr Ex.
  pose proof (connected_ok _ _ _ _ Co) as [Hc [Hh [F N]]].
  destruct Ex as [c ds sc es x c' evs rs ds1 ds' Es E C Re Isc Ov].
  set (s := set_script c (sc ++ silence es)) in *.
  assert (Hs : hardy cap s) by apply hardy_script, Hh.
  destruct (Tr s x c' Hs E) as [e2 [C2 T2]]. rewrite (calls_inj _ _ _ _ C C2), T2 in Re.
  rewrite (turn_reacts cap first a n i params ins ms Hc Ps Mn Fr Hi As Ap N Hf _ ds rs ds1 eq_refl Re ms F (fun y H => H)),
    (turn_concat first a n ms N Hf) in Isc.
  exists s, es. split; [exact Hs|]. split; [exact Es|]. split; [|rewrite E; reflexivity].
  unfold s, incoming, set_script. cbn [set_port b_port p_script]. rewrite items_app, Isc. reflexivity.
Qed.

Lemma take_mute : forall I Q X Y (next : I -> M (option X * I)) (drop : I -> M unit) (f : nat -> I)
    (rd : Q -> M X) (rd' : Q -> M Y) reqs cap,
  (forall i s, next (f i) s = out_map (fun '(x, j) => (x, f j)) (gnext rd reqs i s)) ->
  (forall i s, i <= length reqs -> drop (f i) s = gdrop rd' (skipn i reqs) s) ->
  (forall q, mute cap (rd q)) -> (forall q, mute cap (rd' q)) ->
  mute cap (take_then_drop next drop (length reqs) (f 0)).
Proof.
  intros I Q X Y next drop f rd rd' reqs cap Hn Hd M1 M2.
  assert (Mg : forall qs, mute cap (gdrop rd' qs)).
  { induction qs as [|q qs IH]; cbn [gdrop]; [apply mute_ret|]. apply mute_bind; [apply M2|]. intro. exact IH. }
  assert (Mn : forall k i, mute cap (nexts (gnext rd reqs) k i)).
  { induction k as [|k IH]; intro i; cbn [nexts]; [apply mute_ret|].
    apply mute_bind.
    - unfold gnext. destruct (nth_error reqs i); [|apply mute_ret]. apply mute_bind; [apply M1|]. intro. apply mute_ret.
    - intros [x j]. apply mute_bind; [apply IH|]. intros [xs j']. apply mute_ret. }
  assert (Bd : forall k i s xs j s', i + k <= length reqs -> nexts (gnext rd reqs) k i s = (Val (xs, j), s') -> j <= length reqs).
  { clear. induction k as [|k IH]; intros i s xs j s' L E; cbn [nexts] in E.
    - injection E as _ <- _. lia.
    - unfold bind at 1 in E. unfold gnext at 1 in E.
      destruct (nth_error reqs i) as [q|] eqn:Eq; [|apply nth_error_None in Eq; lia].
      unfold bind in E. destruct (rd q s) as [[r|?|] s1]; try discriminate E. cbn [ret] in E.
      destruct (nexts (gnext rd reqs) k (S i) s1) as [[[ys j']|?|] s2] eqn:En; try discriminate E.
      cbn [ret] in E. injection E as _ <- _. apply (IH (S i) s1 ys j' s2); [lia|exact En]. }
  intros s o s' H E. unfold take_then_drop, bind in E. rewrite (nexts_rep _ _ _ next _ f Hn) in E.
  destruct (nexts (gnext rd reqs) (length reqs) 0 s) as [y s1] eqn:En.
  destruct (Mn _ _ s y s1 H En) as [H1 [e1 [C1 T1]]]. destruct y as [[xs j]|p|]; cbn [out_map] in E.
  - rewrite Hd in E by (apply (Bd (length reqs) 0 s xs j s1 (le_n _) En)).
    destruct (gdrop rd' (skipn j reqs) s1) as [y2 s2] eqn:Eg.
    destruct (Mg _ s1 y2 s2 H1 Eg) as [H2 [e2 [C2 T2]]].
    assert (s' = s2) as -> by (destruct y2; injection E; auto). split; [exact H2|].
    exists (e1 ++ e2). split; [eapply calls_app; eassumption|]. rewrite transmitted_app, T1, T2. reflexivity.
  - injection E as _ <-. eauto.
  - injection E as _ <-. eauto.
Qed.

Lemma rsr_mute : forall cap n, mute cap (read_status_response n).
Proof.
  intros cap n s o s' H E.
  destruct (read_status_spec _ _ _ _ (ha_inv _ _ H) E) as [[p [_ [_ ->]]]|[t [o1 [_ [_ [_ [I T]]]]]]].
  - split; [exact H|]. exists []. split; [apply calls_same|reflexivity].
  - apply (timed_hardy cap t _ _ T I H).
Qed.

Lemma expect_mute : forall cap id n, mute cap (expect_response id n).
Proof.
  intros cap id n. unfold expect_response, try_. apply mute_bind; [apply rsr_mute|]. intros [p|e]; [|apply mute_ret].
  apply mute_bind; [apply mute_lift|]. intro rid. unfold tryr. destruct (packet_id_check rid id); [|apply mute_ret].
  apply mute_bind; [apply mute_lift|]. intro ps. destruct (param_count_check _ _); [apply mute_lift|apply mute_ret].
Qed.

Lemma sync_rep_drop : forall n ids i s, i <= length ids ->
  srb_drop (mkSRB n ids i) s = gdrop (fun _ : byte => read_status_response n) (skipn i ids) s.
Proof. intros. apply srb_drop_rep. Qed.

Lemma L_C68_only_first_sync_partial : forall cap c ds ms m ids a n x c' ds', connected cap c ds ms -> In m ms ->
  is_u16 a -> is_u16 n -> passes comes_back cap (sync_read_message (m_id m :: ids) a n) -> answer_passes cap m a n ->
  exchange_for (length ids) (sync_read_all (m_id m :: ids) a n) c ds x c' ds' ->
  exists xs, x = Val (Ok (Some (asked_for m a n) :: xs)) /\ length xs = length ids /\ Forall timed_out xs.
Proof.
  intros cap c ds ms m ids a n x c' ds' Co Hm Ha Hn Ps Ap Ex. unfold sync_read_message in Ps.
  pose proof (sends_instruction xfe x82 _ _ (sync_read_writes a n (m_id m :: ids))) as Sd.
  assert (El : length (le16 a ++ le16 n ++ m_id m :: ids) = 4 + length (m_id m :: ids)) by reflexivity.
  rewrite El in Sd.
  destruct (turn_exchange _ (length ids) (sync_read_all (m_id m :: ids) a n) cap c ds ms m a n x82 (le16 a ++ le16 n ++ m_id m :: ids) (ISyncRead a n (m_id m :: ids)) x c' ds'
    Co Hm Ps) as [s [es [H [L [Inc Ex']]]]]; try assumption.
  - apply m_sync_read; assumption.
  - cbn. lia.
  - discriminate.
  - left. eauto.
  - intros s o s' H E. destruct (sends_works cap _ xfe x82 _ s Sd H Ps) as [s1 [W1 _]].
    destruct W1 as [W1 [H1 [e1 [C1 T1]]]].
    unfold sync_read_all, sync_read_bytes, write_sync_read, try_, bind in E.
    change BROADCAST with xfe in E. change SYNC_READ with x82 in E. rewrite W1 in E. cbn [ret] in E.
    destruct (take_then_drop srb_next srb_drop (length (m_id m :: ids)) (mkSRB n (m_id m :: ids) 0) s1) as [y s2] eqn:Et.
    destruct (take_mute _ _ _ _ srb_next srb_drop (fun j => mkSRB n (m_id m :: ids) j) _ _ (m_id m :: ids) cap
      (srb_rep n (m_id m :: ids)) (sync_rep_drop n (m_id m :: ids)) (fun q => expect_mute cap q n) (fun _ => rsr_mute cap n)
      s1 y s2 H1 Et) as [_ [e2 [C2 T2]]].
    assert (s' = s2) as -> by (destruct y; injection E; auto).
    exists (e1 ++ e2). split; [eapply calls_app; eassumption|]. rewrite transmitted_app, T1, T2. apply app_nil_r.
  - destruct (sends_works cap _ xfe x82 _ s Sd H Ps) as [s1 [[W1 [H1 _]] [P1 _]]].
    destruct (turn_client _ byte _ srb_next srb_drop (fun j => mkSRB n (m_id m :: ids) j) (fun i => i) (fun _ => n)
      _ (m_id m) ids cap m a s1 es (srb_rep n (m_id m :: ids)) (sync_rep_drop n (m_id m :: ids))) as [xs [s2 [E [Lx Fx]]]];
      try assumption; try reflexivity.
    + apply connected_ok in Co. apply Co.
    + apply Forall_forall. intros; exact Hn.
    + rewrite P1. exact Inc.
    + exists xs. split; [|split; assumption]. rewrite <- Ex'.
      unfold sync_read_all, sync_read_bytes, write_sync_read, try_, bind.
      change BROADCAST with xfe. change SYNC_READ with x82. rewrite W1. cbn [ret]. rewrite E. reflexivity.
Qed.

Lemma L_C68_only_first_bulk_partial : forall cap c ds ms m q qs x c' ds', connected cap c ds ms -> In m ms ->
  br_id q = m_id m -> NoDup (map br_id (q :: qs)) ->
  Forall (fun r => is_u16 (br_address r) /\ is_u16 (br_count r)) (q :: qs) ->
  passes comes_back cap (bulk_read_message (q :: qs)) -> answer_passes cap m (br_address q) (br_count q) ->
  exchange_for (length qs) (bulk_read_all (q :: qs)) c ds x c' ds' ->
  exists xs, x = Val (Ok (Some (asked_for m (br_address q) (br_count q)) :: xs)) /\
    length xs = length qs /\ Forall timed_out xs.
Proof.
  intros cap c ds ms m q qs x c' ds' Co Hm Hq Nd Hu Ps Ap Ex. unfold bulk_read_message in Ps.
  pose proof (sends_instruction xfe x92 _ _ (bulk_read_writes (q :: qs))) as Sd.
  rewrite bulk_read_entries_length in Sd.
  assert (Dup : bulk_read_dup (q :: qs) = false) by apply bulk_read_dup_iff, Nd.
  assert (Call : forall s s1, write_instruction xfe x92 (5 * length (q :: qs)) (enc_ok (bulk_read_loop 0 (q :: qs))) s = (Val (Ok tt), s1) ->
            bulk_read_all (q :: qs) s = (l <- take_then_drop br_next br_drop (length (q :: qs)) (mkBR (q :: qs) 0) ;; ret (Ok l)) s1).
  { intros s s1 W. unfold bulk_read_all, bulk_read_bytes, write_bulk_read_instruction, try_. rewrite Dup. unfold bind at 1 2.
    change BROADCAST with xfe. change BULK_READ with x92. rewrite W. reflexivity. }
  destruct (turn_exchange _ (length qs) (bulk_read_all (q :: qs)) cap c ds ms m (br_address q) (br_count q) x92 (bulk_read_entries (q :: qs))
    (IBulkRead (bulk_read_entries (q :: qs))) x c' ds' Co Hm Ps) as [s [es [H [L [Inc Ex']]]]]; try assumption.
  - apply m_bulk_read.
  - exact I.
  - discriminate.
  - right. exists (bulk_read_entries qs). split; [|apply (Forall_inv Hu)]. rewrite <- Hq. unfold bulk_read_entries. cbn [flat_map].
    rewrite <- app_comm_cons, <- app_assoc. reflexivity.
  - intros s o s' H E. destruct (sends_works cap _ xfe x92 _ s Sd H Ps) as [s1 [W1 _]].
    destruct W1 as [W1 [H1 [e1 [C1 T1]]]]. rewrite (Call s s1 W1) in E. unfold bind in E.
    destruct (take_then_drop br_next br_drop (length (q :: qs)) (mkBR (q :: qs) 0) s1) as [y s2] eqn:Et.
    destruct (take_mute _ _ _ _ br_next br_drop (fun j => mkBR (q :: qs) j) _ _ (q :: qs) cap
      (br_rep (q :: qs)) (br_drop_rep (q :: qs)) (fun r => expect_mute cap (br_id r) (br_count r)) (fun r => rsr_mute cap (br_count r))
      s1 y s2 H1 Et) as [_ [e2 [C2 T2]]].
    assert (s' = s2) as -> by (destruct y; injection E; auto).
    exists (e1 ++ e2). split; [eapply calls_app; eassumption|]. rewrite transmitted_app, T1, T2. apply app_nil_r.
  - destruct (sends_works cap _ xfe x92 _ s Sd H Ps) as [s1 [[W1 [H1 _]] [P1 _]]].
    destruct (turn_client _ bulk_read_data _ br_next br_drop (fun j => mkBR (q :: qs) j) br_id br_count
      _ q qs cap m (br_address q) s1 es (br_rep (q :: qs)) (br_drop_rep (q :: qs))) as [xs [s2 [E [Lx Fx]]]];
      try assumption; try reflexivity.
    + apply connected_ok in Co. apply Co.
    + revert Hu. apply Forall_impl. intros r Hr. apply Hr.
    + rewrite P1. exact Inc.
    + exists xs. split; [|split; assumption]. rewrite <- Ex', (Call s s1 W1). unfold bind. rewrite E. reflexivity.
Qed.

(** ** Two motors *)

Lemma turn_two : exists xs c' ds',
  let c := fresh true [] 64 64 in let mem := repeat x07 8 in
  exchange_for 2 (sync_read_all [x01; x02] 3 2) c (two_motors mem mem) (Val (Ok xs)) c' ds' /\
  xs = [Some (Ok (mkResponse x01 false [x07; x07])); Some (Err (RIo (IoTimeout 0)))].
Proof.
  do 3 eexists. cbv zeta. split.
  - eapply (exchange_two _ _ _ _ _ _ (frame x01 [STATUS; x00; x07; x07]) []). all: [> (vm_compute; reflexivity) ..].
  - reflexivity.
Qed.

Lemma turn_two_bulk : exists xs c' ds',
  let c := fresh true [] 64 64 in let mem := repeat x07 8 in
  exchange_for 2 (bulk_read_all [mkBulkRead x02 3 2; mkBulkRead x01 0 1]) c (two_motors mem mem) (Val (Ok xs)) c' ds' /\
  xs = [Some (Ok (mkResponse x02 false [x07; x07])); Some (Err (RIo (IoTimeout 0)))].
Proof.
  do 3 eexists. cbv zeta. split.
  - eapply (exchange_two _ _ _ _ _ _ [] (frame x02 [STATUS; x00; x07; x07])). all: [> (vm_compute; reflexivity) ..].
  - reflexivity.
Qed.

Lemma turn_passes : passes comes_back 64 (sync_read_message [x01; x02] 3 2) /\
  passes comes_back 64 (bulk_read_message [mkBulkRead x02 3 2; mkBulkRead x01 0 1]) /\
  (forall m a n, m_memory m = repeat x07 8 -> is_u16 n -> answer_passes 64 m a n).
Proof.
  split; [split; [vm_compute; lia|]; split; [reflexivity|exact I]|].
  split; [split; [vm_compute; lia|]; split; [reflexivity|exact I]|].
  intros m a n Em Hn bs L. rewrite Em in L. unfold load in L.
  change (length (repeat x07 8)) with 8 in L. destruct (a + n <=? N.of_nat 8)%N eqn:B; [|discriminate L].
  assert (Eb : bs = firstn (N.to_nat n) (skipn (N.to_nat a) (repeat x07 8))) by congruence. clear L. subst bs.
  assert (Hb : forall k l, exists j, j <= 8 /\ firstn k (skipn l (repeat x07 8)) = repeat x07 j).
  { clear. intros k l. exists (length (firstn k (skipn l (repeat x07 8)))). split.
    - rewrite firstn_length, skipn_length. change (length (repeat x07 8)) with 8. lia.
    - assert (F : Forall (eq x07) (firstn k (skipn l (repeat x07 8)))).
      { apply Forall_forall. intros x Hx. symmetry. apply (repeat_spec 8).
        rewrite <- (firstn_skipn l (repeat x07 8)). apply in_or_app. right.
        rewrite <- (firstn_skipn k (skipn l (repeat x07 8))). apply in_or_app. left. exact Hx. }
      induction F as [|x l' <- F IH]; [reflexivity|]. cbn [length repeat]. f_equal. exact IH. }
  destruct (Hb (N.to_nat n) (N.to_nat a)) as [j [Hj ->]].
  do 9 (destruct j as [|j]; [split; [vm_compute; lia|]; split; [reflexivity|exact I]|]). lia.
Qed.

Lemma L_C68_takes_turns_refuted : ~ (forall cap c ds ms ids a n x c' ds', connected cap c ds ms ->
  is_u16 a -> is_u16 n -> NoDup ids -> incl ids (map m_id ms) ->
  passes comes_back cap (sync_read_message ids a n) -> (forall m, In m ms -> answer_passes cap m a n) ->
  exchange_for (length ids) (sync_read_all ids a n) c ds x c' ds' ->
  exists xs, x = Val (Ok xs) /\
    Forall2 (fun id y => exists m, In m ms /\ m_id m = id /\ y = Some (asked_for m a n)) ids xs).
Proof.
  intro H. destruct turn_two as [xs [c' [ds' [E Ex]]]].
  destruct (H 64 _ _ _ [x01; x02] 3%N 2%N (Val (Ok xs)) c' ds' (two_connected (repeat x07 8) (repeat x07 8))) as [ys [Ey F]];
    try reflexivity; try exact E.
  - repeat constructor; cbn; intuition discriminate.
  - intros i Hi. exact Hi.
  - apply turn_passes.
  - intros m [<-|[<-|[]]]; apply turn_passes; reflexivity.
  - injection Ey as <-. subst xs. inversion F as [|? ? ? ? _ F2]; subst. inversion F2 as [|? ? ? ? [m [Hm [Hi K]]] _]; subst.
    destruct Hm as [<-|[<-|[]]]; cbn in Hi; discriminate.
Qed.

Lemma turn_example : exists xs c' ds', let c := fresh true [] 64 64 in let mem := repeat x07 8 in
  let m := mkMotor x01 mem None in let ms := [m; mkMotor x02 mem None] in
  connected 64 c (two_motors mem mem) ms /\ In m ms /\ is_u16 3 /\ is_u16 2 /\
  passes comes_back 64 (sync_read_message (m_id m :: [x02]) 3 2) /\ answer_passes 64 m 3 2 /\
  exchange_for (length [x02]) (sync_read_all (m_id m :: [x02]) 3 2) c (two_motors mem mem) (Val (Ok xs)) c' ds' /\
  xs = [Some (Ok (mkResponse x01 false [x07; x07])); Some (Err (RIo (IoTimeout 0)))].
Proof.
  destruct turn_two as [xs [c' [ds' [E Ex]]]]. exists xs, c', ds'. cbv zeta.
  split; [apply two_connected|]. split; [left; reflexivity|]. split; [reflexivity|]. split; [reflexivity|].
  split; [apply turn_passes|]. split; [apply turn_passes; reflexivity|]. split; [|exact Ex].
  inversion E; subst. econstructor; try eassumption. cbn. lia.
Qed.

Lemma turn_bulk_example : exists xs c' ds', let c := fresh true [] 64 64 in let mem := repeat x07 8 in
  let m := mkMotor x02 mem None in let ms := [mkMotor x01 mem None; m] in
  let q := mkBulkRead x02 3 2 in let qs := [mkBulkRead x01 0 1] in
  connected 64 c (two_motors mem mem) ms /\ In m ms /\ br_id q = m_id m /\ NoDup (map br_id (q :: qs)) /\
  Forall (fun r => is_u16 (br_address r) /\ is_u16 (br_count r)) (q :: qs) /\
  passes comes_back 64 (bulk_read_message (q :: qs)) /\ answer_passes 64 m 3 2 /\
  exchange_for (length qs) (bulk_read_all (q :: qs)) c (two_motors mem mem) (Val (Ok xs)) c' ds' /\
  xs = [Some (Ok (mkResponse x02 false [x07; x07])); Some (Err (RIo (IoTimeout 0)))].
Proof.
  destruct turn_two_bulk as [xs [c' [ds' [E Ex]]]]. exists xs, c', ds'. cbv zeta.
  split; [apply two_connected|]. split; [right; left; reflexivity|]. split; [reflexivity|].
  split; [repeat constructor; cbn; intuition discriminate|].
  split; [repeat constructor|]. split; [apply turn_passes|]. split; [apply turn_passes; reflexivity|]. split; [|exact Ex].
  inversion E; subst. econstructor; try eassumption. cbn. lia.
Qed.

(** The status of the first motor changes nothing for the second one. *)
Lemma deaf_example : exists o s' evs,
  let s := fresh true [RdData (frame xfe (sync_read_message [x01; x02] 3 2) ++ frame x01 [STATUS; x00; x07; x07])] 64 64 in
  mock_iteration x02 (mkMock (repeat x07 8) None) s = (o, s') /\ calls s s' evs /\ transmitted evs = [] /\ o = Blocked.
Proof. do 3 eexists. cbv zeta. split; [vm_compute; reflexivity|]. split; [vm_compute; reflexivity|]. split; reflexivity. Qed.
