(** * BulkTheorems: simulated motors and bulk writes *)
From Coq Require Import ZArith ZifyN ZifyNat ZifyBool.
From Verif Require Import Base Endian Error Checksum Bytestuff Packet Time Bus Data Client
  Instructions Device MockDevice Api Spec CallSpec StreamSpec DeviceSpec InstructionSpec Demo Lib ChecksumProofs
  CrcErrorProofs StuffProofs WriteProofs ReadProofs ApiProofs StreamProofs MessageProofs SendProofs
  SendTheorems ReadTheorems StatusProofs DeviceTheorems InstructionProofs DemoProofs TransferTheorems
  UnderstoodTheorems IterProofs RemoteSpec RemoteProofs RemoteTheorems RemoteExtra TurnSpec TurnTheorems BulkSpec.
Ltac Zify.zify_post_hook ::= Z.div_mod_to_equations.

(** ** The client *)

Lemma bulk_write_works : forall cap l s, proper_bulk l -> hardy cap s -> passes comes_back cap (bulk_write_message l) ->
  exists s', works cap (bulk_write l) s (Ok tt) (code_wire xfe (bulk_write_message l)) s'.
Proof.
  intros cap l s [Hl _] H P.
  assert (Hl' : Forall (fun c => is_u16 (N.of_nat (length (bw_data c)))) l) by (revert Hl; apply Forall_impl; intros c Hc; apply Hc).
  pose proof (sends_instruction xfe x93 _ _ (bulk_write_writes l Hl')) as Sd.
  destruct (sends_works cap _ xfe x93 _ s Sd H P) as [s' [[W1 W2] _]]. exists s'. split; [|exact W2].
  unfold bulk_write, bind, lift. rewrite (bulk_write_count_val l 0 Hl'). exact W1.
Qed.

Lemma bulk_exchange : forall cap c ds ms l x c' ds', connected cap c ds ms -> proper_bulk l ->
  passes comes_back cap (bulk_write_message l) -> exchange (bulk_write l) c ds x c' ds' ->
  x = Val (Ok tt) /\ exists rs ds1, reacts (code_wire xfe (bulk_write_message l)) ds rs ds1 /\ overhears [] ds1 rs ds'.
Proof.
  intros cap c ds ms l x c' ds' Co Hl Ps Ex. pose proof (connected_ok _ _ _ _ Co) as [Hc [Hh [F N]]].
  destruct Ex as [c ds sc es x c' evs rs ds1 ds' Es E C Re Isc Ov].
  destruct (bulk_write_works cap l _ Hl (hardy_script _ _ (sc ++ silence es) Hh) Ps) as [s' [W [_ [e2 [C2 T2]]]]].
  rewrite W in E. injection E as <- <-. split; [reflexivity|]. exists rs, ds1. split; [|exact Ov].
  rewrite <- T2, <- (calls_inj _ _ _ _ C C2). exact Re.
Qed.

Lemma L_C74_sent_partial : forall cap c ds ms l x c' ds', connected cap c ds ms -> proper_bulk l ->
  passes comes_back cap (bulk_write_message l) -> exchange (bulk_write l) c ds x c' ds' -> x = Val (Ok tt).
Proof. intros cap c ds ms l x c' ds' Co Hl Ps Ex. apply (bulk_exchange _ _ _ _ _ _ _ _ Co Hl Ps Ex). Qed.

(** ** The motors *)

Lemma overhears_state : forall before ds rs ds', overhears before ds rs ds' ->
  Forall2 (fun d d' => n_id d' = n_id d /\ n_state d' = n_state d) ds ds'.
Proof. intros before ds rs ds' O. induction O; constructor; auto. Qed.

(** The state a motor is in after the bulk write. *)
Definition bulk_outcome (l : list bulk_write_data) (m : motor) (o : out mock_state) : Prop :=
  exists s1, fst (mock_handle (m_id m) (state_of m) (IBulkWrite (bulk_write_entries l)) s1) = o.

Lemma bulk_iteration : forall cap l m s o s', hardy cap s -> passes comes_back cap (bulk_write_message l) ->
  skips (length (b_rbuf s)) (pending s) (map inl (code_wire xfe (bulk_write_message l))) ->
  mock_iteration (m_id m) (state_of m) s = (o, s') -> bulk_outcome l m o.
Proof.
  intros cap l m s o s' H Ps Sk E.
  destruct (device_works cap s dur_10ms xfe x93 (bulk_write_entries l) (IBulkWrite (bulk_write_entries l)) H Ps Sk (m_bulk_write _) I
    ltac:(discriminate)) as [s1 [[W1 _] _]].
  unfold mock_iteration, bind in E. rewrite W1 in E. cbn [i_id i_instruction] in E. rewrite beq_refl, andb_false_r in E.
  exists s1. rewrite E. reflexivity.
Qed.

Lemma bulk_reacts : forall cap l, passes comes_back cap (bulk_write_message l) ->
  forall w ds rs ds1, w = code_wire xfe (bulk_write_message l) -> reacts w ds rs ds1 ->
  forall ms, Forall2 (motor_ok cap) ds ms ->
  Forall2 (fun d m => n_id d = m_id m /\ bulk_outcome l m (n_state d)) ds1 ms.
Proof.
  intros cap l Ps w ds rs ds1 Hw R. induction R as [|d st s x s' evs ds rs ds' E1 He Ei C R IH]; intros ms F.
  - inversion F; subst. constructor.
  - inversion F as [|? m ? ms' [[M1 M2] [Hd Sk]] F' Ea Eb]; subst.
    constructor; [|apply IH; exact F']. cbn [n_id n_state]. split; [exact M1|].
    rewrite M2 in E1. injection E1 as <-.
    apply (bulk_iteration cap l m s x s').
    + apply (hears_hardy _ _ _ _ He Hd).
    + exact Ps.
    + rewrite (hears_pending _ _ _ He). destruct He as [sc [_ ->]].
      change (length (b_rbuf (set_script _ _))) with (length (b_rbuf (n_bus d))).
      apply (skips_app _ _ [] _ Sk).
    + rewrite <- M1. exact Ei.
Qed.

Lemma bulk_motors : forall cap c ds ms l x c' ds', connected cap c ds ms -> proper_bulk l ->
  passes comes_back cap (bulk_write_message l) -> exchange (bulk_write l) c ds x c' ds' ->
  Forall2 (fun d m => n_id d = m_id m /\ bulk_outcome l m (n_state d)) ds' ms.
Proof.
  intros cap c ds ms l x c' ds' Co Hl Ps Ex. pose proof (connected_ok _ _ _ _ Co) as [Hc [Hh [F N]]].
  destruct (bulk_exchange _ _ _ _ _ _ _ _ Co Hl Ps Ex) as [_ [rs [ds1 [R O]]]].
  pose proof (bulk_reacts cap l Ps _ ds rs ds1 eq_refl R ms F) as F1. pose proof (overhears_state _ _ _ _ O) as F2.
  clear -F1 F2. revert ms F1. induction F2 as [|d d' ds1 ds' [E1 E2] F2 IH]; intros ms F1; inversion F1 as [|? m ? ms' [K1 K2] F1']; subst;
    constructor.
  - split; [congruence|]. rewrite E2. exact K2.
  - apply IH, F1'.
Qed.

Lemma pick : forall (P : node -> motor -> Prop) ds ms m, Forall2 P ds ms -> In m ms -> exists d, In d ds /\ P d m.
Proof.
  intros P ds ms m F. induction F as [|d m' ds ms H F IH]; intro K; [contradiction|].
  destruct K as [->|K]; [exists d; split; [left; reflexivity|exact H]|]. destruct (IH K) as [d' [H1 H2]]. exists d'. split; [right; exact H1|exact H2].
Qed.

(** The motor of the first entry. *)
Lemma handle_bulk_first : forall m e l s, bw_id e = m_id m ->
  is_u16 (bw_address e) -> is_u16 (N.of_nat (length (bw_data e))) ->
  mock_handle (m_id m) (state_of m) (IBulkWrite (bulk_write_entries (e :: l))) s = (Val (state_of (bulk_touched (e :: l) m)), s).
Proof.
  intros m e l s He Ha Hn. unfold bulk_write_entries. cbn [flat_map]. fold (bulk_write_entries l).
  rewrite <- !app_comm_cons, <- !app_assoc.
  set (rest := bw_data e ++ bulk_write_entries l). set (n := N.of_nat (length (bw_data e))) in *.
  cbn [mock_handle]. unfold bind, lift. cbn [mock_bulk_find idx nth_error obind]. rewrite He, beq_refl.
  change (0 + 1) with 1. change (0 + 3) with 3. change (0 + 5) with 5.
  rewrite (u16_param_1 _ _ n rest Ha), (u16_param_3 _ _ n rest Hn).
  replace (N.to_nat n) with (length (bw_data e)) by (unfold n; lia).
  replace (slice (m_id m :: le16 (bw_address e) ++ le16 n ++ rest) 5 (5 + length (bw_data e))) with (Val (bw_data e)).
  - cbn [obind ret]. unfold ret, bulk_touched. cbn [find]. rewrite He, beq_refl. unfold state_of, stored. cbn [m_memory m_waiting mk_table mk_action].
    rewrite store_control. reflexivity.
  - symmetry. apply (slice_app3 (m_id m :: le16 (bw_address e) ++ le16 n) (bw_data e) (bulk_write_entries l)).
Qed.

Lemma L_C74_first_motor_partial : forall cap c ds ms m e l x c' ds', connected cap c ds ms -> proper_bulk (e :: l) ->
  passes comes_back cap (bulk_write_message (e :: l)) -> exchange (bulk_write (e :: l)) c ds x c' ds' ->
  In m ms -> bw_id e = m_id m -> exists d, In d ds' /\ is_motor d (bulk_touched (e :: l) m).
Proof.
  intros cap c ds ms m e l x c' ds' Co Hl Ps Ex Hm He.
  destruct (pick _ _ _ m (bulk_motors _ _ _ _ _ _ _ _ Co Hl Ps Ex) Hm) as [d [Hd [E1 [s1 E2]]]].
  exists d. split; [exact Hd|]. destruct Hl as [Hl _]. pose proof (Forall_inv Hl) as [Ha Hn].
  rewrite (handle_bulk_first m e l s1 He Ha Hn) in E2. split; [|symmetry; exact E2].
  rewrite E1. unfold bulk_touched. destruct (find _ _); reflexivity.
Qed.

(** A motor whose id does not occur. *)
Lemma bulk_find_never : forall id ps, ~ In id ps -> forall fuel k i, mock_bulk_find fuel id ps k <> Val i.
Proof.
  intros id ps H. induction fuel as [|fuel IH]; intros k i E; [discriminate E|]. cbn [mock_bulk_find] in E.
  unfold idx in E. destruct (nth_error ps k) as [y|] eqn:En; [|discriminate E]. cbn [obind] in E.
  destruct (beq y id) eqn:B; [apply beq_true in B; subst y; apply H, (nth_error_In _ _ En)|].
  destruct (slice ps (k + 3) (k + 5)) as [b|?|]; try discriminate E. cbn [obind] in E.
  destruct (read_u16_le b) as [n|?|]; try discriminate E. cbn [obind] in E. exact (IH _ _ E).
Qed.

Lemma L_C74_unnamed_motor_stops : forall cap c ds ms m l x c' ds', connected cap c ds ms -> proper_bulk l ->
  passes comes_back cap (bulk_write_message l) -> exchange (bulk_write l) c ds x c' ds' ->
  In m ms -> ~ In (m_id m) (bulk_write_entries l) ->
  exists d, In d ds' /\ n_id d = m_id m /\ forall st, n_state d <> Val st.
Proof.
  intros cap c ds ms m l x c' ds' Co Hl Ps Ex Hm He.
  destruct (pick _ _ _ m (bulk_motors _ _ _ _ _ _ _ _ Co Hl Ps Ex) Hm) as [d [Hd [E1 [s1 E2]]]].
  exists d. split; [exact Hd|]. split; [exact E1|]. intros st K. rewrite K in E2.
  cbn [mock_handle] in E2. unfold bind, lift in E2.
  destruct (mock_bulk_find (S (length (bulk_write_entries l))) (m_id m) (bulk_write_entries l) 0) as [i|?|] eqn:Ef; try discriminate E2.
  exact (bulk_find_never _ _ He _ _ _ Ef).
Qed.

(** ** Two motors *)

Definition two_writes : list bulk_write_data := [mkBulkWrite x01 3 [x11; x12]; mkBulkWrite x02 4 [x13]].

Lemma two_writes_proper : proper_bulk two_writes /\ passes comes_back 64 (bulk_write_message two_writes).
Proof.
  split.
  - split; [repeat constructor|]. repeat constructor; cbn; intuition discriminate.
  - split; [vm_compute; lia|]. split; [reflexivity|exact I].
Qed.

Lemma bulk_two : exists c' d1 d2,
  let c := fresh true [] 64 64 in let mem := repeat x07 8 in
  exchange (bulk_write two_writes) c (two_motors mem mem) (Val (Ok tt)) c' [d1; d2] /\
  n_state d1 = Val (mkMock [x07; x07; x07; x11; x12; x07; x07; x07] None) /\ (exists k, n_state d2 = Panic k).
Proof.
  do 3 eexists. cbv zeta. split.
  - eapply (exchange_two _ _ _ _ _ _ [] []). all: [> (vm_compute; reflexivity) ..].
  - split; [reflexivity|]. eexists. reflexivity.
Qed.

Lemma L_C74_reaches_all_refuted : ~ (forall cap c ds ms l x c' ds', connected cap c ds ms -> proper_bulk l ->
  incl (map bw_id l) (map m_id ms) -> passes comes_back cap (bulk_write_message l) -> exchange (bulk_write l) c ds x c' ds' ->
  x = Val (Ok tt) /\ Forall2 is_motor ds' (map (bulk_touched l) ms)).
Proof.
  intro H. destruct bulk_two as [c' [d1 [d2 [E [_ [k K]]]]]].
  destruct (H 64 _ _ _ two_writes (Val (Ok tt)) c' [d1; d2] (two_connected (repeat x07 8) (repeat x07 8))) as [_ F].
  - apply two_writes_proper.
  - intros i Hi. exact Hi.
  - apply two_writes_proper.
  - exact E.
  - cbn [map] in F. inversion F as [|? ? ? ? _ F2]; subst. inversion F2 as [|? ? ? ? [_ Q] _]; subst. rewrite K in Q. discriminate Q.
Qed.

(** A bulk write without data for the first motor: the second one never gets out of its loop. *)
Lemma bulk_hangs : exists c' d1 d2,
  let c := fresh true [] 64 64 in let mem := repeat x07 8 in
  exchange (bulk_write [mkBulkWrite x01 3 []]) c (two_motors mem mem) (Val (Ok tt)) c' [d1; d2] /\ n_state d2 = Blocked /\
  proper_bulk [mkBulkWrite x01 3 []] /\ passes comes_back 64 (bulk_write_message [mkBulkWrite x01 3 []]) /\
  ~ In x02 (bulk_write_entries [mkBulkWrite x01 3 []]).
Proof.
  do 3 eexists. cbv zeta. split.
  - eapply (exchange_two _ _ _ _ _ _ [] []). all: [> (vm_compute; reflexivity) ..].
  - split; [reflexivity|]. split; [|split; [split; [vm_compute; lia|]; split; [reflexivity|exact I]|]].
    + split; [repeat constructor|]. repeat constructor; cbn; intuition discriminate.
    + cbn. intuition discriminate.
Qed.
