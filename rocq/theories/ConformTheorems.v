(** * ConformTheorems: the client is a remote control for motors that follow the protocol *)
From Coq Require Import ZArith ZifyN ZifyNat ZifyBool Permutation.
From Verif Require Import Base Endian Error Checksum Bytestuff Packet Time Bus Data Client
  Instructions Device MockDevice Api Spec CallSpec StreamSpec DeviceSpec InstructionSpec Demo Lib ChecksumProofs
  CrcErrorProofs StuffProofs WriteProofs ReadProofs ApiProofs StreamProofs MessageProofs SendProofs
  SendTheorems ReadTheorems StatusProofs DeviceTheorems InstructionProofs DemoProofs TransferTheorems
  UnderstoodTheorems IterProofs IterTheorems ScanTheorems RemoteSpec RemoteProofs RemoteTheorems TurnSpec TurnTheorems ConformSpec.
Ltac Zify.zify_post_hook ::= Z.div_mod_to_equations.

(** ** The protocol is unambiguous *)

(** What a conforming receiver makes of a stuffed body. *)
Fixpoint destuff (l : list byte) : list byte :=
  match l with
  | [] => []
  | a :: t =>
      match t with
      | b :: c :: _ :: t' => if beq a xff && beq b xff && beq c xfd then a :: b :: c :: destuff t' else a :: destuff t
      | _ => a :: destuff t
      end
  end.

Lemma pstuff_two : forall a b t, exists t', pstuff (a :: b :: t) = a :: b :: t'.
Proof.
  intros a b t. destruct t as [|c t]; [eexists; reflexivity|]. cbn [pstuff].
  destruct (beq a xff && beq b xff && beq c xfd); [eexists; reflexivity|].
  destruct t as [|d t]; [eexists; reflexivity|].
  destruct (beq b xff && beq c xff && beq d xfd); eexists; reflexivity.
Qed.

Lemma destuff_pstuff : forall n l, length l <= n -> destuff (pstuff l) = l.
Proof.
  induction n as [|n IH]; intros l L; [destruct l; [reflexivity|cbn in L; lia]|].
  destruct l as [|a t]; [reflexivity|]. cbn [length] in L.
  assert (St : pstuff (a :: t) = a :: pstuff t -> (forall b c d t', pstuff t = b :: c :: d :: t' -> beq a xff && beq b xff && beq c xfd = false) ->
    destuff (pstuff (a :: t)) = a :: t).
  { intros -> Hn. cbn [destuff]. destruct (pstuff t) as [|b [|c [|d t']]] eqn:E.
    - f_equal. rewrite <- E. apply IH. lia.
    - f_equal. rewrite <- E. apply IH. lia.
    - f_equal. rewrite <- E. apply IH. lia.
    - rewrite (Hn b c d t' eq_refl). f_equal. rewrite <- E. apply IH. lia. }
  destruct t as [|b [|c t]]; try (apply St; [reflexivity|cbn; discriminate]).
  destruct (beq a xff && beq b xff && beq c xfd) eqn:P.
  - cbn [pstuff]. rewrite P. cbn [destuff]. rewrite P. do 3 f_equal. apply IH. cbn [length] in L. lia.
  - apply St.
    + cbn [pstuff]. rewrite P. reflexivity.
    + intros b' c' d t' E. destruct (pstuff_two b c t) as [u Eu]. rewrite Eu in E. injection E as <- <- _. exact P.
Qed.

Lemma pstuff_inj : forall l l', pstuff l = pstuff l' -> l = l'.
Proof.
  intros l l' E. rewrite <- (destuff_pstuff _ l (le_n _)), <- (destuff_pstuff _ l' (le_n _)), E. reflexivity.
Qed.

Lemma app_length_inj : forall A (a b c d : list A), length a = length b -> a ++ c = b ++ d -> a = b /\ c = d.
Proof.
  intros A a. induction a as [|x a IH]; intros [|y b] c d L E; try discriminate L; [split; [reflexivity|exact E]|].
  cbn in L, E. injection E as -> E. injection L as L. destruct (IH b c d L E) as [-> ->]. auto.
Qed.

Lemma cons_inj : forall A (a b : A) c d, a :: c = b :: d -> a = b /\ c = d.
Proof. intros A a b c d E. split; congruence. Qed.

Lemma frame_inj : forall w id id' body body', is_frame id body w -> is_frame id' body' w -> id = id' /\ body = body'.
Proof.
  intros w id id' body body' [crc [E _]] [crc' [E' _]]. rewrite E in E'. unfold wire_of_body in E'. clear E.
  apply app_inv_head in E'. destruct (app_length_inj _ [id] [id'] _ _ eq_refl E') as [Ei E1].
  apply app_length_inj in E1; [|reflexivity]. destruct E1 as [_ E2]. split; [congruence|].
  apply pstuff_inj. apply (app_length_inj _ _ _ _ _) in E2; [apply E2|].
  apply (f_equal (@length byte)) in E2. rewrite !app_length in E2. unfold le16 in E2. cbn [length] in E2. lia.
Qed.

Lemma sync_entries_inj : forall n l l', Forall (fun c => length (sw_data c) = n) l -> Forall (fun c => length (sw_data c) = n) l' ->
  sync_entries l = sync_entries l' -> l = l'.
Proof.
  intros n l l' F. revert l'. induction F as [|[id d] l H F IH]; intros [|[id' d'] l'] F' E; try discriminate E; [reflexivity|].
  unfold sync_entries in E. cbn [flat_map sw_id sw_data app] in E. injection E as -> E.
  inversion F' as [|? ? H' F'']; subst. cbn [sw_data] in *.
  destruct (app_length_inj _ d d' _ _ (eq_sym H') E) as [-> E2]. f_equal. apply IH; assumption.
Qed.

Lemma bulk_read_entries_inj : forall l l', Forall (fun q => is_u16 (br_address q) /\ is_u16 (br_count q)) l ->
  Forall (fun q => is_u16 (br_address q) /\ is_u16 (br_count q)) l' -> bulk_read_entries l = bulk_read_entries l' -> l = l'.
Proof.
  intros l l' F. revert l'. induction F as [|[id a n] l [Ha Hn] F IH]; intros [|[id' a' n'] l'] F' E; try discriminate E; [reflexivity|].
  unfold bulk_read_entries in E. cbn [flat_map br_id br_address br_count] in *. rewrite <- !app_comm_cons, <- !app_assoc in E.
  inversion F' as [|? ? [Ha' Hn'] F'']; subst. cbn [br_address br_count] in *.
  destruct (cons_inj _ _ _ _ _ E) as [-> E1]. destruct (app2_inj _ _ _ _ E1 Ha Ha') as [-> E2].
  destruct (app2_inj _ _ _ _ E2 Hn Hn') as [-> E3]. f_equal. apply IH; assumption.
Qed.

Lemma bulk_write_entries_inj : forall l l',
  Forall (fun c => is_u16 (bw_address c) /\ is_u16 (N.of_nat (length (bw_data c)))) l ->
  Forall (fun c => is_u16 (bw_address c) /\ is_u16 (N.of_nat (length (bw_data c)))) l' ->
  bulk_write_entries l = bulk_write_entries l' -> l = l'.
Proof.
  intros l l' F. revert l'. induction F as [|[id a d] l [Ha Hd] F IH]; intros [|[id' a' d'] l'] F' E; try discriminate E; [reflexivity|].
  unfold bulk_write_entries in E. cbn [flat_map bw_id bw_address bw_data] in *. rewrite <- !app_comm_cons, <- !app_assoc in E.
  inversion F' as [|? ? [Ha' Hd'] F'']; subst. cbn [bw_address bw_data] in *.
  destruct (cons_inj _ _ _ _ _ E) as [-> E1]. destruct (app2_inj _ _ _ _ E1 Ha Ha') as [-> E2].
  destruct (app2_inj _ _ _ _ E2 Hd Hd') as [El E3].
  destruct (app_length_inj _ d d' _ _ ltac:(lia) E3) as [-> E4]. f_equal. apply IH; assumption.
Qed.

Lemma spells_body : forall id body p, spells id body p -> exists i params, body = i :: params.
Proof. intros id body p H. destruct H; do 2 eexists; reflexivity. Qed.

Lemma L_C69_unambiguous : forall w id id' body body' p p', is_frame id body w -> is_frame id' body' w ->
  spells id body p -> spells id' body' p' -> p = p'.
Proof.
  intros w id id' body body' p p' F F' S S'. destruct (frame_inj _ _ _ _ _ F F') as [<- <-]. clear F F' w.
  remember id as id1 eqn:Ei in S'. remember body as body1 eqn:Eb in S'.
  destruct S as [id Hid| |id a n Hid Ha Hn|id a d Ha|id a d Ha|id|id k|id|id|id|a n ids Ha Hn Nd|a n l Ha Hn Hl Nd|l Hl Nd|l Hl Nd];
  destruct S' as [id' Hid'| |id' a' n' Hid' Ha' Hn'|id' a' d' Ha'|id' a' d' Ha'|id'|id' k'|id'|id'|id'|a' n' ids' Ha' Hn' Nd'|a' n' l' Ha' Hn' Hl' Nd'|l' Hl' Nd'|l' Hl' Nd'];
  try (apply cons_inj in Eb; destruct Eb as [Eb _]; discriminate Eb);
  try congruence.
  - apply cons_inj in Eb. destruct Eb as [_ Eb]. destruct (app2_inj _ _ _ _ Eb Ha' Ha) as [-> Eb2].
    rewrite (le16_inj _ _ Hn' Hn Eb2), Ei. reflexivity.
  - apply cons_inj in Eb. destruct Eb as [_ Eb]. destruct (app2_inj _ _ _ _ Eb Ha' Ha) as [-> Eb2]. congruence.
  - apply cons_inj in Eb. destruct Eb as [_ Eb]. destruct (app2_inj _ _ _ _ Eb Ha' Ha) as [-> Eb2]. congruence.
  - apply cons_inj in Eb. destruct Eb as [_ Eb]. destruct (app2_inj _ _ _ _ Eb Ha' Ha) as [-> Eb2].
    destruct (app2_inj _ _ _ _ Eb2 Hn' Hn) as [-> ->]. reflexivity.
  - apply cons_inj in Eb. destruct Eb as [_ Eb]. destruct (app2_inj _ _ _ _ Eb Ha' Ha) as [-> Eb2].
    destruct (app2_inj _ _ _ _ Eb2 Hn' Hn) as [-> Eb3]. rewrite (sync_entries_inj _ _ _ Hl' Hl Eb3). reflexivity.
  - apply cons_inj in Eb. destruct Eb as [_ Eb]. rewrite (bulk_read_entries_inj _ _ Hl' Hl Eb). reflexivity.
  - apply cons_inj in Eb. destruct Eb as [_ Eb]. rewrite (bulk_write_entries_inj _ _ Hl' Hl Eb). reflexivity.
Qed.

(** ** Sending *)

Lemma passes_comes_back : forall cap body, passes ff_runs_ok cap body -> passes comes_back cap body.
Proof. intros cap body [H1 [H2 H3]]. split; [exact H1|]. split; [exact H2|]. apply L_C06_runs_ok_suffices, H3. Qed.

Lemma passes_frame : forall cap id body, passes ff_runs_ok cap body -> is_frame id body (code_wire id body).
Proof.
  intros cap id body [H1 [H2 H3]]. apply code_wire_frame_iff. split; [exact H3|].
  apply code_stuff_correct_iff in H3. rewrite <- H3, code_stuff_length. pose proof (fcount_third body).
  change (2 ^ 16)%N with 65536%N in *. lia.
Qed.

(** Whatever it reads, the call transmits [w]. *)
Definition speaks {A} (cap : nat) (m : M A) (w : list byte) : Prop := forall s o s', hardy cap s -> m s = (o, s') ->
  hardy cap s' /\ exists evs, calls s s' evs /\ transmitted evs = w.

Lemma speaks_shaped : forall R (m : M R) id i params k fin cap, shaped m id i params k fin ->
  passes ff_runs_ok cap (i :: params) -> speaks cap m (code_wire id (i :: params)).
Proof.
  intros R m id i params k fin cap Sh P s o s' H E. apply passes_comes_back in P.
  assert (exists evs, calls s s' evs) as [evs C].
  { destruct (shaped_works _ _ _ _ _ _ _ cap s Sh H P) as [s1 [[_ [H1 [e1 [C1 _]]]] [_ Em]]]. rewrite Em in E.
    unfold bind, lift in E. destruct (read_status_response k s1) as [x s2] eqn:Er.
    destruct (rsr_mute cap k s1 x s2 H1 Er) as [_ [e2 [C2 _]]].
    exists (e1 ++ e2). assert (s' = s2) as -> by (destruct x; injection E; auto). eapply calls_app; eassumption. }
  destruct (shaped_transmits _ _ _ _ _ _ _ cap s _ _ _ Sh H P E C) as [T H']. eauto.
Qed.

Lemma speaks_then : forall A B cap (m : M A) (k : A -> M B) w, speaks cap m w -> (forall a, mute cap (k a)) ->
  speaks cap (bind m k) w.
Proof.
  intros A B cap m k w Hm Hk s o s' H E. unfold bind in E. destruct (m s) as [x s1] eqn:E1.
  destruct (Hm s x s1 H E1) as [H1 [e1 [C1 T1]]]. destruct x as [a|p|].
  - destruct (Hk a s1 o s' H1 E) as [H2 [e2 [C2 T2]]]. split; [exact H2|]. exists (e1 ++ e2).
    split; [eapply calls_app; eassumption|]. rewrite transmitted_app, T1, T2. apply app_nil_r.
  - injection E as _ <-. eauto.
  - injection E as _ <-. eauto.
Qed.

Lemma speaks_sends : forall cap m id i params, sends m id i params -> passes ff_runs_ok cap (i :: params) ->
  speaks cap m (code_wire id (i :: params)).
Proof.
  intros cap m id i params Sd P s o s' H E.
  destruct (sends_works cap m id i params s Sd H (passes_comes_back _ _ P)) as [s1 [[W1 W2] _]].
  rewrite W1 in E. injection E as _ <-. exact W2.
Qed.

Definition who (k : control) : byte :=
  match k with
  | KPing id | KRead id _ _ | KWrite id _ _ | KRegWrite id _ _ | KAction id | KReset id _ | KReboot id
  | KClearTurns id | KClearError id => id
  | _ => xfe
  end.

Lemma direct_all : forall c, direct xfe c = ToAll c.
Proof. reflexivity. Qed.

Lemma spells_text : forall k, sensible k -> spells (who k) (text k) (meaning k).
Proof.
  intros k H. destruct k; cbn [sensible who text meaning] in *; rewrite <- ?direct_all.
  - apply sp_ping, H.
  - apply sp_scan.
  - apply sp_read; apply H.
  - apply sp_write, H.
  - apply sp_reg_write, H.
  - apply sp_action.
  - apply sp_action.
  - apply sp_reset.
  - apply sp_reset.
  - apply sp_reboot.
  - apply sp_reboot.
  - apply sp_clear_turns.
  - apply sp_clear_turns.
  - apply sp_clear_error.
  - apply sp_sync_read; apply H.
  - apply sp_sync_write; apply H.
  - apply sp_bulk_read; apply H.
  - apply sp_bulk_write; apply H.
Qed.

Lemma instruct_all : forall i n enc params cap s, writes_parameters enc params -> n = length params ->
  passes ff_runs_ok cap (i :: params) -> hardy cap s ->
  exists s', works cap (instruct xfe i n enc) s (Ok (mkResponse xfe false tt)) (code_wire xfe (i :: params)) s'.
Proof.
  intros i n enc params cap s Hw -> Ps H.
  destruct (sends_works cap _ xfe i params s (sends_instruction xfe i params enc Hw) H (passes_comes_back _ _ Ps)) as [s' [[W1 W2] _]].
  exists s'. split; [|exact W2]. unfold instruct, try_, bind. rewrite W1. reflexivity.
Qed.

Lemma instruct_speaks : forall id i n enc params cap, writes_parameters enc params -> n = length params ->
  passes ff_runs_ok cap (i :: params) -> speaks cap (instruct id i n enc) (code_wire id (i :: params)).
Proof.
  intros id i n enc params cap Hw En Ps. destruct (beq id xfe) eqn:B.
  - apply beq_true in B. subst id. intros s o s' H E.
    destruct (instruct_all i n enc params cap s Hw En Ps H) as [s1 [W1 W2]]. rewrite W1 in E. injection E as _ <-. exact W2.
  - eapply speaks_shaped; [|exact Ps]. apply instruct_shaped; [exact Hw|exact En|]. intros ->. rewrite beq_refl in B. discriminate.
Qed.

Lemma speaks_ret : forall A B cap (m : M A) (f : A -> B) w, speaks cap m w -> speaks cap (r <- m ;; ret (f r)) w.
Proof. intros A B cap m f w H. apply speaks_then; [exact H|]. intro a. apply mute_ret. Qed.

Lemma bulk_write_sends : forall l, Forall (fun c => is_u16 (N.of_nat (length (bw_data c)))) l ->
  forall s, bulk_write l s = write_instruction xfe x93 (length (bulk_write_entries l)) (enc_ok (bulk_write_loop 0 l)) s.
Proof. intros l H s. unfold bulk_write, bind, lift. rewrite (bulk_write_count_val l 0 H). reflexivity. Qed.

Lemma sync_write_sends : forall a n l, Forall (fun c => length (sw_data c) = N.to_nat n) l ->
  sync_write_bytes a n l = write_instruction xfe x83 (length (le16 a ++ le16 n ++ sync_entries l))
    (enc_ok (fun b => let* b := write_u16_at b 0 a in let* b := write_u16_at b 2 n in sync_write_bytes_loop (N.to_nat n) 0 l b)).
Proof.
  intros a n l H. unfold sync_write_bytes. cbv zeta.
  replace (length (le16 a ++ le16 n ++ sync_entries l)) with (4 + length l * (1 + N.to_nat n)); [reflexivity|].
  rewrite !app_length, (sync_entries_length _ _ H). reflexivity.
Qed.

(** A call that first transmits and then goes on with [m2]. *)
Definition sends_then {A} (m : M A) (id i : byte) (params : list byte) (m2 : M A) : Prop :=
  exists wr, sends wr id i params /\ forall s s1, wr s = (Val (Ok tt), s1) -> m s = m2 s1.

Lemma sends_room : forall cap m id i params s, sends m id i params -> hardy cap s -> passes comes_back cap (i :: params) ->
  length (b_rbuf (snd (m s))) = length (b_rbuf s).
Proof.
  intros cap m id i params s Sd H P. destruct (sends_works cap m id i params s Sd H P) as [s1 [[W1 _] _]].
  destruct H as [H1 H2 H3 H4 H4' H5 H6]. destruct P as [P1 [P2 _]].
  pose proof (sends_effect _ _ _ _ _ Sd H1) as X. pose proof (fcount_third (i :: params)) as F. cbn [length] in *.
  destruct (m s) as [o s'] eqn:E. remember (o, s') as os eqn:Eo.
  destruct X as [X|e w' X1 X2 X3|p X1 X2 X3|e w' X1 X2 X3 X4|w' X1 X2 X3 X4 X5]; injection Eo as <- <-; reflexivity.
Qed.

Lemma sends_then_runs : forall A cap (m : M A) id i params m2 s, sends_then m id i params m2 -> hardy cap s ->
  passes ff_runs_ok cap (i :: params) -> exists s1 evs, m s = m2 s1 /\ hardy cap s1 /\ pending s1 = incoming s /\
    incoming s1 = incoming s /\ length (b_rbuf s1) = length (b_rbuf s) /\ calls s s1 evs /\ transmitted evs = code_wire id (i :: params).
Proof.
  intros A cap m id i params m2 s [wr [Sd K]] H P. apply passes_comes_back in P.
  destruct (sends_works cap wr id i params s Sd H P) as [s1 [[W1 [H1 [evs [C T]]]] [P1 [I1 _]]]].
  pose proof (sends_room cap wr id i params s Sd H P) as L. rewrite W1 in L. cbn [snd] in L.
  exists s1, evs. split; [apply K, W1|]. auto 8.
Qed.

Lemma sends_then_speaks : forall A cap (m : M A) id i params m2, sends_then m id i params m2 ->
  passes ff_runs_ok cap (i :: params) -> mute cap m2 -> speaks cap m (code_wire id (i :: params)).
Proof.
  intros A cap m id i params m2 S P Mu s o s' H E.
  destruct (sends_then_runs A cap m id i params m2 s S H P) as [s1 [e1 [E1 [H1 [_ [_ [_ [C1 T1]]]]]]]].
  rewrite E1 in E. destruct (Mu s1 o s' H1 E) as [H2 [e2 [C2 T2]]]. split; [exact H2|].
  exists (e1 ++ e2). split; [eapply calls_app; eassumption|]. rewrite transmitted_app, T1, T2. apply app_nil_r.
Qed.

(** *** All the calls *)

Lemma sends_then_bind : forall A B (m : M A) (f : A -> B) id i params m2, sends_then m id i params m2 ->
  sends_then (r <- m ;; ret (f r)) id i params (r <- m2 ;; ret (f r)).
Proof. intros A B m f id i params m2 [wr [Sd K]]. exists wr. split; [exact Sd|]. intros s s1 E. unfold bind. rewrite (K s s1 E). reflexivity. Qed.

Lemma sends_only : forall wr wr' id i params, sends wr id i params -> (forall s, wr' s = wr s) ->
  sends_then wr' id i params (ret (Ok tt)).
Proof. intros wr wr' id i params Sd E. exists wr. split; [exact Sd|]. intros s s1 K. rewrite E. exact K. Qed.

Lemma shaped_sends : forall R (m : M R) id i params k fin, shaped m id i params k fin ->
  sends_then m id i params (r <- read_status_response k ;; lift (fin r)).
Proof.
  intros R m id i params k fin [enc [Hw [Hk K]]]. exists (write_instruction id i (length params) enc).
  split; [apply sends_instruction, Hw|exact K].
Qed.

Lemma instruct_sends : forall id i n enc params, writes_parameters enc params -> n = length params ->
  sends_then (instruct id i n enc) id i params
    (if beq id xfe then ret (Ok (mkResponse xfe false tt)) else (r <- read_status_response 0 ;; lift (fin_instruct r))).
Proof.
  intros id i n enc params Hw En. destruct (beq id xfe) eqn:B.
  - apply beq_true in B. subst id n. exists (write_instruction xfe i (length params) enc). split; [apply sends_instruction, Hw|].
    intros s s1 W. unfold instruct, try_, bind. rewrite W. reflexivity.
  - apply shaped_sends. apply instruct_shaped; [exact Hw|exact En|]. intros ->. rewrite beq_refl in B. discriminate.
Qed.

Lemma sync_read_sends : forall ids a n, sends_then (sync_read_all ids a n) xfe x82 (le16 a ++ le16 n ++ ids)
  (l <- take_then_drop srb_next srb_drop (length ids) (mkSRB n ids 0) ;; ret (Ok l)).
Proof.
  intros ids a n. eexists. split; [apply (sends_instruction xfe x82 _ _ (sync_read_writes a n ids))|].
  intros s s1 W. unfold sync_read_all, sync_read_bytes, write_sync_read, try_. unfold bind at 1 2.
  change BROADCAST with xfe. change SYNC_READ with x82. change (4 + length ids) with (length (le16 a ++ le16 n ++ ids)).
  rewrite W. reflexivity.
Qed.

Lemma bulk_read_sends : forall l, NoDup (map br_id l) -> sends_then (bulk_read_all l) xfe x92 (bulk_read_entries l)
  (l <- take_then_drop br_next br_drop (length l) (mkBR l 0) ;; ret (Ok l)).
Proof.
  intros l Nd. eexists. split; [apply (sends_instruction xfe x92 _ _ (bulk_read_writes l))|].
  intros s s1 W. rewrite bulk_read_entries_length in W.
  unfold bulk_read_all, bulk_read_bytes, write_bulk_read_instruction, try_. unfold bind at 1 2.
  rewrite (proj2 (bulk_read_dup_iff l) Nd). change BROADCAST with xfe. change BULK_READ with x92. rewrite W. reflexivity.
Qed.

Definition scan_rest : M reply :=
  s <- get ;;
  l <- scan_items (S (script_size (p_script (b_port s)))) ;;
  s' <- get ;;
  d <- scan_drop (S (b_rlen s' + script_size (p_script (b_port s')))) ;;
  if d : bool then ret (RepFound (Ok l)) else lift Blocked.

Lemma scan_sends : sends_then scan_all xfe x01 [] scan_rest.
Proof.
  exists (write_instruction xfe x01 0 no_params). split; [apply (sends_instruction xfe x01 [] _ no_params_writes)|].
  intros s s1 W. unfold scan_all, scan. unfold bind at 1. change BROADCAST with xfe. change PING with x01. rewrite W. reflexivity.
Qed.

Lemma scan_rest_mute : forall cap, mute cap scan_rest.
Proof.
  intro cap. apply mute_bind; [apply mute_get|]. intro s2. apply mute_bind; [apply scan_items_mute|]. intro l.
  apply mute_bind; [apply mute_get|]. intro s3. apply mute_bind; [apply scan_drop_mute|].
  intros [|]; [apply mute_ret|apply mute_lift].
Qed.

(** What is left of a call after its transmission. *)
Definition rest (k : control) : M outcome :=
  let acked id := r <- (if beq id xfe then ret (Ok (mkResponse xfe false tt))
                        else (r <- read_status_response 0 ;; lift (fin_instruct r))) ;;
                  ret (Told (RepDone r)) in
  match k with
  | KPing id => r <- (r <- read_status_response 3 ;; lift (let* x := fin_transfer id r in
      match x with
      | Err e => Val (Err e)
      | Ok p => let* y := response_ping p in Val (map_err (fun e => TReadError (RInvalidMessage e)) y)
      end)) ;; ret (Told (RepPing r))
  | KScan => r <- scan_rest ;; ret (Told r)
  | KRead id a n => r <- (r <- read_status_response n ;; lift (let* x := (let* x := fin_transfer id r in fin_read n x) in
       match x with
       | Err e => Val (Err e)
       | Ok p => let* y := decode_status_packet_bytes p in Val (map_err TReadError y)
       end)) ;; ret (Told (RepData r))
  | KWrite id _ _ | KRegWrite id _ _ | KAction id | KReset id _ | KReboot id | KClearTurns id | KClearError id => acked id
  | KSyncRead ids a n =>
      r <- (l <- take_then_drop srb_next srb_drop (length ids) (mkSRB n ids 0) ;; ret (Ok l)) ;; ret (Turns r)
  | KBulkRead l =>
      r <- (l <- take_then_drop br_next br_drop (length l) (mkBR l 0) ;; ret (Ok l)) ;; ret (Turns r)
  | _ => r <- ret (Ok tt) ;; ret (Told (RepSent r))
  end.

Definition code_text (k : control) : list byte :=
  match k with KClearError _ => [x10; x01; x45; x52; x43; x4c] | _ => text k end.

Lemma issue_sends : forall k, sensible k -> exists i params, code_text k = i :: params /\
  sends_then (issue k) (who k) i params (rest k).
Proof.
  intros k H. destruct k as [id| |id a n|id a d|id a d|id| |id k|k|id| |id| |id|ids a n|a n l|l|l];
    cbn [code_text text issue who rest sensible] in *; cbv zeta; do 2 eexists; (split; [reflexivity|]); apply sends_then_bind.
  - apply shaped_sends, ping_shaped.
  - apply scan_sends.
  - apply shaped_sends, read_bytes_shaped, H.
  - apply instruct_sends; [apply address_and_bytes_writes|rewrite app_length; reflexivity].
  - apply instruct_sends; [apply address_and_bytes_writes|rewrite app_length; reflexivity].
  - apply instruct_sends; [apply no_params_writes|reflexivity].
  - eapply sends_only; [apply (sends_instruction xfe x05 [] _ no_params_writes)|reflexivity].
  - apply instruct_sends; [apply factory_reset_writes|reflexivity].
  - eapply sends_only; [apply (sends_instruction xfe x06 _ _ (factory_reset_writes k))|reflexivity].
  - apply instruct_sends; [apply no_params_writes|reflexivity].
  - eapply sends_only; [apply (sends_instruction xfe x08 [] _ no_params_writes)|reflexivity].
  - apply instruct_sends; [apply clear_revolution_writes|reflexivity].
  - eapply sends_only; [apply (sends_instruction xfe x10 _ _ clear_revolution_writes)|reflexivity].
  - apply instruct_sends; [apply clear_error_writes|reflexivity].
  - apply sync_read_sends.
  - eapply sends_only; [apply (sends_instruction xfe x83 _ _ (sync_write_bytes_writes a n l (proj1 (proj2 (proj2 H)))))|].
    intro s. rewrite sync_write_sends by apply H. reflexivity.
  - apply bulk_read_sends, H.
  - assert (F : Forall (fun c => is_u16 (N.of_nat (length (bw_data c)))) l)
      by (eapply Forall_impl; [|apply H]; intros c Hc; apply Hc).
    eapply sends_only; [apply (sends_instruction xfe x93 _ _ (bulk_write_writes l F))|].
    intro s. rewrite bulk_write_sends by exact F. reflexivity.
Qed.

Lemma mute_status : forall R cap n (fin : result packet read_error -> out R), mute cap (r <- read_status_response n ;; lift (fin r)).
Proof. intros R cap n fin. apply mute_bind; [apply rsr_mute|]. intro r. apply mute_lift. Qed.

Lemma rest_mute : forall cap k, mute cap (rest k).
Proof.
  intros cap k.
  assert (Ac : forall id, mute cap (r <- (if beq id xfe then ret (Ok (mkResponse xfe false tt))
                        else (r <- read_status_response 0 ;; lift (fin_instruct r))) ;; ret (Told (RepDone r)))).
  { intro id. apply mute_bind; [destruct (beq id xfe); [apply mute_ret|apply mute_status]|]. intro r. apply mute_ret. }
  destruct k as [id| |id a n|id a d|id a d|id| |id k|k|id| |id| |id|ids a n|a n l|l|l]; cbn [rest]; cbv zeta;
    try apply Ac; (apply mute_bind; [|intro r; apply mute_ret]); try apply mute_ret; try apply mute_status.
  - apply scan_rest_mute.
  - apply mute_bind; [|intro; apply mute_ret].
    apply (take_mute _ _ _ _ srb_next srb_drop (fun j => mkSRB n ids j) _ _ ids cap
      (srb_rep n ids) (sync_rep_drop n ids) (fun q => expect_mute cap q n) (fun _ => rsr_mute cap n)).
  - apply mute_bind; [|intro; apply mute_ret].
    apply (take_mute _ _ _ _ br_next br_drop (fun j => mkBR l j) _ _ l cap
      (br_rep l) (br_drop_rep l) (fun r => expect_mute cap (br_id r) (br_count r)) (fun r => rsr_mute cap (br_count r))).
Qed.

Lemma issue_speaks : forall cap k, sensible k -> passes ff_runs_ok cap (code_text k) ->
  speaks cap (issue k) (code_wire (who k) (code_text k)).
Proof.
  intros cap k H P. destruct (issue_sends k H) as [i [params [E S]]]. rewrite E in *.
  eapply sends_then_speaks; [exact S|exact P|apply rest_mute].
Qed.

(** ** Reading *)

Lemma ideal_status : forall cap line id e ps l rst, statuses cap line ((id, e, ps) :: l) rst ->
  exists p line', ideal cap line = (Val (Ok p), line') /\ packet_is p id (STATUS :: e :: ps) /\ statuses cap line' l rst.
Proof.
  intros cap line id e ps l rst H. inversion H as [|g id' e' ps' w line' l' rst' Hg Hw Hr Hl H']; subst.
  destruct (ideal_frame cap g id _ w line' Hg Hw ltac:(discriminate) Hl) as [p [I Q]].
  rewrite (proj2 (unst_pstuff_iff _) Hr) in Q. exists p, line'. auto.
Qed.

Definition heard (st : status) (r : result packet read_error) : Prop :=
  let '(id, e, ps) := st in
  match r with
  | Ok p => no_error e /\ packet_is p id (STATUS :: e :: ps)
  | Err er => ~ no_error e /\ er = RMotorError e
  end.

Lemma status_heard : forall p id e ps, packet_is p id (STATUS :: e :: ps) ->
  exists r, status_of (Val (Ok p)) = Val r /\ heard (id, e, ps) r.
Proof.
  intros p id e ps Q. cbn [status_of]. rewrite (status_check_status _ _ _ _ Q).
  assert (Bz : N.land (b2n e) 127 = (b2n e mod 128)%N) by (destruct e; reflexivity).
  rewrite Bz. cbn [heard]. unfold no_error. destruct (N.eqb_spec (b2n e mod 128) 0) as [Z|Z]; eexists; (split; [reflexivity|]); cbn; auto.
Qed.

Lemma timed_room : forall t s s', timed t s s' -> length (b_rbuf s') = length (b_rbuf s).
Proof. intros t s s' [[_ B _ _ _ _ _ _ _]]. exact B. Qed.

Lemma status_arrives : forall cap n s st l rst, hardy cap s -> is_u16 n ->
  statuses (length (b_rbuf s)) (pending s) (st :: l) rst ->
  exists r s', read_status_response n s = (Val r, s') /\ hardy cap s' /\
    statuses (length (b_rbuf s')) (pending s') l rst /\ heard st r.
Proof.
  intros cap n s [[id e] ps] l rst H Hn S. destruct (ideal_status _ _ _ _ _ _ _ S) as [p [line' [I [Q S']]]].
  destruct (read_status_response n s) as [o s'] eqn:E.
  destruct (read_status_spec _ _ _ _ (ha_inv _ _ H) E) as [[x [T _]]|[t [o1 [_ [Id [Ho [Iv T]]]]]]].
  { exfalso. destruct (response_timeout_val (b_dbg s) (b_baud s) n Hn (ha_baud _ _ H)) as [t T']. congruence. }
  rewrite I in Id. injection Id as <- Pe. destruct (status_heard _ _ _ _ Q) as [r [Er Hr]].
  exists r, s'. split; [congruence|]. split; [apply (timed_hardy cap t s s' T Iv H)|].
  split; [rewrite (timed_room _ _ _ T), <- Pe; exact S'|exact Hr].
Qed.

Lemma silence_arrives : forall cap n s e es, 16 <= cap -> hardy cap s -> is_u16 n -> pending s = items (silence (e :: es)) ->
  exists s', read_status_response n s = (Val (Err (RIo (IoTimeout e))), s') /\ hardy cap s' /\ pending s' = items (silence es).
Proof.
  intros cap n s e es Hc H Hn Pe. destruct (rsr_hardy cap n s H Hn) as [o1 [s' [E [Id H']]]].
  rewrite Pe in Id. cbn [silence map items] in Id. rewrite ideal_timeout in Id by (pose proof (ha_rcap _ _ H); lia).
  injection Id as <- Pr. exists s'. split; [exact E|]. split; [exact H'|]. symmetry. exact Pr.
Qed.

Lemma statuses_nil : forall cap line rst, statuses cap line [] rst -> line = rst.
Proof. intros cap line rst H. inversion H. reflexivity. Qed.

(** A call that waits for one status. *)
Lemma one_answer : forall R X cap n s l es (fin : result packet read_error -> out R) (f : result X transfer_error -> R)
    (understand : status -> result X read_error),
  16 <= cap -> hardy cap s -> is_u16 n -> 1 <= length es -> statuses (length (b_rbuf s)) (pending s) l (items (silence es)) ->
  (forall e, fin (Err (RIo e)) = Val (f (Err (TReadError (RIo e))))) ->
  (forall st r, hd_error l = Some st -> heard st r -> fin r = Val (f (map_err TReadError (understand st)))) ->
  exists r s', (r <- read_status_response n ;; lift (fin r)) s = (Val (f r), s') /\ told_one understand l r.
Proof.
  intros R X cap n s l es fin f understand Hc H Hn Le S F1 F2. destruct l as [|st l].
  - pose proof (eq_sym (statuses_nil _ _ _ S)) as Hs. destruct es as [|e es]; [cbn in Le; lia|].
    destruct (silence_arrives cap n s e es Hc H Hn (eq_sym Hs)) as [s' [E _]].
    eexists. exists s'. split; [unfold bind; rewrite E; unfold lift; rewrite F1; reflexivity|]. exists e. reflexivity.
  - destruct (status_arrives cap n s st l _ H Hn S) as [r [s' [E [_ [_ Hr]]]]].
    eexists. exists s'. split; [unfold bind; rewrite E; unfold lift; rewrite (F2 st r eq_refl Hr); reflexivity|]. reflexivity.
Qed.

Lemma no_error_eqb : forall e, no_error e -> negb (b2n e mod 128 =? 0)%N = false.
Proof. intros e H. unfold no_error in H. rewrite H. reflexivity. Qed.

Lemma error_eqb : forall e, ~ no_error e -> negb (b2n e mod 128 =? 0)%N = true.
Proof. intros e H. unfold no_error in H. apply N.eqb_neq in H. rewrite H. reflexivity. Qed.

Lemma instruct_understood : forall id st r, fst (fst st) = id -> heard st r ->
  fin_instruct r = Val (map_err TReadError (judge_value (fun _ => Ok tt) id 0 st)).
Proof.
  intros id [[id' e] ps] r Hid Hr. cbn [fst] in Hid. subst id'. unfold judge_value, judge. cbn [heard] in Hr.
  destruct r as [p|er]; destruct Hr as [He Hr]; cbn [fin_instruct].
  - rewrite (no_error_eqb e He), beq_refl. cbn [negb]. rewrite (response_unit_val _ _ _ _ Hr).
    destruct ps as [|x ps]; reflexivity.
  - subst er. rewrite (error_eqb e He). reflexivity.
Qed.

Lemma ping_understood : forall id st r, fst (fst st) = id -> heard st r ->
  (let* x := fin_transfer id r in
   match x with
   | Err e => Val (Err e)
   | Ok p => let* y := response_ping p in Val (map_err (fun e => TReadError (RInvalidMessage e)) y)
   end) = Val (map_err TReadError (judge_ping st)).
Proof.
  intros id [[id' e] ps] r Hid Hr. cbn [fst] in Hid. subst id'. unfold judge_ping. cbn [heard] in Hr.
  destruct r as [p|er]; destruct Hr as [He Hr].
  - rewrite (no_error_eqb e He), (fin_transfer_ok _ _ _ Hr). cbn [obind]. rewrite (response_ping_val _ _ _ _ Hr).
    destruct ps as [|x [|y [|z [|]]]]; reflexivity.
  - subst er. rewrite (error_eqb e He). reflexivity.
Qed.

Lemma read_understood : forall id n st r, fst (fst st) = id -> heard st r ->
  (let* x := (let* x := fin_transfer id r in fin_read n x) in
   match x with
   | Err e => Val (Err e)
   | Ok p => let* y := decode_status_packet_bytes p in Val (map_err TReadError y)
   end) = Val (map_err TReadError (judge id (N.to_nat n) st)).
Proof.
  intros id n [[id' e] ps] r Hid Hr. cbn [fst] in Hid. subst id'. unfold judge. cbn [heard] in Hr.
  destruct r as [p|er]; destruct Hr as [He Hr].
  - rewrite (no_error_eqb e He), beq_refl, (fin_transfer_ok _ _ _ Hr). cbn [negb obind fin_read].
    destruct (status_accessors _ _ _ _ Hr) as [A1 [A2 [A3 A4]]]. rewrite A4. cbn [obind].
    unfold param_count_check. destruct (length ps =? N.to_nat n); [|reflexivity]. cbn [negb].
    unfold decode_status_packet_bytes. rewrite A2. cbn [obind]. rewrite (no_error_check _ He), A1, A3, A4. reflexivity.
  - subst er. rewrite (error_eqb e He). reflexivity.
Qed.

Lemma turn_understood : forall cap id n s st l rst, hardy cap s -> is_u16 n ->
  statuses (length (b_rbuf s)) (pending s) (st :: l) rst ->
  exists s', expect_response id n s = (Val (judge id (N.to_nat n) st), s') /\ hardy cap s' /\
    statuses (length (b_rbuf s')) (pending s') l rst.
Proof.
  intros cap id n s [[id' e] ps] l rst H Hn S.
  destruct (status_arrives cap n s _ l rst H Hn S) as [r [s' [E [H' [S' Hr]]]]].
  exists s'. split; [|auto]. unfold expect_response, try_, bind. rewrite E. cbn [heard] in Hr. unfold judge.
  destruct r as [p|er]; destruct Hr as [He Hr].
  - rewrite (no_error_eqb e He). destruct (status_accessors _ _ _ _ Hr) as [A1 [A2 [A3 A4]]].
    unfold lift. rewrite A1. unfold tryr, packet_id_check. destruct (beq id' id) eqn:B; [|reflexivity].
    apply beq_true in B. subst id'. cbn [negb]. unfold lift. rewrite A4. unfold param_count_check.
    destruct (length ps =? N.to_nat n); [|reflexivity]. cbn [negb].
    unfold decode_status_packet_bytes, ret. rewrite A2. cbn [obind]. rewrite (no_error_check _ He), A1, A3, A4. reflexivity.
  - subst er. rewrite (error_eqb e He). reflexivity.
Qed.

Lemma gnexts_answers : forall Q (key : Q -> byte) (cnt : Q -> N) reqs cap es, 16 <= cap -> Forall (fun q => is_u16 (cnt q)) reqs ->
  length reqs <= length es ->
  forall k i s l, hardy cap s -> i + k = length reqs -> length l <= k -> statuses (length (b_rbuf s)) (pending s) l (items (silence es)) ->
  exists missing s', nexts (gnext (fun q => expect_response (key q) (cnt q)) reqs) k i s =
      (Val (map (fun '(q, st) => Some (judge (key q) (N.to_nat (cnt q)) st)) (combine (skipn i reqs) l) ++ missing, i + k), s') /\
    length l + length missing = k /\ Forall timed_out missing.
Proof.
  intros Q key cnt reqs cap es Hc F Le. induction k as [|k IH]; intros i s l H L1 L2 S.
  - destruct l; [|cbn in L2; lia]. exists [], s. rewrite Nat.add_0_r. split; [|split; [reflexivity|constructor]].
    destruct (skipn i reqs); reflexivity.
  - destruct l as [|st l].
    + pose proof (eq_sym (statuses_nil _ _ _ S)) as Hs.
      destruct (gnexts_silent Q key cnt reqs cap Hc F (Datatypes.S k) i s es [] H) as [xs [s' [E [_ [Lx Fx]]]]];
        [lia|lia|rewrite app_nil_r; congruence|].
      exists xs, s'. rewrite E. split; [destruct (skipn i reqs); reflexivity|]. split; [exact Lx|exact Fx].
    + destruct (nth_error reqs i) as [q|] eqn:Eq; [|apply nth_error_None in Eq; lia].
      assert (Kq : is_u16 (cnt q)) by (rewrite Forall_forall in F; apply F, (nth_error_In _ _ Eq)).
      destruct (turn_understood cap (key q) (cnt q) s st l _ H Kq S) as [s1 [E1 [H1 S1]]].
      destruct (IH (Datatypes.S i) s1 l H1) as [missing [s2 [E2 [L F2]]]]; [lia|cbn in L2; lia|exact S1|].
      exists missing, s2. split; [|split; [cbn; lia|exact F2]].
      cbn [nexts]. unfold bind at 1. unfold gnext at 1. rewrite Eq. unfold bind. rewrite E1. cbn [ret]. rewrite E2.
      replace (i + Datatypes.S k) with (Datatypes.S i + k) by lia.
      assert (Sk : skipn i reqs = q :: skipn (Datatypes.S i) reqs).
      { clear -Eq. revert i Eq. induction reqs as [|q0 reqs IH]; intros [|i] Eq; try discriminate Eq.
        - injection Eq as ->. reflexivity.
        - cbn [skipn]. apply IH, Eq. }
      rewrite Sk. reflexivity.
Qed.

Lemma turns_answers : forall I Q Y (next : I -> M (option (result (response (list byte)) read_error) * I)) (drop : I -> M unit)
    (f : nat -> I) (key : Q -> byte) (cnt : Q -> N) (rd' : Q -> M Y) reqs cap s l es,
  (forall i s, next (f i) s = out_map (fun '(x, j) => (x, f j)) (gnext (fun q => expect_response (key q) (cnt q)) reqs i s)) ->
  (forall i s, i <= length reqs -> drop (f i) s = gdrop rd' (skipn i reqs) s) ->
  16 <= cap -> Forall (fun q => is_u16 (cnt q)) reqs -> hardy cap s -> length reqs <= length es -> length l <= length reqs ->
  statuses (length (b_rbuf s)) (pending s) l (items (silence es)) ->
  exists missing s', take_then_drop next drop (length reqs) (f 0) s =
      (Val (map (fun '(q, st) => Some (judge (key q) (N.to_nat (cnt q)) st)) (combine reqs l) ++ missing), s') /\
    length l + length missing = length reqs /\ Forall timed_out missing.
Proof.
  intros I Q Y next drop f key cnt rd' reqs cap s l es Hn Hd Hc F H Le Ll S.
  destruct (gnexts_answers Q key cnt reqs cap es Hc F Le (length reqs) 0 s l H eq_refl Ll S) as [missing [s' [E [L Fm]]]].
  exists missing, s'. split; [|auto]. unfold take_then_drop, bind. rewrite (nexts_rep _ _ _ next _ f Hn), E. cbn [out_map skipn Nat.add].
  rewrite Hd by apply le_n. rewrite skipn_all. reflexivity.
Qed.

(** *** Scanning *)

Lemma scan_answer : forall cap s st l rst, hardy cap s -> statuses (length (b_rbuf s)) (pending s) (st :: l) rst ->
  exists s', scan_next s = (Val (Some (judge_ping st)), s') /\ hardy cap s' /\ statuses (length (b_rbuf s')) (pending s') l rst.
Proof.
  intros cap s [[id e] ps] l rst H S. destruct (ideal_status _ _ _ _ _ _ _ S) as [p [line' [Il [Q S']]]].
  destruct (scan_next_hardy cap s H) as [t [o1 [s' [E [I [T Iv]]]]]].
  rewrite Il in I. injection I as <- Pe. exists s'.
  split; [|split; [apply (timed_hardy cap t s s' T Iv H)|rewrite (timed_room _ _ _ T), <- Pe; exact S']].
  rewrite E. destruct (status_heard _ _ _ _ Q) as [r [-> Hr]]. cbn [heard] in Hr. unfold judge_ping.
  destruct r as [p'|er]; destruct Hr as [He Hr]; cbn [scan_judge].
  - rewrite (no_error_eqb e He), (response_ping_val _ _ _ _ Hr). destruct ps as [|x [|y [|z [|]]]]; reflexivity.
  - subst er. rewrite (error_eqb e He). reflexivity.
Qed.

Lemma scan_items_answers : forall cap es e l s fuel, 16 <= cap -> hardy cap s ->
  statuses (length (b_rbuf s)) (pending s) l (items (silence (e :: es))) -> length l < fuel ->
  exists s', scan_items fuel s = (Val (map judge_ping l), s') /\ hardy cap s' /\ pending s' = items (silence es).
Proof.
  intros cap es e l. induction l as [|st l IH]; intros s fuel Hc H S Lf; (destruct fuel as [|fuel]; [cbn in Lf; lia|]); cbn [scan_items map].
  - pose proof (eq_sym (statuses_nil _ _ _ S)) as Hs.
    destruct (scan_next_silence cap s e (items (silence es)) Hc H (eq_sym Hs)) as [s' [[E [H' _]] P]].
    exists s'. unfold bind. rewrite E. auto.
  - destruct (scan_answer cap s st l _ H S) as [s1 [E1 [H1 S1]]].
    destruct (IH s1 fuel Hc H1 S1) as [s2 [E2 [H2 P2]]]; [cbn in Lf; lia|].
    exists s2. unfold bind. rewrite E1, E2. auto.
Qed.

Lemma statuses_count : forall cap line l rst, statuses cap line l rst -> length l + length rst <= length line.
Proof.
  intros cap line l rst H. induction H as [rst|g id e ps w line l rst Hg Hw Hr Hl H IH]; [apply le_n|].
  destruct (frame_message _ _ _ Hw) as [crc [-> _]]. cbn [length]. rewrite app_length, map_length, app_length.
  unfold message, wire_of_body. rewrite !app_length. cbn [length header]. unfold item in *. lia.
Qed.

Lemma scan_answers : forall cap e1 e2 es l s, 16 <= cap -> hardy cap s -> pending s = incoming s ->
  statuses (length (b_rbuf s)) (pending s) l (items (silence (e1 :: e2 :: es))) ->
  exists s', scan_rest s = (Val (RepFound (Ok (map judge_ping l))), s').
Proof.
  intros cap e1 e2 es l s Hc H Pi S.
  destruct (scan_items_answers cap (e2 :: es) e1 l s (Datatypes.S (script_size (p_script (b_port s)))) Hc H S) as [s1 [E1 [H1 P1]]].
  { pose proof (statuses_count _ _ _ _ S) as L. rewrite Pi in L. pose proof (items_size (p_script (b_port s))).
    unfold incoming in L. lia. }
  destruct (scan_next_silence cap s1 e2 (items (silence es)) Hc H1 P1) as [s2 [[E2 _] _]].
  exists s2. unfold scan_rest, bind, get. rewrite E1. cbn [scan_drop]. unfold bind. rewrite E2. reflexivity.
Qed.

(** ** Any call *)

Lemma answers_of_id : forall St (b : behaviour St) id c vs, Forall (fun st : status => fst (fst st) = id) (answers_of b id c vs).
Proof.
  intros St b id c vs. unfold answers_of. induction vs as [|v vs IH]; [constructor|]. cbn [flat_map].
  apply Forall_app. split; [|exact IH]. destruct (beq (v_id v) id) eqn:B; [|constructor]. apply beq_true in B.
  unfold answers_with. destruct (snd (b (v_state v) c)) as [[e ps]|]; [|constructor]. constructor; [exact B|constructor].
Qed.

Lemma runs_one_id : forall St (b : behaviour St) id c vs vs' l, runs b (ToOne id c) vs vs' l ->
  Forall (fun st : status => fst (fst st) = id) l.
Proof. intros St b id c vs vs' l H. inversion H; subst. apply answers_of_id. Qed.

Lemma runs_turn_length : forall St (b : behaviour St) p vs vs' l, runs b p vs vs' l ->
  forall qs, p = InTurn qs -> length l <= length qs.
Proof.
  intros St b p vs vs' l H. induction H; intros qs E; try discriminate E; injection E as <-; cbn [length]; try lia.
  specialize (IHruns l eq_refl). lia.
Qed.

Lemma acked_reads : forall cap id s l es, 16 <= cap -> hardy cap s -> 2 <= length es ->
  statuses (length (b_rbuf s)) (pending s) l (items (silence es)) ->
  (id <> xfe -> Forall (fun st : status => fst (fst st) = id) l) ->
  exists o s', (r <- (if beq id xfe then ret (Ok (mkResponse xfe false tt))
                      else (r <- read_status_response 0 ;; lift (fin_instruct r))) ;;
                ret (Told (RepDone r))) s = (Val o, s') /\ told_done id l o.
Proof.
  intros cap id s l es Hc H Le S Fi. unfold told_done. destruct (beq id xfe) eqn:B.
  - eexists. exists s. split; [reflexivity|]. eexists. split; reflexivity.
  - assert (id <> xfe) as Nid by (intros ->; rewrite beq_refl in B; discriminate). specialize (Fi Nid).
    destruct (one_answer _ _ cap 0 s l es fin_instruct (fun r => r) (judge_value (fun _ => Ok tt) id 0) Hc H eq_refl) as [r [s' [E T]]].
    + lia.
    + exact S.
    + reflexivity.
    + intros st r Es Hr. apply instruct_understood; [|exact Hr]. destruct l as [|st' l]; [discriminate|]. injection Es as ->.
      apply (Forall_inv Fi).
    + exists (Told (RepDone r)), s'. split; [|exists r; split; [reflexivity|exact T]]. unfold bind in *. rewrite E. reflexivity.
Qed.

Lemma direct_id : forall St (b : behaviour St) id c vs vs' l, runs b (direct id c) vs vs' l -> id <> xfe ->
  Forall (fun st : status => fst (fst st) = id) l.
Proof.
  intros St b id c vs vs' l H N. unfold direct in H. destruct (beq id xfe) eqn:B; [apply beq_true in B; contradiction|].
  eapply runs_one_id, H.
Qed.

Lemma rest_reads : forall St (b : behaviour St) cap k s l es vs vs', 16 <= cap -> hardy cap s -> sensible k ->
  patience k <= length es -> pending s = incoming s -> runs b (meaning k) vs vs' l ->
  statuses (length (b_rbuf s)) (pending s) l (items (silence es)) ->
  exists o s', rest k s = (Val o, s') /\ told k l o.
Proof.
  intros St b cap k s l es vs vs' Hc H Hk Le Pi R S.
  destruct k as [id| |id a n|id a d|id a d|id| |id k|k|id| |id| |id|ids a n|a n qs|qs|qs];
    cbn [rest told meaning sensible patience] in *; cbv zeta;
    try (apply (acked_reads cap id s l es Hc H Le S); eapply direct_id; exact R);
    try (eexists; exists s; split; reflexivity).
  - pose proof (runs_one_id _ _ _ _ _ _ _ R) as Fi.
    match goal with |- exists o s', bind (bind _ (fun q => lift (@?fin q))) _ s = _ /\ _ =>
      destruct (one_answer _ _ cap 3 s l es fin (fun r => r) judge_ping Hc H eq_refl) as [r [s' [E T]]] end.
    + lia.
    + exact S.
    + reflexivity.
    + intros st r Es Hr. apply ping_understood; [|exact Hr]. destruct l as [|st' l]; [discriminate|]. injection Es as ->.
      apply (Forall_inv Fi).
    + exists (Told (RepPing r)), s'. split; [|exists r; split; [reflexivity|exact T]]. unfold bind in *. rewrite E. reflexivity.
  - destruct es as [|e1 [|e2 es]]; try (cbn in Le; lia).
    destruct (scan_answers cap e1 e2 es l s Hc H Pi S) as [s' E]. eexists. exists s'. split; [|reflexivity].
    unfold bind. rewrite E. reflexivity.
  - pose proof (runs_one_id _ _ _ _ _ _ _ R) as Fi. destruct Hk as [_ [_ Hn]].
    match goal with |- exists o s', bind (bind _ (fun q => lift (@?fin q))) _ s = _ /\ _ =>
      destruct (one_answer _ _ cap n s l es fin (fun r => r) (judge id (N.to_nat n)) Hc H Hn) as [r [s' [E T]]] end.
    + lia.
    + exact S.
    + reflexivity.
    + intros st r Es Hr. apply read_understood; [|exact Hr]. destruct l as [|st' l]; [discriminate|]. injection Es as ->.
      apply (Forall_inv Fi).
    + exists (Told (RepData r)), s'. split; [|exists r; split; [reflexivity|exact T]]. unfold bind in *. rewrite E. reflexivity.
  - pose proof (runs_turn_length _ _ _ _ _ _ R _ eq_refl) as Ll. rewrite map_length in Ll. destruct Hk as [_ [Hn _]].
    destruct (turns_answers _ byte _ srb_next srb_drop (fun j => mkSRB n ids j) (fun i => i) (fun _ => n) _ ids cap s l es
      (srb_rep n ids) (sync_rep_drop n ids) Hc) as [missing [s' [E [Lm Fm]]]]; try assumption.
    + apply Forall_forall. intros; exact Hn.
    + eexists. exists s'. split; [unfold bind; rewrite E; reflexivity|]. exists missing. split; [reflexivity|]. auto.
  - pose proof (runs_turn_length _ _ _ _ _ _ R _ eq_refl) as Ll. rewrite map_length in Ll. destruct Hk as [Hu _].
    destruct (turns_answers _ bulk_read_data _ br_next br_drop (fun j => mkBR qs j) br_id br_count _ qs cap s l es
      (br_rep qs) (br_drop_rep qs) Hc) as [missing [s' [E [Lm Fm]]]]; try assumption.
    + revert Hu. apply Forall_impl. intros r Hr. apply Hr.
    + eexists. exists s'. split; [unfold bind; rewrite E; reflexivity|]. exists missing. split; [reflexivity|]. auto.
Qed.

Lemma statuses_app : forall cap line l rst more, statuses cap line l rst -> statuses cap (line ++ more) l (rst ++ more).
Proof.
  intros cap line l rst more H. induction H as [rst|g id e ps w line l rst Hg Hw Hr Hl H IH]; [constructor|].
  rewrite <- app_assoc. econstructor; eassumption.
Qed.

Lemma code_text_eq : forall k, ~ clears_error k -> code_text k = text k.
Proof. intros k H. destruct k; try reflexivity. cbn in H. contradiction. Qed.

Lemma control_step : forall St (b : behaviour St) cap k c vs o c' vs', 16 <= cap -> hardy cap c -> sensible k ->
  ~ clears_error k -> passes ff_runs_ok cap (text k) -> controls b k c vs o c' vs' ->
  hardy cap c' /\ exists l x, runs b (meaning k) vs vs' l /\ o = Val x /\ told k l x.
Proof.
  intros St b cap k c vs o c' vs' Hc H Hk Ne Ps Co. pose proof (code_text_eq k Ne) as Et.
  pose proof (issue_speaks cap k Hk) as Sp. rewrite Et in Sp. specialize (Sp Ps).
  pose proof (spells_text k Hk) as Sk. pose proof (passes_frame cap (who k) (text k) Ps) as Fk.
  destruct Co as [c vs sc es o c' evs id body p l vs' Le E C Fr Sb R St'|c vs es o c' evs Le E C Nf].
  - set (s := set_script c (sc ++ silence es)) in *.
    assert (Hs : hardy cap s) by apply hardy_script, H.
    destruct (Sp s o c' Hs E) as [H' [evs' [C' T]]]. rewrite (calls_inj _ _ _ _ C C'), T in Fr.
    split; [exact H'|]. rewrite (L_C69_unambiguous _ _ _ _ _ _ _ Fr Fk Sb Sk) in R.
    destruct (issue_sends k Hk) as [i [params [Ei Si]]]. rewrite Et in Ei.
    rewrite Ei in Ps. destruct (sends_then_runs _ cap _ _ _ _ _ s Si Hs Ps) as [s1 [e1 [E1 [H1 [P1 [I1 [L1 _]]]]]]].
    destruct (rest_reads St b cap k s1 l es vs vs' Hc H1 Hk Le) as [x [s' [Er Tl]]].
    + congruence.
    + exact R.
    + rewrite L1, P1. unfold s, incoming, set_script. cbn [set_port b_port p_script b_rbuf]. rewrite items_app.
      apply (statuses_app _ _ _ [] _ St').
    + exists l, x. split; [exact R|]. split; [|exact Tl]. rewrite E1, Er in E. congruence.
  - exfalso. set (s := set_script c (silence es)) in *.
    assert (Hs : hardy cap s) by apply hardy_script, H.
    destruct (Sp s o c' Hs E) as [_ [evs' [C' T]]]. rewrite (calls_inj _ _ _ _ C C'), T in Nf.
    apply (Nf _ _ _ Fk Sk).
Qed.

Lemma L_C69_remote_control_partial : forall St (b : behaviour St) cap k c vs o c' vs', 16 <= cap -> ready cap c -> sensible k ->
  ~ clears_error k -> passes ff_runs_ok cap (text k) -> controls b k c vs o c' vs' ->
  exists l x, runs b (meaning k) vs vs' l /\ o = Val x /\ told k l x.
Proof.
  intros St b cap k c vs o c' vs' Hc H Hk Ne Ps Co.
  apply (control_step St b cap k c vs o c' vs' Hc (ready_hardy _ _ H) Hk Ne Ps Co).
Qed.

Lemma L_C69_session_partial : forall St (b : behaviour St) cap ks c vs os c' vs', 16 <= cap -> ready cap c ->
  Forall (fun k => sensible k /\ ~ clears_error k /\ passes ff_runs_ok cap (text k)) ks ->
  steers b c vs ks os c' vs' -> commands b vs ks os vs'.
Proof.
  intros St b cap ks c vs os c' vs' Hc H F S. apply ready_hardy in H. revert H F.
  induction S as [c vs|c vs k o c1 vs1 ks os c2 vs2 Co S IH]; intros H F; [constructor|].
  inversion F as [|? ? [Hk [Ne Ps]] F']; subst.
  destruct (control_step St b cap k c vs o c1 vs1 Hc H Hk Ne Ps Co) as [H' [l [x [R [-> T]]]]].
  econstructor; [exact R|exact T|apply IH; assumption].
Qed.

(** Such exchanges exist. *)
Lemma statuses_exist : forall cap l, Forall (receivable cap) l -> forall cap', cap <= cap' ->
  exists sc, statuses cap' (items sc) l [].
Proof.
  intros cap l F cap' Hc. induction F as [|[[id e] ps] l P F [sc IH]]; [exists []; constructor|].
  exists (RdData (code_wire id (x55 :: e :: ps)) :: sc). cbn [items].
  apply (sts_cons cap' [] id e ps (code_wire id (x55 :: e :: ps))).
  - exact empty_no_header.
  - apply (passes_frame cap), P.
  - apply P.
  - pose proof (passes_length cap id x55 (e :: ps) (passes_comes_back _ _ P)) as [L _]. lia.
  - exact IH.
Qed.

Lemma possible_step : forall St (b : behaviour St) cap k c vs l vs', 16 <= cap -> hardy cap c -> sensible k ->
  ~ clears_error k -> passes ff_runs_ok cap (text k) -> runs b (meaning k) vs vs' l -> Forall (receivable cap) l ->
  exists o c', controls b k c vs o c' vs'.
Proof.
  intros St b cap k c vs l vs' Hc H Hk Ne Ps R F.
  destruct (statuses_exist cap l F (length (b_rbuf c)) (ha_rcap _ _ H)) as [sc Ss].
  set (s := set_script c (sc ++ silence (repeat 0%N (patience k)))).
  destruct (issue k s) as [o c'] eqn:E. exists o, c'.
  pose proof (issue_speaks cap k Hk) as Sp. rewrite (code_text_eq k Ne) in Sp.
  destruct (Sp Ps s o c' (hardy_script _ _ _ H) E) as [_ [evs [C T]]].
  apply (controls_obeyed b k c vs sc (repeat 0%N (patience k)) o c' evs (who k) (text k) (meaning k) l vs').
  - rewrite repeat_length. apply le_n.
  - exact E.
  - exact C.
  - rewrite T. apply (passes_frame cap), Ps.
  - apply spells_text, Hk.
  - exact R.
  - exact Ss.
Qed.

Lemma L_C69_possible : forall St (b : behaviour St) cap k c vs l vs', 16 <= cap -> ready cap c -> sensible k ->
  ~ clears_error k -> passes ff_runs_ok cap (text k) -> runs b (meaning k) vs vs' l -> Forall (receivable cap) l ->
  exists o c', controls b k c vs o c' vs'.
Proof.
  intros St b cap k c vs l vs' Hc H Hk Ne Ps R F.
  apply (possible_step St b cap k c vs l vs' Hc (ready_hardy _ _ H) Hk Ne Ps R F).
Qed.

(** ** What goes wrong *)

Lemma L_C69_clear_error_reaches_nobody : forall St (b : behaviour St) cap id c vs o c' vs', 17 <= cap -> ready cap c ->
  controls b (KClearError id) c vs o c' vs' -> vs' = vs /\ exists x, o = Val x /\ told (KClearError id) [] x.
Proof.
  intros St b cap id c vs o c' vs' Hc17 H Co. assert (Hc : 16 <= cap) by lia. apply ready_hardy in H.
  set (bad := [x10; x01; x45; x52; x43; x4c]).
  assert (Ps : passes ff_runs_ok cap bad) by (split; [cbn; lia|]; split; [reflexivity|]; cbn; repeat split).
  pose proof (issue_speaks cap (KClearError id) I Ps) as Sp. cbn [who code_text] in Sp. fold bad in Sp.
  pose proof (passes_frame cap id bad Ps) as Fk.
  destruct Co as [c vs sc es o c' evs id' body p l vs' Le E C Fr Sb R St'|c vs es o c' evs Le E C Nf].
  - exfalso. destruct (Sp _ o c' (hardy_script _ _ _ H) E) as [H' [evs' [C' T]]]. rewrite (calls_inj _ _ _ _ C C'), T in Fr.
    destruct (frame_inj _ _ _ _ _ Fr Fk) as [-> ->]. unfold bad in Sb. inversion Sb.
  - split; [reflexivity|]. set (s := set_script c (silence es)) in *.
    destruct (issue_sends (KClearError id) I) as [i [params [Ei Si]]]. cbn [code_text] in Ei. fold bad in Ei.
    rewrite Ei in Ps. destruct (sends_then_runs _ cap _ _ _ _ _ s Si (hardy_script _ _ _ H) Ps) as [s1 [e1 [E1 [H1 [P1 [I1 [L1 _]]]]]]].
    destruct (acked_reads cap id s1 [] es Hc H1 Le) as [x [s' [Er Tl]]].
    + rewrite P1. constructor.
    + constructor.
    + exists x. split; [|exact Tl]. cbn [rest] in E1. cbv zeta in E1. rewrite E1, Er in E. congruence.
Qed.

(** A motor that remembers what was last written to it. *)
Definition notebook : behaviour (list byte) := fun st c =>
  match c with
  | CmdWrite _ d => (d, Some (x00, []))
  | CmdRead _ n => (st, if length st =? N.to_nat n then Some (x80, st) else Some (x04, []))
  | CmdPing => (st, Some (x00, [x06; x04; x30]))
  | _ => (st, Some (x00, []))
  end.

Definition wire_of_write : list byte := frame x01 (x03 :: le16 64 ++ [xff; xff; xff; xfd]).

Lemma corrupted_write : exists c', controls notebook (KWrite x01 64 [xff; xff; xff; xfd; xfd]) (fresh true [] 64 64)
  [mkServo x01 []] (Val (Told (RepDone (Ok (mkResponse x01 false tt))))) c' [mkServo x01 [xff; xff; xff; xfd]].
Proof.
  eexists. eapply (controls_obeyed notebook _ _ _ [RdData (frame x01 [x55; x00])] [0%N; 0%N] _ _ _ x01
    (x03 :: le16 64 ++ [xff; xff; xff; xfd]) (ToOne x01 (CmdWrite 64 [xff; xff; xff; xfd])) [(x01, x00, [])]).
  - apply le_n.
  - vm_compute. reflexivity.
  - vm_compute. reflexivity.
  - match goal with |- is_frame _ _ ?w => replace w with wire_of_write by (vm_compute; reflexivity) end. apply frame_ok. reflexivity.
  - apply (sp_write x01). reflexivity.
  - apply (runs_one notebook x01 (CmdWrite 64 [xff; xff; xff; xfd]) [mkServo x01 []]).
  - cbn [items]. apply (sts_cons _ [] x01 x00 [] (frame x01 [x55; x00])).
    + apply empty_no_header.
    + apply (frame_ok x01 [x55; x00] eq_refl).
    + cbn. auto.
    + vm_compute. lia.
    + constructor.
Qed.

Lemma L_C69_remote_control_refuted : ~ (forall St (b : behaviour St) cap k c vs o c' vs', 16 <= cap -> ready cap c -> sensible k ->
  ~ clears_error k -> passes (fun _ => True) cap (text k) -> controls b k c vs o c' vs' ->
  exists l x, runs b (meaning k) vs vs' l /\ o = Val x /\ told k l x).
Proof.
  intro H. destruct corrupted_write as [c' Co].
  assert (Rd : ready 64 (fresh true [] 64 64)).
  { split; [apply fresh_reach; lia|]. split; [reflexivity|]. split; [reflexivity|]. split; [discriminate|].
    split; [reflexivity|]. split; vm_compute; lia. }
  assert (Sn : sensible (KWrite x01 64 [xff; xff; xff; xfd; xfd])) by reflexivity.
  assert (Ne : ~ clears_error (KWrite x01 64 [xff; xff; xff; xfd; xfd])) by (intros []).
  assert (Pa : passes (fun _ => True) 64 (text (KWrite x01 64 [xff; xff; xff; xfd; xfd]))).
  { split; [cbn; lia|]. split; [reflexivity|exact I]. }
  destruct (H _ notebook 64 _ _ _ _ _ _ ltac:(lia) Rd Sn Ne Pa Co) as [l [x [R _]]].
  cbn [meaning] in R. unfold direct in R. change (beq x01 xfe) with false in R. cbv iota in R. inversion R.
Qed.

(** ** Three motors, one of them mute *)

Definition moody : behaviour (list byte) := fun st c =>
  match st with [] => ([], None) | _ => notebook st c end.

Definition three : list (servo (list byte)) := [mkServo x01 [x2a; x07]; mkServo x02 [x10]; mkServo x03 []].

Lemma three_turns : exists c', controls moody (KSyncRead [x02; x01; x03; x04] 132 2) (fresh true [] 64 64) three
  (Val (Turns (Ok [Some (Err (RMotorError x04)); Some (Ok (mkResponse x01 true [x2a; x07]));
    Some (Err (RIo (IoTimeout 7))); Some (Err (RIo (IoTimeout 8)))]))) c' three.
Proof.
  eexists. eapply (controls_obeyed moody _ _ _
    [RdData (xff :: frame x02 [x55; x04]); RdData (frame x01 [x55; x80; x2a; x07])] [7%N; 8%N; 9%N; 9%N] _ _ _ xfe
    (x82 :: le16 132 ++ le16 2 ++ [x02; x01; x03; x04]) (InTurn (map (fun id => (id, CmdRead 132 2)) [x02; x01; x03; x04]))
    [(x02, x04, []); (x01, x80, [x2a; x07])]).
  - apply le_n.
  - vm_compute. reflexivity.
  - vm_compute. reflexivity.
  - match goal with |- is_frame _ _ ?w => replace w with (frame xfe (x82 :: le16 132 ++ le16 2 ++ [x02; x01; x03; x04]))
      by (vm_compute; reflexivity) end. apply frame_ok. reflexivity.
  - apply sp_sync_read; [reflexivity|reflexivity|]. repeat constructor; cbn; intuition discriminate.
  - cbn [map]. eapply runs_turn_cons; [reflexivity|]. eapply runs_turn_cons; [reflexivity|].
    exact (runs_turn_silent moody x03 (CmdRead 132 2) [(x04, CmdRead 132 2)] three eq_refl).
  - apply (sts_cons _ [xff] x02 x04 [] (frame x02 [x55; x04])); [..|apply (sts_cons _ [] x01 x80 [x2a; x07] (frame x01 [x55; x80; x2a; x07]))].
    + intros [a [b E]]. destruct a as [|? [|]]; discriminate E.
    + apply frame_ok. reflexivity.
    + cbn. auto.
    + vm_compute. lia.
    + apply empty_no_header.
    + apply frame_ok. reflexivity.
    + cbn. auto.
    + vm_compute. lia.
    + constructor.
Qed.

Lemma fresh_ready : ready 64 (fresh true [] 64 64).
Proof.
  split; [apply fresh_reach; lia|]. split; [reflexivity|]. split; [reflexivity|]. split; [discriminate|].
  split; [reflexivity|]. split; vm_compute; lia.
Qed.

Lemma direct_step : forall k st st' r c, sensible k -> ~ clears_error k -> passes ff_runs_ok 64 (text k) ->
  meaning k = ToOne x01 r -> notebook st r = (st', snd (notebook st r)) -> hardy 64 c ->
  Forall (receivable 64) (answers_of notebook x01 r [mkServo x01 st]) ->
  exists x c', controls notebook k c [mkServo x01 st] (Val x) c' [mkServo x01 st'] /\ hardy 64 c' /\
    told k (answers_of notebook x01 r [mkServo x01 st]) x.
Proof.
  intros k st st' r c Hk Ne Ps Em Eb H F.
  assert (R : runs notebook (meaning k) [mkServo x01 st] [mkServo x01 st'] (answers_of notebook x01 r [mkServo x01 st])).
  { rewrite Em. replace [mkServo x01 st'] with (obey notebook x01 r [mkServo x01 st]); [apply runs_one|].
    cbn [obey map v_id]. change (beq x01 x01) with true. cbv iota. unfold obeys. cbn [v_id v_state]. rewrite Eb. reflexivity. }
  destruct (possible_step _ notebook 64 k c _ _ _ ltac:(lia) H Hk Ne Ps R F) as [o [c' Co]].
  destruct (control_step _ notebook 64 k c _ _ _ _ ltac:(lia) H Hk Ne Ps Co) as [H' [l [x [R' [-> T]]]]].
  exists x, c'. split; [exact Co|]. split; [exact H'|]. rewrite Em in R'. inversion R'; subst. exact T.
Qed.

Lemma write_read_session : exists os c', let vs := [mkServo x01 []] in
  steers notebook (fresh true [] 64 64) vs [KWrite x01 64 [x05; x06]; KRead x01 64 2] os c' [mkServo x01 [x05; x06]] /\
  commands notebook vs [KWrite x01 64 [x05; x06]; KRead x01 64 2] os [mkServo x01 [x05; x06]] /\
  os = [Val (Told (RepDone (Ok (mkResponse x01 false tt)))); Val (Told (RepData (Ok (mkResponse x01 true [x05; x06]))))].
Proof.
  assert (P1 : passes ff_runs_ok 64 (text (KWrite x01 64 [x05; x06]))) by (split; [cbn; lia|]; split; [reflexivity|]; cbn; repeat split).
  assert (P2 : passes ff_runs_ok 64 (text (KRead x01 64 2))) by (split; [cbn; lia|]; split; [reflexivity|]; cbn; repeat split).
  assert (N1 : ~ clears_error (KWrite x01 64 [x05; x06])) by intros [].
  assert (N2 : ~ clears_error (KRead x01 64 2)) by intros [].
  assert (S1 : sensible (KWrite x01 64 [x05; x06])) by reflexivity.
  assert (S2 : sensible (KRead x01 64 2)) by (split; [discriminate|split; reflexivity]).
  destruct (direct_step (KWrite x01 64 [x05; x06]) [] [x05; x06] (CmdWrite 64 [x05; x06]) (fresh true [] 64 64) S1 N1 P1 eq_refl eq_refl
    (ready_hardy _ _ fresh_ready)) as [o1 [c1 [C1 [H1 T1]]]].
  { constructor; [|constructor]. split; [cbn; lia|]. split; [reflexivity|]. cbn. repeat split. }
  destruct (direct_step (KRead x01 64 2) [x05; x06] [x05; x06] (CmdRead 64 2) c1 S2 N2 P2 eq_refl eq_refl H1) as [o2 [c2 [C2 [H2 T2]]]].
  { constructor; [|constructor]. split; [cbn; lia|]. split; [reflexivity|]. cbn. repeat split. }
  exists [Val o1; Val o2], c2. cbv zeta.
  assert (St : steers notebook (fresh true [] 64 64) [mkServo x01 []] [KWrite x01 64 [x05; x06]; KRead x01 64 2] [Val o1; Val o2] c2
    [mkServo x01 [x05; x06]]) by (econstructor; [exact C1|]; econstructor; [exact C2|]; constructor).
  split; [exact St|]. split.
  - apply (L_C69_session_partial _ notebook 64 _ (fresh true [] 64 64) _ _ c2 _ ltac:(lia) fresh_ready) in St; [exact St|].
    constructor; [auto|]. constructor; [auto|constructor].
  - destruct T1 as [r1 [-> T1]]. destruct T2 as [r2 [-> T2]]. vm_compute in T1, T2. subst. reflexivity.
Qed.
