(** * NumberManyTheorems: proofs about NumberManySpec *)
From Coq Require Import ZArith ZifyN ZifyNat ZifyBool.
From Verif Require Import Base Lib Error Packet Time Bus Data Client Instructions Device Spec Api CallSpec StreamSpec
  DeviceSpec InstructionSpec DataSpec NumberSpec NumberManySpec CostSpec DataTheorems ApiProofs SendTheorems StuffProofs
  WriteProofs MessageProofs SendProofs ReadTheorems TransferTheorems StatusProofs StreamProofs InstructionProofs
  TypedTheorems IterProofs IterTheorems CostTheorems NumberTheorems.

(** ** Sending *)

Lemma runs_split : forall b l m r, b <> xff -> b <> xfd ->
  (ff_runs_ok_from r (l ++ b :: m) <-> ff_runs_ok_from r l /\ ff_runs_ok m).
Proof.
  intros b l m r H1 H2. apply beq_false in H1, H2. revert r.
  induction l as [|c l IH]; intro r; cbn [app ff_runs_ok_from].
  - rewrite H1, H2. unfold ff_runs_ok. tauto.
  - destruct (beq c xff); [apply IH|]. destruct (beq c xfd); [rewrite IH; tauto|apply IH].
Qed.

Lemma runs_reset : forall b m, b <> xff -> b <> xfd -> (ff_runs_ok (b :: m) <-> ff_runs_ok m).
Proof. intros b m H1 H2. pose proof (runs_split b [] m 0 H1 H2) as K. cbn [app] in K. unfold ff_runs_ok in *. cbn [ff_runs_ok_from] in *. tauto. Qed.

Lemma sync_entries_runs : forall l d, Forall (fun x => motor_id (sw_id x)) l ->
  (ff_runs_ok (d ++ sync_entries l) <-> ff_runs_ok d /\ Forall (fun x => ff_runs_ok (sw_data x)) l).
Proof.
  induction l as [|x l IH]; intros d H.
  - unfold sync_entries. cbn [flat_map]. rewrite app_nil_r. split; [intro K; split; [exact K|constructor]|intros [K _]; exact K].
  - apply Forall_cons_iff in H. destruct H as [Hx Hl]. apply low_byte in Hx. destruct Hx as [H1 H2].
    change (sync_entries (x :: l)) with (sw_id x :: sw_data x ++ sync_entries l).
    unfold ff_runs_ok at 1. rewrite runs_split by assumption. rewrite (IH (sw_data x) Hl), Forall_cons_iff.
    unfold ff_runs_ok. tauto.
Qed.

Lemma low_16 : forall n l, (n < 65280)%N -> (ff_runs_ok (le16 n ++ l) <-> ff_runs_ok l).
Proof.
  intros n l H. rewrite <- (low_address x00 n l H eq_refl). symmetry. apply runs_reset; discriminate.
Qed.

Lemma bulk_entries_runs : forall l d, 
  Forall (fun x => motor_id (bw_id x) /\ (bw_address x < 65280)%N /\ (N.of_nat (length (bw_data x)) < 65280)%N) l ->
  (ff_runs_ok (d ++ bulk_write_entries l) <-> ff_runs_ok d /\ Forall (fun x => ff_runs_ok (bw_data x)) l).
Proof.
  induction l as [|x l IH]; intros d H.
  - unfold bulk_write_entries. cbn [flat_map]. rewrite app_nil_r. split; [intro K; split; [exact K|constructor]|intros [K _]; exact K].
  - apply Forall_cons_iff in H. destruct H as [[Hx [Ha Hn]] Hl]. apply low_byte in Hx. destruct Hx as [H1 H2].
    assert (E : bulk_write_entries (x :: l) =
      bw_id x :: le16 (bw_address x) ++ le16 (N.of_nat (length (bw_data x))) ++ bw_data x ++ bulk_write_entries l).
    { unfold bulk_write_entries. cbn [flat_map]. cbn [app]. rewrite <- ?app_assoc. reflexivity. }
    rewrite E. unfold ff_runs_ok at 1. rewrite runs_split by assumption.
    rewrite low_16 by exact Ha. rewrite low_16 by exact Hn. rewrite (IH (bw_data x) Hl), Forall_cons_iff.
    unfold ff_runs_ok. tauto.
Qed.

Lemma low_u16 : forall a, (a < 65280)%N -> is_u16 a.
Proof. intros a H. unfold is_u16. change (2 ^ 16)%N with 65536%N. lia. Qed.

Lemma L_C84_sync_write : forall a n l s o s' evs wire r, (a < 65280)%N -> is_u16 n ->
  Forall (fun x => motor_id (sw_id x) /\ length (sw_data x) = N.to_nat n) l ->
  reach s -> sync_write_bytes a n l s = (o, s') -> calls s s' evs -> In (LWrite wire r) evs ->
  (is_frame xfe (x83 :: le16 a ++ le16 n ++ sync_entries l) wire <->
   Forall (fun x => ff_runs_ok (sw_data x)) l /\
   (N.of_nat (length (pstuff (x83 :: le16 a ++ le16 n ++ sync_entries l)) + 2) < 2 ^ 16)%N).
Proof.
  intros a n l s o s' evs wire r Ha Hn Hl R Eq C Hin.
  assert (Hi : Forall (fun x => motor_id (sw_id x)) l) by (eapply Forall_impl; [|exact Hl]; intros ? [? ?]; assumption).
  assert (Hd : Forall (fun x => length (sw_data x) = N.to_nat n) l) by (eapply Forall_impl; [|exact Hl]; intros ? [? ?]; assumption).
  rewrite (L_C84_request _ _ _ _ _ _ _ s o s' evs wire r (rq_sync_write_bytes a n l (low_u16 _ Ha) Hn Hd) R Eq C Hin).
  rewrite low_address by (assumption || reflexivity). rewrite (sync_entries_runs l (le16 n) Hi).
  pose proof (small_runs (le16 n) ltac:(rewrite le16_length; lia)). tauto.
Qed.

Lemma L_C84_bulk_write : forall l s o s' evs wire r,
  Forall (fun x => motor_id (bw_id x) /\ (bw_address x < 65280)%N /\ (N.of_nat (length (bw_data x)) < 65280)%N) l ->
  reach s -> bulk_write l s = (o, s') -> calls s s' evs -> In (LWrite wire r) evs ->
  (is_frame xfe (x93 :: bulk_write_entries l) wire <->
   Forall (fun x => ff_runs_ok (bw_data x)) l /\
   (N.of_nat (length (pstuff (x93 :: bulk_write_entries l)) + 2) < 2 ^ 16)%N).
Proof.
  intros l s o s' evs wire r Hl R Eq C Hin.
  assert (Hd : Forall (fun x => is_u16 (N.of_nat (length (bw_data x)))) l).
  { eapply Forall_impl; [|exact Hl]. intros ? [_ [_ ?]]. apply low_u16. assumption. }
  rewrite (L_C84_request _ _ _ _ _ _ _ s o s' evs wire r (rq_bulk_write l Hd) R Eq C Hin).
  rewrite runs_reset by discriminate. rewrite (bulk_entries_runs l [] Hl : ff_runs_ok (bulk_write_entries l) <-> _).
  assert (ff_runs_ok []) by exact I. tauto.
Qed.

(** A goal position for every motor. *)
Lemma L_C84_sync_write_numbers : forall signed w a l vs s o s' evs wire r, In w [1; 2; 4] -> (a < 65280)%N ->
  Forall2 (fun x v => motor_id (sw_id x) /\ int_bytes signed w v (sw_data x)) l vs -> length l <= 253 ->
  reach s -> sync_write_bytes a (N.of_nat w) l s = (o, s') -> calls s s' evs -> In (LWrite wire r) evs ->
  (is_frame xfe (x83 :: le16 a ++ le16 (N.of_nat w) ++ sync_entries l) wire <-> Forall (fun v => ~ awkward signed w v) vs).
Proof.
  intros signed w a l vs s o s' evs wire r Hw Ha F L R Eq C Hin.
  assert (Hl : Forall (fun x => motor_id (sw_id x) /\ length (sw_data x) = N.to_nat (N.of_nat w)) l).
  { clear - F. induction F as [|x v l vs [Hi Hb] F IH]; constructor; [|exact IH]. split; [exact Hi|].
    destruct Hb as [_ [-> _]]. lia. }
  assert (Hn : is_u16 (N.of_nat w)). { unfold is_u16. change (2 ^ 16)%N with 65536%N. cbn in Hw. lia. }
  rewrite (L_C84_sync_write a (N.of_nat w) l s o s' evs wire r Ha Hn Hl R Eq C Hin).
  assert (Q : Forall (fun x => ff_runs_ok (sw_data x)) l <-> Forall (fun v => ~ awkward signed w v) vs).
  { clear - F Hw. induction F as [|x v l vs [Hi Hb] F IH]; [split; constructor|].
    rewrite !Forall_cons_iff, IH, (number_runs signed w v _ Hw Hb). tauto. }
  rewrite Q. split; [intros [K _]; exact K|]. intro K. split; [exact K|].
  assert (Ff : ff_runs_ok (x83 :: le16 a ++ le16 (N.of_nat w) ++ sync_entries l)).
  { rewrite low_address by (assumption || reflexivity). rewrite sync_entries_runs.
    - split; [apply small_runs; rewrite le16_length; lia|apply Q, K].
    - eapply Forall_impl; [|exact Hl]. intros ? [? ?]. assumption. }
  rewrite (pstuff_len_runs _ Ff). pose proof (fcount_third (x83 :: le16 a ++ le16 (N.of_nat w) ++ sync_entries l)) as T.
  assert (Ln : length (sync_entries l) <= 5 * length l).
  { clear - Hl Hw. induction Hl as [|x l [_ Hx] Hl IH]; [cbn; lia|].
    change (sync_entries (x :: l)) with (sw_id x :: sw_data x ++ sync_entries l). cbn [length]. rewrite app_length.
    cbn in Hw. lia. }
  cbn [length] in *. rewrite !app_length, !le16_length in *. change (2 ^ 16)%N with 65536%N.
  pose proof (Nat.div_le_upper_bound (S (2 + (2 + length (sync_entries l)))) 3 1280 ltac:(lia)). lia.
Qed.

(** ** Receiving *)

Lemma answers_judge : forall id n st, answers id n st ->
  received (fun ps => ps) st (Some (judge id n (fst (fst st), snd (fst st), unst 0 (pstuff (snd st))))).
Proof.
  intros id n [[id' e] ps] [-> [Z L]]. cbn [fst snd received]. unfold judge.
  rewrite (proj2 (N.eqb_eq _ _) Z), beq_refl. cbn [negb]. split; intro Ff.
  - rewrite (proj2 (unst_pstuff_iff ps) Ff). replace (length ps =? n) with true by lia. reflexivity.
  - rewrite garbled_length. assert (overlooked ps <> 0) by (rewrite overlooked_iff; exact Ff).
    replace (length ps + overlooked ps =? n) with false by lia. rewrite L. reflexivity.
Qed.

(** One answer. *)
Definition receives {Q A} (rd : Q -> M (result (response A) read_error)) (value : list byte -> A)
    (wants : Q -> byte * byte * list byte -> Prop) : Prop :=
  forall q s st l rest, reach s -> b_baud s <> 0%N -> wants q st ->
    motors_send (length (b_rbuf s)) (pending s) (st :: l) rest ->
    exists x s', one_read s s' /\ motors_send (length (b_rbuf s')) (pending s') l rest /\
      rd q s = (Val x, s') /\ received value st (Some x).

Lemma checked_receives : forall Q A (rd : Q -> M (result (response A) read_error)) (count : Q -> N) chk value (wants : Q -> byte * byte * list byte -> Prop),
  (forall q, checked (rd q) (count q) (chk q)) ->
  (forall q st, wants q st -> (count q < 2 ^ 16)%N /\ no_error (snd (fst st))) ->
  (forall q st p s, wants q st -> packet_is p (fst (fst st)) (STATUS :: snd (fst st) :: unst 0 (pstuff (snd st))) ->
     exists x, chk q p s = (Val x, s) /\ received value st (Some x)) ->
  receives rd value wants.
Proof.
  intros Q A rd count chk value wants Ck Hw Hc q s st l rest R Hb W H.
  destruct (Hw q st W) as [Hn Z]. destruct (Ck q) as [Er Nc].
  remember (st :: l) as stl. remember (pending s) as pd eqn:Ep.
  destruct H as [rest|g id e ps w line l' rest G F L H]; [discriminate|].
  injection Heqstl as <- <-. cbn [fst snd] in *.
  destruct (status_read_any (count q) s id e ps g w line R Hn Hb Z G F L (eq_sym Ep)) as [p [s' [E [P Pk]]]].
  destruct (Hc q (id, e, ps) p s' W Pk) as [x [Ex Rx]]. exists x, s'.
  assert (O : one_read s s') by exact (read_status_one _ _ _ _ R E).
  split; [exact O|]. split; [rewrite (or_rcap _ _ O), P; exact H|]. split; [|exact Rx].
  rewrite Er. unfold try_, bind. rewrite E. exact Ex.
Qed.

Lemma gnexts_receives : forall Q A (rd : Q -> M (result (response A) read_error)) value wants, receives rd value wants ->
  forall reqs k i s sts rest, reach s -> b_baud s <> 0%N -> i + k = length reqs ->
  Forall2 wants (skipn i reqs) sts -> motors_send (length (b_rbuf s)) (pending s) sts rest ->
  exists xs s', nexts (gnext rd reqs) k i s = (Val (xs, i + k), s') /\ pending s' = rest /\ Forall2 (received value) sts xs.
Proof.
  intros Q A rd value wants Rc reqs k. induction k as [|k IH]; intros i s sts rest R Hb Lk F H.
  - rewrite skipn_all2 in F by lia. inversion F; subst sts. exists [], s. rewrite Nat.add_0_r. split; [reflexivity|].
    split; [inversion H; congruence|constructor].
  - destruct (nth_error reqs i) as [q|] eqn:Eq; [|apply nth_error_None in Eq; lia].
    rewrite (skipn_nth _ _ _ _ Eq) in F. inversion F as [|q0 st l0 sts' W F' E1 E2]; subst q0 l0 sts; clear F.
    destruct (Rc q s st sts' rest R Hb W H) as [x [s1 [O [S1 [E Rx]]]]].
    destruct (IH (S i) s1 sts' rest (or_reach _ _ O)) as [xs [s2 [E2 [P2 Rs]]]].
    + rewrite (or_baud _ _ O). exact Hb.
    + lia.
    + exact F'.
    + exact S1.
    + exists (Some x :: xs), s2. split; [|split; [exact P2|constructor; assumption]].
      cbn [nexts]. unfold bind, gnext at 1. rewrite Eq. unfold bind. rewrite E. cbn [ret]. rewrite E2.
      replace (i + S k) with (S i + k) by lia. reflexivity.
Qed.

Lemma response_receives : forall Q (ident : Q -> byte) (count : Q -> N),
  receives (fun q => expect_response (ident q) (count q)) (fun ps => ps)
    (fun q st => is_u16 (count q) /\ answers (ident q) (N.to_nat (count q)) st).
Proof.
  intros Q ident count. apply (checked_receives _ _ _ count (fun q => check_response (ident q) (count q))).
  - intro q. apply expect_response_checked.
  - intros q [[id e] ps] [Hn [_ [Z _]]]. split; [exact Hn|exact Z].
  - intros q [[id e] ps] p s [Hn A] Pk. cbn [fst snd] in Pk. eexists. split.
    + apply (check_response_val _ _ _ _ _ _ _ Pk). apply A.
    + exact (answers_judge _ _ _ A).
Qed.

Lemma some_inj : forall X (a b : X), Some a = Some b -> a = b.
Proof. intros X a b H. injection H as H. exact H. Qed.

Lemma value_receives : forall A (D : data_impl A) (value : list byte -> A), is_u16 (N.of_nat (d_size D)) ->
  receives (expect_value D) value
    (fun id st => answers id (d_size D) st /\ d_decode D (snd st) = Val (Ok (value (snd st)))).
Proof.
  intros A D value Hn. apply (checked_receives _ _ _ (fun _ => N.of_nat (d_size D)) (fun q => check_value D q)).
  - intro q. apply expect_value_checked.
  - intros q [[id e] ps] [[_ [Z _]] _]. split; [exact Hn|exact Z].
  - intros q [[id e] ps] p s [Aw Hd] Pk. cbn [fst snd] in Pk, Hd. eexists. split.
    + apply (check_value_val A D (fun b => Ok (value b)) _ _ _ _ _ _ Pk); [apply Aw|].
      intro L. rewrite garbled_length in L. destruct Aw as [_ [_ La]].
      assert (overlooked ps = 0) as O by lia. apply overlooked_iff in O.
      rewrite (proj2 (unst_pstuff_iff ps) O). exact Hd.
    + pose proof (answers_judge _ _ _ Aw) as [K1 K2]. cbn [fst snd] in K1, K2. unfold judge_value. split; intro Ff.
      * specialize (K1 Ff). apply some_inj in K1. rewrite K1. reflexivity.
      * specialize (K2 Ff). apply some_inj in K2. rewrite K2. reflexivity.
Qed.

Lemma pair_wants : forall Q (P : Q -> Prop) (W : Q -> byte * byte * list byte -> Prop) l sts,
  Forall P l -> Forall2 W l sts -> Forall2 (fun q st => P q /\ W q st) l sts.
Proof. intros Q P W l sts H F. induction F; constructor; apply Forall_cons_iff in H; [split; [apply H|assumption]|apply IHF, H]. Qed.

Lemma L_C84_sync_read_bytes : forall ids a n s sts rest, reach s -> plenty_of_room s (4 + length ids) -> port_ready s ->
  b_baud s <> 0%N -> is_u16 n -> Forall2 (fun id => answers id (N.to_nat n)) ids sts ->
  motors_send (length (b_rbuf s)) (incoming s) sts rest ->
  exists it s1, sync_read_bytes ids a n s = (Val (Ok it), s1) /\
  exists xs it' s', nexts srb_next (length ids) it s1 = (Val (xs, it'), s') /\ pending s' = rest /\
    Forall2 (received (fun ps => ps)) sts xs.
Proof.
  intros ids a n s sts rest R Rm Pr Hb Hn F H.
  destruct (write_succeeds s xfe x82 (4 + length ids) _ _ R (sync_read_writes a n ids)) as [s1 [W Ws]];
    [rewrite !app_length, !le16_length; lia|exact Rm|exact Pr|].
  exists (mkSRB n ids 0), s1. split.
  { unfold sync_read_bytes, write_sync_read, try_, bind. change BROADCAST with xfe. change SYNC_READ with x82. rewrite W. reflexivity. }
  destruct (gnexts_receives _ _ _ _ _ (response_receives byte (fun id => id) (fun _ => n)) ids (length ids) 0 s1 sts rest
    (wr_reach _ _ Ws)) as [xs [s' [E [P K]]]].
  - rewrite (wr_baud _ _ Ws). exact Hb.
  - reflexivity.
  - cbn [skipn]. apply pair_wants; [|exact F]. apply Forall_forall. intros. exact Hn.
  - rewrite (wr_rcap _ _ Ws), (wr_pending _ _ Ws). exact H.
  - do 3 eexists. split; [|split; [exact P|exact K]].
    rewrite (nexts_rep _ _ _ srb_next _ (fun i => mkSRB n ids i) (srb_rep n ids)), E. reflexivity.
Qed.

Lemma L_C84_sync_read : forall A (D : data_impl A) V Rep value ids a s sts rest,
  crate_type D V Rep -> is_u16 (N.of_nat (d_size D)) ->
  reach s -> plenty_of_room s (4 + length ids) -> port_ready s -> b_baud s <> 0%N ->
  Forall2 (fun id st => answers id (d_size D) st /\ Rep (value (snd st)) (snd st)) ids sts ->
  motors_send (length (b_rbuf s)) (incoming s) sts rest ->
  exists it s1, sync_read D ids a s = (Val (Ok it), s1) /\
  exists xs it' s', nexts (sr_next D) (length ids) it s1 = (Val (xs, it'), s') /\ pending s' = rest /\
    Forall2 (received value) sts xs.
Proof.
  intros A D V Rep value ids a s sts rest Ct Hn R Rm Pr Hb F H.
  destruct (write_succeeds s xfe x82 (4 + length ids) _ _ R (sync_read_writes a (N.of_nat (d_size D)) ids)) as [s1 [W Ws]];
    [rewrite !app_length, !le16_length; lia|exact Rm|exact Pr|].
  exists (mkSR ids 0), s1. split.
  { unfold sync_read, write_sync_read, try_, bind. change BROADCAST with xfe. change SYNC_READ with x82. rewrite W. reflexivity. }
  destruct (gnexts_receives _ _ _ _ _ (value_receives A D value Hn) ids (length ids) 0 s1 sts rest
    (wr_reach _ _ Ws)) as [xs [s' [E [P K]]]].
  - rewrite (wr_baud _ _ Ws). exact Hb.
  - reflexivity.
  - cbn [skipn]. clear - F Ct. induction F as [|q st l sts [Aw Rp] F IH]; constructor; [|exact IH].
    split; [exact Aw|]. apply (L_C36_round_trip _ _ _ _ _ _ Ct Rp).
  - rewrite (wr_rcap _ _ Ws), (wr_pending _ _ Ws). exact H.
  - do 3 eexists. split; [|split; [exact P|exact K]].
    rewrite (nexts_rep _ _ _ (sr_next D) _ (fun i => mkSR ids i) (sr_rep A D ids)), E. reflexivity.
Qed.

Lemma L_C84_bulk_read : forall l s sts rest, NoDup (map br_id l) -> Forall (fun q => is_u16 (br_count q)) l ->
  reach s -> plenty_of_room s (5 * length l) -> port_ready s -> b_baud s <> 0%N ->
  Forall2 (fun q => answers (br_id q) (N.to_nat (br_count q))) l sts ->
  motors_send (length (b_rbuf s)) (incoming s) sts rest ->
  exists it s1, bulk_read_bytes l s = (Val (Ok it), s1) /\
  exists xs it' s', nexts br_next (length l) it s1 = (Val (xs, it'), s') /\ pending s' = rest /\
    Forall2 (received (fun ps => ps)) sts xs.
Proof.
  intros l s sts rest Nd Hc R Rm Pr Hb F H.
  destruct (write_succeeds s xfe x92 (5 * length l) _ _ R (bulk_read_writes l)) as [s1 [W Ws]];
    [rewrite bulk_read_entries_length; lia|exact Rm|exact Pr|].
  exists (mkBR l 0), s1. split.
  { unfold bulk_read_bytes, write_bulk_read_instruction, try_, bind. 
    rewrite (proj2 (bulk_read_dup_iff l) Nd). change BROADCAST with xfe. change BULK_READ with x92. rewrite W. reflexivity. }
  destruct (gnexts_receives _ _ _ _ _ (response_receives _ br_id br_count) l (length l) 0 s1 sts rest
    (wr_reach _ _ Ws)) as [xs [s' [E [P K]]]].
  - rewrite (wr_baud _ _ Ws). exact Hb.
  - reflexivity.
  - cbn [skipn]. apply pair_wants; assumption.
  - rewrite (wr_rcap _ _ Ws), (wr_pending _ _ Ws). exact H.
  - do 3 eexists. split; [|split; [exact P|exact K]].
    rewrite (nexts_rep _ _ _ br_next _ (fun i => mkBR l i) (br_rep l)), E. reflexivity.
Qed.
