(** * IterTheorems: sync reads, bulk reads and scans *)
From Coq Require Import ZArith ZifyN ZifyNat ZifyBool.
From Verif Require Import Base Endian Error Checksum Bytestuff Packet Time Bus Data Client
  Instructions Device Api Spec CallSpec StreamSpec DeviceSpec InstructionSpec Demo Lib ChecksumProofs
  CrcErrorProofs StuffProofs WriteProofs ReadProofs ApiProofs StreamProofs MessageProofs SendProofs
  SendTheorems ReadTheorems StatusProofs DeviceTheorems InstructionProofs DemoProofs TransferTheorems
  IterProofs.

(** ** Single items *)

Lemma judge_ok : forall id n id' e ps r, judge id n (id', e, ps) = Ok r ->
  id' = id /\ length ps = n /\ r = mkResponse id (alert_bit e) ps.
Proof.
  intros id n id' e ps r H. unfold judge in H.
  destruct (b2n e mod 128 =? 0)%N; cbn [negb] in H; [|discriminate].
  destruct (beq id' id) eqn:B; cbn [negb] in H; [|discriminate].
  destruct (length ps =? n) eqn:L; cbn [negb] in H; [|discriminate].
  injection H as <-. apply beq_true in B. apply Nat.eqb_eq in L. auto.
Qed.

Lemma expect_response_ok : forall id n s r s', reach s -> expect_response id n s = (Val (Ok r), s') ->
  exists e data, carries (pending s) id (x55 :: e :: data) (pending s') /\ no_error e /\
    length data = N.to_nat n /\ r = mkResponse id (alert_bit e) data.
Proof.
  intros id n s r s' R E.
  destruct (checked_ok _ _ _ _ _ _ _ (expect_response_checked id n) R E) as [id' [e [ps [p [C [Z [P K]]]]]]].
  rewrite (check_response_val id n p id' e ps s' P Z) in K. cbn [fst] in K. injection K as K.
  apply judge_ok in K. destruct K as [-> [L ->]]. exists e, ps. auto.
Qed.

Lemma expect_value_ok : forall A (D : data_impl A) id s r s', reach s -> expect_value D id s = (Val (Ok r), s') ->
  exists e data v, carries (pending s) id (x55 :: e :: data) (pending s') /\ no_error e /\
    length data = d_size D /\ d_decode D data = Val (Ok v) /\ r = mkResponse id (alert_bit e) v.
Proof.
  intros A D id s r s' R E.
  destruct (checked_ok _ _ _ _ _ _ _ (expect_value_checked A D id) R E) as [id' [e [ps [p [C [Z [P K]]]]]]].
  destruct (status_accessors _ _ _ _ P) as [A1 [A2 [A3 A4]]].
  unfold check_value, bind, lift in K. rewrite A1 in K. unfold packet_id_check in K.
  destruct (beq id' id) eqn:B; [|discriminate]. apply beq_true in B. subst id'. cbn [tryr] in K. rewrite A4 in K.
  unfold param_count_check in K. destruct (length ps =? d_size D) eqn:L; [|discriminate]. apply Nat.eqb_eq in L.
  cbn [tryr fst] in K. unfold decode_status_packet in K. rewrite A2 in K. cbn [obind] in K.
  rewrite (no_error_check _ Z), A1, A3, A4 in K. cbn [obind] in K.
  destruct (d_decode D ps) as [[v|?]|?|] eqn:Dc; try discriminate. cbn in K. injection K as <-.
  exists e, ps, v. auto 6.
Qed.

(** ** C33 *)

Lemma L_C33_sync_read_bytes_item : forall n ids i s r it s', reach s ->
  srb_next (mkSRB n ids i) s = (Val (Some (Ok r), it), s') ->
  exists id e data, nth_error ids i = Some id /\ it = mkSRB n ids (S i) /\
    carries (pending s) id (x55 :: e :: data) (pending s') /\ no_error e /\
    length data = N.to_nat n /\ r = mkResponse id (alert_bit e) data.
Proof.
  intros n ids i s r it s' R E. rewrite srb_rep in E. unfold gnext in E.
  destruct (nth_error ids i) as [id|] eqn:Ei; [|discriminate]. unfold bind in E.
  destruct (expect_response id n s) as [[x|?|] s1] eqn:Ex; try discriminate. injection E as -> <- <-.
  destruct (expect_response_ok _ _ _ _ _ R Ex) as [e [data K]]. exists id, e, data. intuition.
Qed.

Lemma L_C33_sync_read_item : forall A (D : data_impl A) ids i s r it s', reach s ->
  sr_next D (mkSR ids i) s = (Val (Some (Ok r), it), s') ->
  exists id e data v, nth_error ids i = Some id /\ it = mkSR ids (S i) /\
    carries (pending s) id (x55 :: e :: data) (pending s') /\ no_error e /\
    length data = d_size D /\ d_decode D data = Val (Ok v) /\ r = mkResponse id (alert_bit e) v.
Proof.
  intros A D ids i s r it s' R E. rewrite sr_rep in E. unfold gnext in E.
  destruct (nth_error ids i) as [id|] eqn:Ei; [|discriminate]. unfold bind in E.
  destruct (expect_value D id s) as [[x|?|] s1] eqn:Ex; try discriminate. injection E as -> <- <-.
  destruct (expect_value_ok _ _ _ _ _ _ R Ex) as [e [data [v K]]]. exists id, e, data, v. intuition.
Qed.

Lemma L_C33_bulk_read_item : forall l i s r it s', reach s ->
  br_next (mkBR l i) s = (Val (Some (Ok r), it), s') ->
  exists q e data, nth_error l i = Some q /\ it = mkBR l (S i) /\
    carries (pending s) (br_id q) (x55 :: e :: data) (pending s') /\ no_error e /\
    length data = N.to_nat (br_count q) /\ r = mkResponse (br_id q) (alert_bit e) data.
Proof.
  intros l i s r it s' R E. rewrite br_rep in E. unfold gnext in E.
  destruct (nth_error l i) as [q|] eqn:Ei; [|discriminate]. unfold bind in E.
  destruct (expect_response (br_id q) (br_count q) s) as [[x|?|] s1] eqn:Ex; try discriminate. injection E as -> <- <-.
  destruct (expect_response_ok _ _ _ _ _ R Ex) as [e [data K]]. exists q, e, data. intuition.
Qed.

Lemma expect_response_once : forall id n, reads_once (expect_response id n).
Proof. intros id n s x s' R E. exact (checked_one _ _ _ _ _ _ _ (expect_response_checked id n) R E). Qed.
Lemma expect_value_once : forall A (D : data_impl A) id, reads_once (expect_value D id).
Proof. intros A D id s x s' R E. exact (checked_one _ _ _ _ _ _ _ (expect_value_checked A D id) R E). Qed.
Lemma read_status_once : forall n, reads_once (read_status_response n).
Proof. intros n s x s' R E. exact (read_status_one _ _ _ _ R E). Qed.

Definition from_motor {A} (id : byte) (r : result (response A) read_error) : Prop :=
  match r with Ok x => r_motor_id x = id | Err _ => True end.
Definition from_motor_n (id : byte) (n : nat) (r : result (response (list byte)) read_error) : Prop :=
  match r with Ok x => r_motor_id x = id /\ length (r_data x) = n | Err _ => True end.

Lemma expect_from : forall id n s x s', reach s -> expect_response id n s = (Val x, s') -> from_motor_n id (N.to_nat n) x.
Proof.
  intros id n s [r|e] s' R E; [|exact I].
  destruct (expect_response_ok _ _ _ _ _ R E) as [e [data [_ [_ [L ->]]]]]. split; [reflexivity|exact L].
Qed.
Lemma expect_value_from : forall A (D : data_impl A) id s x s', reach s -> expect_value D id s = (Val x, s') -> from_motor id x.
Proof.
  intros A D id s [r|e] s' R E; [|exact I].
  destruct (expect_value_ok _ _ _ _ _ _ R E) as [e [data [v [_ [_ [_ [_ ->]]]]]]]. reflexivity.
Qed.

Lemma L_C33_sync_read_bytes : forall n ids k s xs it s', reach s ->
  nexts srb_next k (mkSRB n ids 0) s = (Val (xs, it), s') ->
  length xs = k /\ srb_remaining it = Val (length ids - k) /\
  (forall m, m < k -> match nth_error ids m with
     | None => nth_error xs m = Some None
     | Some id => exists x, nth_error xs m = Some (Some x) /\
         forall r, x = Ok r -> r_motor_id r = id /\ length (r_data r) = N.to_nat n
     end).
Proof.
  intros n ids k s xs it s' R E.
  rewrite (nexts_rep _ _ _ srb_next _ (fun i => mkSRB n ids i) (srb_rep n ids)) in E.
  destruct (nexts (gnext _ ids) k 0 s) as [[[ys j]|?|] s1] eqn:N; try discriminate.
  injection E as -> <- <-.
  destruct (gnexts_spec _ _ _ ids (fun id => from_motor_n id (N.to_nat n)) (fun id => expect_response_once id n)
              (fun id => expect_from id n) k 0 s xs j s1 R N) as [_ [L [J [_ K]]]].
  split; [exact L|]. split.
  - unfold srb_remaining, usize_sub. cbn [srb_ids srb_index]. replace (j <=? length ids) with true by lia.
    f_equal. lia.
  - intros m Hm. specialize (K m Hm). cbn [Nat.add] in K. destruct (nth_error ids m); [|exact K].
    destruct K as [x [E P]]. exists x. split; [exact E|]. intros r ->. exact P.
Qed.

Lemma L_C33_sync_read : forall A (D : data_impl A) ids k s xs it s', reach s ->
  nexts (sr_next D) k (mkSR ids 0) s = (Val (xs, it), s') ->
  length xs = k /\ sr_remaining it = Val (length ids - k) /\
  (forall m, m < k -> match nth_error ids m with
     | None => nth_error xs m = Some None
     | Some id => exists x, nth_error xs m = Some (Some x) /\ forall r, x = Ok r -> r_motor_id r = id
     end).
Proof.
  intros A D ids k s xs it s' R E.
  rewrite (nexts_rep _ _ _ (sr_next D) _ (fun i => mkSR ids i) (sr_rep A D ids)) in E.
  destruct (nexts (gnext _ ids) k 0 s) as [[[ys j]|?|] s1] eqn:N; try discriminate.
  injection E as -> <- <-.
  destruct (gnexts_spec _ _ _ ids from_motor (expect_value_once A D)
              (expect_value_from A D) k 0 s xs j s1 R N) as [_ [L [J [_ K]]]].
  split; [exact L|]. split.
  - unfold sr_remaining, usize_sub. cbn [sr_ids sr_index]. replace (j <=? length ids) with true by lia.
    f_equal. lia.
  - intros m Hm. specialize (K m Hm). cbn [Nat.add] in K. destruct (nth_error ids m); [|exact K].
    destruct K as [x [E P]]. exists x. split; [exact E|]. intros r ->. exact P.
Qed.

Lemma L_C33_bulk_read : forall l k s xs it s', reach s ->
  nexts br_next k (mkBR l 0) s = (Val (xs, it), s') ->
  length xs = k /\ br_remaining it = Val (length l - k) /\
  (forall m, m < k -> match nth_error l m with
     | None => nth_error xs m = Some None
     | Some q => exists x, nth_error xs m = Some (Some x) /\
         forall r, x = Ok r -> r_motor_id r = br_id q /\ length (r_data r) = N.to_nat (br_count q)
     end).
Proof.
  intros l k s xs it s' R E.
  rewrite (nexts_rep _ _ _ br_next _ (fun i => mkBR l i) (br_rep l)) in E.
  destruct (nexts (gnext _ l) k 0 s) as [[[ys j]|?|] s1] eqn:N; try discriminate.
  injection E as -> <- <-.
  destruct (gnexts_spec _ _ _ l (fun q => from_motor_n (br_id q) (N.to_nat (br_count q)))
              (fun q => expect_response_once (br_id q) (br_count q))
              (fun q => expect_from (br_id q) (br_count q)) k 0 s xs j s1 R N) as [_ [L [J [_ K]]]].
  split; [exact L|]. split.
  - unfold br_remaining, usize_sub. cbn [br_reads br_index]. replace (j <=? length l) with true by lia.
    f_equal. lia.
  - intros m Hm. specialize (K m Hm). cbn [Nat.add] in K. destruct (nth_error l m); [|exact K].
    destruct K as [x [E P]]. exists x. split; [exact E|]. intros r ->. exact P.
Qed.

(** *** When a status packet arrives for every request *)

Definition usable (n : N) (s : bus) : Prop := (n < 2 ^ 16)%N /\ b_baud s <> 0%N.

Lemma srb_outcome_is : forall n,
  outcome_is (fun id => expect_response id n) (fun id st => judge id (N.to_nat n) st) (usable n).
Proof.
  intros n id s st l rest R [Hn Hb] H.
  destruct (expect_response_outcome id n s st l rest R Hn Hb H) as [s' [O [S' E]]].
  exists s'. split; [exact O|]. split; [split; [exact Hn|rewrite (or_baud _ _ O); exact Hb]|]. auto.
Qed.

Lemma sr_outcome_is : forall A (D : data_impl A) decode,
  (forall ps, length ps = d_size D -> d_decode D ps = Val (decode ps)) ->
  outcome_is (expect_value D) (fun id st => judge_value decode id (d_size D) st) (usable (N.of_nat (d_size D))).
Proof.
  intros A D decode Hd id s st l rest R [Hn Hb] H.
  destruct (expect_value_outcome A D decode id s st l rest R Hn Hb Hd H) as [s' [O [S' E]]].
  exists s'. split; [exact O|]. split; [split; [exact Hn|rewrite (or_baud _ _ O); exact Hb]|]. auto.
Qed.

Definition plain (st : byte * byte * list byte) (r : result packet read_error) : Prop :=
  match r with Ok p => packet_is p (fst (fst st)) (x55 :: snd (fst st) :: snd st) | Err e => e = RMotorError (snd (fst st)) end.

(** For dropping, only the effect on the line matters. *)
Lemma rsr_outcome : forall n s st l rest, reach s -> usable n s ->
  statuses (length (b_rbuf s)) (pending s) (st :: l) rest ->
  exists r s', one_read s s' /\ usable n s' /\ statuses (length (b_rbuf s')) (pending s') l rest /\
    read_status_response n s = (Val r, s').
Proof.
  intros n s [[id e] ps] l rest R [Hn Hb] H.
  destruct (checked_outcome _ (try_ (fun e => e) (read_status_response n) (fun p => ret (Ok p))) n (fun p => ret (Ok p)) s
    (id, e, ps) (fun p => Ok p) l rest) as [s' [O [S' [K1 K2]]]]; try assumption.
  - split; [reflexivity|]. intros p t o t' K. injection K as _ <-. reflexivity.
  - intros p s0 _ _. eexists. split; reflexivity.
  - cbn [fst snd] in *.
    assert (K : exists r, read_status_response n s = (Val r, s')).
    { destruct (read_status_response n s) as [o s1] eqn:E. unfold try_, bind in K1, K2. rewrite E in K1, K2.
      destruct (N.eq_dec (b2n e mod 128) 0) as [Z|Z].
      - destruct (K1 Z) as [p [_ K]]. destruct o as [[q|er]|?|]; try discriminate; injection K as _ <-; eauto.
      - specialize (K2 Z). destruct o as [[q|er]|?|]; try discriminate; injection K2 as _ <-; eauto. }
    destruct K as [r E]. exists r, s'. split; [exact O|]. split; [split; [exact Hn|rewrite (or_baud _ _ O); exact Hb]|]. auto.
Qed.

Lemma L_C33_sync_read_bytes_outcome : forall n ids s sts rest, reach s -> is_u16 n -> b_baud s <> 0%N ->
  length sts = length ids -> statuses (length (b_rbuf s)) (pending s) sts rest ->
  exists s', nexts srb_next (length ids) (mkSRB n ids 0) s =
      (Val (map (fun '(id, st) => Some (judge id (N.to_nat n) st)) (combine ids sts), mkSRB n ids (length ids)), s') /\
    pending s' = rest.
Proof.
  intros n ids s sts rest R Hn Hb L H.
  destruct (gnexts_outcome _ _ _ _ _ ids (srb_outcome_is n) (length ids) 0 s sts rest R (conj Hn Hb)
    ltac:(lia) ltac:(lia) H) as [s' [_ [_ [S' E]]]].
  exists s'. split.
  - rewrite (nexts_rep _ _ _ srb_next _ (fun i => mkSRB n ids i) (srb_rep n ids)), E.
    cbn [out_map skipn Nat.add]. rewrite firstn_all2 by (rewrite combine_length; lia). reflexivity.
  - rewrite skipn_all2 in S' by lia. inversion S'; congruence.
Qed.

Lemma L_C33_sync_read_outcome : forall A (D : data_impl A) decode ids s sts rest, reach s ->
  is_u16 (N.of_nat (d_size D)) -> b_baud s <> 0%N ->
  (forall ps, length ps = d_size D -> d_decode D ps = Val (decode ps)) ->
  length sts = length ids -> statuses (length (b_rbuf s)) (pending s) sts rest ->
  exists s', nexts (sr_next D) (length ids) (mkSR ids 0) s =
      (Val (map (fun '(id, st) => Some (judge_value decode id (d_size D) st)) (combine ids sts), mkSR ids (length ids)), s') /\
    pending s' = rest.
Proof.
  intros A D decode ids s sts rest R Hn Hb Hd L H.
  destruct (gnexts_outcome _ _ _ _ _ ids (sr_outcome_is A D decode Hd) (length ids) 0 s sts rest R (conj Hn Hb)
    ltac:(lia) ltac:(lia) H) as [s' [_ [_ [S' E]]]].
  exists s'. split.
  - rewrite (nexts_rep _ _ _ (sr_next D) _ (fun i => mkSR ids i) (sr_rep A D ids)), E.
    cbn [out_map skipn Nat.add]. rewrite firstn_all2 by (rewrite combine_length; lia). reflexivity.
  - rewrite skipn_all2 in S' by lia. inversion S'; congruence.
Qed.

(** The bulk read has a count per request. *)
Lemma br_outcomes : forall l k i s sts rest, reach s -> Forall (fun q => is_u16 (br_count q)) l -> b_baud s <> 0%N ->
  i + k <= length l -> k <= length sts -> statuses (length (b_rbuf s)) (pending s) sts rest ->
  exists s', reach s' /\ b_baud s' <> 0%N /\ statuses (length (b_rbuf s')) (pending s') (skipn k sts) rest /\
    nexts (gnext (fun q => expect_response (br_id q) (br_count q)) l) k i s =
      (Val (map (fun '(q, st) => Some (judge (br_id q) (N.to_nat (br_count q)) st)) (firstn k (combine (skipn i l) sts)), i + k), s').
Proof.
  intros l k. induction k as [|k IH]; intros i s sts rest R F Hb L1 L2 H.
  - exists s. rewrite Nat.add_0_r. auto.
  - destruct sts as [|st sts]; [cbn in L2; lia|].
    destruct (nth_error l i) as [q|] eqn:Eq; [|apply nth_error_None in Eq; lia].
    assert (Hn : is_u16 (br_count q)) by (apply nth_error_In in Eq; rewrite Forall_forall in F; auto).
    destruct (expect_response_outcome (br_id q) (br_count q) s st sts rest R Hn Hb H) as [s1 [O [S1 E1]]].
    destruct (IH (S i) s1 sts rest (or_reach _ _ O) F) as [s2 [R2 [B2 [S2 E2]]]].
    + rewrite (or_baud _ _ O). exact Hb.
    + lia.
    + cbn in L2. lia.
    + exact S1.
    + exists s2. split; [exact R2|]. split; [exact B2|]. split; [exact S2|].
      cbn [nexts]. unfold bind, gnext at 1. rewrite Eq. unfold bind. rewrite E1. cbn [ret]. rewrite E2.
      rewrite (skipn_nth _ _ _ _ Eq). cbn [combine firstn map]. replace (i + S k) with (S i + k) by lia. reflexivity.
Qed.

Lemma L_C33_bulk_read_outcome : forall l s sts rest, reach s -> Forall (fun q => is_u16 (br_count q)) l ->
  b_baud s <> 0%N -> length sts = length l -> statuses (length (b_rbuf s)) (pending s) sts rest ->
  exists s', nexts br_next (length l) (mkBR l 0) s =
      (Val (map (fun '(q, st) => Some (judge (br_id q) (N.to_nat (br_count q)) st)) (combine l sts), mkBR l (length l)), s') /\
    pending s' = rest.
Proof.
  intros l s sts rest R F Hb L H.
  destruct (br_outcomes l (length l) 0 s sts rest R F Hb ltac:(lia) ltac:(lia) H) as [s' [_ [_ [S' E]]]].
  exists s'. split.
  - rewrite (nexts_rep _ _ _ br_next _ (fun i => mkBR l i) (br_rep l)), E.
    cbn [out_map skipn Nat.add]. rewrite firstn_all2 by (rewrite combine_length; lia). reflexivity.
  - rewrite skipn_all2 in S' by lia. inversion S'; congruence.
Qed.

(** ** C34 *)

Lemma L_C34_sync_read_bytes : forall n ids k s xs s', reach s ->
  take_then_drop srb_next srb_drop k (mkSRB n ids 0) s = (Val xs, s') ->
  exists evs, calls s s' evs /\ status_reads evs = length ids /\ Forall only_reads evs.
Proof.
  intros n ids k s xs s' R E.
  exact (gtake_spec _ _ _ _ srb_next srb_drop (fun i => mkSRB n ids i) _ _ ids k s xs s'
    (fun id => expect_response_once id n) (fun _ => read_status_once n) (srb_rep n ids)
    (fun i t _ => srb_drop_rep n ids i t) R E).
Qed.

Lemma L_C34_sync_read : forall A (D : data_impl A) ids k s xs s', reach s ->
  take_then_drop (sr_next D) (sr_drop D) k (mkSR ids 0) s = (Val xs, s') ->
  exists evs, calls s s' evs /\ status_reads evs = length ids /\ Forall only_reads evs.
Proof.
  intros A D ids k s xs s' R E.
  exact (gtake_spec _ _ _ _ (sr_next D) (sr_drop D) (fun i => mkSR ids i) _ _ ids k s xs s'
    (expect_value_once A D) (expect_value_once A D) (sr_rep A D ids)
    (fun i t _ => sr_drop_rep A D ids i t) R E).
Qed.

Lemma L_C34_bulk_read : forall l k s xs s', reach s ->
  take_then_drop br_next br_drop k (mkBR l 0) s = (Val xs, s') ->
  exists evs, calls s s' evs /\ status_reads evs = length l /\ Forall only_reads evs.
Proof.
  intros l k s xs s' R E.
  exact (gtake_spec _ _ _ _ br_next br_drop (fun i => mkBR l i) _ _ l k s xs s'
    (fun q => expect_response_once (br_id q) (br_count q)) (fun q => read_status_once (br_count q)) (br_rep l)
    (br_drop_rep l) R E).
Qed.

Lemma drop_drains : forall Q (cnt : Q -> N) (qs : list Q) s sts rest, reach s -> b_baud s <> 0%N ->
  Forall (fun q => is_u16 (cnt q)) qs -> length sts = length qs ->
  statuses (length (b_rbuf s)) (pending s) sts rest ->
  exists s', gdrop (fun q => read_status_response (cnt q)) qs s = (Val tt, s') /\ pending s' = rest.
Proof.
  intros Q cnt. induction qs as [|q qs IH]; intros s [|st sts] rest R Hb F L H; try discriminate.
  - exists s. split; [reflexivity|]. inversion H; congruence.
  - destruct (rsr_outcome (cnt q) s st sts rest R (conj (Forall_inv F) Hb) H) as [r [s1 [O [[_ B1] [S1 E1]]]]].
    destruct (IH s1 sts rest (or_reach _ _ O) B1 (Forall_inv_tail F) ltac:(cbn in L; lia) S1) as [s2 [E2 P]].
    exists s2. split; [|exact P]. cbn [gdrop]. unfold bind. rewrite E1. exact E2.
Qed.

Lemma L_C34_line_is_drained_sync_bytes : forall n ids k s sts rest, reach s -> is_u16 n -> b_baud s <> 0%N ->
  k <= length ids -> length sts = length ids -> statuses (length (b_rbuf s)) (pending s) sts rest ->
  exists s', take_then_drop srb_next srb_drop k (mkSRB n ids 0) s =
      (Val (map (fun '(id, st) => Some (judge id (N.to_nat n) st)) (firstn k (combine ids sts))), s') /\
    pending s' = rest.
Proof.
  intros n ids k s sts rest R Hn Hb Hk L H.
  destruct (gnexts_outcome _ _ _ _ _ ids (srb_outcome_is n) k 0 s sts rest R (conj Hn Hb)
    ltac:(lia) ltac:(lia) H) as [s1 [R1 [[_ B1] [S1 E1]]]].
  destruct (drop_drains byte (fun _ => n) (skipn k ids) s1 (skipn k sts) rest R1 B1) as [s2 [E2 P]].
  - apply Forall_forall. intros; exact Hn.
  - rewrite !skipn_length. lia.
  - exact S1.
  - exists s2. split; [|exact P]. unfold take_then_drop, bind.
    rewrite (nexts_rep _ _ _ srb_next _ (fun i => mkSRB n ids i) (srb_rep n ids)), E1.
    cbn [out_map skipn Nat.add]. rewrite srb_drop_rep, E2. reflexivity.
Qed.

Lemma L_C34_line_is_drained_sync : forall A (D : data_impl A) decode ids k s sts rest, reach s ->
  is_u16 (N.of_nat (d_size D)) -> b_baud s <> 0%N ->
  (forall ps, length ps = d_size D -> d_decode D ps = Val (decode ps)) ->
  k <= length ids -> length sts = length ids -> statuses (length (b_rbuf s)) (pending s) sts rest ->
  exists s', take_then_drop (sr_next D) (sr_drop D) k (mkSR ids 0) s =
      (Val (map (fun '(id, st) => Some (judge_value decode id (d_size D) st)) (firstn k (combine ids sts))), s') /\
    pending s' = rest.
Proof.
  intros A D decode ids k s sts rest R Hn Hb Hd Hk L H.
  exact (gtake_outcome _ _ _ _ (sr_next D) (sr_drop D) (fun i => mkSR ids i) _ _ _ _ _ ids k s sts rest
    (sr_outcome_is A D decode Hd) (sr_outcome_is A D decode Hd) (sr_rep A D ids)
    (fun i t _ => sr_drop_rep A D ids i t) R (conj Hn Hb) Hk L H).
Qed.

Lemma L_C34_line_is_drained_bulk : forall l k s sts rest, reach s -> Forall (fun q => is_u16 (br_count q)) l ->
  b_baud s <> 0%N -> k <= length l -> length sts = length l ->
  statuses (length (b_rbuf s)) (pending s) sts rest ->
  exists s', take_then_drop br_next br_drop k (mkBR l 0) s =
      (Val (map (fun '(q, st) => Some (judge (br_id q) (N.to_nat (br_count q)) st)) (firstn k (combine l sts))), s') /\
    pending s' = rest.
Proof.
  intros l k s sts rest R F Hb Hk L H.
  destruct (br_outcomes l k 0 s sts rest R F Hb ltac:(lia) ltac:(lia) H) as [s1 [R1 [B1 [S1 E1]]]].
  destruct (drop_drains _ br_count (skipn k l) s1 (skipn k sts) rest R1 B1) as [s2 [E2 P]].
  - apply Forall_forall. intros q Hq. rewrite Forall_forall in F. apply F.
    rewrite <- (firstn_skipn k l). apply in_or_app. right. exact Hq.
  - rewrite !skipn_length. lia.
  - exact S1.
  - exists s2. split; [|exact P]. unfold take_then_drop, bind.
    rewrite (nexts_rep _ _ _ br_next _ (fun i => mkBR l i) (br_rep l)), E1.
    cbn [out_map skipn Nat.add]. rewrite br_drop_rep by lia. rewrite E2. reflexivity.
Qed.
