(** * IterProofs: the iterators of sync and bulk reads *)
From Coq Require Import ZArith ZifyN ZifyNat ZifyBool.
From Verif Require Import Base Endian Error Checksum Bytestuff Packet Time Bus Data Client
  Instructions Device Api Spec CallSpec StreamSpec DeviceSpec InstructionSpec Demo Lib ChecksumProofs
  CrcErrorProofs StuffProofs WriteProofs ReadProofs ApiProofs StreamProofs MessageProofs SendProofs
  SendTheorems ReadTheorems StatusProofs DeviceTheorems InstructionProofs DemoProofs TransferTheorems.

(** ** One status read *)

Record one_read (s s' : bus) : Prop := mkOneRead {
  or_reach : reach s';
  or_rcap : length (b_rbuf s') = length (b_rbuf s);
  or_baud : b_baud s' = b_baud s;
  or_calls : exists d evs, calls s s' (LDeadline d :: evs) /\ Forall (reads_with d) evs;
}.

Lemma read_status_one : forall n s r s', reach s -> read_status_response n s = (Val r, s') -> one_read s s'.
Proof.
  intros n s r s' R E.
  assert (R' : reach s') by (eapply reach_call; [exact R|apply api_read_status_response|exact E]).
  destruct (read_status_spec n s _ s' (reach_inv _ R) E)
    as [[x [_ [K _]]]|[t [o1 [_ [I [K [_ T]]]]]]]; [discriminate|].
  destruct (timed_calls _ _ _ T) as [evs [C F]]. destruct T as [[B1 B2 _ _ _ _ _ _ _]].
  constructor; eauto.
Qed.

Definition check_response (id : byte) (n : N) (p : packet) : M (result (response (list byte)) read_error) :=
  rid <- lift (pk_id p) ;;
  tryr RInvalidMessage (packet_id_check rid id) (fun _ =>
  ps <- lift (st_parameters p) ;;
  tryr RInvalidMessage (param_count_check (length ps) (N.to_nat n)) (fun _ =>
  lift (decode_status_packet_bytes p))).

Definition check_value {A} (D : data_impl A) (id : byte) (p : packet) : M (result (response A) read_error) :=
  rid <- lift (pk_id p) ;;
  tryr RInvalidMessage (packet_id_check rid id) (fun _ =>
  ps <- lift (st_parameters p) ;;
  tryr RInvalidMessage (param_count_check (length ps) (d_size D)) (fun _ =>
  lift (decode_status_packet D p))).

Lemma check_response_val : forall id n p id' e ps s, packet_is p id' (STATUS :: e :: ps) -> no_error e ->
  check_response id n p s = (Val (judge id (N.to_nat n) (id', e, ps)), s).
Proof.
  intros id n p id' e ps s P Z. destruct (status_accessors _ _ _ _ P) as [A1 [A2 [A3 A4]]].
  unfold check_response, bind, lift. rewrite A1. unfold packet_id_check, judge.
  rewrite (proj2 (N.eqb_eq _ _) Z). cbn [negb].
  destruct (beq id' id) eqn:B; cbn [negb]; [|reflexivity]. apply beq_true in B. subst id'.
  cbn [tryr]. rewrite A4. unfold param_count_check.
  destruct (length ps =? N.to_nat n); cbn [negb tryr]; [|reflexivity].
  unfold decode_status_packet_bytes. rewrite A2. cbn [obind]. rewrite (no_error_check _ Z), A1, A3, A4. reflexivity.
Qed.

Lemma check_value_val : forall A (D : data_impl A) decode id p id' e ps s,
  packet_is p id' (STATUS :: e :: ps) -> no_error e ->
  (length ps = d_size D -> d_decode D ps = Val (decode ps)) ->
  check_value D id p s = (Val (judge_value decode id (d_size D) (id', e, ps)), s).
Proof.
  intros A D decode id p id' e ps s P Z Hd. destruct (status_accessors _ _ _ _ P) as [A1 [A2 [A3 A4]]].
  unfold check_value, bind, lift. rewrite A1. unfold packet_id_check, judge_value, judge.
  rewrite (proj2 (N.eqb_eq _ _) Z). cbn [negb].
  destruct (beq id' id) eqn:B; cbn [negb]; [|reflexivity]. apply beq_true in B. subst id'.
  cbn [tryr]. rewrite A4. unfold param_count_check.
  destruct (length ps =? d_size D) eqn:L; cbn [negb tryr]; [|reflexivity]. apply Nat.eqb_eq in L.
  unfold decode_status_packet. rewrite A2. cbn [obind]. rewrite (no_error_check _ Z), A1, A3, A4. cbn [obind].
  rewrite (Hd L). cbn [r_data r_motor_id r_alert]. destruct (decode ps); reflexivity.
Qed.

(** Reading a status and checking it without further calls on the port. *)
Definition checked {X} (rd : M (result X read_error)) (n : N) (chk : packet -> M (result X read_error)) : Prop :=
  rd = try_ (fun e => e) (read_status_response n) chk /\
  forall p s o s', chk p s = (o, s') -> s' = s.

Lemma expect_response_checked : forall id n, checked (expect_response id n) n (check_response id n).
Proof.
  intros id n. split; [reflexivity|]. intros p s o s' E. unfold check_response, bind, lift, tryr, ret in E.
  repeat match type of E with
  | (match ?x with _ => _ end) = _ => destruct x
  | (match ?x with _ => _ end) _ = _ => destruct x
  | (_, _) = (_, _) => injection E as <- <-; reflexivity
  end.
Qed.

Lemma expect_value_checked : forall A (D : data_impl A) id,
  checked (expect_value D id) (N.of_nat (d_size D)) (check_value D id).
Proof.
  intros A D id. split; [reflexivity|]. intros p s o s' E. unfold check_value, bind, lift, tryr, ret in E.
  repeat match type of E with
  | (match ?x with _ => _ end) = _ => destruct x
  | (match ?x with _ => _ end) _ = _ => destruct x
  | (_, _) = (_, _) => injection E as <- <-; reflexivity
  end.
Qed.

Lemma checked_one : forall X (rd : M (result X read_error)) n chk s r s', checked rd n chk -> reach s ->
  rd s = (Val r, s') -> one_read s s'.
Proof.
  intros X rd n chk s r s' [-> K] R E. unfold try_, bind in E.
  destruct (read_status_response n s) as [[[p|e]|?|] s1] eqn:Rd; try discriminate.
  - apply K in E. subst s'. exact (read_status_one _ _ _ _ R Rd).
  - injection E as <- <-. exact (read_status_one _ _ _ _ R Rd).
Qed.

Lemma checked_ok : forall X (rd : M (result X read_error)) n chk s x s', checked rd n chk -> reach s ->
  rd s = (Val (Ok x), s') ->
  exists id e ps p, carries (pending s) id (STATUS :: e :: ps) (pending s') /\ no_error e /\
    packet_is p id (STATUS :: e :: ps) /\ fst (chk p s') = Val (Ok x).
Proof.
  intros X rd n chk s x s' [-> K] R E. unfold try_, bind in E.
  destruct (read_status_response n s) as [[[p|e]|?|] s1] eqn:Rd; try discriminate.
  pose proof E as E2. apply K in E2. subst s'.
  destruct (status_read_ok _ _ _ _ R Rd) as [id [e [ps [C [Z P]]]]].
  exists id, e, ps, p. rewrite E. auto.
Qed.

Lemma checked_outcome : forall X (rd : M (result X read_error)) n chk s st line l rest,
  checked rd n chk -> reach s -> (n < 2 ^ 16)%N -> b_baud s <> 0%N ->
  statuses (length (b_rbuf s)) (pending s) (st :: l) rest ->
  (forall p s0, packet_is p (fst (fst st)) (STATUS :: snd (fst st) :: snd st) -> no_error (snd (fst st)) ->
     exists r, chk p s0 = (Val r, s0) /\ r = line p) ->
  exists s', one_read s s' /\ statuses (length (b_rbuf s')) (pending s') l rest /\
    (no_error (snd (fst st)) -> exists p, packet_is p (fst (fst st)) (STATUS :: snd (fst st) :: snd st) /\
       rd s = (Val (line p), s')) /\
    (~ no_error (snd (fst st)) -> rd s = (Val (Err (RMotorError (snd (fst st)))), s')).
Proof.
  intros X rd n chk s st line l rest [-> K] R Hn Hb H Hc. remember (st :: l) as stl. remember (pending s) as pd eqn:Ep.
  destruct H as [rest|g id e ps w line' l' rest G F Ff L H]; [discriminate|].
  injection Heqstl as <- <-. cbn [fst snd] in *.
  destruct (status_read_complete n s id e ps g w line' R Hn Hb G F Ff L (eq_sym Ep)) as [s' [P [K1 K2]]].
  exists s'.
  assert (O : one_read s s').
  { destruct (N.eq_dec (b2n e mod 128) 0) as [Z|Z].
    - destruct (K1 Z) as [p [_ E]]. exact (read_status_one _ _ _ _ R E).
    - exact (read_status_one _ _ _ _ R (K2 Z)). }
  split; [exact O|]. split; [rewrite (or_rcap _ _ O), P; exact H|]. split.
  - intro Z. destruct (K1 Z) as [p [Pk E]]. exists p. split; [exact Pk|].
    unfold try_, bind. rewrite E. destruct (Hc p s' Pk Z) as [r [-> ->]]. reflexivity.
  - intro Z. unfold try_, bind. rewrite (K2 Z). reflexivity.
Qed.

Lemma judge_error : forall id n e id' ps, ~ no_error e -> judge id n (id', e, ps) = Err (RMotorError e).
Proof. intros id n e id' ps Z. unfold judge. apply N.eqb_neq in Z. rewrite Z. reflexivity. Qed.

Lemma expect_response_outcome : forall id n s st l rest, reach s -> (n < 2 ^ 16)%N -> b_baud s <> 0%N ->
  statuses (length (b_rbuf s)) (pending s) (st :: l) rest ->
  exists s', one_read s s' /\ statuses (length (b_rbuf s')) (pending s') l rest /\
    expect_response id n s = (Val (judge id (N.to_nat n) st), s').
Proof.
  intros id n s [[id' e] ps] l rest R Hn Hb H.
  destruct (checked_outcome _ _ n _ s (id', e, ps) (fun _ => judge id (N.to_nat n) (id', e, ps)) l rest
             (expect_response_checked id n) R Hn Hb H) as [s' [O [S' [K1 K2]]]].
  - intros p s0 Pk Z. eexists. split; [apply check_response_val; eassumption|reflexivity].
  - exists s'. split; [exact O|]. split; [exact S'|]. cbn [fst snd] in *.
    destruct (N.eq_dec (b2n e mod 128) 0) as [Z|Z].
    + destruct (K1 Z) as [p [_ E]]. exact E.
    + rewrite (K2 Z), judge_error by exact Z. reflexivity.
Qed.

Lemma expect_value_outcome : forall A (D : data_impl A) decode id s st l rest, reach s ->
  (N.of_nat (d_size D) < 2 ^ 16)%N -> b_baud s <> 0%N ->
  (forall ps, length ps = d_size D -> d_decode D ps = Val (decode ps)) ->
  statuses (length (b_rbuf s)) (pending s) (st :: l) rest ->
  exists s', one_read s s' /\ statuses (length (b_rbuf s')) (pending s') l rest /\
    expect_value D id s = (Val (judge_value decode id (d_size D) st), s').
Proof.
  intros A D decode id s [[id' e] ps] l rest R Hn Hb Hd H.
  destruct (checked_outcome _ _ _ _ s (id', e, ps) (fun _ => judge_value decode id (d_size D) (id', e, ps)) l rest
             (expect_value_checked A D id) R Hn Hb H) as [s' [O [S' [K1 K2]]]].
  - intros p s0 Pk Z. eexists. split; [apply check_value_val; [eassumption..|apply Hd]|reflexivity].
  - exists s'. split; [exact O|]. split; [exact S'|]. cbn [fst snd] in *.
    destruct (N.eq_dec (b2n e mod 128) 0) as [Z|Z].
    + destruct (K1 Z) as [p [_ E]]. exact E.
    + rewrite (K2 Z). unfold judge_value. rewrite judge_error by exact Z. reflexivity.
Qed.

(** ** A generic iterator: one status read per request *)

Definition gnext {Q X} (rd : Q -> M X) (reqs : list Q) (i : nat) : M (option X * nat) :=
  match nth_error reqs i with
  | None => ret (None, i)
  | Some q => r <- rd q ;; ret (Some r, S i)
  end.

Fixpoint gdrop {Q Y} (rd : Q -> M Y) (reqs : list Q) : M unit :=
  match reqs with
  | [] => ret tt
  | q :: rest => rd q ;;; gdrop rd rest
  end.

Definition out_map {A B} (f : A -> B) (x : out A * bus) : out B * bus :=
  match x with
  | (Val a, s) => (Val (f a), s)
  | (Panic p, s) => (Panic p, s)
  | (Blocked, s) => (Blocked, s)
  end.

Lemma nexts_rep : forall I J X (next : I -> M (option X * I)) (nx : J -> M (option X * J)) (f : J -> I),
  (forall j s, next (f j) s = out_map (fun '(x, j') => (x, f j')) (nx j s)) ->
  forall k j s, nexts next k (f j) s = out_map (fun '(xs, j') => (xs, f j')) (nexts nx k j s).
Proof.
  intros I J X next nx f H k. induction k as [|k IH]; intros j s; [reflexivity|].
  cbn [nexts]. unfold bind. rewrite H. destruct (nx j s) as [[[x j']|?|] s1]; try reflexivity.
  cbn [out_map]. rewrite IH. destruct (nexts nx k j' s1) as [[[xs j'']|?|] s2]; reflexivity.
Qed.

Lemma srb_rep : forall n ids i s, srb_next (mkSRB n ids i) s =
  out_map (fun '(x, j) => (x, mkSRB n ids j)) (gnext (fun id => expect_response id n) ids i s).
Proof.
  intros n ids i s. unfold srb_next, srb_pop, gnext. cbn [srb_ids srb_index srb_count].
  destruct (nth_error ids i) as [id|]; [|reflexivity]. unfold bind.
  destruct (expect_response id n s) as [[r|?|] s1]; reflexivity.
Qed.

Lemma sr_rep : forall A (D : data_impl A) ids i s, sr_next D (mkSR ids i) s =
  out_map (fun '(x, j) => (x, mkSR ids j)) (gnext (expect_value D) ids i s).
Proof.
  intros A D ids i s. unfold sr_next, sr_pop, gnext. cbn [sr_ids sr_index].
  destruct (nth_error ids i) as [id|]; [|reflexivity]. unfold bind.
  destruct (expect_value D id s) as [[r|?|] s1]; reflexivity.
Qed.

Lemma br_rep : forall l i s, br_next (mkBR l i) s =
  out_map (fun '(x, j) => (x, mkBR l j)) (gnext (fun q => expect_response (br_id q) (br_count q)) l i s).
Proof.
  intros l i s. unfold br_next, br_pop, gnext. cbn [br_reads br_index].
  destruct (nth_error l i) as [q|]; [|reflexivity]. unfold bind.
  destruct (expect_response (br_id q) (br_count q) s) as [[r|?|] s1]; reflexivity.
Qed.

Lemma skipn_nth : forall A (l : list A) i x, nth_error l i = Some x -> skipn i l = x :: skipn (S i) l.
Proof.
  intros A l. induction l as [|y l IH]; intros [|i] x E; try discriminate.
  - injection E as ->. reflexivity.
  - cbn [nth_error] in E. change (skipn (S i) (y :: l)) with (skipn i l). rewrite (IH i x E). reflexivity.
Qed.

Lemma srb_drop_rep : forall n ids i s,
  srb_drop (mkSRB n ids i) s = gdrop (fun _ : byte => read_status_response n) (skipn i ids) s.
Proof.
  intros n ids i s. unfold srb_drop. cbn [srb_ids srb_index].
  remember (length ids - i) as m eqn:Em. revert i s Em. induction m as [|m IH]; intros i s Em.
  - rewrite skipn_all2 by lia. reflexivity.
  - destruct (nth_error ids i) as [x|] eqn:E; [|apply nth_error_None in E; lia].
    rewrite (skipn_nth _ _ _ _ E). cbn [srb_drop_loop gdrop]. unfold srb_pop. cbn [srb_ids srb_index srb_count].
    rewrite E. unfold bind. destruct (read_status_response n s) as [[r|?|] s1]; try reflexivity.
    apply IH. lia.
Qed.

Lemma sr_drop_rep : forall A (D : data_impl A) ids i s,
  sr_drop D (mkSR ids i) s = gdrop (expect_value D) (skipn i ids) s.
Proof.
  intros A D ids i s. unfold sr_drop. cbn [sr_ids sr_index].
  remember (length ids - i) as m eqn:Em. revert i s Em. induction m as [|m IH]; intros i s Em.
  - rewrite skipn_all2 by lia. reflexivity.
  - destruct (nth_error ids i) as [x|] eqn:E; [|apply nth_error_None in E; lia].
    rewrite (skipn_nth _ _ _ _ E). cbn [sr_drop_loop gdrop]. unfold bind. rewrite sr_rep. unfold gnext.
    rewrite E. unfold bind. destruct (expect_value D x s) as [[r|?|] s1]; try reflexivity.
    cbn [out_map ret]. apply IH. lia.
Qed.

Lemma br_drop_rep : forall l i s, i <= length l ->
  br_drop (mkBR l i) s = gdrop (fun q => read_status_response (br_count q)) (skipn i l) s.
Proof.
  intros l i s L. unfold br_drop. cbn [br_reads br_index]. replace (i <=? length l) with true by lia.
  generalize (skipn i l) as qs. intro qs. revert s. induction qs as [|q qs IH]; intro s; [reflexivity|].
  cbn [br_drop_loop gdrop]. unfold bind. destruct (read_status_response (br_count q) s) as [[r|?|] s1]; try reflexivity.
  apply IH.
Qed.

(** *** What the generic iterator does *)

Definition reads_once {X} (rd : M X) : Prop := forall s x s', reach s -> rd s = (Val x, s') -> one_read s s'.

Definition reads_n (n : nat) (s s' : bus) : Prop :=
  exists evs, calls s s' evs /\ status_reads evs = n /\ Forall only_reads evs.

Lemma reads_n_refl : forall s, reads_n 0 s s.
Proof. intro s. exists []. split; [apply eq_sym, app_nil_r|]. split; [reflexivity|constructor]. Qed.

Lemma status_reads_app : forall a b, status_reads (a ++ b) = status_reads a + status_reads b.
Proof. intros a b. unfold status_reads. rewrite filter_app, app_length. reflexivity. Qed.

Lemma one_read_n : forall s s' n t, one_read s s' -> reads_n n s' t -> reads_n (S n) s t.
Proof.
  intros s s' n t [_ _ _ [d [evs [C F]]]] [evs' [C' [N F']]].
  exists ((LDeadline d :: evs) ++ evs'). split; [eapply calls_trans; eassumption|].
  assert (N1 : status_reads (LDeadline d :: evs) = 1).
  { unfold status_reads. cbn [filter length]. f_equal. clear C. induction F as [|e evs H _ IH]; [reflexivity|].
    destruct e; cbn in H; try contradiction; exact IH. }
  split; [rewrite status_reads_app, N1, N; reflexivity|].
  apply Forall_app. split; [|exact F']. constructor; [exact I|]. exact (reads_only _ _ F).
Qed.

Lemma reads_n_trans : forall n m s t u, reads_n n s t -> reads_n m t u -> reads_n (n + m) s u.
Proof.
  intros n m s t u [e [C [N F]]] [e' [C' [N' F']]]. exists (e ++ e').
  split; [eapply calls_trans; eassumption|]. rewrite status_reads_app, N, N'. split; [reflexivity|].
  apply Forall_app. auto.
Qed.

Lemma gnexts_spec : forall Q X (rd : Q -> M X) reqs (P : Q -> X -> Prop),
  (forall q, reads_once (rd q)) -> (forall q s x s', reach s -> rd q s = (Val x, s') -> P q x) ->
  forall k i s xs j s', reach s -> nexts (gnext rd reqs) k i s = (Val (xs, j), s') ->
  reach s' /\ length xs = k /\ j = Nat.max i (Nat.min (i + k) (length reqs)) /\ reads_n (j - i) s s' /\
  (forall m, m < k -> match nth_error reqs (i + m) with
     | Some q => exists x, nth_error xs m = Some (Some x) /\ P q x
     | None => nth_error xs m = Some None
     end).
Proof.
  intros Q X rd reqs P H1 HP k. induction k as [|k IH]; intros i s xs j s' R E.
  - injection E as <- <- <-. split; [exact R|]. split; [reflexivity|]. split; [lia|].
    rewrite Nat.sub_diag. split; [apply reads_n_refl|]. intros m Hm. lia.
  - cbn [nexts] in E. unfold bind, gnext at 1 in E.
    destruct (nth_error reqs i) as [q|] eqn:Eq.
    + unfold bind in E. destruct (rd q s) as [[x|?|] s1] eqn:Rd; try discriminate. cbn [ret] in E.
      pose proof (H1 q _ _ _ R Rd) as O.
      destruct (nexts (gnext rd reqs) k (S i) s1) as [[[xs1 j1]|?|] s2] eqn:N; try discriminate.
      injection E as <- <- <-. destruct (IH _ _ _ _ _ (or_reach _ _ O) N) as [R2 [L [J [RN K]]]].
      assert (i < length reqs) by (apply nth_error_Some; congruence).
      split; [exact R2|]. split; [cbn; lia|]. split; [lia|]. split.
      * replace (j1 - i) with (S (j1 - S i)) by lia. eapply one_read_n; eassumption.
      * intros [|m] Hm.
        -- rewrite Nat.add_0_r, Eq. exists x. split; [reflexivity|]. exact (HP q _ _ _ R Rd).
        -- replace (i + S m) with (S i + m) by lia. apply K. lia.
    + cbn [ret] in E.
      destruct (nexts (gnext rd reqs) k i s) as [[[xs1 j1]|?|] s2] eqn:N; try discriminate.
      injection E as <- <- <-. destruct (IH _ _ _ _ _ R N) as [R2 [L [J [RN K]]]].
      apply nth_error_None in Eq.
      split; [exact R2|]. split; [cbn; lia|]. split; [lia|]. split; [exact RN|].
      intros [|m] Hm.
      * rewrite Nat.add_0_r, (proj2 (nth_error_None _ _)) by exact Eq. reflexivity.
      * specialize (K m ltac:(lia)). rewrite (proj2 (nth_error_None reqs (i + m))) in K by lia.
        rewrite (proj2 (nth_error_None reqs (i + S m))) by lia. exact K.
Qed.

Lemma gdrop_spec : forall Q Y (rd : Q -> M Y), (forall q, reads_once (rd q)) ->
  forall reqs s s', reach s -> gdrop rd reqs s = (Val tt, s') -> reach s' /\ reads_n (length reqs) s s'.
Proof.
  intros Q Y rd H. induction reqs as [|q reqs IH]; intros s s' R E.
  - injection E as <-. split; [exact R|apply reads_n_refl].
  - cbn [gdrop] in E. unfold bind in E. destruct (rd q s) as [[x|?|] s1] eqn:Rd; try discriminate.
    pose proof (H q _ _ _ R Rd) as O. destruct (IH _ _ (or_reach _ _ O) E) as [R2 N].
    split; [exact R2|]. eapply one_read_n; eassumption.
Qed.

Lemma gtake_spec : forall I Q X Y (next : I -> M (option X * I)) (drop : I -> M unit) (f : nat -> I)
    (rd : Q -> M X) (rd' : Q -> M Y) reqs k s xs s',
  (forall q, reads_once (rd q)) -> (forall q, reads_once (rd' q)) ->
  (forall i s, next (f i) s = out_map (fun '(x, j) => (x, f j)) (gnext rd reqs i s)) ->
  (forall i s, i <= length reqs -> drop (f i) s = gdrop rd' (skipn i reqs) s) -> reach s ->
  take_then_drop next drop k (f 0) s = (Val xs, s') -> reads_n (length reqs) s s'.
Proof.
  intros I Q X Y next drop f rd rd' reqs k s xs s' H1 H2 Hn Hd R E.
  unfold take_then_drop, bind in E. rewrite (nexts_rep _ _ _ next (gnext rd reqs) f Hn) in E.
  destruct (nexts (gnext rd reqs) k 0 s) as [[[ys j]|?|] s1] eqn:N; try discriminate. cbn [out_map] in E.
  destruct (gnexts_spec Q X rd reqs (fun _ _ => True) H1 (fun _ _ _ _ _ _ => Logic.I) k 0 s ys j s1 R N)
    as [R1 [_ [J [RN _]]]].
  rewrite Hd in E by lia. destruct (gdrop rd' (skipn j reqs) s1) as [[[]|?|] s2] eqn:D; try discriminate.
  injection E as _ <-. destruct (gdrop_spec Q Y rd' H2 _ _ _ R1 D) as [_ N2].
  rewrite skipn_length in N2. replace (length reqs) with (j - 0 + (length reqs - j)) by lia.
  eapply reads_n_trans; eassumption.
Qed.

(** *** On a line with one status packet per request *)

Definition outcome_is {Q X} (rd : Q -> M X) (f : Q -> byte * byte * list byte -> X) (good : bus -> Prop) : Prop :=
  forall q s st l rest, reach s -> good s -> statuses (length (b_rbuf s)) (pending s) (st :: l) rest ->
  exists s', one_read s s' /\ good s' /\ statuses (length (b_rbuf s')) (pending s') l rest /\
    rd q s = (Val (f q st), s').

Lemma gnexts_outcome : forall Q X (rd : Q -> M X) f good reqs, outcome_is rd f good ->
  forall k i s sts rest, reach s -> good s -> i + k <= length reqs -> k <= length sts ->
  statuses (length (b_rbuf s)) (pending s) sts rest ->
  exists s', reach s' /\ good s' /\ statuses (length (b_rbuf s')) (pending s') (skipn k sts) rest /\
    nexts (gnext rd reqs) k i s =
      (Val (map (fun '(q, st) => Some (f q st)) (firstn k (combine (skipn i reqs) sts)), i + k), s').
Proof.
  intros Q X rd f good reqs H k. induction k as [|k IH]; intros i s sts rest R G L1 L2 St.
  - exists s. rewrite Nat.add_0_r. auto.
  - destruct sts as [|st sts]; [cbn in L2; lia|].
    destruct (nth_error reqs i) as [q|] eqn:Eq; [|apply nth_error_None in Eq; lia].
    destruct (H q s st sts rest R G St) as [s1 [O [G1 [S1 E1]]]].
    destruct (IH (S i) s1 sts rest (or_reach _ _ O) G1 ltac:(lia) ltac:(cbn in L2; lia) S1)
      as [s2 [R2 [G2 [S2 E2]]]].
    exists s2. split; [exact R2|]. split; [exact G2|]. split; [exact S2|].
    cbn [nexts]. unfold bind, gnext at 1. rewrite Eq. unfold bind. rewrite E1. cbn [ret]. rewrite E2.
    rewrite (skipn_nth _ _ _ _ Eq). cbn [combine firstn map]. replace (i + S k) with (S i + k) by lia. reflexivity.
Qed.

Lemma gdrop_outcome : forall Q X (rd : Q -> M X) f good, outcome_is rd f good ->
  forall reqs s sts rest, reach s -> good s -> length reqs = length sts ->
  statuses (length (b_rbuf s)) (pending s) sts rest ->
  exists s', gdrop rd reqs s = (Val tt, s') /\ pending s' = rest.
Proof.
  intros Q X rd f good H. induction reqs as [|q reqs IH]; intros s [|st sts] rest R G L St; try discriminate.
  - exists s. split; [reflexivity|]. inversion St; congruence.
  - destruct (H q s st sts rest R G St) as [s1 [O [G1 [S1 E1]]]].
    destruct (IH s1 sts rest (or_reach _ _ O) G1 ltac:(cbn in L; lia) S1) as [s2 [E2 P]].
    exists s2. split; [|exact P]. cbn [gdrop]. unfold bind. rewrite E1. exact E2.
Qed.

Lemma gtake_outcome : forall I Q X Y (next : I -> M (option X * I)) (drop : I -> M unit) (f : nat -> I)
    (rd : Q -> M X) (rd' : Q -> M Y) g g' good reqs k s sts rest,
  outcome_is rd g good -> outcome_is rd' g' good ->
  (forall i s, next (f i) s = out_map (fun '(x, j) => (x, f j)) (gnext rd reqs i s)) ->
  (forall i s, i <= length reqs -> drop (f i) s = gdrop rd' (skipn i reqs) s) -> reach s -> good s ->
  k <= length reqs -> length sts = length reqs -> statuses (length (b_rbuf s)) (pending s) sts rest ->
  exists s', take_then_drop next drop k (f 0) s =
      (Val (map (fun '(q, st) => Some (g q st)) (firstn k (combine reqs sts))), s') /\ pending s' = rest.
Proof.
  intros I Q X Y next drop f rd rd' g g' good reqs k s sts rest H1 H2 Hn Hd R G L1 L2 St.
  destruct (gnexts_outcome Q X rd g good reqs H1 k 0 s sts rest R G ltac:(lia) ltac:(lia) St)
    as [s1 [R1 [G1 [S1 E1]]]].
  destruct (gdrop_outcome Q Y rd' g' good H2 (skipn k reqs) s1 (skipn k sts) rest R1 G1) as [s2 [E2 P]].
  - rewrite !skipn_length. lia.
  - exact S1.
  - exists s2. split; [|exact P]. unfold take_then_drop, bind.
    rewrite (nexts_rep _ _ _ next (gnext rd reqs) f Hn), E1. cbn [out_map skipn Nat.add].
    rewrite Hd by lia. rewrite E2. reflexivity.
Qed.
