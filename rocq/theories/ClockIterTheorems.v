(** * ClockIterTheorems: how long it takes to ask many motors, C57 *)
From Coq Require Import ZArith ZifyN ZifyNat ZifyBool.
From Verif Require Import Base Endian Error Checksum Bytestuff Packet Time Bus Data Client
  Instructions Device Api Spec CallSpec StreamSpec InstructionSpec TimeSpec TwinSpec Serial2 ClockSpec Lib
  WriteProofs SendProofs StatusProofs ApiProofs SendTheorems InstructionProofs TwinProofs TimeTheorems BaudTheorems
  ClockProofs IterProofs IterTheorems ClockTheorems.
Local Open Scope N_scope.

(** [m], started with baud rate [b], costs at most [c]. *)
Definition costs {A} (pc : pace) (b c : N) (m : M A) : Prop := forall s o s', reach s -> b_baud s = b ->
  m s = (o, s') -> exists evs, calls s s' evs /\ orderly evs /\ cost pc evs <= c.

Lemma costs_silent : forall A B pc b c (m : M A) (k : A -> M B), costs pc b c m -> (forall a, silent (k a)) ->
  costs pc b c (bind m k).
Proof.
  intros A B pc b c m k Hm Hk s o s' R Hb E. unfold bind in E. destruct (m s) as [x s1] eqn:E1.
  destruct (Hm _ _ _ R Hb E1) as [evs [C K]]. exists evs. split; [|exact K].
  assert (P : b_port s' = b_port s1).
  { destruct x as [a|p|]; [apply (Hk _ _ _ _ E)|injection E as <- <-; reflexivity..]. }
  unfold calls in *. rewrite P. exact C.
Qed.

Definition price (pc : pace) (x : N) : N := x + 34000000 + pc_slack pc + 2 * pc_compute pc.

Lemma costs_rsr : forall pc b n x, n < 2 ^ 16 -> b <> 0 -> b < 2 ^ 32 -> shortest_time (11 + n) b x ->
  costs pc b (price pc x) (read_status_response n).
Proof.
  intros pc b n x Hn H0 H1 Sh s o s' R Hb E. subst b.
  destruct (L_C40_exact s n o s' R Hn H0 H1 E) as [tm [x' [[d [evs' [D [C' F]]]] [_ [Nx Sh']]]]].
  assert (x' = x) as ->.
  { destruct Sh as [S1 S2], Sh' as [S3 S4]. apply N.le_antisymm; auto. }
  destruct (orders_rsr n s o s' (reach_inv _ R) E) as [_ [evs [C O]]].
  exists evs. split; [exact C|]. split; [exact O|]. rewrite (calls_inj _ _ _ _ C C'). cbn [cost].
  rewrite (proj1 (reads_with_cost pc d evs' F)). subst tm. rewrite Nx. unfold price. lia.
Qed.

Lemma costs_expect_response : forall pc b id n x, n < 2 ^ 16 -> b <> 0 -> b < 2 ^ 32 -> shortest_time (11 + n) b x ->
  costs pc b (price pc x) (expect_response id n).
Proof.
  intros pc b id n x Hn H0 H1 Sh. unfold expect_response, try_ at 1.
  apply costs_silent; [apply costs_rsr; assumption|]. intros [p|e]; [|apply silent_ret].
  apply silent_bind; [apply silent_lift|]. intro rid. unfold tryr at 1. destruct (packet_id_check rid id); [|apply silent_ret].
  apply silent_bind; [apply silent_lift|]. intro ps. unfold tryr. destruct (param_count_check _ _); [apply silent_lift|apply silent_ret].
Qed.

Lemma costs_expect_value : forall A (D : data_impl A) pc b id x, N.of_nat (d_size D) < 2 ^ 16 -> b <> 0 -> b < 2 ^ 32 ->
  shortest_time (11 + N.of_nat (d_size D)) b x -> costs pc b (price pc x) (expect_value D id).
Proof.
  intros A D pc b id x Hn H0 H1 Sh. unfold expect_value, try_ at 1.
  apply costs_silent; [apply costs_rsr; assumption|]. intros [p|e]; [|apply silent_ret].
  apply silent_bind; [apply silent_lift|]. intro rid. unfold tryr at 1. destruct (packet_id_check rid id); [|apply silent_ret].
  apply silent_bind; [apply silent_lift|]. intro ps. unfold tryr. destruct (param_count_check _ _); [apply silent_lift|apply silent_ret].
Qed.

Section Iterators.
  Context {Q X Y : Type} (pc : pace) (b : N) (f : Q -> N) (rd : Q -> M X) (rd' : Q -> M Y).
  Definition sum (l : list Q) : N := total (map f l).

  Lemma gdrop_costs : forall reqs, Forall (fun q => costs pc b (f q) (rd' q)) reqs -> (forall q, reads_once (rd' q)) ->
    costs pc b (sum reqs) (gdrop rd' reqs).
  Proof.
    intros reqs F O. induction F as [|q reqs Hq F IH]; intros s o s' R Hb E; cbn [gdrop] in E.
    - injection E as <- <-. exists []. split; [apply calls_refl|]. split; [constructor|]. cbn. lia.
    - unfold bind in E. destruct (rd' q s) as [y s1] eqn:E1. destruct (Hq _ _ _ R Hb E1) as [e1 [C1 [O1 P1]]].
      change (sum (q :: reqs)) with (f q + sum reqs).
      destruct y as [y|p|]; [|injection E as <- <-; exists e1; split; [exact C1|]; split; [exact O1|]; lia..].
      pose proof (O q _ _ _ R E1) as One.
      destruct (IH s1 o s' (or_reach _ _ One) ltac:(rewrite (or_baud _ _ One); exact Hb) E) as [e2 [C2 [O2 P2]]].
      exists (e1 ++ e2). split; [apply (calls_trans _ _ _ _ _ C1 C2)|]. split; [apply orderly_app; assumption|].
      rewrite cost_app. lia.
  Qed.

  Lemma gnexts_costs : forall reqs, Forall (fun q => costs pc b (f q) (rd q)) reqs -> (forall q, reads_once (rd q)) ->
    forall k i s o s', reach s -> b_baud s = b -> nexts (gnext rd reqs) k i s = (o, s') ->
    exists evs, calls s s' evs /\ orderly evs /\
      match o with
      | Val (_, j) => reach s' /\ b_baud s' = b /\ (i <= j)%nat /\ (i <= length reqs -> j <= length reqs)%nat /\
                      cost pc evs + sum (skipn j reqs) <= sum (skipn i reqs)
      | _ => cost pc evs <= sum (skipn i reqs)
      end.
  Proof.
    intros reqs F O. induction k as [|k IH]; intros i s o s' R Hb E; cbn [nexts] in E.
    - injection E as <- <-. exists []. split; [apply calls_refl|]. split; [constructor|].
      split; [exact R|]. split; [exact Hb|]. cbn [cost]. lia.
    - unfold bind, gnext at 1 in E. destruct (nth_error reqs i) as [q|] eqn:Eq.
      + assert (Li : (i < length reqs)%nat) by (apply nth_error_Some; congruence).
        assert (Sq : sum (skipn i reqs) = f q + sum (skipn (S i) reqs)) by (rewrite (skipn_nth _ _ _ _ Eq); reflexivity).
        unfold bind in E. destruct (rd q s) as [x s1] eqn:E1.
        destruct (proj1 (Forall_forall _ _) F q (nth_error_In _ _ Eq) _ _ _ R Hb E1) as [e1 [C1 [O1 P1]]].
        destruct x as [x|p|]; [|injection E as <- <-; exists e1; split; [exact C1|]; split; [exact O1|]; lia..].
        cbn [ret] in E. pose proof (O q _ _ _ R E1) as One.
        destruct (nexts (gnext rd reqs) k (S i) s1) as [y s2] eqn:E2.
        destruct (IH (S i) s1 y s2 (or_reach _ _ One) ltac:(rewrite (or_baud _ _ One); exact Hb) E2) as [e2 [C2 [O2 P2]]].
        exists (e1 ++ e2). destruct y as [[xs j]|p|]; injection E as <- <-;
          (split; [apply (calls_trans _ _ _ _ _ C1 C2)|]; split; [apply orderly_app; assumption|]; rewrite cost_app).
        * destruct P2 as [R2 [B2 [J1 [J2 P2]]]]. split; [exact R2|]. split; [exact B2|]. lia.
        * lia.
        * lia.
      + cbn [ret] in E. destruct (nexts (gnext rd reqs) k i s) as [y s2] eqn:E2.
        destruct (IH i s y s2 R Hb E2) as [e2 [C2 [O2 P2]]]. exists e2.
        destruct y as [[xs j]|p|]; injection E as <- <-; (split; [exact C2|]; split; [exact O2|exact P2]).
  Qed.

  Lemma gtake_costs : forall I (next : I -> M (option X * I)) (drop : I -> M unit) (g : nat -> I) reqs k,
    Forall (fun q => costs pc b (f q) (rd q)) reqs -> Forall (fun q => costs pc b (f q) (rd' q)) reqs ->
    (forall q, reads_once (rd q)) -> (forall q, reads_once (rd' q)) ->
    (forall i s, next (g i) s = out_map (fun '(x, j) => (x, g j)) (gnext rd reqs i s)) ->
    (forall i s, (i <= length reqs)%nat -> drop (g i) s = gdrop rd' (skipn i reqs) s) ->
    costs pc b (sum reqs) (take_then_drop next drop k (g O)).
  Proof.
    intros I next drop g reqs k F F' One One' Hn Hd s o s' R Hb E.
    unfold take_then_drop, bind in E. rewrite (nexts_rep _ _ _ next (gnext rd reqs) g Hn) in E.
    destruct (nexts (gnext rd reqs) k 0%nat s) as [y s1] eqn:N.
    destruct (gnexts_costs reqs F One k 0%nat s y s1 R Hb N) as [e1 [C1 [O1 P1]]]. cbn [skipn] in P1.
    destruct y as [[xs j]|p|]; cbn [out_map] in E;
      [|injection E as <- <-; exists e1; split; [exact C1|]; split; [exact O1|exact P1]..].
    destruct P1 as [R1 [B1 [_ [J P1]]]]. rewrite Hd in E by lia.
    destruct (gdrop rd' (skipn j reqs) s1) as [z s2] eqn:D.
    assert (Fj : Forall (fun q => costs pc b (f q) (rd' q)) (skipn j reqs)).
    { rewrite <- (firstn_skipn j reqs) in F'. apply Forall_app in F'. apply F'. }
    destruct (gdrop_costs (skipn j reqs) Fj One' s1 z s2 R1 B1 D) as [e2 [C2 [O2 P2]]].
    assert (s2 = s') as <- by (destruct z; injection E as _ <-; reflexivity).
    exists (e1 ++ e2). split; [apply (calls_trans _ _ _ _ _ C1 C2)|]. split; [apply orderly_app; assumption|].
    rewrite cost_app. lia.
  Qed.
End Iterators.

(** The request itself, then the answers. *)
Lemma session_costs : forall I X pc c (start : M (result I write_error)) id i n enc (it : I) (take : I -> M X) s o s' b,
  reach s -> b_baud s = b -> api start ->
  start = try_ (fun e => e) (write_instruction id i n enc) (fun _ => ret (Ok it)) ->
  encoder_ok enc -> costs pc b c (take it) ->
  try_ (fun e => e) start (fun it => xs <- take it ;; ret (Ok xs)) s = (o, s') ->
  exists evs, calls s s' evs /\ orderly evs /\ cost pc evs <= c + 2 * (pc_compute pc + pc_call pc).
Proof.
  intros I X pc c start id i n enc it take s o s' b R Hb Ap Es He Ct E.
  unfold try_ at 1, bind at 1 in E. destruct (start s) as [x s1] eqn:E1.
  assert (W : exists y, write_instruction id i n enc s = (y, s1) /\
                        match x with Val (Ok v) => v = it | _ => True end).
  { rewrite Es in E1. unfold try_, bind in E1. destruct (write_instruction id i n enc s) as [y s2].
    exists y. destruct y as [[u|e]|p|]; injection E1 as <- <-; auto. }
  destruct W as [y [W V]].
  destruct (write_log _ _ _ _ He _ _ _ W (reach_inv _ R)) as [ws [C [L [F B]]]].
  destruct (orders_wi id i n enc He s y s1 (reach_inv _ R) W) as [_ [ws' [C' O]]].
  rewrite <- (calls_inj _ _ _ _ C C') in O.
  assert (P : cost pc ws <= 2 * (pc_compute pc + pc_call pc)) by (rewrite (sends_cost pc ws F); nia).
  destruct x as [[v|e]|p|]; [|injection E as <- <-; exists ws; split; [exact C|]; split; [exact O|]; lia..].
  subst v. assert (R1 : reach s1) by (eapply reach_call; [exact R|exact Ap|exact E1]).
  unfold bind in E. destruct (take it s1) as [z s2] eqn:E2.
  destruct (Ct s1 z s2 R1 ltac:(congruence) E2) as [e2 [C2 [O2 P2]]].
  assert (s2 = s') as <- by (destruct z; injection E as _ <-; reflexivity).
  exists (ws ++ e2). split; [apply (calls_trans _ _ _ _ _ C C2)|]. split; [apply orderly_app; assumption|].
  rewrite cost_app. lia.
Qed.

Lemma api_timed : forall pc os due s s' evs evs' t t' c, punctual pc os -> calls s s' evs -> calls s s' evs' -> orderly evs' ->
  cost pc evs' <= c -> clocked pc os due t evs t' -> t' <= t + c.
Proof.
  intros pc os due s s' evs evs' t t' c P C C' O L K. rewrite (calls_inj _ _ _ _ C C') in *.
  pose proof (proj1 (orderly_time pc os due P evs' O t t' K)). lia.
Qed.

Lemma time_exists : forall s n, n < 2 ^ 16 -> b_baud s <> 0 -> b_baud s < 2 ^ 32 -> exists x, shortest_time (11 + n) (b_baud s) x.
Proof.
  intros s n Hn H0 H1. destruct (response_timeout_exact (b_dbg s) (b_baud s) n Hn H0 H1) as [tm [x [_ [_ [_ [En M]]]]]].
  exists x. split; assumption.
Qed.

Lemma sum_const : forall Q (l : list Q) c, sum (fun _ => c) l = N.of_nat (length l) * c.
Proof. intros Q l c. unfold sum. induction l as [|q l IH]; cbn [map total fold_right length] in *; [lia|]. fold (total (map (fun _ : Q => c) l)) in *. lia. Qed.

Lemma L_C57_sync_read_bytes : forall pc os due ids a n k s o s' evs t t',
  punctual pc os -> reach s -> n < 2 ^ 16 -> b_baud s <> 0 -> b_baud s < 2 ^ 32 ->
  ask_sync_bytes ids a n k s = (o, s') -> calls s s' evs -> clocked pc os due t evs t' ->
  exists x, shortest_time (11 + n) (b_baud s) x /\
    t' <= t + N.of_nat (length ids) * (x + 34000000 + pc_slack pc + 2 * pc_compute pc) + 2 * (pc_compute pc + pc_call pc).
Proof.
  intros pc os due ids a n k s o s' evs t t' P R Hn H0 H1 E C K.
  destruct (time_exists s n Hn H0 H1) as [x Sh]. exists x. split; [exact Sh|].
  assert (Ct : costs pc (b_baud s) (sum (fun _ : byte => price pc x) ids) (take_then_drop srb_next srb_drop k (mkSRB n ids 0))).
  { apply (gtake_costs pc (b_baud s) (fun _ : byte => price pc x) (fun id => expect_response id n) (fun _ => read_status_response n)
      sync_read_bytes_it srb_next srb_drop (fun i => mkSRB n ids i) ids k).
    - apply Forall_forall. intros q _. apply costs_expect_response; assumption.
    - apply Forall_forall. intros q _. apply costs_rsr; assumption.
    - intro id. apply expect_response_once.
    - intros _. apply read_status_once.
    - apply srb_rep.
    - intros i u _. apply srb_drop_rep. }
  destruct (session_costs _ _ pc _ (sync_read_bytes ids a n) BROADCAST SYNC_READ (4 + length ids)%nat _ (mkSRB n ids 0) _ s o s' _
    R eq_refl (api_sync_read_bytes ids a n) eq_refl ltac:(auto with enc) Ct E) as [evs' [C' [O L]]].
  rewrite sum_const in L. unfold price in L.
  pose proof (api_timed pc os due s s' evs evs' t t' _ P C C' O L K). lia.
Qed.

Lemma L_C57_sync_read : forall pc os due A (D : data_impl A) ids a k s o s' evs t t',
  punctual pc os -> reach s -> N.of_nat (d_size D) < 2 ^ 16 -> b_baud s <> 0 -> b_baud s < 2 ^ 32 ->
  ask_sync D ids a k s = (o, s') -> calls s s' evs -> clocked pc os due t evs t' ->
  exists x, shortest_time (11 + N.of_nat (d_size D)) (b_baud s) x /\
    t' <= t + N.of_nat (length ids) * (x + 34000000 + pc_slack pc + 2 * pc_compute pc) + 2 * (pc_compute pc + pc_call pc).
Proof.
  intros pc os due A D ids a k s o s' evs t t' P R Hn H0 H1 E C K.
  destruct (time_exists s _ Hn H0 H1) as [x Sh]. exists x. split; [exact Sh|].
  assert (Ct : costs pc (b_baud s) (sum (fun _ : byte => price pc x) ids) (take_then_drop (sr_next D) (sr_drop D) k (mkSR ids 0))).
  { apply (gtake_costs pc (b_baud s) (fun _ : byte => price pc x) (expect_value D) (expect_value D)
      sync_read_it (sr_next D) (sr_drop D) (fun i => mkSR ids i) ids k).
    - apply Forall_forall. intros q _. apply costs_expect_value; assumption.
    - apply Forall_forall. intros q _. apply costs_expect_value; assumption.
    - apply expect_value_once.
    - apply expect_value_once.
    - apply sr_rep.
    - intros i u _. apply sr_drop_rep. }
  destruct (session_costs _ _ pc _ (sync_read D ids a) BROADCAST SYNC_READ (4 + length ids)%nat _ (mkSR ids 0) _ s o s' _
    R eq_refl (api_sync_read A D ids a) eq_refl ltac:(auto with enc) Ct E) as [evs' [C' [O L]]].
  rewrite sum_const in L. unfold price in L.
  pose proof (api_timed pc os due s s' evs evs' t t' _ P C C' O L K). lia.
Qed.

Lemma times_exist : forall s l, Forall (fun q => br_count q < 2 ^ 16) l -> b_baud s <> 0 -> b_baud s < 2 ^ 32 ->
  exists f, Forall (fun q => shortest_time (11 + br_count q) (b_baud s) (f q)) l.
Proof.
  intros s l F H0 H1.
  exists (fun q => match response_timeout (b_dbg s) (b_baud s) (br_count q) with Val t => nanoseconds t - 34000000 | _ => 0 end).
  induction F as [|q l Hq F IH]; constructor; [|exact IH].
  destruct (response_timeout_exact (b_dbg s) (b_baud s) (br_count q) Hq H0 H1) as [tm [x [Et [_ [Nx [En M]]]]]].
  rewrite Et, Nx. replace (x + 34000000 - 34000000) with x by lia. split; assumption.
Qed.

Lemma sum_price : forall Q pc (f : Q -> N) l, sum (fun q => price pc (f q)) l =
  total (map f l) + N.of_nat (length l) * (34000000 + pc_slack pc + 2 * pc_compute pc).
Proof.
  intros Q pc f l. unfold sum. induction l as [|q l IH]; [reflexivity|].
  cbn [map length]. change (total (?a :: ?b)) with (a + total b). rewrite IH. unfold price. lia.
Qed.

Lemma L_C57_bulk_read : forall pc os due l k s o s' evs t t',
  punctual pc os -> reach s -> Forall (fun q => br_count q < 2 ^ 16) l -> b_baud s <> 0 -> b_baud s < 2 ^ 32 ->
  ask_bulk l k s = (o, s') -> calls s s' evs -> clocked pc os due t evs t' ->
  exists xs, Forall2 (fun q x => shortest_time (11 + br_count q) (b_baud s) x) l xs /\
    t' <= t + total xs + N.of_nat (length l) * (34000000 + pc_slack pc + 2 * pc_compute pc) + 2 * (pc_compute pc + pc_call pc).
Proof.
  intros pc os due l k s o s' evs t t' P R Hl H0 H1 E C K.
  destruct (times_exist s l Hl H0 H1) as [f Sh]. exists (map f l).
  split. { clear - Sh. induction Sh; constructor; assumption. }
  assert (F2 : Forall (fun q => br_count q < 2 ^ 16 /\ shortest_time (11 + br_count q) (b_baud s) (f q)) l).
  { apply Forall_forall. intros q Hq. split; [exact (proj1 (Forall_forall _ _) Hl q Hq)|exact (proj1 (Forall_forall _ _) Sh q Hq)]. }
  assert (Ct : costs pc (b_baud s) (sum (fun q => price pc (f q)) l) (take_then_drop br_next br_drop k (mkBR l 0))).
  { apply (gtake_costs pc (b_baud s) (fun q => price pc (f q)) (fun q => expect_response (br_id q) (br_count q))
      (fun q => read_status_response (br_count q)) bulk_read_it br_next br_drop (fun i => mkBR l i) l k).
    - eapply Forall_impl; [|exact F2]. intros q [A B]. apply costs_expect_response; assumption.
    - eapply Forall_impl; [|exact F2]. intros q [A B]. apply costs_rsr; assumption.
    - intro q. apply expect_response_once.
    - intro q. apply read_status_once.
    - apply br_rep.
    - apply br_drop_rep. }
  destruct (bulk_read_dup l) eqn:Dup.
  { unfold ask_bulk, bulk_read_bytes, write_bulk_read_instruction in E. rewrite Dup in E. injection E as <- <-.
    unfold calls in C. assert (evs = []) as -> by (rewrite <- (app_nil_r (p_log (b_port s))) in C at 1; exact (eq_sym (app_inv_head _ _ _ C))).
    inversion K; subst. lia. }
  assert (Eq : bulk_read_bytes l = try_ (fun e => e) (write_instruction BROADCAST BULK_READ (5 * length l)
      (enc_ok (bulk_read_loop 0 l))) (fun _ => ret (Ok (mkBR l 0)))).
  { unfold bulk_read_bytes, write_bulk_read_instruction. rewrite Dup. reflexivity. }
  destruct (session_costs _ _ pc _ (bulk_read_bytes l) BROADCAST BULK_READ (5 * length l)%nat _ (mkBR l 0) _ s o s' _
    R eq_refl (api_bulk_read_bytes l) Eq ltac:(auto with enc) Ct E) as [evs' [C' [O L]]].
  rewrite sum_price in L.
  pose proof (api_timed pc os due s s' evs evs' t t' _ P C C' O L K). lia.
Qed.
