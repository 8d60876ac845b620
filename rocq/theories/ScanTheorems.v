(** * ScanTheorems: scanning for motors *)
From Coq Require Import ZArith ZifyN ZifyNat ZifyBool.
From Verif Require Import Base Endian Error Checksum Bytestuff Packet Time Bus Data Client
  Instructions Device Api Spec CallSpec StreamSpec DeviceSpec InstructionSpec TimeSpec Demo Lib ChecksumProofs
  CrcErrorProofs StuffProofs WriteProofs ReadProofs ApiProofs StreamProofs MessageProofs SendProofs
  SendTheorems ReadTheorems StatusProofs DeviceTheorems InstructionProofs DemoProofs TransferTheorems
  TimeTheorems IterProofs.

Lemma scan_timeout_val : forall dbg baud, (baud <> 0)%N -> (baud < 2 ^ 32)%N -> exists t, scan_timeout dbg baud = Val t.
Proof. intros dbg baud H1 H2. destruct (scan_timeout_enough dbg baud H1 H2) as [t [E _]]. eauto. Qed.

(** One step of a scan, in terms of the message reader. *)
Definition scan_judge (o : out (result packet read_error)) : out (option (result (response ping_data) read_error)) :=
  match o with
  | Val (Ok p) =>
      match response_ping p with
      | Val (Ok r) => Val (Some (Ok r))
      | Val (Err e) => Val (Some (Err (RInvalidMessage e)))
      | Panic x => Panic x
      | Blocked => Blocked
      end
  | Val (Err (RIo e)) => if is_timeout_error e then Val None else Val (Some (Err (RIo e)))
  | Val (Err e) => Val (Some (Err e))
  | Panic x => Panic x
  | Blocked => Blocked
  end.

Lemma scan_next_eq : forall s t, scan_timeout (b_dbg s) (b_baud s) = Val t ->
  scan_next s = (scan_judge (fst (read_status_response_timeout t s)), snd (read_status_response_timeout t s)).
Proof.
  intros s t T. unfold scan_next, scan_next_response, bind at 1 2, get, lift. unfold bind at 1. rewrite T.
  unfold try_, bind at 1.
  destruct (read_status_response_timeout t s) as [[[p|e]|x|] s1]; cbn [fst snd scan_judge].
  - unfold bind, lift. destruct (response_ping p) as [[r|e]|?|]; reflexivity.
  - unfold ret. destruct e; try reflexivity. destruct (is_timeout_error e); reflexivity.
  - reflexivity.
  - reflexivity.
Qed.

(** Whatever a step of a scan returns, [None] means that the port reported a
    timeout before another packet was complete, and only garbage was dropped. *)
Lemma scan_next_spec : forall s o s', reach s -> scan_next s = (o, s') ->
  (exists x, scan_timeout (b_dbg s) (b_baud s) = x /\ (forall t, x <> Val t) /\ s' = s /\ (forall v, o <> Val v)) \/
  exists t o1, scan_timeout (b_dbg s) (b_baud s) = Val t /\
    ideal (length (b_rbuf s)) (pending s) = (o1, pending s') /\ o = scan_judge (status_of o1) /\
    timed t s s' /\ inv s'.
Proof.
  intros s o s' R E. destruct (scan_timeout (b_dbg s) (b_baud s)) as [t|x|] eqn:T.
  - right. rewrite (scan_next_eq s t T) in E.
    destruct (read_status_response_timeout t s) as [o2 s2] eqn:Rd. cbn [fst snd] in E. injection E as <- <-.
    destruct (read_status_timeout_spec _ _ _ _ (reach_inv _ R) Rd) as [o1 [I [K [Iv Ti]]]].
    exists t, o1. subst o2. auto.
  - left. exists (Panic x). unfold scan_next, scan_next_response, bind, get, lift in E. rewrite T in E.
    injection E as <- <-. repeat split; discriminate.
  - left. exists Blocked. unfold scan_next, scan_next_response, bind, get, lift in E. rewrite T in E.
    injection E as <- <-. repeat split; discriminate.
Qed.

Lemma response_ping_no_none : forall p, scan_judge (Val (Ok p)) <> Val None.
Proof. intro p. cbn [scan_judge]. destruct (response_ping p) as [[r|e]|?|]; discriminate. Qed.

Lemma status_of_io : forall o e, status_of o = Val (Err (RIo e)) -> o = Val (Err (RIo e)).
Proof.
  intros [[p|er]|x|] e H; cbn [status_of] in H; try assumption; try discriminate.
  unfold status_check in H. destruct (as_status p) as [[st|]|?|]; cbn [obind] in H; try discriminate.
  - destruct (st_error st) as [b|?|]; cbn [obind] in H; try discriminate.
    destruct (motor_error_check b); discriminate.
  - destruct (pk_instruction p); discriminate.
Qed.

Lemma L_C35_ends_at_timeout : forall s s', reach s -> scan_next s = (Val None, s') ->
  exists e u g c rest, is_timeout_error e = true /\ pending s = map inl u ++ inr e :: rest /\
    garbage_split u g c /\ pending s' = map inl c ++ rest.
Proof.
  intros s s' R E. destruct (scan_next_spec s _ s' R E) as [[x [_ [_ [_ K]]]]|[t [o1 [_ [I [K _]]]]]].
  { exfalso. exact (K _ eq_refl). }
  destruct (status_of o1) as [[p|er]|?|] eqn:So; try discriminate.
  - exfalso. apply (response_ping_no_none p). symmetry. exact K.
  - cbn [scan_judge] in K. destruct er; try discriminate.
    destruct (is_timeout_error e) eqn:Te; [|discriminate]. apply status_of_io in So. subst o1.
    destruct (ideal_io_inv _ _ _ _ I) as [_ [q [P P']]].
    exists e, (upto (pending s)), (firstn (find_header (upto (pending s))) (upto (pending s))),
      (clean (upto (pending s))), q.
    split; [exact Te|]. split; [exact P|]. split; [apply clean_split|exact P'].
Qed.

Lemma L_C35_timeout_is_never_an_item : forall s e s', scan_next s = (Val (Some (Err (RIo e))), s') ->
  is_timeout_error e = false.
Proof.
  intros s e s' E. destruct (scan_timeout (b_dbg s) (b_baud s)) as [t|x|] eqn:T.
  - rewrite (scan_next_eq s t T) in E. injection E as E _.
    destruct (fst (read_status_response_timeout t s)) as [[p|er]|x|]; cbn [scan_judge] in E; try discriminate.
    + destruct (response_ping p) as [[r|?]|?|]; discriminate.
    + destruct er; try discriminate. destruct (is_timeout_error e0) eqn:K; [discriminate|]. congruence.
  - unfold scan_next, scan_next_response, bind, get, lift in E. rewrite T in E. discriminate.
  - unfold scan_next, scan_next_response, bind, get, lift in E. rewrite T in E. discriminate.
Qed.

Lemma L_C35_item : forall s r s', reach s -> scan_next s = (Val (Some (Ok r)), s') ->
  exists id e m0 m1 f, carries (pending s) id [x55; e; m0; m1; f] (pending s') /\ no_error e /\
    r = mkResponse id (alert_bit e) (mkPing (b2n m0 + 256 * b2n m1) f).
Proof.
  intros s r s' R E. destruct (scan_next_spec s _ s' R E) as [[x [_ [_ [_ K]]]]|[t [o1 [_ [I [K _]]]]]].
  { exfalso. exact (K _ eq_refl). }
  destruct (status_of o1) as [[q|er]|?|] eqn:So; try discriminate.
  - destruct o1 as [[pk|er]|x|]; try discriminate. cbn [status_of] in So.
    destruct (ideal_ok_packet _ _ _ _ I) as [id [body [Hb [Ca P]]]].
    destruct (status_check_ok_inv _ _ _ _ P Hb So) as [-> [e [ps [-> Hz]]]].
    cbn [scan_judge] in K. rewrite (response_ping_val _ _ _ _ P) in K.
    destruct ps as [|a [|b [|c [|d ps]]]]; try discriminate. injection K as ->.
    exists id, e, a, b, c. split; [exact Ca|]. split; [apply land127, Hz|reflexivity].
  - cbn [scan_judge] in K. destruct er; try discriminate. destruct (is_timeout_error e); discriminate.
Qed.

(** ** Complete scans *)

Lemma scan_next_reach : forall s v s', reach s -> scan_next s = (Val v, s') -> reach s'.
Proof. intros s v s' R E. eapply reach_call; [exact R|apply api_scan_next|exact E]. Qed.

Lemma scan_next_caps : forall s v s', reach s -> scan_next s = (Val v, s') ->
  length (b_rbuf s') = length (b_rbuf s) /\ b_baud s' = b_baud s.
Proof.
  intros s v s' R E. destruct (scan_next_spec s _ s' R E) as [[x [_ [_ [_ K]]]]|[t [o1 [_ [_ [_ [T _]]]]]]].
  { exfalso. exact (K _ eq_refl). }
  destruct T as [[B1 B2 _ _ _ _ _ _ _]]. auto.
Qed.

Lemma scan_status_step : forall s id e ps g w rest, reach s -> b_baud s <> 0%N -> (b_baud s < 2 ^ 32)%N ->
  ~ contains g header -> is_frame id (x55 :: e :: ps) w -> ff_runs_ok (x55 :: e :: ps) ->
  length w <= length (b_rbuf s) -> pending s = map inl (g ++ w) ++ rest ->
  exists s', scan_next s = (Val (Some (judge_ping (id, e, ps))), s') /\ pending s' = rest.
Proof.
  intros s id e ps g w rest R Hb Hb2 G F Ff L P.
  destruct (scan_timeout_val (b_dbg s) (b_baud s) Hb Hb2) as [t T].
  destruct (L_C28_client_reports t s g id e ps w rest R G F Ff L P) as [s' [P' [K1 K2]]].
  exists s'. split; [|exact P']. rewrite (scan_next_eq s t T). unfold judge_ping.
  destruct (N.eq_dec (b2n e mod 128) 0) as [Z|Z].
  - destruct (K1 Z) as [p [Pk E]]. rewrite E. cbn [fst snd scan_judge]. rewrite (response_ping_val _ _ _ _ Pk), Z.
    cbn [N.eqb negb]. destruct ps as [|a [|b [|c [|d ps]]]]; reflexivity.
  - rewrite (K2 Z). cbn [fst snd scan_judge]. apply N.eqb_neq in Z. rewrite Z. reflexivity.
Qed.

Lemma scan_timeout_step : forall s g e rest, reach s -> b_baud s <> 0%N -> (b_baud s < 2 ^ 32)%N ->
  10 <= length (b_rbuf s) -> ~ contains g header -> is_timeout_error e = true ->
  pending s = map inl g ++ inr e :: rest ->
  exists s' g' c, scan_next s = (Val None, s') /\ garbage_split g g' c /\ pending s' = map inl c ++ rest.
Proof.
  intros s g e rest R Hb Hb2 L G Te P.
  destruct (scan_timeout_val (b_dbg s) (b_baud s) Hb Hb2) as [t T].
  destruct (read_status_response_timeout t s) as [o s'] eqn:Rd.
  destruct (read_status_timeout_spec _ _ _ _ (reach_inv _ R) Rd) as [o1 [I [K _]]].
  assert (Ig : ideal (length (b_rbuf s)) (pending s) = (Val (Err (RIo e)), map inl (clean g) ++ rest)).
  { rewrite P. unfold ideal. replace (length (b_rbuf s) <? 10) with false by lia.
    rewrite upto_app, from_err_app. cbn [upto from_err]. rewrite app_nil_r.
    replace (next_event (length (b_rbuf s)) g) with (@None (event * list byte)); [reflexivity|].
    symmetry. unfold next_event. cbv zeta. unfold parse1.
    destruct (7 <? length (clean g)) eqn:K7; [|reflexivity]. exfalso. apply G.
    destruct (long_clean g ltac:(lia)) as [id [n [x [r [Ec _]]]]].
    destruct (clean_split g) as [Eg _]. rewrite Eg, Ec. unfold msg_head. rewrite <- !app_assoc.
    exists (firstn (find_header g) g), ([id] ++ le16 n ++ x :: r). reflexivity. }
  rewrite I in Ig. injection Ig as -> P'.
  exists s', (firstn (find_header g) g), (clean g).
  rewrite (scan_next_eq s t T), Rd, K. cbn [fst snd status_of scan_judge]. rewrite Te.
  split; [reflexivity|]. split; [apply clean_split|exact P'].
Qed.

Lemma scan_run : forall sts s g e rest, reach s -> b_baud s <> 0%N -> (b_baud s < 2 ^ 32)%N ->
  10 <= length (b_rbuf s) -> ~ contains g header -> is_timeout_error e = true ->
  statuses (length (b_rbuf s)) (pending s) sts (map inl g ++ inr e :: rest) ->
  exists s' g' c, garbage_split g g' c /\ pending s' = map inl c ++ rest /\
    scan_nexts (length sts + 1) s = (Val (map (fun st => Some (judge_ping st)) sts ++ [None]), s') /\
    scan_drop (length sts + 1) s = (Val true, s').
Proof.
  induction sts as [|[[id er] ps] sts IH]; intros s g e rest R Hb Hb2 L G Te H.
  - inversion H as [rest0 E0 E1 E2|]. 
    destruct (scan_timeout_step s g e rest R Hb Hb2 L G Te E2) as [s' [g' [c [E [Sp P]]]]].
    exists s', g', c. split; [exact Sp|]. split; [exact P|]. cbn [length Nat.add scan_nexts scan_drop map app].
    unfold bind. rewrite E. split; reflexivity.
  - inversion H as [|g0 id0 er0 ps0 w line l0 rest0 G0 F0 Ff0 L0 St0 E0 E1 E2]. subst.
    destruct (scan_status_step s id er ps g0 w line R Hb Hb2 G0 F0 Ff0 L0 ltac:(symmetry; exact E0)) as [s1 [E P]].
    pose proof (scan_next_reach _ _ _ R E) as R1. destruct (scan_next_caps _ _ _ R E) as [C1 C2].
    destruct (IH s1 g e rest R1) as [s' [g' [c [Sp [P' [E3 E4]]]]]]; try rewrite C1; try rewrite C2; auto.
    { rewrite P. exact St0. }
    exists s', g', c. split; [exact Sp|]. split; [exact P'|].
    cbn [length Nat.add scan_nexts scan_drop map app]. unfold bind. rewrite E, E3, E4. split; reflexivity.
Qed.

(** The items of a scan are the status packets that arrive before the timeout, in order. *)
Lemma L_C35_complete_scan : forall sts s g e rest, reach s -> b_baud s <> 0%N -> (b_baud s < 2 ^ 32)%N ->
  10 <= length (b_rbuf s) -> ~ contains g header -> is_timeout_error e = true ->
  statuses (length (b_rbuf s)) (pending s) sts (map inl g ++ inr e :: rest) ->
  exists s' g' c, scan_nexts (length sts + 1) s = (Val (map (fun st => Some (judge_ping st)) sts ++ [None]), s') /\
    garbage_split g g' c /\ pending s' = map inl c ++ rest.
Proof.
  intros sts s g e rest R Hb Hb2 L G Te H.
  destruct (scan_run sts s g e rest R Hb Hb2 L G Te H) as [s' [g' [c [Sp [P [E _]]]]]]. eauto 6.
Qed.

Lemma L_C35_drop_reads_up_to_timeout : forall sts s g e rest, reach s -> b_baud s <> 0%N -> (b_baud s < 2 ^ 32)%N ->
  10 <= length (b_rbuf s) -> ~ contains g header -> is_timeout_error e = true ->
  statuses (length (b_rbuf s)) (pending s) sts (map inl g ++ inr e :: rest) ->
  exists s' g' c, scan_drop (length sts + 1) s = (Val true, s') /\
    garbage_split g g' c /\ pending s' = map inl c ++ rest.
Proof.
  intros sts s g e rest R Hb Hb2 L G Te H.
  destruct (scan_run sts s g e rest R Hb Hb2 L G Te H) as [s' [g' [c [Sp [P [_ E]]]]]]. eauto 6.
Qed.

(** ** Termination of drop *)

Lemma upto_from : forall p, length p = length (upto p) + length (from_err p).
Proof. induction p as [|[b|e] p IH]; cbn [upto from_err length]; lia. Qed.

(** Every reading step that gives an answer uses up something. *)
Lemma ideal_progress : forall cap p o p', 10 <= cap -> ideal cap p = (Val o, p') -> length p' < length p.
Proof.
  intros cap p o p' L E. unfold ideal in E. replace (cap <? 10) with false in E by lia.
  pose proof (upto_from p) as Lp.
  destruct (next_event cap (upto p)) as [[ev r]|] eqn:N.
  - injection E as _ <-. pose proof (next_event_shorter _ _ _ _ N). rewrite app_length, map_length. unfold item in *. lia.
  - destruct (from_err p) as [|[b|e] q] eqn:F; try discriminate. injection E as _ <-.
    rewrite app_length, map_length. pose proof (clean_length (upto p)). cbn [length] in Lp. unfold item in *. lia.
Qed.

Lemma scan_judge_val : forall o v, scan_judge (status_of o) = Val v -> exists r, o = Val r.
Proof. intros [r|x|] v H; [eauto|discriminate..]. Qed.

Lemma scan_drop_ends : forall n s, reach s -> 10 <= length (b_rbuf s) -> length (pending s) < n ->
  fst (scan_drop n s) <> Val false.
Proof.
  induction n as [|n IH]; intros s R L Ln; [lia|]. cbn [scan_drop]. unfold bind.
  destruct (scan_next s) as [[[x|]|?|] s1] eqn:E; try discriminate.
  apply IH.
  - exact (scan_next_reach _ _ _ R E).
  - rewrite (proj1 (scan_next_caps _ _ _ R E)). exact L.
  - destruct (scan_next_spec s _ s1 R E) as [[y [_ [_ [_ K]]]]|[t [o1 [_ [I [K _]]]]]].
    { exfalso. exact (K _ eq_refl). }
    symmetry in K. destruct (scan_judge_val _ _ K) as [r ->]. pose proof (ideal_progress _ _ _ _ L I). lia.
Qed.

Lemma L_C35_drop_ends_partial : forall s, reach s -> 10 <= length (b_rbuf s) ->
  exists n, forall m, n <= m -> fst (scan_drop m s) <> Val false.
Proof.
  intros s R L. exists (S (length (pending s))). intros m Hm. apply scan_drop_ends; [exact R|exact L|lia].
Qed.

(** With a read buffer of less than 10 bytes a step uses up nothing. *)
Lemma scan_small_step : forall s, reach s -> b_baud s <> 0%N -> (b_baud s < 2 ^ 32)%N -> length (b_rbuf s) < 10 ->
  exists s', scan_next s = (Val (Some (Err (RBufferFull (mkBTS 10 (length (b_rbuf s)))))), s').
Proof.
  intros s R Hb Hb2 L. destruct (scan_timeout_val (b_dbg s) (b_baud s) Hb Hb2) as [t T].
  destruct (read_status_response_timeout t s) as [o s'] eqn:Rd.
  destruct (read_status_timeout_spec _ _ _ _ (reach_inv _ R) Rd) as [o1 [I [K _]]].
  unfold ideal in I. replace (length (b_rbuf s) <? 10) with true in I by lia. injection I as <- _.
  exists s'. rewrite (scan_next_eq s t T), Rd, K. reflexivity.
Qed.

Lemma L_C35_small_buffer_never_ends : forall n s, reach s -> b_baud s <> 0%N -> (b_baud s < 2 ^ 32)%N ->
  length (b_rbuf s) < 10 -> fst (scan_drop n s) = Val false.
Proof.
  induction n as [|n IH]; intros s R Hb Hb2 L; [reflexivity|]. cbn [scan_drop]. unfold bind.
  destruct (scan_small_step s R Hb Hb2 L) as [s1 E]. rewrite E.
  destruct (scan_next_caps _ _ _ R E) as [C1 C2]. apply IH; rewrite ?C1, ?C2; auto.
  exact (scan_next_reach _ _ _ R E).
Qed.

Lemma L_C35_drop_ends_refuted :
  ~ (forall s, reach s -> exists n, forall m, n <= m -> fst (scan_drop m s) <> Val false).
Proof.
  intro H. pose proof (fresh_reach true [RdErr (IoTimeout 1)] 9 16 ltac:(lia)) as R.
  destruct (H _ R) as [n K]. apply (K n (le_n n)).
  apply L_C35_small_buffer_never_ends; [exact R|discriminate|reflexivity|vm_compute; lia].
Qed.

(** A port that keeps failing keeps the drop busy: [n] errors make it read [n + 1] times. *)
Lemma L_C35_errors_do_not_end_it : forall n s e rest, reach s -> b_baud s <> 0%N -> (b_baud s < 2 ^ 32)%N ->
  10 <= length (b_rbuf s) -> is_timeout_error e = false -> pending s = repeat (inr e) n ++ rest ->
  fst (scan_drop n s) = Val false.
Proof.
  induction n as [|n IH]; intros s e rest R Hb Hb2 L Te P; [reflexivity|].
  cbn [scan_drop]. unfold bind.
  destruct (scan_timeout_val (b_dbg s) (b_baud s) Hb Hb2) as [t T].
  destruct (read_status_response_timeout t s) as [o s1] eqn:Rd.
  destruct (read_status_timeout_spec _ _ _ _ (reach_inv _ R) Rd) as [o1 [I [K _]]].
  rewrite P in I. unfold ideal in I. replace (length (b_rbuf s) <? 10) with false in I by lia.
  cbn [repeat app upto from_err] in I. change (next_event (length (b_rbuf s)) []) with (@None (event * list byte)) in I.
  injection I as <- P'.
  assert (E : scan_next s = (Val (Some (Err (RIo e))), s1)).
  { rewrite (scan_next_eq s t T), Rd, K. cbn [fst snd status_of scan_judge]. rewrite Te. reflexivity. }
  rewrite E. destruct (scan_next_caps _ _ _ R E) as [C1 C2].
  apply (IH s1 e rest); rewrite ?C1, ?C2; auto. exact (scan_next_reach _ _ _ R E).
Qed.

(** ** The timeout of a scan (C40) *)

Lemma L_C40_scan_timeout : forall s o s', reach s -> b_baud s <> 0%N -> (b_baud s < 2 ^ 32)%N ->
  scan_next s = (o, s') ->
  exists t, waits_at_most s s' t /\ (34000000 <= nanoseconds t)%N /\
    enough_time (253 * 14) (b_baud s) (nanoseconds t - 34000000).
Proof.
  intros s o s' R Hb Hb2 E. destruct (scan_timeout_enough (b_dbg s) (b_baud s) Hb Hb2) as [t [T [V [L En]]]].
  destruct (scan_next_spec s _ s' R E) as [[y [Ey [K _]]]|[t' [o1 [T' [_ [_ [Ti _]]]]]]].
  { exfalso. apply (K t). congruence. }
  rewrite T in T'. injection T' as <-. destruct (timed_calls _ _ _ Ti) as [evs [C F]].
  exists t. split; [|split; assumption]. exists (deadline_of t s), evs. split; [reflexivity|]. split; assumption.
Qed.
