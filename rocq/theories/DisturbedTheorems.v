(** * DisturbedTheorems: truthfulness on an arbitrarily disturbed line (C86) *)
From Coq Require Import ZArith ZifyN ZifyNat ZifyBool Permutation.
From Verif Require Import Base Endian Error Checksum Bytestuff Packet Time Bus Data Client
  Instructions Device MockDevice Api Spec CallSpec StreamSpec DeviceSpec InstructionSpec Demo Lib ChecksumProofs
  CrcErrorProofs StuffProofs WriteProofs ReadProofs ApiProofs StreamProofs MessageProofs SendProofs
  SendTheorems ReadTheorems StatusProofs DeviceTheorems InstructionProofs DemoProofs TransferTheorems
  UnderstoodTheorems IterProofs IterTheorems ScanTheorems RemoteSpec RemoteProofs RemoteTheorems TurnSpec TurnTheorems ConformSpec
  ConformTheorems SurviveSpec SurviveTheorems NoiseSpec NoiseTheorems DisturbedSpec.

Lemma framed_inj : forall w id id' body body', framed id body w -> framed id' body' w -> id = id' /\ body = body'.
Proof.
  intros w id id' body body' [crc [E _]] [crc' [E' _]]. rewrite E in E'.
  change (wire_of_body id body crc = wire_of_body id' body' crc') in E'. unfold wire_of_body in E'. clear E.
  apply app_inv_head in E'. destruct (app_length_inj _ [id] [id'] _ _ eq_refl E') as [Ei E1].
  apply app_length_inj in E1; [|reflexivity]. destruct E1 as [_ E2]. split; [congruence|].
  apply (f_equal (@rev byte)) in E2. rewrite !rev_app_distr in E2. apply app_length_inj in E2; [|reflexivity].
  destruct E2 as [_ E2]. apply (f_equal (@rev byte)) in E2. rewrite !rev_involutive in E2. exact E2.
Qed.

Lemma statuses_only_suffix : forall l u x, statuses_only l (x ++ u) -> statuses_only l u.
Proof. intros l u x H id body w F C. apply (H id body w F), contains_drop, C. Qed.

(** ** One packet *)

Definition foreign (e : read_error) : Prop := forall m, e <> RMotorError m.

Lemma errors_in_app : forall a b, errors_in (a ++ b) = errors_in a + errors_in b.
Proof. intros a b. unfold errors_in. rewrite filter_app, app_length. reflexivity. Qed.

Lemma errors_in_inl : forall a, errors_in (map inl a) = 0.
Proof. induction a as [|x a IH]; [reflexivity|exact IH]. Qed.

Lemma ideal_errors : forall cap p o p', 10 <= cap -> ideal cap p = (o, p') ->
  errors_in p <= errors_in p' + 1 /\ (o = Blocked -> errors_in p = 0).
Proof.
  intros cap p o p' L E. unfold ideal in E. replace (cap <? 10) with false in E by lia.
  assert (B : errors_in p = errors_in (from_err p)) by (rewrite (upto_split p) at 1; rewrite errors_in_app, errors_in_inl; reflexivity).
  destruct (next_event cap (upto p)) as [[ev r]|] eqn:N.
  - injection E as <- <-. rewrite errors_in_app, errors_in_inl. split; [lia|]. destruct ev; discriminate.
  - destruct (from_err_nf p) as [Ef|[e [q Ef]]]; rewrite Ef in *; injection E as <- <-.
    + split; [cbn in B; lia|]. intros _. exact B.
    + split; [|discriminate]. rewrite errors_in_app, errors_in_inl, B. unfold errors_in. cbn [filter length]. lia.
Qed.

Lemma timeouts_in_app : forall a b, timeouts_in (a ++ b) = timeouts_in a + timeouts_in b.
Proof. intros a b. unfold timeouts_in. rewrite filter_app, app_length. reflexivity. Qed.

Lemma timeouts_in_inl : forall a, timeouts_in (map inl a) = 0.
Proof. induction a as [|x a IH]; [reflexivity|exact IH]. Qed.

(** A timeout is used up only by the read that returns it. *)
Definition timed_out (o : out (result packet read_error)) : bool :=
  match o with Val (Err (RIo e)) => is_timeout_error e | _ => false end.

Lemma ideal_timeouts : forall cap p o p', 10 <= cap -> ideal cap p = (o, p') ->
  timeouts_in p <= timeouts_in p' + (if timed_out o then 1 else 0) /\ (o = Blocked -> timeouts_in p = 0).
Proof.
  intros cap p o p' L E. unfold ideal in E. replace (cap <? 10) with false in E by lia.
  assert (B : timeouts_in p = timeouts_in (from_err p)) by (rewrite (upto_split p) at 1; rewrite timeouts_in_app, timeouts_in_inl; reflexivity).
  destruct (next_event cap (upto p)) as [[ev r]|] eqn:N.
  - injection E as <- <-. rewrite timeouts_in_app, timeouts_in_inl. split; [lia|]. destruct ev; discriminate.
  - destruct (from_err_nf p) as [Ef|[e [q Ef]]]; rewrite Ef in *; injection E as <- <-.
    + split; [cbn in B; lia|]. intros _. exact B.
    + split; [|discriminate]. rewrite timeouts_in_app, timeouts_in_inl, B. unfold timeouts_in. cbn [filter timed_out].
      destruct (is_timeout_error e); cbn [length]; lia.
Qed.

Lemma ideal_told : forall cap p l o1 p', 10 <= cap -> Forall legible l -> statuses_only l (bytes_in p) ->
  ideal cap p = (o1, p') ->
  match status_of o1 with
  | Val r => (exists st, In st l /\ heard st r) \/ (exists e, r = Err e /\ foreign e)
  | Panic _ => False
  | Blocked => o1 = Blocked
  end.
Proof.
  intros cap p l o1 p' L Lg Z I. destruct o1 as [[pk|e]|k|]; cbn [status_of].
  - destruct (ideal_ok_inv _ _ _ _ I) as [_ [g [id [body [w [_ [F [_ [Hb [P Pk]]]]]]]]]].
    assert (Cw : contains (bytes_in p) w).
    { rewrite P, bytes_in_app, bytes_in_inl. exists g, (bytes_in p'). rewrite <- app_assoc. reflexivity. }
    pose proof (packet_head id (N.of_nat (length body + 2)) (unst 0 body)) as Hp. rewrite <- Pk in Hp.
    destruct (Z id body w F Cw) as [[i [t [-> Hi]]]|[e [ps [Hs Fs]]]].
    + rewrite unst_first in Hp. rewrite (status_check_other _ _ _ _ Hp Hi). right. eexists. split; [reflexivity|]. intro; discriminate.
    + destruct (framed_inj _ _ _ _ _ F (frame_framed _ _ _ Fs)) as [_ Eb].
      assert (Hr : ff_runs_ok (x55 :: e :: ps)) by (rewrite Forall_forall in Lg; apply (Lg _ Hs)).
      rewrite Eb, (proj2 (unst_pstuff_iff _) Hr) in Hp.
      destruct (status_heard _ _ _ _ Hp) as [r [Er Hh]]. cbn [status_of] in Er. rewrite Er. left. eauto.
  - right. exists e. split; [reflexivity|]. intros m ->. 
    unfold ideal in I. replace (cap <? 10) with false in I by lia.
    destruct (next_event cap (upto p)) as [[ev r]|] eqn:N.
    + pose proof (next_event_front cap (upto p)) as Fr. rewrite N in Fr. inversion Fr; subst; cbn [ev_out] in I; try discriminate I.
      unfold message_event in I. cbv zeta in I. destruct (N.eqb _ _); [destruct (unst 0 body)|]; cbn [ev_out] in I; discriminate I.
    + destruct (from_err p) as [|[x|e'] q]; discriminate I.
  - apply (proj1 (ideal_panic_iff _ _ _ _ L)) in I. destruct I as [_ [g [id [w [_ [F P]]]]]].
    assert (Cw : contains (bytes_in p) w).
    { rewrite P, bytes_in_app, bytes_in_inl. exists g, (bytes_in p'). rewrite <- app_assoc. reflexivity. }
    destruct (Z id [] w F Cw) as [[i [t [Hx _]]]|[e [ps [_ Fs]]]]; [discriminate Hx|].
    destruct (framed_inj _ _ _ _ _ F (frame_framed _ _ _ Fs)) as [_ Eb]. destruct ps; discriminate Eb.
  - reflexivity.
Qed.

(** ** Programs *)

(** [m] reads at most [n] packets, returns something that satisfies [P], and blocks only if
    there are fewer than [n] errors on the line. *)
Definition honest {A} (cap : nat) (l : list status) (n : nat) (m : M A) (P : A -> Prop) : Prop :=
  forall s, hardy cap s -> statuses_only l (bytes_in (pending s)) ->
  match m s with
  | (Panic _, _) => False
  | (Blocked, _) => errors_in (pending s) < n
  | (Val a, s') => hardy cap s' /\ statuses_only l (bytes_in (pending s')) /\ P a /\ errors_in (pending s) <= errors_in (pending s') + n
  end.

Lemma honest_ret : forall A cap l (a : A) (P : A -> Prop), P a -> honest cap l 0 (ret a) P.
Proof. intros A cap l a P H s Hs Z. unfold ret. split; [exact Hs|]. split; [exact Z|]. split; [exact H|]. lia. Qed.

Lemma honest_bind : forall A B cap l n m (c : M A) (k : A -> M B) P Q, honest cap l n c P ->
  (forall a, P a -> honest cap l m (k a) Q) -> honest cap l (n + m) (bind c k) Q.
Proof.
  intros A B cap l n m c k P Q Hc Hk s Hs Z. unfold bind. specialize (Hc s Hs Z).
  destruct (c s) as [[a|p|] s1]; [|exact Hc|lia]. destruct Hc as [H1 [Z1 [Pa L1]]]. specialize (Hk a Pa s1 H1 Z1).
  destruct (k a s1) as [[b|p|] s2]; [|exact Hk|lia]. destruct Hk as [H2 [Z2 [Qb L2]]].
  split; [exact H2|]. split; [exact Z2|]. split; [exact Qb|]. lia.
Qed.

Lemma honest_bind0 : forall A B cap l n (c : M A) (k : A -> M B) P Q, honest cap l n c P ->
  (forall a, P a -> honest cap l 0 (k a) Q) -> honest cap l n (bind c k) Q.
Proof. intros A B cap l n c k P Q Hc Hk. rewrite <- (Nat.add_0_r n). apply (honest_bind A B cap l n 0 c k P Q Hc Hk). Qed.

Lemma honest_lift : forall A cap l (o : out A) (P : A -> Prop), (exists a, o = Val a /\ P a) -> honest cap l 0 (lift o) P.
Proof. intros A cap l o P [a [-> H]] s Hs Z. unfold lift. split; [exact Hs|]. split; [exact Z|]. split; [exact H|]. lia. Qed.

Definition told_by (l : list status) (r : result packet read_error) : Prop :=
  (exists st, In st l /\ heard st r) \/ (exists e, r = Err e /\ foreign e).

Lemma honest_read : forall cap l n, 10 <= cap -> Forall legible l -> is_u16 n -> honest cap l 1 (read_status_response n) (told_by l).
Proof.
  intros cap l n Hc Lg Hn s H Z. destruct (rsr_hardy cap n s H Hn) as [o1 [s' [E [Id H']]]]. rewrite E.
  pose proof (ha_rcap _ _ H) as Rc.
  pose proof (ideal_told (length (b_rbuf s)) (pending s) l o1 (pending s') ltac:(lia) Lg Z Id) as T.
  destruct (ideal_errors (length (b_rbuf s)) _ _ _ ltac:(lia) Id) as [Er Bl].
  destruct (ideal_suffix _ _ _ _ Id) as [x Hx]. rewrite Hx in Z.
  destruct (status_of o1) as [r|k|]; [|exact T|].
  - split; [exact H'|]. split; [exact (statuses_only_suffix _ _ _ Z)|]. split; [exact T|exact Er].
  - rewrite (Bl T). lia.
Qed.

(** ** The calls *)

Lemma heard_vouched : forall st id n r, heard st r ->
  match r with
  | Err e => judge id n st = Err e
  | Ok p => exists e ps, st = (fst (fst st), e, ps) /\ no_error e /\ packet_is p (fst (fst st)) (STATUS :: e :: ps)
  end.
Proof.
  intros [[i e] ps] id n r H. cbn [heard fst] in *. destruct r as [p|er]; destruct H as [He Hr].
  - eauto.
  - subst er. unfold judge. rewrite (error_eqb e He). reflexivity.
Qed.

Lemma honest_expect : forall cap l id n, 10 <= cap -> Forall legible l -> is_u16 n ->
  honest cap l 1 (expect_response id n) (vouched (judge id (N.to_nat n)) l).
Proof.
  intros cap l id n Hc Lg Hn. unfold expect_response, try_.
  apply (honest_bind _ _ cap l 1 0 _ _ (told_by l)); [apply honest_read; assumption|].
  intros r Hr. destruct r as [p|er].
  - destruct Hr as [[[[i e] ps] [Hs [He Q]]]|[e [E _]]]; [|discriminate E].
    destruct (status_accessors _ _ _ _ Q) as [A1 [A2 [A3 A4]]].
    assert (K : exists r, judge id (N.to_nat n) (i, e, ps) = r /\
      (rid <- lift (pk_id p);;
       tryr RInvalidMessage (packet_id_check rid id)
         (fun _ => ps0 <- lift (st_parameters p);;
            tryr RInvalidMessage (param_count_check (length ps0) (N.to_nat n)) (fun _ => lift (decode_status_packet_bytes p))))
      = lift (Val r)).
    { eexists. split; [reflexivity|]. unfold judge. rewrite (no_error_eqb e He), A1. unfold lift, bind, tryr, packet_id_check.
      destruct (beq i id) eqn:B; [|reflexivity]. apply beq_true in B. subst i. cbn [negb]. rewrite A4. unfold param_count_check.
      destruct (length ps =? N.to_nat n); [|reflexivity]. cbn [negb].
      unfold decode_status_packet_bytes. rewrite A2. cbn [obind]. rewrite (no_error_check _ He), A1, A3, A4. reflexivity. }
    destruct K as [r [Er ->]]. apply honest_lift. exists r. split; [reflexivity|]. left. eauto.
  - apply honest_ret. destruct Hr as [[st [Hs Hh]]|[e [E Fe]]]; [|right; exists e; split; [congruence|exact Fe]].
    left. exists st. split; [exact Hs|]. symmetry. exact (heard_vouched st id (N.to_nat n) (Err er) Hh).
Qed.

Lemma honest_weaken : forall A cap l n (m : M A) (P Q : A -> Prop), honest cap l n m P -> (forall a, P a -> Q a) -> honest cap l n m Q.
Proof.
  intros A cap l n m P Q H I s Hs Z. specialize (H s Hs Z). destruct (m s) as [[a|p|] s']; [|exact H|exact H].
  destruct H as [H1 [H2 [H3 H4]]]. auto.
Qed.

Lemma honest_more : forall A cap l n m (c : M A) (P : A -> Prop), n <= m -> honest cap l n c P -> honest cap l m c P.
Proof.
  intros A cap l n m c P L H s Hs Z. specialize (H s Hs Z). destruct (c s) as [[a|p|] s']; [|exact H|lia].
  destruct H as [H1 [H2 [H3 H4]]]. split; [exact H1|]. split; [exact H2|]. split; [exact H3|]. lia.
Qed.

(** A call that waits for one status. *)
Lemma honest_one : forall R X cap l n (fin : result packet read_error -> out R) (f : result X transfer_error -> R)
    (understand : status -> result X read_error),
  10 <= cap -> Forall legible l -> is_u16 n ->
  (forall e, fin (Err e) = Val (f (Err (TReadError e)))) ->
  (forall st r, In st l -> heard st r -> fin r = Val (f (map_err TReadError (understand st)))) ->
  honest cap l 1 (r <- read_status_response n ;; lift (fin r)) (fun x => exists r, x = f (map_err TReadError r) /\ vouched understand l r).
Proof.
  intros R X cap l n fin f understand Hc Lg Hn F1 F2.
  apply (honest_bind _ _ cap l 1 0 _ _ (told_by l)); [apply honest_read; assumption|].
  intros r Hr. apply honest_lift. destruct Hr as [[st [Hs Hh]]|[e [-> Fe]]].
  - eexists. split; [apply (F2 st r Hs Hh)|]. exists (understand st). split; [reflexivity|]. left. eauto.
  - eexists. split; [apply F1|]. exists (Err e). split; [reflexivity|]. right. exists e. split; [reflexivity|exact Fe].
Qed.

Lemma honest_nexts : forall Q (key : Q -> byte) (cnt : Q -> N) reqs cap l, 10 <= cap -> Forall legible l ->
  Forall (fun q => is_u16 (cnt q)) reqs -> forall k i, i + k = length reqs ->
  honest cap l k (nexts (gnext (fun q => expect_response (key q) (cnt q)) reqs) k i)
    (fun y => snd y = length reqs /\ Forall2 (fun q x => exists r, x = Some r /\ vouched (judge (key q) (N.to_nat (cnt q))) l r) (skipn i reqs) (fst y)).
Proof.
  intros Q key cnt reqs cap l Hc Lg F. induction k as [|k IH]; intros i L.
  - cbn [nexts]. apply honest_ret. cbn [fst snd]. split; [lia|]. rewrite skipn_all2 by lia. constructor.
  - cbn [nexts]. destruct (nth_error reqs i) as [q|] eqn:Eq; [|apply nth_error_None in Eq; lia].
    assert (Kq : is_u16 (cnt q)) by (rewrite Forall_forall in F; apply F, (nth_error_In _ _ Eq)).
    assert (Sk : skipn i reqs = q :: skipn (Datatypes.S i) reqs).
    { clear -Eq. revert i Eq. induction reqs as [|q0 reqs IH]; intros [|i] Eq; try discriminate Eq.
      - injection Eq as ->. reflexivity.
      - cbn [skipn]. apply IH, Eq. }
    change (Datatypes.S k) with (1 + k).
    apply (honest_bind _ _ cap l 1 k _ _ (fun y => snd y = Datatypes.S i /\ exists r, fst y = Some r /\ vouched (judge (key q) (N.to_nat (cnt q))) l r)).
    + unfold gnext. rewrite Eq. apply (honest_bind _ _ cap l 1 0 _ _ (vouched (judge (key q) (N.to_nat (cnt q))) l)).
      * apply honest_expect; assumption.
      * intros r Hr. apply honest_ret. split; [reflexivity|]. exists r. auto.
    + intros [x j] [Ej Hx]. cbn [fst snd] in Ej, Hx. subst j. 
      eapply honest_bind0; [apply (IH (Datatypes.S i)); lia|]. intros [xs j] [Ej Fx]. cbn [fst snd] in Ej, Fx.
      apply honest_ret. cbn [fst snd]. split; [exact Ej|]. rewrite Sk. constructor; assumption.
Qed.

Lemma honest_turns : forall I Q Y (next : I -> M (option (result (response (list byte)) read_error) * I)) (drop : I -> M unit)
    (f : nat -> I) (key : Q -> byte) (cnt : Q -> N) (rd' : Q -> M Y) reqs cap l,
  (forall i s, next (f i) s = out_map (fun '(x, j) => (x, f j)) (gnext (fun q => expect_response (key q) (cnt q)) reqs i s)) ->
  (forall i s, i <= length reqs -> drop (f i) s = gdrop rd' (skipn i reqs) s) ->
  10 <= cap -> Forall legible l -> Forall (fun q => is_u16 (cnt q)) reqs ->
  honest cap l (length reqs) (take_then_drop next drop (length reqs) (f 0))
    (Forall2 (fun q x => exists r, x = Some r /\ vouched (judge (key q) (N.to_nat (cnt q))) l r) reqs).
Proof.
  intros I Q Y next drop f key cnt rd' reqs cap l Hn Hd Hc Lg F s Hs Z.
  pose proof (honest_nexts Q key cnt reqs cap l Hc Lg F (length reqs) 0 eq_refl s Hs Z) as K.
  unfold take_then_drop, bind. rewrite (nexts_rep _ _ _ next _ f Hn).
  destruct (nexts (gnext _ reqs) (length reqs) 0 s) as [[[xs j]|p|] s1]; cbn [out_map]; [|exact K|exact K].
  destruct K as [H1 [Z1 [[Ej Fx] L1]]]. cbn [fst snd] in Ej, Fx. subst j. rewrite Hd by apply le_n. rewrite skipn_all. cbn [gdrop ret].
  auto.
Qed.

(** Scanning: no bound on the number of packets. *)
Definition ended {A} (x : option A) : nat := match x with None => 1 | Some _ => 0 end.

Lemma scan_judge_ended : forall o x, scan_judge (status_of o) = Val x -> (if timed_out o then 1 else 0) <= ended x.
Proof.
  intros [[p|e]|k|] x E; try (cbn [timed_out]; lia). cbn [status_of] in E.
  destruct e; try (cbn [timed_out]; lia). cbn [scan_judge] in E. cbn [timed_out].
  destruct (is_timeout_error _); [|lia]. injection E as <-. reflexivity.
Qed.

Lemma scan_next_honest : forall cap l s, 10 <= cap -> Forall legible l -> hardy cap s -> statuses_only l (bytes_in (pending s)) ->
  match scan_next s with
  | (Panic _, _) => False
  | (Blocked, _) => timeouts_in (pending s) = 0
  | (Val x, s') => hardy cap s' /\ statuses_only l (bytes_in (pending s')) /\ (forall r, x = Some r -> vouched judge_ping l r) /\
      length (pending s') < length (pending s) /\ timeouts_in (pending s) <= timeouts_in (pending s') + ended x
  end.
Proof.
  intros cap l s Hc Lg H Z. destruct (scan_next_hardy cap s H) as [t [o1 [s' [E [Id [T Iv]]]]]]. rewrite E.
  pose proof (ha_rcap _ _ H) as Rc.
  pose proof (ideal_told (length (b_rbuf s)) (pending s) l o1 (pending s') ltac:(lia) Lg Z Id) as K.
  destruct (ideal_timeouts (length (b_rbuf s)) _ _ _ ltac:(lia) Id) as [Ti Tb].
  assert (V : forall x, scan_judge (status_of o1) = Val x ->
    length (pending s') < length (pending s) /\ timeouts_in (pending s) <= timeouts_in (pending s') + ended x).
  { intros x Ex. pose proof (scan_judge_ended o1 x Ex). split; [|lia].
    destruct (scan_judge_val _ _ Ex) as [r ->]. apply (ideal_progress (length (b_rbuf s)) _ r _ ltac:(lia) Id). }
  destruct (ideal_suffix _ _ _ _ Id) as [x Hx]. rewrite Hx in Z.
  assert (Q : hardy cap s' /\ statuses_only l (bytes_in (pending s'))).
  { split; [apply (timed_hardy cap t s s' T Iv H)|exact (statuses_only_suffix _ _ _ Z)]. }
  assert (W : match scan_judge (status_of o1) with Panic _ => False | Blocked => o1 = Blocked
    | Val x => forall r, x = Some r -> vouched judge_ping l r end).
  { clear V. destruct (status_of o1) as [r|k|]; cbn [scan_judge]; [|exact K|exact K].
    destruct K as [[[[i e] ps] [Hs Hh]]|[e [-> Fe]]].
    - cbn [heard] in Hh. destruct r as [p|er]; destruct Hh as [He Hr]; cbn [scan_judge].
      + rewrite (response_ping_val _ _ _ _ Hr).
        assert (J : forall r, judge_ping (i, e, ps) = r -> vouched judge_ping l r) by (intros r <-; left; eauto).
        unfold judge_ping in J. rewrite (no_error_eqb e He) in J.
        destruct ps as [|x1 [|x2 [|x3 [|]]]]; intros r E1; injection E1 as <-; apply J; reflexivity.
      + subst er. intros r E1. injection E1 as <-. left. exists (i, e, ps).
        split; [exact Hs|]. unfold judge_ping. rewrite (error_eqb e He). reflexivity.
    - assert (J : vouched judge_ping l (Err e)) by (right; exists e; split; [reflexivity|exact Fe]).
      destruct e; try (intros r E1; injection E1 as <-; exact J).
      destruct (is_timeout_error _); (intros r E1; first [discriminate E1|injection E1 as <-; exact J]). }
  destruct (scan_judge (status_of o1)) as [y|k|]; [|exact W|exact (Tb W)].
  destruct (V y eq_refl) as [V1 V2]. split; [apply Q|]. split; [apply Q|]. split; [exact W|]. split; [exact V1|exact V2].
Qed.

Lemma scan_items_honest : forall cap l fuel s, 10 <= cap -> Forall legible l -> hardy cap s -> statuses_only l (bytes_in (pending s)) ->
  length (pending s) < fuel ->
  match scan_items fuel s with
  | (Panic _, _) => False
  | (Blocked, _) => timeouts_in (pending s) = 0
  | (Val xs, s') => hardy cap s' /\ statuses_only l (bytes_in (pending s')) /\ Forall (vouched judge_ping l) xs /\
      timeouts_in (pending s) <= timeouts_in (pending s') + 1
  end.
Proof.
  intros cap l fuel. induction fuel as [|fuel IH]; intros s Hc Lg H Z Lf; cbn [scan_items]; [lia|].
  unfold bind. pose proof (scan_next_honest cap l s Hc Lg H Z) as K.
  destruct (scan_next s) as [[[r|]|p|] s1]; [| |exact K|exact K]; destruct K as [H1 [Z1 [J [L1 T1]]]]; cbn [ended] in T1.
  - specialize (IH s1 Hc Lg H1 Z1 ltac:(lia)). destruct (scan_items fuel s1) as [[xs|p|] s2]; [|exact IH|lia].
    destruct IH as [H2 [Z2 [F T2]]]. cbn [ret]. split; [exact H2|]. split; [exact Z2|]. split; [|lia].
    constructor; [apply J; reflexivity|exact F].
  - cbn [ret]. auto.
Qed.

Lemma scan_drop_honest : forall cap l fuel s, 10 <= cap -> Forall legible l -> hardy cap s -> statuses_only l (bytes_in (pending s)) ->
  length (pending s) < fuel ->
  match scan_drop fuel s with
  | (Panic _, _) => False
  | (Blocked, _) => timeouts_in (pending s) = 0
  | (Val b, s') => b = true
  end.
Proof.
  intros cap l fuel. induction fuel as [|fuel IH]; intros s Hc Lg H Z Lf; cbn [scan_drop]; [lia|].
  unfold bind. pose proof (scan_next_honest cap l s Hc Lg H Z) as K.
  destruct (scan_next s) as [[[r|]|p|] s1]; [|reflexivity|exact K|exact K].
  destruct K as [H1 [Z1 [_ [L1 T1]]]]. cbn [ended] in T1.
  specialize (IH s1 Hc Lg H1 Z1 ltac:(lia)). destruct (scan_drop fuel s1) as [[b|p|] s2]; [exact IH|exact IH|lia].
Qed.

(** ** Any call *)

Definition answers_to (k : control) (l : list status) : Prop :=
  match meaning k with ToOne id _ => Forall (fun st : status => fst (fst st) = id) l | _ => True end.

Lemma rest_honest : forall cap k l, 10 <= cap -> sensible k -> Forall legible l -> answers_to k l -> k <> KScan ->
  honest cap l (patience k) (rest k) (truthful k l).
Proof.
  intros cap k l Hc Hk Lg At Nk.
  assert (Ac : forall id (c : command), (id <> xfe -> Forall (fun st : status => fst (fst st) = id) l) -> honest cap l 2
    (r <- (if beq id xfe then ret (Ok (mkResponse xfe false tt)) else (r <- read_status_response 0 ;; lift (fin_instruct r))) ;;
     ret (Told (RepDone r)))
    (fun x => if beq id xfe then x = Told (RepDone (Ok (mkResponse xfe false tt)))
      else exists r, x = Told (RepDone (map_err TReadError r)) /\ vouched (judge_value (fun _ => Ok tt) id 0) l r)).
  { intros id c Hi. apply (honest_more _ cap l 1 2); [lia|]. destruct (beq id xfe) eqn:B.
    - apply (honest_more _ cap l 0 1); [lia|]. eapply (honest_bind _ _ cap l 0 0); [apply (honest_ret _ _ _ _ (fun r => r = Ok (mkResponse xfe false tt))); reflexivity|].
      intros r ->. apply honest_ret. reflexivity.
    - assert (id <> xfe) as Ne by (intros ->; rewrite beq_refl in B; discriminate). specialize (Hi Ne).
      eapply (honest_bind _ _ cap l 1 0).
      + apply (honest_one _ _ cap l 0 fin_instruct (fun r => r) (judge_value (fun _ => Ok tt) id 0) Hc Lg eq_refl).
        * reflexivity.
        * intros st r Hs Hh. apply instruct_understood; [|exact Hh]. rewrite Forall_forall in Hi. apply Hi, Hs.
      + intros r [r' [-> V]]. apply honest_ret. exists r'. split; [reflexivity|exact V]. }
  assert (Di : forall id c, answers_to k l -> meaning k = direct id c -> id <> xfe -> Forall (fun st : status => fst (fst st) = id) l).
  { intros id c A E Ne. unfold answers_to in A. rewrite E in A. unfold direct in A. destruct (beq id xfe) eqn:B; [apply beq_true in B; contradiction|exact A]. }
  destruct k as [id| |id a n|id a d|id a d|id| |id k|k|id| |id| |id|ids a n|a n qs|qs|qs];
    cbn [rest truthful meaning sensible patience] in *; cbv zeta; try contradiction;
    try (apply (Ac id CmdPing); eapply Di; [exact At|reflexivity]);
    try (apply (honest_more _ cap l 0 2); [lia|]; eapply (honest_bind _ _ cap l 0 0);
      [apply (honest_ret _ _ _ _ (fun r => r = Ok tt)); reflexivity|intros r ->; apply honest_ret; reflexivity]).
  - apply (honest_more _ cap l 1 2); [lia|]. eapply (honest_bind _ _ cap l 1 0).
    + match goal with |- honest _ _ _ (bind _ (fun q => lift (@?fin q))) _ =>
        apply (honest_one _ _ cap l 3 fin (fun r => r) judge_ping Hc Lg eq_refl) end.
      * reflexivity.
      * intros st r Hs Hh. apply ping_understood; [|exact Hh]. unfold answers_to in At. cbn [meaning] in At. rewrite Forall_forall in At. apply At, Hs.
    + intros r [r' [-> V]]. apply honest_ret. exists r'. split; [reflexivity|exact V].
  - apply (honest_more _ cap l 1 2); [lia|]. eapply (honest_bind _ _ cap l 1 0).
    + match goal with |- honest _ _ _ (bind _ (fun q => lift (@?fin q))) _ =>
        apply (honest_one _ _ cap l n fin (fun r => r) (judge id (N.to_nat n)) Hc Lg (proj2 (proj2 Hk))) end.
      * reflexivity.
      * intros st r Hs Hh. apply read_understood; [|exact Hh]. unfold answers_to in At. cbn [meaning] in At. rewrite Forall_forall in At. apply At, Hs.
    + intros r [r' [-> V]]. apply honest_ret. exists r'. split; [reflexivity|exact V].
  - destruct Hk as [_ [Hn _]]. eapply honest_bind0.
    + eapply (honest_bind0 _ _ _ _ _ _ _ _ (fun r => exists xs, r = Ok xs /\ Forall2 (fun id y => exists r, y = Some r /\ vouched (judge id (N.to_nat n)) l r) ids xs)).
      * apply (honest_turns _ byte _ srb_next srb_drop (fun j => mkSRB n ids j) (fun i => i) (fun _ => n) _ ids cap l
          (srb_rep n ids) (sync_rep_drop n ids) Hc Lg). apply Forall_forall. intros; exact Hn.
      * intros xs Fx. apply (honest_ret _ _ _ _ (fun r => exists xs, r = Ok xs /\ Forall2 (fun id y => exists r, y = Some r /\ vouched (judge id (N.to_nat n)) l r) ids xs)). exists xs. split; [reflexivity|exact Fx].
    + intros r [xs [-> Fx]]. apply honest_ret. exists xs. split; [reflexivity|exact Fx].
  - destruct Hk as [Hu _]. eapply honest_bind0.
    + eapply (honest_bind0 _ _ _ _ _ _ _ _ (fun r => exists xs, r = Ok xs /\ Forall2 (fun q y => exists r, y = Some r /\ vouched (judge (br_id q) (N.to_nat (br_count q))) l r) qs xs)).
      * apply (honest_turns _ bulk_read_data _ br_next br_drop (fun j => mkBR qs j) br_id br_count _ qs cap l
          (br_rep qs) (br_drop_rep qs) Hc Lg). revert Hu. apply Forall_impl. intros r Hr. apply Hr.
      * intros xs Fx. apply (honest_ret _ _ _ _ (fun r => exists xs, r = Ok xs /\ Forall2 (fun q y => exists r, y = Some r /\ vouched (judge (br_id q) (N.to_nat (br_count q))) l r) qs xs)). exists xs. split; [reflexivity|exact Fx].
    + intros r [xs [-> Fx]]. apply honest_ret. exists xs. split; [reflexivity|exact Fx].
Qed.

Lemma pending_size : forall s, length (pending s) <= b_rlen s + script_size (p_script (b_port s)).
Proof.
  intro s. unfold pending. rewrite app_length, map_length, skipn_length, firstn_length.
  pose proof (items_size (p_script (b_port s))). unfold item in *. lia.
Qed.

Lemma scan_rest_honest : forall cap l s, 10 <= cap -> Forall legible l -> hardy cap s -> statuses_only l (bytes_in (pending s)) ->
  pending s = incoming s -> 2 <= timeouts_in (pending s) ->
  match rest KScan s with
  | (Val x, _) => truthful KScan l x
  | _ => False
  end.
Proof.
  intros cap l s Hc Lg H Z Pi Tm. cbn [rest]. unfold scan_rest, bind, get.
  assert (Ls : length (pending s) < Datatypes.S (script_size (p_script (b_port s)))).
  { rewrite Pi. unfold incoming. pose proof (items_size (p_script (b_port s))). unfold item in *. lia. }
  pose proof (scan_items_honest cap l (Datatypes.S (script_size (p_script (b_port s)))) s Hc Lg H Z Ls) as K.
  destruct (scan_items _ s) as [[xs|p|] s1]; [|exact K|lia]. destruct K as [H1 [Z1 [F T1]]].
  pose proof (pending_size s1) as L1.
  pose proof (scan_drop_honest cap l (Datatypes.S (b_rlen s1 + script_size (p_script (b_port s1)))) s1 Hc Lg H1 Z1 ltac:(lia)) as D.
  destruct (scan_drop _ s1) as [[b|p|] s2]; [|exact D|lia]. subst b. cbn [ret truthful]. eauto.
Qed.

Lemma control_eq_scan : forall k, k = KScan \/ k <> KScan.
Proof. intros []; first [left; reflexivity|right; discriminate]. Qed.

Lemma Forall2_impl : forall A B (P Q : A -> B -> Prop), (forall a b, P a b -> Q a b) -> forall l m, Forall2 P l m -> Forall2 Q l m.
Proof. intros A B P Q H l m F. induction F; constructor; auto. Qed.

(** ** The motors *)

Lemma contains_all : forall w, contains w w.
Proof. intro w. exists [], []. rewrite app_nil_r. reflexivity. Qed.

Lemma attends_means : forall St (b : behaviour St) id body w p u v r, is_frame id body w -> spells id body p ->
  hears_only w u -> attends b u v r -> r = (v, []) \/ (fst r = performed b p v /\ incl (snd r) (may_say b p v)).
Proof.
  intros St b id body w p u v r F S Hu A. destruct A as [|id' body' w' p' l F' C S' Il]; [left; reflexivity|right].
  rewrite (Hu id' body' w' p' F' S' C) in F'. rewrite <- (L_C69_unambiguous _ _ _ _ _ _ _ F' F S' S). auto.
Qed.

Lemma may_say_id : forall St (b : behaviour St) id c v, Forall (fun st : status => fst (fst st) = id) (may_say b (ToOne id c) v).
Proof.
  intros St b id c v. unfold may_say. cbn [asks_answers commands_for]. destruct (beq id (v_id v)) eqn:B; [|constructor].
  apply beq_true in B. cbn [performs snd]. rewrite app_nil_r. unfold answers_with.
  destruct (snd (b (v_state v) c)) as [[e ps]|]; constructor; [cbn; congruence|constructor].
Qed.

Lemma partly_answers_to : forall St (b : behaviour St) k vs vs' l, partly b (meaning k) vs vs' l -> answers_to k l.
Proof.
  intros St b k vs vs' l [rs [_ [-> F]]]. unfold answers_to. destruct (meaning k) as [id c| | | |]; try exact I.
  induction F as [|v r vs rs Hv F IH]; [constructor|]. cbn [flat_map]. apply Forall_app. split; [|exact IH].
  destruct Hv as [-> | [_ Hi]]; [constructor|]. apply Forall_forall. intros st Hs.
  pose proof (may_say_id St b id c v) as K. rewrite Forall_forall in K. apply K, Hi, Hs.
Qed.

(** ** The theorems *)

Lemma disturbed_step : forall St (b : behaviour St) cap k c vs o c' vs' l, 16 <= cap -> hardy cap c -> sensible k ->
  ~ clears_error k -> passes ff_runs_ok cap (text k) -> disturbed b k c vs o c' vs' l -> Forall legible l ->
  hardy cap c' /\ partly b (meaning k) vs vs' l /\
  exists x, o = Val x /\ truthful k l x.
Proof.
  intros St b cap k c vs o c' vs' l Hc H Hk Ne Ps D Lg. pose proof (code_text_eq k Ne) as Et.
  pose proof (issue_speaks cap k Hk) as Sp. rewrite Et in Sp. specialize (Sp Ps).
  pose proof (spells_text k Hk) as Sk. pose proof (passes_frame cap (who k) (text k) Ps) as Fk.
  destruct D as [c vs sc o c' evs rs Pn E C M Z].
  set (s := set_script c sc) in *.
  assert (Hs : hardy cap s) by apply hardy_script, H.
  destruct (Sp s o c' Hs E) as [H' [evs' [C' T]]]. rewrite (calls_inj _ _ _ _ C C'), T in M. split; [exact H'|].
  assert (Pt : partly b (meaning k) vs (map fst rs) (flat_map snd rs)).
  { exists rs. split; [reflexivity|]. split; [reflexivity|]. revert M. apply Forall2_impl. intros v r [u [Hu A]].
    exact (attends_means St b _ _ _ _ u v r Fk Sk Hu A). }
  split; [exact Pt|]. pose proof (partly_answers_to _ _ _ _ _ _ Pt) as At.
  destruct (issue_sends k Hk) as [i [params [Ei Si]]]. rewrite Et in Ei. rewrite Ei in Ps.
  destruct (sends_then_runs _ cap _ _ _ _ _ s Si Hs Ps) as [s1 [e1 [E1 [H1 [P1 [I1 [L1 _]]]]]]].
  assert (Z1 : statuses_only (flat_map snd rs) (bytes_in (pending s1))) by (rewrite P1; exact Z).
  rewrite E1 in E.
  destruct (control_eq_scan k) as [-> |Nk].
  - pose proof (scan_rest_honest cap _ s1 ltac:(lia) Lg H1 Z1 ltac:(congruence)) as K. rewrite E in K.
    specialize (K ltac:(rewrite P1; exact Pn)). destruct o as [x|p|]; [exists x; auto|contradiction..].
  - pose proof (rest_honest cap k _ ltac:(lia) Hk Lg At Nk s1 H1 Z1) as K. rewrite E in K. destruct o as [x|p|]; [|contradiction|].
    + exists x. split; [reflexivity|]. apply K.
    + exfalso. assert (Pn' : patience k <= errors_in (items sc)) by (destruct k; first [contradiction|exact Pn]).
      rewrite P1 in K. unfold s, incoming, set_script in K. cbn [set_port b_port p_script] in K. lia.
Qed.

Lemma L_C86_truthful : forall St (b : behaviour St) cap k c vs o c' vs' l, 16 <= cap -> ready cap c -> sensible k ->
  ~ clears_error k -> passes ff_runs_ok cap (text k) -> disturbed b k c vs o c' vs' l -> Forall legible l ->
  partly b (meaning k) vs vs' l /\ exists x, o = Val x /\ truthful k l x.
Proof.
  intros St b cap k c vs o c' vs' l Hc H Hk Ne Ps D Lg.
  exact (proj2 (disturbed_step St b cap k c vs o c' vs' l Hc (ready_hardy _ _ H) Hk Ne Ps D Lg)).
Qed.

Lemma stormy_weathered : forall St (b : behaviour St) cap ks c vs os ls c' vs', 16 <= cap -> hardy cap c ->
  Forall (fun k => sensible k /\ ~ clears_error k /\ passes ff_runs_ok cap (text k)) ks ->
  stormy b c vs ks os ls c' vs' -> Forall (Forall legible) ls -> weathered b vs ks os vs'.
Proof.
  intros St b cap ks c vs os ls c' vs' Hc H F S. revert H F.
  induction S as [c vs|c vs k o c1 vs1 l ks os ls c2 vs2 D S IH]; intros H F Lg; [constructor|].
  inversion F as [|? ? [Hk [Ne Ps]] F']; subst. inversion Lg as [|? ? L1 L2]; subst.
  destruct (disturbed_step St b cap k c vs o c1 vs1 l Hc H Hk Ne Ps D L1) as [H' [Pt [x [-> T]]]].
  econstructor; [exact Pt|exact T|apply IH; assumption].
Qed.

Lemma L_C86_session : forall St (b : behaviour St) cap ks c vs os ls c' vs', 16 <= cap -> ready cap c ->
  Forall (fun k => sensible k /\ ~ clears_error k /\ passes ff_runs_ok cap (text k)) ks ->
  stormy b c vs ks os ls c' vs' -> Forall (Forall legible) ls -> weathered b vs ks os vs'.
Proof.
  intros St b cap ks c vs os ls c' vs' Hc H F S Lg.
  exact (stormy_weathered St b cap ks c vs os ls c' vs' Hc (ready_hardy _ _ H) F S Lg).
Qed.

(** ** An acknowledged command has been carried out. *)

Lemma partly_one : forall St (b : behaviour St) id c vs vs' l, partly b (ToOne id c) vs vs' l -> NoDup (map v_id vs) ->
  l <> [] -> vs' = obey b id c vs.
Proof.
  intros St b id c vs vs' l [rs [-> [-> F]]].
  assert (Ot : forall v r, r = (v, []) \/ (fst r = performed b (ToOne id c) v /\ incl (snd r) (may_say b (ToOne id c) v)) ->
    beq (v_id v) id = false -> r = (v, [])).
  { intros v r K B. assert (B' : beq id (v_id v) = false).
    { destruct (beq id (v_id v)) eqn:Q; [|reflexivity]. apply beq_true in Q. rewrite <- Q, beq_refl in B. discriminate B. }
    unfold performed, may_say in K. cbn [asks_answers commands_for] in K. rewrite B' in K. cbn [performs fst snd] in K.
    destruct K as [K|[K1 K2]]; [exact K|]. destruct r as [v' l]. cbn [fst snd] in *. subst v'. f_equal.
    destruct l as [|x l]; [reflexivity|]. destruct (K2 x). left. reflexivity. }
  assert (No : forall vs rs, Forall2 (fun v r => r = (v, []) \/ (fst r = performed b (ToOne id c) v /\ incl (snd r) (may_say b (ToOne id c) v))) vs rs ->
    ~ In id (map v_id vs) -> map fst rs = obey b id c vs /\ flat_map snd rs = []).
  { intros ws ts G. induction G as [|v r ws ts Hv G IH]; intro Ni; [split; reflexivity|]. cbn [map In] in Ni.
    assert (B : beq (v_id v) id = false) by (destruct (beq (v_id v) id) eqn:Q; [apply beq_true in Q; tauto|reflexivity]).
    rewrite (Ot v r Hv B). destruct IH as [I1 I2]; [tauto|]. cbn [map flat_map obey fst snd app]. rewrite B, I1, I2. auto. }
  induction F as [|v r vs rs Hv F IH]; intros Nd Nl; [contradiction|]. cbn [map] in Nd. inversion Nd as [|? ? Ni Nd']; subst.
  cbn [map flat_map] in *. destruct (beq (v_id v) id) eqn:B.
  - assert (B' : beq id (v_id v) = true) by (apply beq_true in B; rewrite B; apply beq_refl). pose proof B as B2. apply beq_true in B2. rewrite B2 in Ni.
    destruct (No vs rs F Ni) as [N1 N2]. rewrite N2, app_nil_r in Nl. cbn [obey map]. rewrite B.
    destruct Hv as [-> | [K _]]; [contradiction|]. f_equal; [|exact N1].
    rewrite K. unfold performed. cbn [commands_for]. rewrite B'. reflexivity.
  - rewrite (Ot v r Hv B) in *. cbn [fst snd app] in *. cbn [obey map]. rewrite B. f_equal. apply IH; assumption.
Qed.

Lemma L_C86_acknowledged : forall St (b : behaviour St) cap k id cmd c vs o c' vs' l, 16 <= cap -> ready cap c -> sensible k ->
  ~ clears_error k -> passes ff_runs_ok cap (text k) -> disturbed b k c vs o c' vs' l -> Forall legible l ->
  NoDup (map v_id vs) -> meaning k = ToOne id cmd -> (exists x, o = Val x /\ succeeds x) ->
  vs' = obey b id cmd vs.
Proof.
  intros St b cap k id cmd c vs o c' vs' l Hc H Hk Ne Ps D Lg Nd Mk [x [-> Sx]].
  destruct (L_C86_truthful St b cap k c vs _ c' vs' l Hc H Hk Ne Ps D Lg) as [Pt [x' [E T]]].
  injection E as <-. rewrite Mk in Pt. apply (partly_one _ _ _ _ _ _ _ Pt Nd). intros ->.
  assert (Nv : forall X (u : status -> result X read_error) r, vouched u [] (Ok r) -> False).
  { intros X u r [[st [[] _]]|[e [E _]]]. discriminate E. }
  assert (Dn : forall i, (if beq i xfe then x = Told (RepDone (Ok (mkResponse xfe false tt)))
      else exists r, x = Told (RepDone (map_err TReadError r)) /\ vouched (judge_value (fun _ => Ok tt) i 0) [] r) ->
      forall c0, direct i c0 = ToOne id cmd -> False).
  { intros i Hx c0 Ed. unfold direct in Ed. destruct (beq i xfe); [discriminate Ed|]. destruct Hx as [r [-> V]].
    destruct r as [r|e]; [exact (Nv _ _ _ V)|]. destruct Sx as [[y Y]|[[y Y]|[y Y]]]; discriminate Y. }
  destruct k; cbn [meaning truthful] in *; try discriminate Mk; try (eapply Dn; [exact T|exact Mk]).
  - destruct T as [[r|e] [-> V]]; [exact (Nv _ _ _ V)|]. destruct Sx as [[y Y]|[[y Y]|[y Y]]]; discriminate Y.
  - destruct T as [[r|e] [-> V]]; [exact (Nv _ _ _ V)|]. destruct Sx as [[y Y]|[[y Y]|[y Y]]]; discriminate Y.
Qed.
