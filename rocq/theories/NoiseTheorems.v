(** * NoiseTheorems: calls over a line on which messages are damaged or lost (C85) *)
From Coq Require Import ZArith ZifyN ZifyNat ZifyBool Permutation.
From Verif Require Import Base Endian Error Checksum Bytestuff Packet Time Bus Data Client
  Instructions Device MockDevice Api Spec CallSpec StreamSpec DeviceSpec InstructionSpec Demo Lib ChecksumProofs
  CrcErrorProofs StuffProofs WriteProofs ReadProofs ApiProofs StreamProofs MessageProofs SendProofs
  SendTheorems ReadTheorems StatusProofs DeviceTheorems InstructionProofs DemoProofs TransferTheorems
  UnderstoodTheorems IterProofs IterTheorems ScanTheorems RemoteSpec RemoteProofs RemoteTheorems TurnSpec TurnTheorems ConformSpec
  ConformTheorems CorruptionTheorems CrcSpec CrcExact CrcPacketTheorems ResyncTheorems NoiseSpec.

(** ** The checksum *)

Lemma framed_is_code_word : forall id body w, framed id body w ->
  exists q, poly_of (in_crc_order w) = clmul q crc_poly.
Proof.
  intros id body w [crc [-> [_ Hc]]]. 
  apply (proj1 (checksum_iff_crc16 0 _ eq_refl crc)) in Hc as E. destruct Hc as [Hc _].
  change (message id body crc) with (wire_of_body id body crc). unfold wire_of_body.
  replace (header ++ [id] ++ le16 (N.of_nat (length body + 2)) ++ body ++ le16 crc)
    with ((header ++ [id] ++ le16 (N.of_nat (length body + 2)) ++ body) ++ le16 crc) by (rewrite <- !app_assoc; reflexivity).
  apply code_word_iff; assumption.
Qed.

Lemma frame_framed : forall id body w, is_frame id body w -> framed id (pstuff body) w.
Proof. intros id body w H. exact H. Qed.

Lemma damaged_no_message : forall w w', damaged w w' -> forall id body, ~ framed id body w'.
Proof.
  intros w w' [id0 [body0 [C N]]] id body F. apply N. destruct C as [F0 _].
  destruct (framed_is_code_word _ _ _ F0) as [q0 E0]. destruct (framed_is_code_word _ _ _ F) as [q E].
  exists (N.lxor q0 q). rewrite E0, E. apply clmul_lxor.
Qed.

Lemma noise_no_message : forall u, noise u -> forall id body, ~ framed id body u.
Proof. intros u N id body F. apply (N id body u F). exists [], []. rewrite app_nil_r. reflexivity. Qed.

Lemma damaged_ideal : forall cap g w w' rest, 10 <= cap -> ~ contains g header -> length w <= cap -> damaged w w' ->
  exists e, ideal cap (map inl (g ++ w') ++ rest) = (Val (Err e), rest).
Proof.
  intros cap g w w' rest L G Lw D. pose proof (damaged_no_message _ _ D) as Nf. destruct D as [id [body [C _]]].
  destruct (corruption_shape _ _ _ _ C) as [id' [body' [crc [crc' [Ew [Em [Ew' [Lb [Hl [Hc [Hc' Ec]]]]]]]]]]].
  assert (Lc : length w = length body + 9) by (rewrite Ew, !app_length, msg_head_length; cbn; lia).
  rewrite Em, ideal_message; [|exact L|exact G|exact Hc'|rewrite Lb; exact Hl|lia].
  rewrite (message_event_bad id' body' crc' (calculate_checksum 0 (msg_head id' (N.of_nat (length body' + 2)) ++ body'))).
  - eexists. reflexivity.
  - apply checksum_iff_crc16; reflexivity.
  - intro E. apply (Nf id' body'). exists crc'. split; [exact Em|]. split; [rewrite Lb; exact Hl|].
    apply checksum_iff_crc16; [reflexivity|exact E].
Qed.

(** Nothing comes out of noise. *)
Lemma prefix_noise : forall a u p e q, map inl a ++ p = map inl u ++ (inr e : item) :: q -> exists b, u = a ++ b.
Proof.
  induction a as [|x a IH]; intros u p e q E; [exists u; reflexivity|].
  destruct u as [|y u]; [discriminate E|]. injection E as -> E. destruct (IH u p e q E) as [b ->]. exists b. reflexivity.
Qed.

Lemma noise_ideal : forall cap u e q, 10 <= cap -> noise u ->
  exists er p', ideal cap (map inl u ++ inr e :: q) = (Val (Err er), p').
Proof.
  intros cap u e q L Nu. destruct (ideal cap (map inl u ++ inr e :: q)) as [o p'] eqn:E.
  assert (K : forall g w id body, framed id body w -> map inl u ++ inr e :: q = map inl (g ++ w) ++ p' -> False).
  { intros g w id body F P. destruct (prefix_noise (g ++ w) u p' e q (eq_sym P)) as [b ->].
    apply (Nu id body w F). exists g, b. rewrite <- app_assoc. reflexivity. }
  destruct o as [[pk|er]|k|].
  - exfalso. destruct (ideal_ok_inv _ _ _ _ E) as [_ [g [id [body [w [_ [F [_ [_ [P _]]]]]]]]]]. exact (K g w id body F P).
  - eauto.
  - exfalso. apply (proj1 (ideal_panic_iff _ _ _ _ L)) in E. destruct E as [_ [g [id [w [_ [F P]]]]]]. exact (K g w id [] F P).
  - exfalso. unfold ideal in E. replace (cap <? 10) with false in E by lia.
    destruct (next_event cap _) as [[ev r]|] eqn:Nx; [destruct ev; discriminate E|].
    rewrite from_err_app in E. cbn [from_err] in E. discriminate E.
Qed.

(** ** Calls *)

(** The call fails if the reader finds no message. *)
Lemma one_failure : forall R cap n s er p' (fin : result packet read_error -> out R) (x : R), hardy cap s -> is_u16 n ->
  ideal (length (b_rbuf s)) (pending s) = (Val (Err er), p') -> fin (Err er) = Val x ->
  exists s', (r <- read_status_response n ;; lift (fin r)) s = (Val x, s').
Proof.
  intros R cap n s er p' fin x H Hn I F. destruct (rsr_hardy cap n s H Hn) as [o1 [s' [E [Id _]]]].
  rewrite I in Id. injection Id as <- _. cbn [status_of] in E. exists s'. unfold bind. rewrite E. unfold lift. rewrite F. reflexivity.
Qed.

Lemma rest_fails : forall cap k s er p', hardy cap s -> sensible k -> single k ->
  ideal (length (b_rbuf s)) (pending s) = (Val (Err er), p') ->
  exists x s', rest k s = (Val x, s') /\ fails x.
Proof.
  intros cap k s er p' H Hk Sk I.
  assert (Ac : forall id, id <> xfe -> exists x s',
    (r <- (if beq id xfe then ret (Ok (mkResponse xfe false tt))
           else (r <- read_status_response 0 ;; lift (fin_instruct r))) ;; ret (Told (RepDone r))) s = (Val x, s') /\ fails x).
  { intros id Nid. replace (beq id xfe) with false by (symmetry; apply not_true_is_false; intro B; apply beq_true in B; contradiction).
    destruct (one_failure _ cap 0 s er p' fin_instruct _ H eq_refl I eq_refl) as [s' E].
    eexists. exists s'. split; [unfold bind in *; rewrite E; reflexivity|]. exists er. auto. }
  destruct k as [id| |id a n|id a d|id a d|id| |id k|k|id| |id| |id|ids a n|a n qs|qs|qs];
    cbn [rest sensible single] in *; cbv zeta; try contradiction; try (apply Ac; exact Sk).
  - match goal with |- exists o s', bind (bind _ (fun q => lift (@?fin q))) _ s = _ /\ _ =>
      destruct (one_failure _ cap 3 s er p' fin _ H eq_refl I eq_refl) as [s' E] end.
    eexists. exists s'. split; [unfold bind in *; rewrite E; reflexivity|]. exists er. auto.
  - match goal with |- exists o s', bind (bind _ (fun q => lift (@?fin q))) _ s = _ /\ _ =>
      destruct (one_failure _ cap n s er p' fin _ H (proj2 (proj2 Hk)) I eq_refl) as [s' E] end.
    eexists. exists s'. split; [unfold bind in *; rewrite E; reflexivity|]. exists er. auto.
Qed.

Lemma suffers_step : forall St (b : behaviour St) cap k c vs o c' vs', 16 <= cap -> hardy cap c -> sensible k ->
  single k -> passes ff_runs_ok cap (text k) -> suffers b k c vs o c' vs' ->
  hardy cap c' /\ exists x, o = Val x /\
    ((exists l, runs b (meaning k) vs vs' l /\ told k l x) \/
     (fails x /\ (vs' = vs \/ exists l, runs b (meaning k) vs vs' l))).
Proof.
  intros St b cap k c vs o c' vs' Hc H Hk Sk Ps Su.
  assert (Ne : ~ clears_error k) by (destruct k; cbn in Sk; cbn; tauto).
  pose proof (code_text_eq k Ne) as Et.
  pose proof (issue_speaks cap k Hk) as Sp. rewrite Et in Sp. specialize (Sp Ps).
  pose proof (spells_text k Hk) as St'. pose proof (passes_frame cap (who k) (text k) Ps) as Fk.
  destruct Su as [c vs sc es o c' evs heard l vs' Le E C Ar Re De].
  set (s := set_script c (sc ++ silence es)) in *.
  assert (Hs : hardy cap s) by apply hardy_script, H.
  destruct (Sp s o c' Hs E) as [H' [evs' [C' T]]]. rewrite (calls_inj _ _ _ _ C C'), T in Ar. clear evs C.
  split; [exact H'|].
  destruct (issue_sends k Hk) as [i [params [Ei Si]]]. rewrite Et in Ei. rewrite Ei in Ps.
  destruct (sends_then_runs _ cap _ _ _ _ _ s Si Hs Ps) as [s1 [e1 [E1 [H1 [P1 [I1 [L1 _]]]]]]].
  assert (Pe : pending s1 = items sc ++ items (silence es))
    by (rewrite P1; unfold s, incoming, set_script; cbn [set_port b_port p_script]; apply items_app).
  assert (Ls : length (b_rbuf s1) = length (b_rbuf c)) by (rewrite L1; reflexivity).
  pose proof (ha_rcap _ _ H1) as Rc.
  assert (He : exists e es', es = e :: es').
  { destruct es as [|e es']; [|eauto]. destruct k; cbn in Le, Sk; first [lia|contradiction]. }
  (* the motors *)
  assert (M : (vs' = vs /\ l = []) \/ runs b (meaning k) vs vs' l).
  { assert (No : (forall id body, ~ framed id body heard) -> vs' = vs /\ l = []).
    { intro Nf. destruct Re as [id body p vs vs' l Fr _ _|vs _]; [|auto]. exfalso. exact (Nf _ _ (frame_framed _ _ _ Fr)). }
    inversion Ar as [w Ew Eh|w w' D Ew Eh|w u N Ew Eh]; subst w; try subst w'; try subst u.
    - right. subst heard. destruct Re as [id body p vs vs' l Fr Sb R|vs Nf].
      + rewrite (L_C69_unambiguous _ _ _ _ _ _ _ Fr Fk Sb St') in R. exact R.
      + exfalso. exact (Nf _ _ _ Fk St').
    - left. apply No, (damaged_no_message _ _ D).
    - left. apply No, (noise_no_message _ N). }
  (* the client *)
  assert (Fl : forall er p', ideal (length (b_rbuf s1)) (pending s1) = (Val (Err er), p') ->
    exists x, o = Val x /\ ((exists l, runs b (meaning k) vs vs' l /\ told k l x) \/
      (fails x /\ (vs' = vs \/ exists l, runs b (meaning k) vs vs' l)))).
  { intros er p' Id. destruct (rest_fails cap k s1 er p' H1 Hk Sk Id) as [x [s' [Er Fx]]].
    exists x. split; [rewrite E1, Er in E; congruence|]. right. split; [exact Fx|].
    destruct M as [[-> _]|R]; [left; reflexivity|right; eauto]. }
  destruct De as [l line Ss|g id e ps w w' l more Hg Hw D Lw|l u Nu].
  - destruct M as [[-> ->]|R].
    + apply statuses_nil in Ss. destruct He as [e [es' ->]]. rewrite Ss in Pe. cbn [app silence map items] in Pe.
      apply (Fl (RIo (IoTimeout e)) (items (silence es'))). rewrite Pe. apply ideal_timeout. lia.
    + destruct (rest_reads St b cap k s1 l es vs vs' Hc H1 Hk Le ltac:(congruence) R) as [x [s' [Er Tl]]].
      { rewrite Ls, Pe. apply (statuses_app _ _ _ [] _ Ss). }
      exists x. split; [rewrite E1, Er in E; congruence|]. left. exists l. auto.
  - rewrite Ls, Pe in Fl. destruct (damaged_ideal (length (b_rbuf c)) g w w' (map inl more ++ items (silence es)) ltac:(lia) Hg Lw D) as [er Id].
    apply (Fl er (map inl more ++ items (silence es))). revert Id. rewrite !map_app, <- !app_assoc. exact (fun z => z).
  - rewrite Ls, Pe in Fl. destruct He as [e [es' ->]]. cbn [silence map items] in Fl.
    destruct (noise_ideal (length (b_rbuf c)) u (IoTimeout e) (items (silence es')) ltac:(lia) Nu) as [er [p' Id]].
    apply (Fl er p'). exact Id.
Qed.

Lemma L_C85_truthful : forall St (b : behaviour St) cap k c vs o c' vs', 16 <= cap -> ready cap c -> sensible k ->
  single k -> passes ff_runs_ok cap (text k) -> suffers b k c vs o c' vs' ->
  exists x, o = Val x /\
    ((exists l, runs b (meaning k) vs vs' l /\ told k l x) \/
     (fails x /\ (vs' = vs \/ exists l, runs b (meaning k) vs vs' l))).
Proof.
  intros St b cap k c vs o c' vs' Hc H Hk Sk Ps Su.
  apply (suffers_step St b cap k c vs o c' vs' Hc (ready_hardy _ _ H) Hk Sk Ps Su).
Qed.

Lemma endures_attempts : forall St (b : behaviour St) cap ks c vs os c' vs', 16 <= cap -> hardy cap c ->
  Forall (fun k => sensible k /\ single k /\ passes ff_runs_ok cap (text k)) ks ->
  endures b c vs ks os c' vs' -> attempts b vs ks os vs'.
Proof.
  intros St b cap ks c vs os c' vs' Hc H F S. revert H F.
  induction S as [c vs|c vs k o c1 vs1 ks os c2 vs2 Su S IH]; intros H F; [constructor|].
  inversion F as [|? ? [Hk [Sk Ps]] F']; subst.
  destruct (suffers_step St b cap k c vs o c1 vs1 Hc H Hk Sk Ps Su) as [H' [x [-> [[l [R T]]|[Fx [->|[l R]]]]]]].
  - eapply attempts_done; [exact R|exact T|apply IH; assumption].
  - apply attempts_unheard; [exact Fx|apply IH; assumption].
  - eapply attempts_unknown; [exact R|exact Fx|apply IH; assumption].
Qed.

Lemma L_C85_session : forall St (b : behaviour St) cap ks c vs os c' vs', 16 <= cap -> ready cap c ->
  Forall (fun k => sensible k /\ single k /\ passes ff_runs_ok cap (text k)) ks ->
  endures b c vs ks os c' vs' -> attempts b vs ks os vs'.
Proof.
  intros St b cap ks c vs os c' vs' Hc H F S.
  exact (endures_attempts St b cap ks c vs os c' vs' Hc (ready_hardy _ _ H) F S).
Qed.

(** ** Trying again *)

Lemma obey_twice : forall St (b : behaviour St) id c vs, idempotent b c -> obey b id c (obey b id c vs) = obey b id c vs.
Proof.
  intros St b id c vs I. unfold obey. rewrite map_map. apply map_ext. intro v. destruct (beq (v_id v) id) eqn:B.
  - cbn [obeys v_id v_state]. rewrite B. unfold obeys. cbn [v_id v_state]. rewrite I. reflexivity.
  - rewrite B. reflexivity.
Qed.

Lemma attempts_repeat : forall St (b : behaviour St) k id c n vs os vs', meaning k = ToOne id c -> idempotent b c ->
  attempts b vs (repeat k n) os vs' ->
  (vs' = vs \/ vs' = obey b id c vs) /\
  ((exists x, In (Val x) os /\ succeeds x) -> vs' = obey b id c vs).
Proof.
  intros St b k id c n. induction n as [|n IH]; intros vs os vs' Mk I A; cbn [repeat] in A;
    inversion A as [|? ? l x vs1 ? os1 ? R T A1|? ? l x vs1 ? os1 ? R T A1|? ? x ? os1 ? Fx A1]; subst.
  - split; [left; reflexivity|]. intros [x [[] _]].
  - rewrite Mk in R. inversion R; subst.
    destruct (IH _ _ _ Mk I A1) as [[->| ->] _]; rewrite ?obey_twice by exact I; auto.
  - rewrite Mk in R. inversion R; subst.
    destruct (IH _ _ _ Mk I A1) as [[->| ->] _]; rewrite ?obey_twice by exact I; auto.
  - destruct (IH _ _ _ Mk I A1) as [D K]. split; [exact D|]. intros [y [[E|Hy] Sy]]; [|apply K; eauto].
    exfalso. injection E as ->. destruct Fx as [e Fx].
    destruct Sy as [[r Sy]|[[r Sy]|[r Sy]]]; destruct Fx as [Fx|[Fx|Fx]]; congruence.
Qed.

Lemma L_C85_try_again_partial : forall St (b : behaviour St) cap k id cmd n c vs os c' vs' x, 16 <= cap -> ready cap c -> sensible k ->
  single k -> passes ff_runs_ok cap (text k) -> meaning k = ToOne id cmd -> idempotent b cmd ->
  endures b c vs (repeat k n) os c' vs' -> In (Val x) os -> succeeds x ->
  vs' = obey b id cmd vs.
Proof.
  intros St b cap k id cmd n c vs os c' vs' x Hc H Hk Sk Ps Mk I S Hx Sx.
  assert (F : Forall (fun k => sensible k /\ single k /\ passes ff_runs_ok cap (text k)) (repeat k n)).
  { apply Forall_forall. intros y Hy. apply repeat_spec in Hy. subst y. auto. }
  pose proof (L_C85_session St b cap _ c vs os c' vs' Hc H F S) as A.
  apply (attempts_repeat St b k id cmd n vs os vs' Mk I A). eauto.
Qed.

(** ** What is damage *)

Lemma ideal_framed_good : forall id body w rest m c, framed id body w ->
  ideal (length w + 10) (map inl w ++ rest) <> (Val (Err (RInvalidMessage (IMChecksum m c))), rest).
Proof.
  intros id body w rest m c [crc [-> [Hl Hc]]] E.
  assert (Lc : length (message id body crc) = length body + 9).
  { change (message id body crc) with (wire_of_body id body crc). unfold wire_of_body, header, le16. rewrite !app_length. cbn. lia. }
  pose proof (ideal_message (length (message id body crc) + 10) [] id body crc rest ltac:(lia) empty_no_header (proj1 Hc) Hl ltac:(lia)) as I.
  cbn [app] in I. rewrite I in E. unfold message_event in E.
  apply (proj1 (checksum_iff_crc16 0 _ eq_refl crc)) in Hc.
  replace (_ =? _)%N with true in E by (symmetry; apply N.eqb_eq; exact Hc).
  destruct (unst 0 body); discriminate E.
Qed.

Lemma L_C85_damage : forall id body w w', corruption_of id body w w' ->
  (Nat.odd (weight (diff_bits w w')) = true \/
   ((N.of_nat (length w) <= 4095)%N /\ weight (diff_bits w w') = 2) \/
   (burst 16 (diff_bits w w') /\ skipn (length w - 2) w' = skipn (length w - 2) w)) ->
  damaged w w'.
Proof.
  intros id body w w' C K. exists id, body. split; [exact C|]. intros [q Q].
  destruct (corrupted_ideal (length w + 10) [] id body w w' [] ltac:(lia) empty_no_header ltac:(lia) C K) as [m [c [_ I]]].
  destruct (corruption_shape _ _ _ _ C) as [id' [body' [crc [crc' [Ew [Em [Ew' [Lb [Hl [Hc [Hc' Ec]]]]]]]]]]].
  apply (proj1 (code_word_iff _ crc Hc)) in Ec. rewrite <- Ew in Ec. destruct Ec as [q0 E0].
  assert (F : framed id' body' w').
  { assert (E : crc' = calculate_checksum 0 (msg_head id' (N.of_nat (length body' + 2)) ++ body')).
    { rewrite Lb. apply code_word_iff; [exact Hc'|]. rewrite <- Ew'. exists (N.lxor q0 q).
      rewrite <- clmul_lxor, <- E0, <- Q, <- N.lxor_assoc, N.lxor_nilpotent, N.lxor_0_l. reflexivity. }
    exists crc'. split; [exact Em|]. split; [rewrite Lb; exact Hl|]. apply checksum_iff_crc16; [reflexivity|exact E]. }
  replace (length w) with (length w') in I by exact (proj1 (proj2 C)).
  exact (ideal_framed_good id' body' w' [] m c F I).
Qed.

(** ** A motor that counts *)

Definition counter : behaviour nat := fun n c => (S n, Some (x00, [])).

Lemma silence_is_noise : noise [].
Proof.
  intros id body w [crc [-> _]] [a [b E]]. destruct a; discriminate E.
Qed.

Lemma passes_action : passes ff_runs_ok 64 (text (KAction x01)).
Proof. split; [cbn; lia|]. split; [reflexivity|]. cbn. repeat split. Qed.

Definition wire_of_action : list byte := frame x01 [x05].

Lemma lost_answer : exists c', suffers counter (KAction x01) (fresh true [] 64 64) [mkServo x01 0]
  (Val (Told (RepDone (Err (TReadError (RIo (IoTimeout 7))))))) c' [mkServo x01 1] /\
  suffers counter (KAction x01) c' [mkServo x01 1]
  (Val (Told (RepDone (Ok (mkResponse x01 false tt))))) (snd (issue (KAction x01) (set_script c' (RdData (frame x01 [x55; x00]) :: silence [7%N; 7%N])))) [mkServo x01 2].
Proof.
  exists (snd (issue (KAction x01) (set_script (fresh true [] 64 64) ([] ++ silence [7%N; 7%N])))). split.
  - eapply (suffers_call counter _ _ _ [] [7%N; 7%N] _ _ _ _ [(x01, x00, [])]).
    + vm_compute; lia.
    + vm_compute. reflexivity.
    + vm_compute. reflexivity.
    + apply arrives_whole.
    + apply (react_obey counter _ x01 [x05] (ToOne x01 CmdAction)).
      * match goal with |- is_frame _ _ ?w => replace w with wire_of_action by (vm_compute; reflexivity) end. apply frame_ok. reflexivity.
      * apply (sp_action x01).
      * apply (runs_one counter x01 CmdAction [mkServo x01 0]).
    + apply (delivered_lost _ _ []). apply silence_is_noise.
  - eapply (suffers_call counter _ _ _ [RdData (frame x01 [x55; x00])] [7%N; 7%N] _ _ _ _ [(x01, x00, [])]).
    + vm_compute; lia.
    + vm_compute. reflexivity.
    + vm_compute. reflexivity.
    + apply arrives_whole.
    + apply (react_obey counter _ x01 [x05] (ToOne x01 CmdAction)).
      * match goal with |- is_frame _ _ ?w => replace w with wire_of_action by (vm_compute; reflexivity) end. apply frame_ok. reflexivity.
      * apply (sp_action x01).
      * apply (runs_one counter x01 CmdAction [mkServo x01 1]).
    + apply delivered_whole. cbn [items]. apply (sts_cons _ [] x01 x00 [] (frame x01 [x55; x00])).
      * apply empty_no_header.
      * apply (frame_ok x01 [x55; x00] eq_refl).
      * cbn. auto.
      * vm_compute. lia.
      * constructor.
Qed.

Lemma L_C85_exactly_once_refuted : ~ (forall St (b : behaviour St) cap k id cmd n c vs os c' vs' x, 16 <= cap -> ready cap c -> sensible k ->
  single k -> passes ff_runs_ok cap (text k) -> meaning k = ToOne id cmd ->
  endures b c vs (repeat k n) os c' vs' -> In (Val x) os -> succeeds x ->
  vs' = obey b id cmd vs).
Proof.
  intro H. destruct lost_answer as [c1 [S1 S2]].
  assert (E : [mkServo x01 2] = obey counter x01 CmdAction [mkServo x01 0]).
  { refine (H nat counter 64 (KAction x01) x01 CmdAction 2 (fresh true [] 64 64) _ _ _ _ (Told (RepDone (Ok (mkResponse x01 false tt))))
      ltac:(lia) fresh_ready I _ passes_action eq_refl _ _ _).
    - discriminate.
    - eapply endures_cons; [exact S1|]. eapply endures_cons; [exact S2|]. apply endures_nil.
    - right. left. reflexivity.
    - right. right. eauto. }
  discriminate E.
Qed.

(** ** A damaged answer *)

Definition answer_05_06 : list byte := frame x01 [x55; x80; x05; x06].
Definition answer_05_07 : list byte := firstn 10 answer_05_06 ++ x07 :: skipn 11 answer_05_06.

Lemma answer_damaged : damaged answer_05_06 answer_05_07.
Proof.
  apply (L_C85_damage x01 [x55; x80; x05; x06]).
  - split; [apply raw_frame_ok; reflexivity|]. split; [|split]; vm_compute; reflexivity.
  - left. vm_compute. reflexivity.
Qed.

Lemma damaged_read : exists e c', suffers notebook (KRead x01 64 2) (fresh true [] 64 64) [mkServo x01 [x05; x06]]
  (Val (Told (RepData (Err (TReadError (RInvalidMessage e)))))) c' [mkServo x01 [x05; x06]].
Proof.
  do 2 eexists. eapply (suffers_call notebook _ _ _ [RdData answer_05_07] [7%N; 7%N] _ _ _ _ [(x01, x80, [x05; x06])]).
  - vm_compute; lia.
  - vm_compute. reflexivity.
  - vm_compute. reflexivity.
  - apply arrives_whole.
  - apply (react_obey notebook _ x01 (x02 :: le16 64 ++ le16 2) (ToOne x01 (CmdRead 64 2))).
    + match goal with |- is_frame _ _ ?w => replace w with (frame x01 (x02 :: le16 64 ++ le16 2)) by (vm_compute; reflexivity) end.
      apply frame_ok. reflexivity.
    + apply (sp_read x01); first [reflexivity|discriminate].
    + apply (runs_one notebook x01 (CmdRead 64 2) [mkServo x01 [x05; x06]]).
  - cbn [items]. rewrite app_nil_r, <- (app_nil_r answer_05_07). apply (delivered_damaged _ [] x01 x80 [x05; x06] answer_05_06).
    + apply empty_no_header.
    + apply frame_ok. reflexivity.
    + apply answer_damaged.
    + vm_compute. lia.
Qed.

(** ** Motors *)

Lemma L_C85_not_obeyed : forall St (b : behaviour St) w heard vs vs' l, damaged w heard \/ noise heard ->
  react b heard vs vs' l -> vs' = vs /\ l = [].
Proof.
  intros St b w heard vs vs' l D R. destruct R as [id body p vs vs' l Fr _ _|vs _]; [|auto].
  exfalso. destruct D as [D|N]; [exact (damaged_no_message _ _ D _ _ (frame_framed _ _ _ Fr))|exact (noise_no_message _ N _ _ (frame_framed _ _ _ Fr))].
Qed.
