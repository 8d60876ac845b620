(** * SurviveTheorems: life after a panic (C70) *)
From Coq Require Import ZArith ZifyN ZifyNat ZifyBool.
From Verif Require Import Base Endian Error Checksum Bytestuff Packet Time Bus Data Client
  Instructions Device MockDevice Api Spec CallSpec StreamSpec DeviceSpec InstructionSpec Demo Lib ChecksumProofs
  CrcErrorProofs StuffProofs WriteProofs ReadProofs ApiProofs StreamProofs MessageProofs SendProofs
  SendTheorems ReadTheorems StatusProofs DeviceTheorems InstructionProofs DemoProofs TransferTheorems
  UnderstoodTheorems TwinSpec TwinProofs TwinTheorems RemoteSpec RemoteProofs RemoteTheorems TurnSpec TurnTheorems
  ConformSpec ConformTheorems SurviveSpec.
Ltac Zify.zify_post_hook ::= Z.div_mod_to_equations.

Lemma scribbled_inv : forall s s', inv s -> scribbled s s' -> inv s'.
Proof.
  intros s s' [[I1 I2] I3] [w [r [-> [L1 [F1 [L2 F2]]]]]]. destruct I3 as [I3 I4].
  split; [split; cbn; rewrite ?L2; assumption|]. split; [cbn; rewrite L1; exact I3|exact (eq_trans F1 I4)].
Qed.

Lemma survives_inv : forall s, survives s -> inv s.
Proof.
  intros s H. induction H as [dbg p rb wb baud s E|A m s a s' H IH Ha E|A m s k s' s'' H IH Ha E Sc].
  - apply (new_inv _ _ _ _ _ _ E).
  - apply (api_keeps _ _ Ha _ _ _ IH E).
  - eapply scribbled_inv; [|exact Sc]. apply (api_keeps _ _ Ha _ _ _ IH E).
Qed.

Lemma L_C70_bookkeeping : forall s, survives s ->
  b_used s <= b_rlen s /\ b_rlen s <= length (b_rbuf s) /\ 10 <= length (b_wbuf s) /\ firstn 4 (b_wbuf s) = header.
Proof. intros s H. destruct (survives_inv _ H) as [[I1 I2] [I3 I4]]. auto. Qed.

Lemma skipn_firstn_unread : forall (l r : list byte) a b, length l = length r -> skipn a l = skipn a r ->
  skipn a (firstn b l) = skipn a (firstn b r).
Proof. intros l r a b L E. rewrite !skipn_firstn_comm, E. reflexivity. Qed.

Lemma scribbled_twins : forall s s', scribbled s s' -> twins s s'.
Proof.
  intros s s' [w [r [-> [L1 [F1 [L2 F2]]]]]]. constructor; try reflexivity; try (symmetry; assumption).
  apply skipn_firstn_unread; symmetry; assumption.
Qed.

Lemma L_C70_contents_have_no_effect : forall R (p : program R) s t o evs s', survives s -> survives t -> twins s t ->
  TwinSpec.runs p s o evs s' -> exists t', TwinSpec.runs p t o evs t' /\ twins s' t'.
Proof.
  intros R p s t o evs s' Hs Ht T H.
  destruct (tw_runs _ _ _ _ _ _ H t (mkTw _ _ T (survives_inv _ Hs) (survives_inv _ Ht))) as [t' [K1 K2]].
  exists t'. split; [exact K1|apply K2].
Qed.

(** ** A panic while writing *)

Lemma write_value_panic : forall s id i params k s', write_value s id i params = (Panic k, s') -> s' = s.
Proof.
  intros s id i params k s' E. unfold write_value in E. cbv zeta in E.
  destruct (_ <? _); [discriminate|]. destruct (build_result _ _ _); [| |congruence].
  - unfold transmit in E. destruct (hd None _); discriminate.
  - discriminate.
Qed.

Lemma as_if_not_called : forall s s1, inv s -> scribbled s s1 ->
  forall R (p : program R) o evs s2, TwinSpec.runs p s o evs s2 -> exists s3, TwinSpec.runs p s1 o evs s3 /\ twins s2 s3.
Proof.
  intros s s1 I Sc R p o evs s2 H.
  destruct (tw_runs _ _ _ _ _ _ H s1 (mkTw _ _ (scribbled_twins _ _ Sc) I (scribbled_inv _ _ I Sc))) as [t' [K1 K2]].
  exists t'. split; [exact K1|apply K2].
Qed.

Lemma L_C70_panic_while_writing : forall s id i n enc k s' s1, survives s -> encoder_ok enc ->
  write_instruction id i n enc s = (Panic k, s') -> scribbled s' s1 ->
  calls s s1 [] /\ forall R (p : program R) o evs s2, TwinSpec.runs p s o evs s2 ->
    exists s3, TwinSpec.runs p s1 o evs s3 /\ twins s2 s3.
Proof.
  intros s id i n enc k s' s1 H He E Sc. pose proof (survives_inv _ H) as I.
  assert (s' = s) as ->.
  { unfold write_instruction in E. rewrite write_packet_gen in E by (apply I || exact He). unfold write_gen in E. cbv zeta in E.
    destruct (_ <? _)%N; [congruence|]. destruct (_ <? _); [discriminate|].
    destruct (enc _) as [[ps [u|e]]|q|]; try congruence. apply (write_value_panic _ _ _ _ _ _ E). }
  split; [|apply as_if_not_called; assumption].
  destruct Sc as [w [r [-> _]]]. unfold calls. cbn. rewrite app_nil_r. reflexivity.
Qed.

Lemma L_C70_panic_while_answering : forall s id e n enc k s' s1, survives s -> encoder_ok enc ->
  device_write_status id e n enc s = (Panic k, s') -> scribbled s' s1 ->
  calls s s1 [] /\ forall R (p : program R) o evs s2, TwinSpec.runs p s o evs s2 ->
    exists s3, TwinSpec.runs p s1 o evs s3 /\ twins s2 s3.
Proof.
  intros s id er n enc k s' s1 H He E Sc. pose proof (survives_inv _ H) as I.
  assert (s' = s) as ->.
  { unfold device_write_status in E. rewrite write_status_gen_ok in E by (apply I || exact He). unfold write_status_gen in E. cbv zeta in E.
    destruct (_ <? _)%N; [congruence|]. destruct (_ <? _); [discriminate|].
    destruct (enc _) as [[ps [u|e]]|q|]; try congruence. apply (write_value_panic _ _ _ _ _ _ E). }
  split; [|apply as_if_not_called; assumption].
  destruct Sc as [w [r [-> _]]]. unfold calls. cbn. rewrite app_nil_r. reflexivity.
Qed.

(** ** A panic while reading *)

Lemma scribbled_pending : forall s s', scribbled s s' -> pending s' = pending s.
Proof.
  intros s s' Sc. pose proof (scribbled_twins _ _ Sc) as T. unfold pending. rewrite (tw_unread _ _ T), (tw_script _ _ T). reflexivity.
Qed.

Lemma status_panic_inv : forall cap p o1 p' k, 10 <= cap -> ideal cap p = (o1, p') -> status_of o1 = Panic k ->
  exists g w, ~ contains g header /\ fatal w /\ p = map inl (g ++ w) ++ p'.
Proof.
  intros cap p o1 p' k L K E1. destruct o1 as [[pk|e]|pn|]; cbn [status_of] in E1; try discriminate E1.
  - destruct (ideal_ok_inv _ _ _ _ K) as [_ [g [id [body [w [G [F [Hc [Hb [P Pk]]]]]]]]]].
    exists g, w. split; [exact G|]. split; [|exact P]. exists id, body. split; [|exact F].
    right. pose proof (packet_head id (N.of_nat (length body + 2)) (unst 0 body)) as Hp. rewrite <- Pk in Hp.
    destruct body as [|b body]; [contradiction|]. rewrite unst_first in Hp.
    destruct (Byte.byte_eq_dec b STATUS) as [->|Ne].
    2:{ rewrite (status_check_other _ _ _ _ Hp Ne) in E1. discriminate. }
    destruct body as [|b body]; [reflexivity|]. exfalso. cbn [unst] in Hp.
    change (udel (unext 0 STATUS) b) with false in Hp. cbv iota in Hp.
    rewrite (status_check_status _ _ _ _ Hp) in E1. destruct (_ =? _)%N in E1; discriminate.
  - apply (proj1 (ideal_panic_iff _ _ _ _ L)) in K. destruct K as [_ [g [id [w [G [F P]]]]]].
    exists g, w. split; [exact G|]. split; [|exact P]. exists id, []. auto.
Qed.

Lemma L_C70_panic_while_reading : forall s t k s' s1, survives s -> 10 <= length (b_rbuf s) ->
  read_status_response_timeout t s = (Panic k, s') -> scribbled s' s1 ->
  exists g w rest, ~ contains g header /\ fatal w /\ pending s = map inl (g ++ w) ++ rest /\ pending s1 = rest.
Proof.
  intros s t k s' s1 H L E Sc.
  destruct (read_status_timeout_spec _ _ _ _ (survives_inv _ H) E) as [o1 [K [Ho _]]].
  destruct (status_panic_inv _ _ _ _ k L K (eq_sym Ho)) as [g [w [G [F P]]]].
  exists g, w, (pending s'). rewrite (scribbled_pending _ _ Sc). auto.
Qed.

Lemma L_C70_panic_of_a_device : forall s t k s' s1, survives s -> 10 <= length (b_rbuf s) ->
  device_read t s = (Panic k, s') -> scribbled s' s1 ->
  exists line g id w rest, skips (length (b_rbuf s)) (pending s) line /\ ~ contains g header /\ framed id [] w /\
    line = map inl (g ++ w) ++ rest /\ pending s1 = rest.
Proof.
  intros s t k s' s1 H L E Sc. rewrite (scribbled_pending _ _ Sc).
  destruct (device_read_spec _ _ _ _ (survives_inv _ H) E) as [o1 [K1 [K2 [K3 K4]]]].
  destruct (listens_inv _ _ _ _ K1) as [line [Sk [[pk [i [-> [I1 [I2 I3]]]]]|[I1 I2]]]].
  - exfalso. destruct (ideal_ok_packet _ _ _ _ I1) as [id [body [Hb [C Pk]]]].
    destruct body as [|i' params]; [contradiction|].
    destruct (try_from_no_panic _ _ _ _ Pk) as [r Er]. rewrite Er in K4. discriminate K4.
  - destruct o1 as [[pk|e]|pn|]; try discriminate K4. { exfalso. apply (I2 pk). reflexivity. }
    apply (proj1 (ideal_panic_iff _ _ _ _ L)) in I1. destruct I1 as [_ [g [id [w [G [F P]]]]]].
    exists line, g, id, w, (pending s'). auto.
Qed.

(** ** The next call *)

Lemma still_ready_hardy : forall cap s, still_ready cap s -> hardy cap s.
Proof. intros cap s [R [D [W [B [B2 [L1 L2]]]]]]. constructor; auto. apply survives_inv, R. Qed.

Lemma L_C70_still_in_control : forall St (b : behaviour St) cap k c vs o c' vs', 16 <= cap -> still_ready cap c -> sensible k ->
  ~ clears_error k -> passes ff_runs_ok cap (text k) -> controls b k c vs o c' vs' ->
  exists l x, ConformSpec.runs b (meaning k) vs vs' l /\ o = Val x /\ told k l x.
Proof.
  intros St b cap k c vs o c' vs' Hc H Hk Ne Ps Co.
  destruct (control_step St b cap k c vs o c' vs' Hc (still_ready_hardy _ _ H) Hk Ne Ps Co) as [_ K]. exact K.
Qed.

(** ** Iterators that are dropped while the stack is unwound *)

Lemma contains_drop : forall x a w, contains a w -> contains (x ++ a) w.
Proof. intros x a w [p [q ->]]. exists (x ++ p), q. rewrite <- app_assoc. reflexivity. Qed.

Lemma bytes_in_app : forall a b, bytes_in (a ++ b) = bytes_in a ++ bytes_in b.
Proof. induction a as [|[x|e] a IH]; intro b; cbn [app bytes_in]; [reflexivity| |]; rewrite IH; reflexivity. Qed.

Lemma bytes_in_inl : forall a, bytes_in (map inl a) = a.
Proof. induction a as [|x a IH]; cbn [map bytes_in]; [reflexivity|]. rewrite IH. reflexivity. Qed.

Lemma clean_suffix : forall u, exists x, u = x ++ clean u.
Proof. intro u. destruct (clean_split u) as [E _]. eauto. Qed.

Lemma next_event_suffix : forall cap u ev r, next_event cap u = Some (ev, r) -> exists x, u = x ++ r.
Proof.
  intros cap u ev r N. destruct (clean_suffix u) as [x Hx]. pose proof (next_event_front cap u) as F. rewrite N in F.
  enough (S : exists y, clean u = y ++ r) by (destruct S as [y Hy]; exists (x ++ y); rewrite <- app_assoc, <- Hy; exact Hx).
  inversion F; subst.
  - eauto.
  - eauto.
  - exists (msg_head id n ++ firstn (N.to_nat n) r0). rewrite <- app_assoc, firstn_skipn. assumption.
Qed.

Lemma ideal_suffix : forall cap p o p', ideal cap p = (o, p') -> exists x, bytes_in p = x ++ bytes_in p'.
Proof.
  intros cap p o p' E. unfold ideal in E. destruct (cap <? 10). { injection E as _ <-. exists []. reflexivity. }
  assert (B : bytes_in p = upto p ++ bytes_in (from_err p)) by (rewrite (upto_split p) at 1; rewrite bytes_in_app, bytes_in_inl; reflexivity).
  rewrite B.
  destruct (next_event cap (upto p)) as [[ev r]|] eqn:N.
  - injection E as _ <-. destruct (next_event_suffix _ _ _ _ N) as [x ->].
    exists x. rewrite bytes_in_app, bytes_in_inl, app_assoc. reflexivity.
  - destruct (clean_suffix (upto p)) as [x Hx].
    destruct (from_err_nf p) as [Ef|[e [q Ef]]]; rewrite Ef in *; injection E as _ <-.
    + exists x. rewrite bytes_in_inl. cbn [bytes_in]. rewrite app_nil_r. exact Hx.
    + exists x. rewrite bytes_in_app, bytes_in_inl. cbn [bytes_in]. rewrite app_assoc. f_equal. exact Hx.
Qed.

Lemma calm_suffix : forall p p' x, bytes_in p = x ++ bytes_in p' -> calm p -> calm p'.
Proof. intros p p' x E C w F K. apply (C w F). rewrite E. apply contains_drop, K. Qed.

(** Does not panic on a calm line, and leaves it calm. *)
Definition peaceful {A} (cap : nat) (m : M A) : Prop := forall s, hardy cap s -> calm (pending s) ->
  match m s with
  | (Panic _, _) => False
  | (Blocked, _) => True
  | (Val _, s') => hardy cap s' /\ calm (pending s')
  end.

Lemma peaceful_ret : forall A cap (a : A), peaceful cap (ret a).
Proof. intros A cap a s H C. cbn. auto. Qed.

Lemma peaceful_bind : forall A B cap (m : M A) (k : A -> M B), peaceful cap m -> (forall a, peaceful cap (k a)) -> peaceful cap (bind m k).
Proof.
  intros A B cap m k Hm Hk s H C. unfold bind. specialize (Hm s H C).
  destruct (m s) as [[a|p|] s1]; [apply Hk; apply Hm|exact Hm|exact I].
Qed.

Lemma peaceful_read : forall cap n, 10 <= cap -> is_u16 n -> peaceful cap (read_status_response n).
Proof.
  intros cap n Hc Hn s H C. destruct (rsr_hardy cap n s H Hn) as [o1 [s' [E [Id H']]]]. rewrite E.
  destruct (status_of o1) as [r|k|] eqn:So; [|exfalso|exact I].
  - split; [exact H'|]. destruct (ideal_suffix _ _ _ _ Id) as [x Hx]. apply (calm_suffix _ _ x Hx C).
  - pose proof (ha_rcap _ _ H). destruct (status_panic_inv (length (b_rbuf s)) _ _ _ k ltac:(lia) Id So) as [g [w [_ [F P]]]].
    apply (C w F). rewrite P, bytes_in_app, bytes_in_inl. exists g, (bytes_in (pending s')). rewrite <- app_assoc. reflexivity.
Qed.

Lemma peaceful_srb_drop : forall cap it, 10 <= cap -> is_u16 (srb_count it) -> peaceful cap (srb_drop it).
Proof.
  intros cap it Hc Hn. unfold srb_drop. generalize (length (srb_ids it) - srb_index it) as n. intro n. revert it Hn.
  induction n as [|n IH]; intros it Hn; cbn [srb_drop_loop]; [apply peaceful_ret|].
  unfold srb_pop. destruct (nth_error _ _); [|apply peaceful_ret].
  apply peaceful_bind; [apply peaceful_read; assumption|]. intros _. apply IH. exact Hn.
Qed.

Lemma peaceful_br_drop : forall cap it, 10 <= cap -> Forall (fun q => is_u16 (br_count q)) (br_reads it) ->
  br_index it <= length (br_reads it) -> peaceful cap (br_drop it).
Proof.
  intros cap it Hc Hn Hi. unfold br_drop. replace (_ <=? _) with true by lia.
  assert (F : Forall (fun q => is_u16 (br_count q)) (skipn (br_index it) (br_reads it))).
  { rewrite <- (firstn_skipn (br_index it) (br_reads it)) in Hn. apply Forall_app in Hn. apply Hn. }
  induction F as [|q l Hq F IH]; cbn [br_drop_loop]; [apply peaceful_ret|].
  apply peaceful_bind; [apply peaceful_read; assumption|]. intros _. exact IH.
Qed.

Lemma expect_state : forall id n s o s1, expect_response id n s = (o, s1) -> s1 = snd (read_status_response n s).
Proof.
  intros id n s o s1 E. unfold expect_response, try_, bind in E.
  destruct (read_status_response n s) as [[[p|e]|k|] s']; cbn [snd]; try (injection E; auto).
  unfold tryr, lift in E. destruct (pk_id p) as [rid|q|]; try (injection E; auto).
  destruct (packet_id_check rid id); [|injection E; auto].
  destruct (st_parameters p) as [ps|q|]; try (injection E; auto).
  destruct (param_count_check _ _); injection E; auto.
Qed.

Lemma expect_hardy : forall cap id n s o s1, hardy cap s -> is_u16 n -> expect_response id n s = (o, s1) -> hardy cap s1.
Proof.
  intros cap id n s o s1 H Hn E. apply expect_state in E. subst s1.
  destruct (rsr_hardy cap n s H Hn) as [o1 [s' [E [_ H']]]]. rewrite E. exact H'.
Qed.

Lemma L_C70_unwinding_sync_partial : forall cap it s k s1, 10 <= cap -> still_ready cap s -> is_u16 (srb_count it) ->
  srb_next it s = (Panic k, s1) -> calm (pending s1) ->
  forall k' s2, srb_drop (snd (srb_pop it)) s1 <> (Panic k', s2).
Proof.
  intros cap it s k s1 Hc H Hn E C k' s2 K. apply still_ready_hardy in H. unfold srb_next in E.
  unfold srb_pop in *. destruct (nth_error (srb_ids it) (srb_index it)) as [id|]; [|discriminate].
  unfold bind, ret in E. destruct (expect_response id (srb_count it) s) as [[r|q|] s'] eqn:X; try discriminate.
  injection E as -> ->. apply (expect_hardy cap) in X; [|exact H|exact Hn].
  pose proof (peaceful_srb_drop cap (mkSRB (srb_count it) (srb_ids it) (S (srb_index it))) Hc Hn s1 X C) as P.
  cbn [snd] in K. rewrite K in P. exact P.
Qed.

Lemma L_C70_unwinding_bulk_partial : forall cap it s k s1, 10 <= cap -> still_ready cap s ->
  Forall (fun q => is_u16 (br_count q)) (br_reads it) -> br_next it s = (Panic k, s1) -> calm (pending s1) ->
  forall k' s2, br_drop (snd (br_pop it)) s1 <> (Panic k', s2).
Proof.
  intros cap it s k s1 Hc H Hn E C k' s2 K. apply still_ready_hardy in H. unfold br_next in E.
  unfold br_pop in *. destruct (nth_error (br_reads it) (br_index it)) as [q|] eqn:Nq; [|discriminate].
  assert (Hq : is_u16 (br_count q)) by (apply nth_error_In in Nq; rewrite Forall_forall in Hn; apply Hn, Nq).
  assert (Hi : br_index it < length (br_reads it)) by (apply nth_error_Some; congruence).
  unfold bind, ret in E. destruct (expect_response (br_id q) (br_count q) s) as [[r|x|] s'] eqn:X; try discriminate.
  injection E as -> ->. apply (expect_hardy cap) in X; [|exact H|exact Hq].
  pose proof (peaceful_br_drop cap (mkBR (br_reads it) (S (br_index it))) Hc Hn Hi s1 X C) as P.
  cbn [snd] in K. rewrite K in P. exact P.
Qed.

(** A message with nothing in it. *)
Definition void_message : list byte := wire_of_body x01 [] (calculate_checksum 0 (msg_head x01 2)).

Lemma void_fatal : fatal void_message.
Proof.
  exists x01, []. split; [left; reflexivity|]. exists (calculate_checksum 0 (msg_head x01 2)).
  split; [reflexivity|]. split; [reflexivity|]. apply checksum_iff_crc16; reflexivity.
Qed.

Definition two_voids : bus := fresh true [RdData (void_message ++ void_message)] 64 64.

Lemma two_voids_ready : still_ready 64 two_voids.
Proof.
  split; [apply (sv_new true (mkPort [RdData (void_message ++ void_message)] [] [] [] 0 []) (repeat x00 64) (repeat x00 64) 57600); reflexivity|].
  split; [reflexivity|]. split; [reflexivity|]. split; [discriminate|]. split; [reflexivity|]. split; vm_compute; lia.
Qed.

Lemma L_C70_unwinding_refuted : ~ (forall cap it s k s1, 10 <= cap -> still_ready cap s -> is_u16 (srb_count it) ->
  srb_next it s = (Panic k, s1) -> forall k' s2, srb_drop (snd (srb_pop it)) s1 <> (Panic k', s2)).
Proof.
  intro H. specialize (H 64 (mkSRB 4 [x01; x02] 0) two_voids).
  destruct (srb_next (mkSRB 4 [x01; x02] 0) two_voids) as [o s1] eqn:E. vm_compute in E. injection E as <- <-.
  refine (H _ _ ltac:(lia) two_voids_ready eq_refl eq_refl _ _ _). vm_compute. reflexivity.
Qed.

(** ** Examples *)

Lemma scribbled_refl : forall s, scribbled s s.
Proof. intro s. exists (b_wbuf s), (b_rbuf s). destruct s. auto. Qed.

(** A void message and an answer arrive together. *)
Definition void_then_answer : bus := fresh true [RdData (void_message ++ frame x01 [STATUS; x00; x2a])] 64 64.

Lemma void_then_answer_survives : survives void_then_answer.
Proof.
  apply (sv_new true (mkPort [RdData (void_message ++ frame x01 [STATUS; x00; x2a])] [] [] [] 0 []) (repeat x00 64) (repeat x00 64) 57600).
  reflexivity.
Qed.

Lemma answer_calm : calm (map inl (frame x01 [STATUS; x00; x2a])).
Proof.
  intros w [id [body [Hb [crc [-> _]]]]] [a [b K]]. rewrite bytes_in_inl in K.
  assert (N : exists n, (n = x02 \/ n = x03) /\ exists r, message id body crc ++ b = header ++ id :: n :: x00 :: r).
  { destruct Hb as [->| ->]; [exists x02|exists x03]; (split; [auto|]); eexists; unfold message, wire_of_body;
      rewrite <- !app_assoc; reflexivity. }
  destruct N as [n [Hn [r N]]]. rewrite N in K. clear N crc Hb.
  assert (L : length a <= 5).
  { apply (f_equal (@length byte)) in K. rewrite app_length in K. cbn in K. lia. }
  assert (V : exists f, f = frame x01 [STATUS; x00; x2a] /\ f = [xff; xff; xfd; x00; x01; x05; x00; x55; x00; x2a; xac; xa1])
    by (eexists; split; [reflexivity|vm_compute; reflexivity]).
  destruct V as [f [V1 V2]]. rewrite <- V1, V2 in K. clear V1 V2.
  destruct a as [|? [|? [|? [|? [|? [|? a]]]]]]; cbn [app header length] in K, L; try lia; try discriminate K.
  destruct Hn as [->| ->]; discriminate K.
Qed.

Lemma void_panics : exists s1, read_status_response_timeout dur_34ms void_then_answer = (Panic PIndex, s1) /\
  pending s1 = map inl (frame x01 [STATUS; x00; x2a]) /\
  exists p s2, read_status_response_timeout dur_34ms s1 = (Val (Ok p), s2) /\ st_parameters p = Val [x2a].
Proof. eexists. split; [vm_compute; reflexivity|]. split; [vm_compute; reflexivity|]. do 2 eexists. split; [vm_compute; reflexivity|]. reflexivity. Qed.

Lemma life_goes_on : exists k s1 p s2, survives void_then_answer /\
  read_status_response_timeout dur_34ms void_then_answer = (Panic k, s1) /\ scribbled s1 s1 /\ survives s1 /\ calm (pending s1) /\
  read_status_response_timeout dur_34ms s1 = (Val (Ok p), s2) /\ st_parameters p = Val [x2a].
Proof.
  destruct void_panics as [s1 [E [P [p [s2 [E2 Ps]]]]]]. exists PIndex, s1, p, s2.
  split; [exact void_then_answer_survives|]. split; [exact E|]. split; [apply scribbled_refl|].
  split; [eapply sv_panic; [exact void_then_answer_survives|apply api_read_status_response_timeout|exact E|apply scribbled_refl]|].
  split; [rewrite P; exact answer_calm|]. split; [exact E2|exact Ps].
Qed.

(** A closure of the user that panics. *)
Lemma panicking_closure : exists k s', encoder_ok (fun _ => Panic PExplicit) /\
  write_instruction x01 WRITE 3 (fun _ => Panic PExplicit) void_then_answer = (Panic k, s').
Proof. do 2 eexists. split; [intros ? ? ? K; discriminate K|]. vm_compute. reflexivity. Qed.

Lemma void_then_answer_ready : still_ready 64 void_then_answer.
Proof.
  split; [exact void_then_answer_survives|]. split; [reflexivity|]. split; [reflexivity|]. split; [discriminate|].
  split; [reflexivity|]. split; vm_compute; lia.
Qed.

Lemma one_void : exists s1, srb_next (mkSRB 1 [x02; x01] 0) void_then_answer = (Panic PIndex, s1) /\ calm (pending s1) /\
  exists s2, srb_drop (mkSRB 1 [x02; x01] 1) s1 = (Val tt, s2).
Proof.
  assert (H : exists s1, srb_next (mkSRB 1 [x02; x01] 0) void_then_answer = (Panic PIndex, s1) /\
    pending s1 = map inl (frame x01 [STATUS; x00; x2a]) /\ exists s2, srb_drop (mkSRB 1 [x02; x01] 1) s1 = (Val tt, s2)).
  { eexists. split; [vm_compute; reflexivity|]. split; [vm_compute; reflexivity|]. eexists. vm_compute. reflexivity. }
  destruct H as [s1 [E [P D]]]. exists s1. split; [exact E|]. split; [rewrite P; exact answer_calm|exact D].
Qed.
