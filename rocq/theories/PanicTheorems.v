(** * PanicTheorems: no call panics without a reason (C81) *)
From Coq Require Import ZArith ZifyN ZifyNat ZifyBool.
From Verif Require Import Base Endian Error Checksum Bytestuff Packet Time Bus Data Client
  Instructions Device MockDevice Api Spec CallSpec StreamSpec DeviceSpec DataSpec InstructionSpec Demo Lib ChecksumProofs
  CrcErrorProofs StuffProofs WriteProofs ReadProofs ApiProofs StreamProofs MessageProofs SendProofs
  SendTheorems ReadTheorems StatusProofs DeviceTheorems InstructionProofs DataTheorems DemoProofs TransferTheorems ScanTheorems
  GenericTheorems UnderstoodTheorems TwinSpec TwinProofs TwinTheorems RemoteSpec RemoteProofs RemoteTheorems SurviveSpec SurviveTheorems PanicSpec.
Ltac Zify.zify_post_hook ::= Z.div_mod_to_equations.

Record sane (room : nat) (s : bus) : Prop := mkSane {
  sa_inv : inv s;
  sa_room : length (b_wbuf s) = room;
  sa_baud : b_baud s <> 0%N;
  sa_u32 : (b_baud s < 2 ^ 32)%N;
  sa_calm : calm (pending s);
}.

(** Does not panic, and whatever it returns satisfies [P]. *)
Definition safe {A} (room : nat) (m : M A) (P : A -> Prop) : Prop := forall s, sane room s ->
  match m s with
  | (Panic _, _) => False
  | (Blocked, _) => True
  | (Val a, s') => sane room s' /\ P a
  end.

Definition any {A} (a : A) : Prop := True.
Definition if_ok {A E} (P : A -> Prop) (r : result A E) : Prop := match r with Ok a => P a | Err _ => True end.

Lemma safe_weaken : forall A room (m : M A) (P Q : A -> Prop), (forall a, P a -> Q a) -> safe room m P -> safe room m Q.
Proof. intros A room m P Q H K s S. specialize (K s S). destruct (m s) as [[a|k|] s']; intuition. Qed.

Lemma safe_ret : forall A room (a : A) (P : A -> Prop), P a -> safe room (ret a) P.
Proof. intros A room a P H s S. cbn. auto. Qed.

Lemma safe_lift : forall A room (x : out A) (P : A -> Prop), match x with Val a => P a | Panic _ => False | Blocked => True end ->
  safe room (lift x) P.
Proof. intros A room x P H s S. unfold lift. destruct x; auto. Qed.

Lemma safe_bind : forall A B room (m : M A) (k : A -> M B) (P : A -> Prop) (Q : B -> Prop), safe room m P -> (forall a, P a -> safe room (k a) Q) ->
  safe room (bind m k) Q.
Proof.
  intros A B room m k P Q Hm Hk s S. unfold bind. specialize (Hm s S).
  destruct (m s) as [[a|p|] s1]; [apply Hk; apply Hm|exact Hm|exact I].
Qed.

Lemma safe_try : forall A B E F room (f : E -> F) (m : M (result A E)) (k : A -> M (result B F)) (P : A -> Prop) (Q : B -> Prop),
  safe room m (if_ok P) -> (forall a, P a -> safe room (k a) (if_ok Q)) -> safe room (try_ f m k) (if_ok Q).
Proof.
  intros A B E F room f m k P Q Hm Hk. unfold try_. eapply safe_bind; [exact Hm|]. intros [a|e] H; [apply Hk, H|].
  apply safe_ret. exact I.
Qed.

Lemma safe_tryr : forall A B E F room (f : E -> F) (r : result A E) (k : A -> M (result B F)) (Q : B -> Prop),
  (forall a, r = Ok a -> safe room (k a) (if_ok Q)) -> safe room (tryr f r k) (if_ok Q).
Proof. intros A B E F room f [a|e] k Q H; unfold tryr; [apply H; reflexivity|]. apply safe_ret. exact I. Qed.

(** ** Writing *)

Lemma pending_set_wbuf : forall s w, pending (set_wbuf s w) = pending s.
Proof. reflexivity. Qed.

Lemma calm_script : forall s s', calm (pending s) -> p_script (b_port s') = p_script (b_port s) -> b_used s' = 0 -> b_rlen s' = 0 ->
  calm (pending s').
Proof.
  intros s s' C E U L. eapply calm_suffix; [|exact C]. unfold pending. rewrite E, U, L.
  rewrite !bytes_in_app, !bytes_in_inl. cbn [firstn skipn app]. reflexivity.
Qed.

(** The exact condition for one message. *)
Definition one_fits (room : nat) (i : byte) (params : list byte) : Prop :=
  room < length params + 10 \/
  10 + length params + fcount 0 (i :: params) <= room /\ (N.of_nat (length params + 1 + fcount 0 (i :: params)) + 2 < 2 ^ 16)%N.

Lemma safe_size_fits : forall room i params, safe_size room (length params) -> one_fits room i params.
Proof.
  intros room i params [[H _]|[H1 H2]]; [left; exact H|right].
  pose proof (fcount_third (i :: params)) as F. cbn [length] in F. change (2 ^ 16)%N with 65536%N in *. 
  replace (S (length params)) with (length params + 1) in F by lia. lia.
Qed.

Lemma write_value_safe : forall room s id i params, sane room s -> one_fits room i params ->
  match write_value s id i params with
  | (Panic _, _) => False
  | (Blocked, _) => True
  | (Val _, s') => sane room s'
  end.
Proof.
  intros room s id i params S F. destruct (write_value s id i params) as [o s'] eqn:E.
  pose proof (write_value_evolves _ _ _ _ _ _ (sa_inv _ _ S) E) as [V1 _ V3 _ _].
  destruct S as [S1 S2 S3 S4 S5]. unfold write_value in E. cbv zeta in E. rewrite S2 in *.
  destruct (room <? length params + 10) eqn:L. { injection E as <- <-. constructor; auto. }
  assert (F' : 10 + length params + fcount 0 (i :: params) <= room /\ (N.of_nat (length params + 1 + fcount 0 (i :: params)) + 2 < 2 ^ 16)%N)
    by (destruct F as [F|F]; [lia|exact F]).
  clear F. destruct F' as [F1 F2]. change (2 ^ 16)%N with 65536%N in *.
  unfold build_result in E. cbn [length] in E.
  replace (room <? 7 + S (length params) + fcount 0 (i :: params)) with false in E by lia.
  change (2 ^ 16)%N with 65536%N in E. rewrite N.mod_small in E by lia.
  replace (65536 <=? N.of_nat (S (length params) + fcount 0 (i :: params)) + 2)%N with false in E by lia.
  rewrite andb_false_r in E.
  replace (room <? 9 + S (length params) + fcount 0 (i :: params)) with false in E by lia.
  unfold transmit in E. destruct (hd None _); injection E as <- <-; constructor; auto;
    apply (calm_script s); auto.
Qed.

Lemma safe_write : forall room id i n enc, encoder_ok enc -> safe_closure n enc ->
  (N.of_nat (n + 10) < 2 ^ 64)%N ->
  (forall b params, length b = n -> n + 10 <= room -> enc b = Val (params, Ok tt) -> one_fits room i params) ->
  safe room (write_instruction id i n enc) any.
Proof.
  intros room id i n enc He Hc Hu Hf s S. unfold write_instruction.
  destruct (write_packet id i n enc s) as [o s'] eqn:E.
  pose proof (keeps_write_packet id i n enc He _ _ _ (sa_inv _ _ S) E) as [V1 _ V3 _ _].
  rewrite write_packet_gen in E by (apply (sa_inv _ _ S) || exact He). unfold write_gen in E. cbv zeta in E.
  change usize_max with 18446744073709551615%N in E. change (2 ^ 64)%N with 18446744073709551616%N in Hu.
  replace (18446744073709551615 <? N.of_nat (n + 10))%N with false in E by lia.
  pose proof S as [S1 S2 S3 S4 S5].
  destruct (length (b_wbuf s) <? n + 10) eqn:L. { injection E as <- <-. split; [exact S|exact I]. }
  assert (Lb : length (firstn n (skipn 8 (b_wbuf s))) = n) by (rewrite firstn_length, skipn_length; lia).
  specialize (Hc _ Lb). pose proof (fun ps => Hf _ ps Lb) as Hg.
  destruct (enc (firstn n (skipn 8 (b_wbuf s)))) as [[params [[]|e]]|k|] eqn:EN.
  - specialize (Hg params ltac:(lia) eq_refl). pose proof (write_value_safe room s id i params S Hg) as K. rewrite E in K.
    destruct o; auto. split; [exact K|exact I].
  - injection E as <- <-. split; [|exact I]. constructor; auto. cbn [set_wbuf b_wbuf] in *. congruence.
  - exfalso. apply Hc. exists k. reflexivity.
  - injection E as <- <-. exact I.
Qed.

Lemma safe_size_usize : forall room n, safe_size room n -> (N.of_nat (n + 10) < 2 ^ 64)%N.
Proof.
  intros room n [[_ H]|[_ H]]; [exact H|]. change (2 ^ 16)%N with 65536%N in H. change (2 ^ 64)%N with 18446744073709551616%N. lia.
Qed.

Lemma safe_wi : forall room id i n enc, encoder_ok enc -> safe_closure n enc -> safe_size room n ->
  safe room (write_instruction id i n enc) any.
Proof.
  intros room id i n enc He Hc Hs. apply safe_write; auto; [apply (safe_size_usize _ _ Hs)|].
  intros b params Lb _ E. apply He in E. apply safe_size_fits. rewrite E, Lb. exact Hs.
Qed.

(** The parameters are known. *)
Lemma safe_known : forall room id i n enc params, writes_parameters enc params -> n = length params ->
  (N.of_nat (n + 10) < 2 ^ 64)%N -> one_fits room i params -> safe room (write_instruction id i n enc) any.
Proof.
  intros room id i n enc params [He Hw] -> Hu Hf. apply safe_write; auto.
  - intros b Lb [k K]. rewrite (Hw b Lb) in K. discriminate.
  - intros b ps Lb _ E. rewrite (Hw b Lb) in E. injection E as <-. exact Hf.
Qed.

Lemma safe_params : forall room id i n enc params, writes_parameters enc params -> n = length params ->
  safe_size room n -> safe room (write_instruction id i n enc) any.
Proof.
  intros room id i n enc params Hw -> Hs. apply (safe_known _ _ _ _ _ params); auto; [apply (safe_size_usize _ _ Hs)|].
  apply safe_size_fits, Hs.
Qed.

Lemma sane_room : forall room s, sane room s -> 10 <= room.
Proof. intros room s [[_ [H _]] L _ _ _]. lia. Qed.

Lemma safe_roomy : forall A room (m : M A) (P : A -> Prop), (10 <= room -> safe room m P) -> safe room m P.
Proof. intros A room m P H s S. apply (H (sane_room _ _ S) s S). Qed.

Lemma safe_empty : forall room id i, safe room (write_instruction id i 0 no_params) any.
Proof.
  intros room id i. apply safe_roomy. intro R. apply (safe_params _ _ _ _ _ []); [apply no_params_writes|reflexivity|].
  right. split; [cbn; lia|reflexivity].
Qed.

Lemma safe_write_status : forall room id e n enc, encoder_ok enc -> safe_closure n enc -> safe_size room (1 + n) ->
  safe room (device_write_status id e n enc) any.
Proof.
  intros room id er n enc He Hc Hs s S. unfold device_write_status.
  destruct (write_status id er n enc s) as [o s'] eqn:E.
  pose proof (keeps_write_status id er n enc He _ _ _ (sa_inv _ _ S) E) as [V1 _ V3 _ _].
  rewrite write_status_gen_ok in E by (apply (sa_inv _ _ S) || exact He). unfold write_status_gen in E. cbv zeta in E.
  pose proof (safe_size_usize _ _ Hs) as Hu.
  change usize_max with 18446744073709551615%N in E. change (2 ^ 64)%N with 18446744073709551616%N in Hu.
  replace (18446744073709551615 <? N.of_nat (n + 11))%N with false in E by lia.
  pose proof S as [S1 S2 S3 S4 S5].
  destruct (length (b_wbuf s) <? n + 11) eqn:L. { injection E as <- <-. split; [exact S|exact I]. }
  assert (Lb : length (firstn n (skipn 9 (b_wbuf s))) = n) by (rewrite firstn_length, skipn_length; lia).
  specialize (Hc _ Lb).
  destruct (enc (firstn n (skipn 9 (b_wbuf s)))) as [[params [[]|e]]|k|] eqn:EN.
  - assert (F : one_fits room STATUS (er :: params)).
    { apply safe_size_fits. apply He in EN. cbn [length]. rewrite EN, Lb. exact Hs. }
    pose proof (write_value_safe room s id STATUS (er :: params) S F) as K. rewrite E in K.
    destruct o; auto. split; [exact K|exact I].
  - injection E as <- <-. split; [|exact I]. constructor; auto. cbn [set_wbuf b_wbuf] in *. congruence.
  - exfalso. apply Hc. exists k. reflexivity.
  - injection E as <- <-. exact I.
Qed.

(** ** Reading *)

Definition status_packet (p : packet) : Prop := exists id e ps, packet_is p id (STATUS :: e :: ps).

Lemma timed_sane : forall room t s s', sane room s -> inv s' -> timed t s s' ->
  (exists x, bytes_in (pending s) = x ++ bytes_in (pending s')) -> sane room s'.
Proof.
  intros room t s s' [S1 S2 S3 S4 S5] Iv [[F1 F2 F3 _ _ _ _ _ _]] [x Hx].
  constructor; [exact Iv|rewrite F3; exact S2|rewrite F1; exact S3|rewrite F1; exact S4|apply (calm_suffix _ _ x Hx S5)].
Qed.

Lemma status_safe : forall cap p o1 p' k, calm p -> ideal cap p = (o1, p') -> status_of o1 <> Panic k.
Proof.
  intros cap p o1 p' k C K E. destruct (Nat.le_gt_cases 10 cap) as [L|L].
  - destruct (status_panic_inv _ _ _ _ k L K E) as [g [w [_ [F P]]]].
    apply (C w F). rewrite P, bytes_in_app, bytes_in_inl. exists g, (bytes_in p'). rewrite <- app_assoc. reflexivity.
  - unfold ideal in K. replace (cap <? 10) with true in K by lia. injection K as <- <-. discriminate E.
Qed.

Lemma status_ok_packet : forall cap p o1 p' pk, ideal cap p = (o1, p') -> status_of o1 = Val (Ok pk) -> status_packet pk.
Proof.
  intros cap p o1 p' pk K E. destruct o1 as [[q|e]|x|]; cbn [status_of] in E; try discriminate.
  destruct (ideal_ok_packet _ _ _ _ K) as [id [body [Hb [_ Pk]]]].
  destruct body as [|i body]; [contradiction|].
  destruct (Byte.byte_eq_dec i STATUS) as [->|Ne]; [|rewrite (status_check_other _ _ _ _ Pk Ne) in E; discriminate].
  destruct body as [|e ps].
  - exfalso. unfold status_check, as_status in E. rewrite (packet_instruction _ _ _ _ Pk) in E. cbn [obind] in E.
    change (beq STATUS STATUS) with true in E. cbv iota in E. cbn [obind] in E.
    destruct Pk as [_ Pk]. unfold st_error in E. unfold slice_from in Pk. apply slice_inv in Pk. destruct Pk as [L1 [L2 Pk]].
    assert (L : length (pk_data q) = 8).
    { apply (f_equal (@length byte)) in Pk. rewrite firstn_length, skipn_length in Pk. cbn [length] in Pk. lia. }
    destruct (idx (pk_data q) 8) as [b|?|] eqn:Ix; try discriminate E.
    unfold idx in Ix. destruct (nth_error (pk_data q) 8) eqn:Nt; [|discriminate Ix].
    assert (8 < length (pk_data q)) by (apply nth_error_Some; congruence). lia.
  - rewrite (status_check_status _ _ _ _ Pk) in E. destruct (_ =? _)%N in E; [|discriminate E]. injection E as <-.
    exists id, e, ps. exact Pk.
Qed.

Lemma safe_rsrt : forall room t, safe room (read_status_response_timeout t) (if_ok status_packet).
Proof.
  intros room t s S. destruct (read_status_response_timeout t s) as [o s'] eqn:E.
  destruct (read_status_timeout_spec _ _ _ _ (sa_inv _ _ S) E) as [o1 [K [Ho [Iv Ti]]]].
  destruct o as [r|k|]; [|exact (status_safe _ _ _ _ k (sa_calm _ _ S) K (eq_sym Ho))|exact I].
  split; [apply (timed_sane _ _ _ _ S Iv Ti), (ideal_suffix _ _ _ _ K)|].
  destruct r as [pk|e]; [|exact I]. apply (status_ok_packet _ _ _ _ _ K (eq_sym Ho)).
Qed.

Lemma safe_rsr : forall room n, is_u16 n -> safe room (read_status_response n) (if_ok status_packet).
Proof.
  intros room n Hn s S. unfold read_status_response, bind at 1, get, lift, bind at 1.
  destruct (response_timeout_val (b_dbg s) (b_baud s) n Hn (sa_baud _ _ S)) as [t ->]. apply safe_rsrt, S.
Qed.

Lemma listens_suffix : forall cap p o p', listens cap p o p' -> exists x, bytes_in p = x ++ bytes_in p'.
Proof.
  intros cap p o p' H. induction H as [p pk p1 o p' E I H IH|p pk i p' E I Ne|p o p' E Ne].
  - destruct (ideal_suffix _ _ _ _ E) as [x Hx], IH as [y Hy]. exists (x ++ y). rewrite Hx, Hy, app_assoc. reflexivity.
  - apply (ideal_suffix _ _ _ _ E).
  - apply (ideal_suffix _ _ _ _ E).
Qed.

Lemma ideal_safe : forall cap p k p', calm p -> ideal cap p <> (Panic k, p').
Proof. intros cap p k p' C E. exact (status_safe _ _ _ _ k C E eq_refl). Qed.

Lemma listens_safe : forall cap p o p', listens cap p o p' -> calm p -> forall k, o <> Panic k.
Proof.
  intros cap p o p' H. induction H as [p pk p1 o p' E I H IH|p pk i p' E I Ne|p o p' E Ne]; intros C k.
  - apply IH. destruct (ideal_suffix _ _ _ _ E) as [x Hx]. apply (calm_suffix _ _ x Hx C).
  - discriminate.
  - intros ->. apply (ideal_safe _ _ _ _ C E).
Qed.

Definition some_packet (p : packet) : Prop := exists id i ps, packet_is p id (i :: ps).

Lemma safe_raw : forall room t, safe room (read_raw_instruction_timeout t) (if_ok some_packet).
Proof.
  intros room t s S. destruct (read_raw_instruction_timeout t s) as [o s'] eqn:E.
  destruct (read_raw_spec _ _ _ _ (sa_inv _ _ S) E) as [K [Ti Iv]].
  destruct o as [r|k|]; [|exact (listens_safe _ _ _ _ K (sa_calm _ _ S) k eq_refl)|exact I].
  split; [apply (timed_sane _ _ _ _ S Iv Ti), (listens_suffix _ _ _ _ K)|].
  destruct r as [pk|e]; [|exact I]. destruct (listens_inv _ _ _ _ K) as [line [_ [[q [i [X [I1 _]]]]|[_ X]]]].
  - injection X as ->. destruct (ideal_ok_packet _ _ _ _ I1) as [id [[|i' body] [Hb [_ Pk]]]]; [contradiction|]. exists id, i', body. exact Pk.
  - exfalso. apply (X pk). reflexivity.
Qed.

(** ** The accessors of a status packet *)

Lemma status_fields : forall p, status_packet p -> exists id e ps, pk_id p = Val id /\ st_error p = Val e /\ st_parameters p = Val ps.
Proof.
  intros p [id [e [ps H]]]. exists id, e, ps. destruct (packet_error _ _ _ _ _ H). split; [apply H|]. auto.
Qed.

Ltac fields H := let id := fresh "id" in let e := fresh "e" in let ps := fresh "ps" in
  destruct (status_fields _ H) as [id [e [ps [-> [-> ->]]]]].

Lemma alert_val : forall p e, st_error p = Val e -> exists b, st_alert p = Val b.
Proof. intros p e H. unfold st_alert. rewrite H. eexists. reflexivity. Qed.

Lemma response_unit_safe : forall p, status_packet p -> exists r, response_unit p = Val r.
Proof.
  intros p H. unfold response_unit. destruct (status_fields _ H) as [id [e [ps [E1 [E2 E3]]]]]. rewrite E1, E3. cbn [obind].
  destruct (alert_val _ _ E2) as [b ->]. destruct (param_count_check _ _); eexists; reflexivity.
Qed.

Lemma response_ping_safe : forall p, status_packet p -> exists r, response_ping p = Val r.
Proof.
  intros p H. unfold response_ping. destruct (status_fields _ H) as [id [e [ps [E1 [E2 E3]]]]]. rewrite E1, E3. cbn [obind].
  destruct (alert_val _ _ E2) as [b ->].
  destruct (param_count_check (length ps) 3) eqn:C; [|eexists; reflexivity].
  unfold param_count_check in C. destruct (length ps =? 3) eqn:L; [|discriminate].
  destruct ps as [|x [|y [|z [|]]]]; try discriminate L. eexists. reflexivity.
Qed.

Lemma decode_bytes_safe : forall p, status_packet p -> exists r, decode_status_packet_bytes p = Val r.
Proof.
  intros p H. unfold decode_status_packet_bytes. destruct (status_fields _ H) as [id [e [ps [E1 [E2 E3]]]]]. rewrite E1, E2, E3.
  cbn [obind]. destruct (alert_val _ _ E2) as [b ->]. destruct (motor_error_check _); eexists; reflexivity.
Qed.

Lemma decode_safe : forall A (D : data_impl A) p ps, status_packet p -> st_parameters p = Val ps -> ~ panics (d_decode D ps) ->
  forall k, decode_status_packet D p <> Panic k.
Proof.
  intros A D p ps H Ep N k. unfold decode_status_packet. destruct (status_fields _ H) as [id [e [ps' [E1 [E2 E3]]]]].
  assert (ps' = ps) as -> by congruence. rewrite E1, E2, E3. cbn [obind]. destruct (alert_val _ _ E2) as [b ->].
  destruct (motor_error_check _); [|discriminate]. cbn [obind].
  destruct (d_decode D ps) as [[v|x]|q|]; cbn [obind]; try discriminate. exfalso. apply N. exists q. reflexivity.
Qed.

(** ** Composite calls *)

Lemma safe_transfer : forall room id i n e enc, is_u16 e -> safe room (write_instruction id i n enc) any ->
  safe room (transfer_single id i n e enc) (if_ok status_packet).
Proof.
  intros room id i n e enc He Hw. unfold transfer_single.
  apply (safe_try _ _ _ _ _ _ _ _ any). { eapply safe_weaken; [|exact Hw]. intros [a|x] _; exact I. }
  intros _ _. apply (safe_try _ _ _ _ _ _ _ _ status_packet); [apply safe_rsr, He|]. intros p Hp.
  apply (safe_bind _ _ _ _ _ any). { apply safe_lift. destruct (status_fields _ Hp) as [? [? [? [-> _]]]]. exact I. }
  intros rid _. apply safe_tryr. intros _ _. apply safe_ret. exact Hp.
Qed.

Lemma safe_instruct : forall room id i n enc, safe room (write_instruction id i n enc) any ->
  safe room (instruct id i n enc) any.
Proof.
  intros room id i n enc Hw. unfold instruct. apply (safe_weaken _ _ _ (if_ok any)); [constructor|].
  apply (safe_try _ _ _ _ _ _ _ _ any). { eapply safe_weaken; [|exact Hw]. intros [a|x] _; exact I. }
  intros _ _. apply (safe_try _ _ _ _ _ _ _ _ any); [|intros r _; apply safe_ret; exact I].
  unfold read_response_if_not_broadcast. destruct (beq id BROADCAST); [apply safe_ret; exact I|].
  apply (safe_try _ _ _ _ _ _ _ _ status_packet); [apply safe_rsr; reflexivity|]. intros p Hp.
  apply (safe_bind _ _ _ _ _ any). { apply safe_lift. destruct (response_unit_safe _ Hp) as [r ->]. exact I. }
  intros r _. apply safe_ret. destruct r; exact I.
Qed.

Lemma safe_ping : forall room id, safe room (ping id) any.
Proof.
  intros room id. unfold ping. apply (safe_weaken _ _ _ (if_ok any)); [constructor|].
  apply (safe_try _ _ _ _ _ _ _ _ status_packet); [apply safe_transfer; [reflexivity|apply safe_empty]|]. intros p Hp.
  apply (safe_bind _ _ _ _ _ any). { apply safe_lift. destruct (response_ping_safe _ Hp) as [r ->]. exact I. }
  intros r _. apply safe_ret. destruct r; exact I.
Qed.

Lemma safe_scan_next : forall room, safe room scan_next any.
Proof.
  intros room s S. destruct (scan_timeout_val (b_dbg s) (b_baud s) (sa_baud _ _ S) (sa_u32 _ _ S)) as [t T].
  rewrite (scan_next_eq s t T). pose proof (safe_rsrt room t s S) as K.
  destruct (read_status_response_timeout t s) as [[[p|e]|k|] s']; cbn [fst snd scan_judge] in *; try exact K.
  - destruct K as [K1 K2]. destruct (response_ping_safe p K2) as [r Er]. rewrite Er. destruct r; (split; [exact K1|exact I]).
  - destruct K as [K1 _]. destruct e; try (split; auto; exact I). destruct (is_timeout_error e); split; auto; exact I.
Qed.

Lemma safe_scan_drop : forall room n, safe room (scan_drop n) any.
Proof.
  intros room n. induction n as [|n IH]; cbn [scan_drop]; [apply safe_ret; exact I|].
  apply (safe_bind _ _ _ _ _ any); [apply safe_scan_next|]. intros [r|] _; [exact IH|apply safe_ret; exact I].
Qed.

Lemma safe_read_raw : forall room id a n, is_u16 n -> safe_size room 4 ->
  safe room (read_raw id a n) (if_ok (fun p => status_packet p /\ exists ps, st_parameters p = Val ps /\ length ps = N.to_nat n)).
Proof.
  intros room id a n Hn Hs. unfold read_raw.
  apply (safe_try _ _ _ _ _ _ _ _ status_packet).
  { apply safe_transfer; [exact Hn|]. apply (safe_params _ _ _ _ _ _ (read_params_writes a n)); [reflexivity|exact Hs]. }
  intros p Hp. destruct (status_fields _ Hp) as [id' [e [ps [E1 [E2 E3]]]]].
  apply (safe_bind _ _ _ _ _ (fun q => q = ps)). { apply safe_lift. rewrite E3. reflexivity. }
  intros q ->. apply safe_tryr. intros [] C. apply safe_ret. split; [exact Hp|]. exists ps. split; [exact E3|].
  unfold param_count_check in C. destruct (_ =? _) eqn:L in C; [|discriminate]. lia.
Qed.

Lemma safe_expect : forall room id n, is_u16 n -> safe room (expect_response id n) any.
Proof.
  intros room id n Hn. unfold expect_response. apply (safe_weaken _ _ _ (if_ok any)); [constructor|].
  apply (safe_try _ _ _ _ _ _ _ _ status_packet); [apply safe_rsr, Hn|]. intros p Hp.
  destruct (status_fields _ Hp) as [id' [e [ps [E1 [E2 E3]]]]].
  apply (safe_bind _ _ _ _ _ any). { apply safe_lift. rewrite E1. exact I. }
  intros rid _. apply safe_tryr. intros _ _. apply (safe_bind _ _ _ _ _ any). { apply safe_lift. rewrite E3. exact I. }
  intros q _. apply safe_tryr. intros _ _. apply safe_lift. destruct (decode_bytes_safe _ Hp) as [r ->]. destruct r; exact I.
Qed.

Lemma safe_expect_value : forall A (D : data_impl A) room id, is_u16 (N.of_nat (d_size D)) -> safe_decode D ->
  safe room (expect_value D id) any.
Proof.
  intros A D room id Hn Hd. unfold expect_value. apply (safe_weaken _ _ _ (if_ok any)); [constructor|].
  apply (safe_try _ _ _ _ _ _ _ _ status_packet); [apply safe_rsr, Hn|]. intros p Hp.
  destruct (status_fields _ Hp) as [id' [e [ps [E1 [E2 E3]]]]].
  apply (safe_bind _ _ _ _ _ any). { apply safe_lift. rewrite E1. exact I. }
  intros rid _. apply safe_tryr. intros _ _. apply (safe_bind _ _ _ _ _ (fun q => q = ps)). { apply safe_lift. rewrite E3. reflexivity. }
  intros q ->. apply safe_tryr. intros [] C. apply safe_lift.
  unfold param_count_check in C. destruct (_ =? _) eqn:L in C; [|discriminate].
  pose proof (decode_safe A D p ps Hp E3 (Hd ps ltac:(lia))) as K.
  destruct (decode_status_packet D p) as [[r|x]|k|]; try exact I. apply (K k). reflexivity.
Qed.

Lemma safe_sr_next : forall A (D : data_impl A) room it, is_u16 (N.of_nat (d_size D)) -> safe_decode D -> safe room (sr_next D it) any.
Proof.
  intros A D room it Hn Hd. unfold sr_next. destruct (sr_pop it) as [[id|] it']; [|apply safe_ret; exact I].
  apply (safe_bind _ _ _ _ _ any); [apply safe_expect_value; assumption|]. intros r _. apply safe_ret. exact I.
Qed.

Lemma safe_sr_drop : forall A (D : data_impl A) room it, is_u16 (N.of_nat (d_size D)) -> safe_decode D -> safe room (sr_drop D it) any.
Proof.
  intros A D room it Hn Hd. unfold sr_drop. generalize (length (sr_ids it) - sr_index it). intro n. revert it.
  induction n as [|n IH]; intro it; cbn [sr_drop_loop]; [apply safe_ret; exact I|].
  apply (safe_bind _ _ _ _ _ any); [apply safe_sr_next; assumption|]. intros [[r|] it'] _; [apply IH|apply safe_ret; exact I].
Qed.

Lemma safe_srb_drop : forall room it, is_u16 (srb_count it) -> safe room (srb_drop it) any.
Proof.
  intros room it Hn. unfold srb_drop. generalize (length (srb_ids it) - srb_index it). intro n. revert it Hn.
  induction n as [|n IH]; intros it Hn; cbn [srb_drop_loop]; [apply safe_ret; exact I|].
  unfold srb_pop. destruct (nth_error _ _); [|apply safe_ret; exact I].
  eapply safe_bind; [apply safe_rsr; exact Hn|]. intros _ _. apply IH. exact Hn.
Qed.

Lemma safe_br_drop : forall room it, Forall (fun q => is_u16 (br_count q)) (br_reads it) ->
  br_index it <= length (br_reads it) -> safe room (br_drop it) any.
Proof.
  intros room it Hn Hi. unfold br_drop. replace (_ <=? _) with true by lia.
  assert (F : Forall (fun q => is_u16 (br_count q)) (skipn (br_index it) (br_reads it))).
  { rewrite <- (firstn_skipn (br_index it) (br_reads it)) in Hn. apply Forall_app in Hn. apply Hn. }
  induction F as [|q l Hq F IH]; cbn [br_drop_loop]; [apply safe_ret; exact I|].
  eapply safe_bind; [apply safe_rsr; exact Hq|]. intros _ _. exact IH.
Qed.

(** ** Closures *)

Lemma address_and_value_safe : forall A (D : data_impl A) a v n, safe_closure n (d_encode D v) ->
  safe_closure (2 + n) (address_and_value D a v).
Proof.
  intros A D a v n H b L [k K]. destruct (two_bytes b n L) as [x [y [r [-> Lr]]]].
  unfold address_and_value in K. rewrite u16_at0 in K. cbn [obind] in K. unfold with_slice in K. cbn [length] in K.
  rewrite slice_val in K by (cbn [length]; lia). cbn [obind skipn] in K.
  replace (firstn (S (S (length r)) - 2) r) with r in K by (symmetry; apply firstn_all2; lia).
  destruct (d_encode D v r) as [[m x0]|q|] eqn:E; try discriminate K. apply (H r Lr). exists q. exact E.
Qed.

Lemma sync_write_loop_safe : forall A (D : data_impl A) l, data_ok D -> Forall (fun c => safe_closure 1 (d_encode D (sw_data c))) l ->
  forall i b, length b = 4 + i * 2 + 2 * length l -> ~ panics (sync_write_loop D 1 i l b).
Proof.
  intros A D l HD F. induction F as [|c l Hc _ IH]; intros i b L [k K]; cbn [sync_write_loop] in K; [discriminate|].
  cbn [length] in L.
  destruct (WriteProofs.split_at _ (4 + i * 2) b ltac:(lia)) as [d [r [-> Ld]]].
  rewrite app_length in L. destruct r as [|x [|y r]]; cbn [length] in L; try lia.
  change (x :: y :: r) with ([x; y] ++ r) in K.
  rewrite with_slice_app3 in K; [|lia|cbn [length]; lia].
  change (set [x; y] 0 (sw_id c)) with (Val [sw_id c; y]) in K. cbn [obind] in K.
  unfold with_slice in K. cbn [length] in K. rewrite slice_val in K by (cbn; lia). cbn [obind skipn firstn Nat.sub] in K.
  destruct (d_encode D (sw_data c) [y]) as [[m [[]|e]]|q|] eqn:E; cbn [obind] in K; try discriminate K.
  - pose proof (HD _ _ _ _ E) as Lm. cbn [length] in Lm. destruct m as [|z [|]]; try discriminate Lm.
    change (splice [sw_id c; y] 1 [z]) with [sw_id c; z] in K. rewrite splice_app in K by reflexivity.
    apply (IH (S i) (d ++ [sw_id c; z] ++ r)); [rewrite !app_length; cbn [length]; lia|]. exists k. exact K.
  - apply (Hc [y] eq_refl). exists q. exact E.
Qed.

Lemma sync_write_safe : forall A (D : data_impl A) a l, data_ok D -> Forall (fun c => safe_closure 1 (d_encode D (sw_data c))) l ->
  safe_closure (4 + length l * (1 + 1)) (fun b => let* b := write_u16_at b 0 a in
    let* b := write_u16_at b 2 (N.of_nat 1 mod 2 ^ 16) in sync_write_loop D 1 0 l b).
Proof.
  intros A D a l HD F b L. destruct (four_bytes b (length l * 2) ltac:(lia)) as [x [y [z [u [r [-> Lr]]]]]].
  rewrite u16_at0. cbn [obind]. rewrite u16_at2. cbn [obind]. apply sync_write_loop_safe; auto. cbn [length]. lia.
Qed.

Lemma bulk_write_size : forall l, length (bulk_write_entries l) = list_sum (map (fun c => 5 + length (bw_data c)) l).
Proof.
  induction l as [|c l IH]; [reflexivity|]. cbn [bulk_write_entries flat_map map list_sum fold_right].
  fold (bulk_write_entries l). rewrite app_length. fold (list_sum (map (fun c => 5 + length (bw_data c)) l)).
  rewrite IH. cbn [length]. rewrite ?app_length. cbn [length le16]. lia.
Qed.

Lemma safe_set_baud : forall room b, b <> 0%N -> (b < 2 ^ 32)%N -> safe room (client_set_baud_rate b) any.
Proof.
  intros room b H1 H2 s S. destruct (client_set_baud_rate b s) as [o s'] eqn:E.
  pose proof (keeps_set_baud b _ _ _ (sa_inv _ _ S) E) as [V1 _ V3 _ _]. destruct S as [S1 S2 S3 S4 S5].
  unfold client_set_baud_rate, set_baud_rate, try_, bind, port_set_baud in E.
  destruct (match p_setbauds (b_port s) with [] => None | r :: _ => r end) as [e|];
    unfold get, put, ret in E; injection E as <- <-; (split; [|exact I]); constructor; auto.
Qed.

Lemma safe_device_read : forall room t, safe room (device_read t) any.
Proof.
  intros room t. unfold device_read. apply (safe_weaken _ _ _ (if_ok any)); [constructor|].
  apply (safe_try _ _ _ _ _ _ _ _ some_packet); [apply safe_raw|]. intros p [id [i [ps Pk]]].
  apply (safe_bind _ _ _ _ _ any). { apply safe_lift. destruct (try_from_no_panic _ _ _ _ Pk) as [r ->]. exact I. }
  intros r _. apply safe_ret. destruct r; exact I.
Qed.

Lemma safe_device_read_owned : forall room t, safe room (device_read_owned t) any.
Proof.
  intros room t. unfold device_read_owned. apply (safe_weaken _ _ _ (if_ok any)); [constructor|].
  apply (safe_try _ _ _ _ _ _ _ _ some_packet); [apply safe_raw|]. intros p [id [i [ps Pk]]].
  apply (safe_bind _ _ _ _ _ any).
  { apply safe_lift. unfold instruction_try_from_owned. destruct (try_from_no_panic _ _ _ _ Pk) as [r ->]. destruct r; exact I. }
  intros r _. apply safe_ret. destruct r; exact I.
Qed.

Lemma one_fits_clear : forall room params, params = CLEAR_REVOLUTION_COUNT \/ params = CLEAR_ERROR -> one_fits room CLEAR params.
Proof.
  intros room params H. assert (E : fcount 0 (CLEAR :: params) = 0 /\ length params = 5) by (destruct H as [->| ->]; split; reflexivity).
  destruct E as [E L]. red. rewrite E, L. destruct (Nat.le_gt_cases 15 room); [right|left]; [split; [lia|reflexivity]|lia].
Qed.

Lemma one_fits_reset : forall room k, one_fits room FACTORY_RESET [reset_code k].
Proof.
  intros room k. assert (E : fcount 0 (FACTORY_RESET :: [reset_code k]) = 0) by (destruct k; reflexivity).
  red. rewrite E. cbn [length]. destruct (Nat.le_gt_cases 11 room); [right|left]; [split; [lia|reflexivity]|lia].
Qed.

Lemma safe_reset : forall room id k, safe room (write_instruction id FACTORY_RESET 1 (factory_reset_params k)) any.
Proof. intros room id k. apply (safe_known _ _ _ _ _ _ (factory_reset_writes k)); [reflexivity|reflexivity|apply one_fits_reset]. Qed.

Lemma safe_clear_revolution : forall room id,
  safe room (write_instruction id CLEAR (length CLEAR_REVOLUTION_COUNT) clear_revolution_count_parameters) any.
Proof. intros room id. apply (safe_known _ _ _ _ _ _ clear_revolution_writes); [reflexivity|reflexivity|apply one_fits_clear; left; reflexivity]. Qed.

Lemma safe_clear_error : forall room id,
  safe room (write_instruction id CLEAR (length CLEAR_ERROR) clear_error_parameters) any.
Proof. intros room id. apply (safe_known _ _ _ _ _ _ clear_error_writes); [reflexivity|reflexivity|apply one_fits_clear; right; reflexivity]. Qed.

Lemma safe_void_status : forall room id e, safe room (device_write_status id e 0 (fun b => Val (b, Ok tt))) any.
Proof.
  intros room id e. apply safe_roomy. intro R. apply safe_write_status.
  - intros s s' r E. congruence.
  - intros b _ [k K]. discriminate.
  - destruct (Nat.le_gt_cases 11 room); [right; split; [cbn; lia|reflexivity]|left; split; [lia|reflexivity]].
Qed.

(** ** Every call *)

Lemma careful_safe : forall room A (m : M A), careful room m -> safe room m any.
Proof.
  intros room A m H. destruct H.
  - apply safe_set_baud; assumption.
  - eapply safe_weaken; [|apply safe_transfer; [assumption|apply safe_wi; assumption]]. constructor.
  - apply safe_wi; assumption.
  - eapply safe_weaken; [|apply safe_rsrt]. constructor.
  - eapply safe_weaken; [|apply safe_rsr; assumption]. constructor.
  - apply safe_device_read.
  - apply safe_device_read_owned.
  - eapply safe_weaken; [|apply safe_raw]. constructor.
  - apply safe_write_status; assumption.
  - apply safe_void_status.
  - apply safe_void_status.
  - apply safe_ping.
  - apply safe_empty.
  - apply safe_scan_next.
  - apply safe_scan_drop.
  - (* read_bytes *)
    unfold read_bytes. apply (safe_weaken _ _ _ (if_ok any)); [constructor|].
    eapply safe_try; [apply safe_read_raw; assumption|]. intros p [Hp _].
    apply (safe_bind _ _ _ _ _ any). { apply safe_lift. destruct (decode_bytes_safe _ Hp) as [r ->]. exact I. }
    intros r _. apply safe_ret. destruct r; exact I.
  - (* read *)
    unfold read. apply (safe_weaken _ _ _ (if_ok any)); [constructor|].
    eapply safe_try; [apply safe_read_raw; assumption|]. intros p [Hp [ps [E L]]]. rewrite Nnat.Nat2N.id in L.
    apply (safe_bind _ _ _ _ _ any).
    { apply safe_lift. pose proof (decode_safe A D p ps Hp E (H0 ps L)) as K.
      destruct (decode_status_packet D p) as [r|k|]; try exact I. apply (K k). reflexivity. }
    intros r _. apply safe_ret. destruct r; exact I.
  - apply safe_instruct, safe_wi; [apply address_and_value_ok; assumption|apply address_and_value_safe; assumption|assumption].
  - apply safe_instruct, (safe_params _ _ _ _ _ _ (address_and_bytes_writes a d)); [reflexivity|assumption].
  - apply safe_instruct, safe_wi; [apply address_and_value_ok; assumption|apply (address_and_value_safe _ _ _ _ 1); assumption|assumption].
  - apply safe_instruct, (safe_params _ _ _ _ _ _ (address_and_bytes_writes a d)); [reflexivity|assumption].
  - apply safe_instruct, safe_empty.
  - apply safe_empty.
  - apply safe_instruct, safe_empty.
  - apply safe_empty.
  - apply safe_instruct, safe_reset.
  - apply safe_reset.
  - apply safe_instruct, safe_clear_revolution.
  - apply safe_clear_revolution.
  - apply safe_instruct, safe_clear_error.
  - apply safe_clear_error.
  - (* sync_write *)
    unfold sync_write. apply safe_wi; [apply sync_write_params_ok; assumption|apply sync_write_safe; assumption|].
    replace (4 + length l * (1 + 1)) with (4 + 2 * length l) by lia. assumption.
  - unfold sync_write_bytes. apply (safe_params _ _ _ _ _ _ (sync_write_bytes_writes a n l H)); [|assumption].
    rewrite !app_length, (sync_entries_length _ _ H). reflexivity.
  - (* bulk_write *)
    unfold bulk_write. apply (safe_bind _ _ _ _ _ (fun k => k = length (bulk_write_entries l))).
    { apply safe_lift. rewrite bulk_write_count_val by assumption. reflexivity. }
    intros k ->. apply (safe_params _ _ _ _ _ _ (bulk_write_writes l H)); [reflexivity|]. rewrite bulk_write_size. assumption.
  - apply (safe_weaken _ _ _ (if_ok any)); [constructor|]. unfold sync_read_bytes.
    apply (safe_try _ _ _ _ _ _ _ _ any); [|intros _ _; apply safe_ret; exact I].
    eapply safe_weaken; [|apply (safe_params _ _ _ _ _ _ (sync_read_writes a n ids)); [|eassumption]; rewrite ?app_length; reflexivity].
    intros [|] _; exact I.
  - unfold srb_next. destruct (srb_pop it) as [[id|] it']; [|apply safe_ret; exact I].
    apply (safe_bind _ _ _ _ _ any); [apply safe_expect; assumption|]. intros r _. apply safe_ret. exact I.
  - apply safe_srb_drop; assumption.
  - apply (safe_weaken _ _ _ (if_ok any)); [constructor|]. unfold sync_read.
    apply (safe_try _ _ _ _ _ _ _ _ any); [|intros _ _; apply safe_ret; exact I].
    eapply safe_weaken; [|apply (safe_params _ _ _ _ _ _ (sync_read_writes a _ ids)); [|eassumption]; rewrite ?app_length; reflexivity].
    intros [|] _; exact I.
  - apply safe_sr_next; assumption.
  - apply safe_sr_drop; assumption.
  - apply (safe_weaken _ _ _ (if_ok any)); [constructor|]. unfold bulk_read_bytes.
    apply (safe_try _ _ _ _ _ _ _ _ any); [|intros _ _; apply safe_ret; exact I].
    unfold write_bulk_read_instruction. rewrite (proj2 (bulk_read_dup_iff l) H).
    eapply safe_weaken; [|apply (safe_params _ _ _ _ _ _ (bulk_read_writes l)); [symmetry; apply bulk_read_entries_length|assumption]].
    intros [|] _; exact I.
  - unfold br_next, br_pop. destruct (nth_error (br_reads it) (br_index it)) as [q|] eqn:Nq; [|apply safe_ret; exact I].
    apply (safe_bind _ _ _ _ _ any); [|intros r _; apply safe_ret; exact I].
    apply safe_expect. apply nth_error_In in Nq. rewrite Forall_forall in H. apply H, Nq.
  - apply safe_br_drop; assumption.
Qed.

Lemma L_C81_no_panics : forall A (m : M A) s o s', careful (length (b_wbuf s)) m -> survives s -> b_baud s <> 0%N ->
  (b_baud s < 2 ^ 32)%N -> calm (pending s) -> m s = (o, s') -> ~ panics o.
Proof.
  intros A m s o s' H Sv B1 B2 C E [k ->].
  pose proof (careful_safe _ _ _ H s (mkSane _ _ (survives_inv _ Sv) eq_refl B1 B2 C)) as K. rewrite E in K. exact K.
Qed.

Lemma carefully_sane : forall s0 s, sane (length (b_wbuf s0)) s0 -> carefully s0 s -> sane (length (b_wbuf s0)) s.
Proof.
  intros s0 s H C. induction C as [|A m s a s' C IH Ca E]; [exact H|].
  pose proof (careful_safe _ _ _ Ca s IH) as K. rewrite E in K. apply K.
Qed.

Lemma L_C81_never : forall dbg p rb wb baud s0 s A (m : M A) o s', with_buffers_and_baud_rate dbg p rb wb baud = Val s0 ->
  baud <> 0%N -> (baud < 2 ^ 32)%N -> calm (pending s0) -> carefully s0 s -> careful (length wb) m ->
  m s = (o, s') -> ~ panics o.
Proof.
  intros dbg p rb wb baud s0 s A m o s' N B1 B2 C Cf Ca E [k ->].
  destruct (new_inv _ _ _ _ _ _ N) as [Iv [_ [F1 [_ [_ [_ [F2 _]]]]]]].
  assert (S0 : sane (length (b_wbuf s0)) s0) by (constructor; [exact Iv|reflexivity|congruence|congruence|exact C]).
  rewrite <- F2 in Ca. pose proof (careful_safe _ _ _ Ca s (carefully_sane _ _ S0 Cf)) as K. rewrite E in K. exact K.
Qed.

(** The types of the crate do not panic, even if they get too little room. *)
Lemma L_C81_crate_types : forall A (D : data_impl A) V R, crate_type D V R ->
  safe_decode D /\ forall v, V v -> safe_closure (d_size D) (d_encode D v) /\ safe_closure 1 (d_encode D v).
Proof.
  intros A D V R H. split.
  - intros b L [k K]. destruct (L_C36_decode_encode A D V R b H L) as [v [E _]]. congruence.
  - intros v Hv. destruct (L_C36_representation A D V R H v Hv) as [l [Hl [Ll _]]].
    assert (X : forall b, ~ panics (d_encode D v b)).
    { intros b [k K]. destruct (Nat.lt_ge_cases (length b) (d_size D)) as [L|L].
      - rewrite (L_C36_too_small A D V R v b H L) in K. discriminate.
      - rewrite <- (firstn_skipn (d_size D) b) in K.
        rewrite (L_C36_encode A D V R v l (firstn (d_size D) b) (skipn (d_size D) b) H Hl) in K; [discriminate|].
        rewrite firstn_length. lia. }
    split; intros b _; apply X.
Qed.

(** ** Every condition is needed *)

(** A client with nothing wrong: 64 bytes of room, no fatal message on the line. *)
Definition healthy : bus := fresh true [] 64 64.

Lemma healthy_survives : survives healthy.
Proof. apply (sv_new true (mkPort [] [] [] [] 0 []) (repeat x00 64) (repeat x00 64) 57600). reflexivity. Qed.

Lemma healthy_calm : calm (pending healthy).
Proof.
  intros w [id [body [Hb [crc [-> _]]]]] [a [b K]]. cbn in K. apply (f_equal (@length byte)) in K.
  rewrite !app_length in K. cbn [length] in K. unfold message, wire_of_body in K. rewrite !app_length in K. cbn [length header] in K. lia.
Qed.

(** A [Data] implementation that panics. *)
Definition rude : data_impl unit := mkData unit 1 (fun _ _ => Panic PExplicit) (fun _ => Panic PExplicit).

Definition answered : bus := fresh true [RdData (frame x01 [STATUS; x00; x2a])] 64 64.

Lemma answered_survives : survives answered.
Proof.
  apply (sv_new true (mkPort [RdData (frame x01 [STATUS; x00; x2a])] [] [] [] 0 []) (repeat x00 64) (repeat x00 64) 57600). reflexivity.
Qed.

Lemma answered_calm : calm (pending answered).
Proof.
  assert (E : pending answered = map inl (frame x01 [STATUS; x00; x2a])) by (vm_compute; reflexivity).
  rewrite E. exact answer_calm.
Qed.

Definition tight_data : list byte := [xff; xff; xfd; xff; xff; xfd] ++ repeat x00 45.

(** The calls [m] panics in a client where everything else is in order. *)
Definition panics_in {A} (m : M A) (s : bus) : Prop :=
  survives s /\ b_baud s <> 0%N /\ (b_baud s < 2 ^ 32)%N /\ calm (pending s) /\ panics (fst (m s)).

Lemma panics_healthy : forall A (m : M A), panics (fst (m healthy)) -> panics_in m healthy.
Proof.
  intros A m H. split; [exact healthy_survives|]. split; [discriminate|]. split; [reflexivity|]. split; [exact healthy_calm|exact H].
Qed.

Lemma panics_answered : forall A (m : M A), panics (fst (m answered)) -> panics_in m answered.
Proof.
  intros A m H. split; [exact answered_survives|]. split; [discriminate|]. split; [reflexivity|]. split; [exact answered_calm|exact H].
Qed.

Lemma L_C81_conditions_needed :
  (* no room for the stuffing of a message that fits otherwise *)
  panics_in (write_bytes x01 100 tight_data) healthy /\
  (* the closure or the [Data] implementation of the user panics *)
  panics_in (write_instruction x01 WRITE 3 (fun _ => Panic PExplicit)) healthy /\
  panics_in (write rude x01 100 tt) healthy /\ panics_in (reg_write rude x01 100 tt) healthy /\
  panics_in (sync_write rude 100 [mkSync x01 tt]) healthy /\ panics_in (read rude x01 100) answered /\
  (* the documented panics *)
  panics_in (sync_write_bytes 100 2 [mkSync x01 [x00]]) healthy /\
  (forall d, (65535 < N.of_nat (length d))%N -> panics_in (bulk_write [mkBulkWrite x01 100 d]) healthy) /\
  panics_in (bulk_read_bytes [mkBulkRead x01 100 2; mkBulkRead x01 200 2]) healthy /\
  (* the baud rate is zero *)
  (exists s, survives s /\ b_baud s = 0%N /\ calm (pending s) /\ panics (fst (ping x01 s))) /\
  (* a fatal message *)
  (exists s, survives s /\ b_baud s <> 0%N /\ (b_baud s < 2 ^ 32)%N /\ panics (fst (read_status_response_timeout dur_34ms s))).
Proof.
  split; [apply panics_healthy; eexists; vm_compute; reflexivity|].
  split; [apply panics_healthy; eexists; vm_compute; reflexivity|].
  split; [apply panics_healthy; eexists; vm_compute; reflexivity|].
  split; [apply panics_healthy; eexists; vm_compute; reflexivity|].
  split; [apply panics_healthy; eexists; vm_compute; reflexivity|].
  split; [apply panics_answered; eexists; vm_compute; reflexivity|].
  split; [apply panics_healthy; eexists; vm_compute; reflexivity|].
  split.
  { intros d L. apply panics_healthy. exists PExplicit. unfold bulk_write, bind, lift.
    rewrite bulk_write_count_panics; [reflexivity|]. intro F. inversion F as [|? ? F1 _]. cbn [bw_data] in F1.
    unfold is_u16 in F1. change (2 ^ 16)%N with 65536%N in F1. lia. }
  split; [apply panics_healthy; eexists; vm_compute; reflexivity|].
  split.
  - exists (set_baud healthy 0). split; [|split; [reflexivity|split; [exact healthy_calm|eexists; vm_compute; reflexivity]]].
    apply (sv_new true (mkPort [] [] [] [] 0 []) (repeat x00 64) (repeat x00 64) 0). reflexivity.
  - exists two_voids. split; [apply two_voids_ready|]. split; [discriminate|]. split; [reflexivity|]. eexists. vm_compute. reflexivity.
Qed.

(** ** Examples *)

Lemma tight_roomy : safe_size 64 30 /\ ~ safe_size 64 53 /\ safe_size 64 55.
Proof.
  split; [right; split; [cbn; lia|reflexivity]|]. split; [|left; split; [lia|reflexivity]].
  intros [[H _]|[H _]]; cbn in H; lia.
Qed.

(** A client that writes and reads numbers, pings, and reads two motors at once. *)
Lemma careful_calls : careful 64 (write (data_int false 4) x01 116 1024%Z) /\ careful 64 (read (data_int true 4) x01 132) /\
  careful 64 (ping x01) /\ careful 64 (bulk_read_bytes [mkBulkRead x01 132 4; mkBulkRead x02 132 4]) /\
  careful 64 (write_bytes x01 116 (repeat xff 60)).
Proof.
  assert (T4 : forall sg, crate_type (data_int sg 4) (int_range sg 4) (int_bytes sg 4)) by (intro; apply ct_int; cbn; auto).
  split. { apply ca_write; [apply (crate_data_ok _ _ _ _ (T4 false))| |].
    - refine (proj1 (proj2 (L_C81_crate_types _ _ _ _ (T4 false)) _ _)). split; [discriminate|reflexivity].
    - right. split; [cbn; lia|reflexivity]. }
  split. { apply ca_read; [reflexivity|apply (L_C81_crate_types _ _ _ _ (T4 true))|]. right. split; [cbn; lia|reflexivity]. }
  split; [apply ca_ping|].
  split. { apply ca_bulk_read_bytes; [|right; split; [cbn; lia|reflexivity]].
    constructor; [intros [K|[]]; discriminate K|]. constructor; [intros []|constructor]. }
  apply ca_write_bytes. left. rewrite repeat_length. split; [lia|reflexivity].
Qed.

Lemma careful_read_byte : careful 64 (read (data_int false 1) x01 132).
Proof.
  apply ca_read; [reflexivity|apply (L_C81_crate_types _ _ _ _ (ct_int false 1 (or_introl eq_refl)))|].
  right. split; [cbn; lia|reflexivity].
Qed.

Lemma careful_example : exists s', survives answered /\ calm (pending answered) /\
  read (data_int false 1) x01 132 answered = (Val (Ok (mkResponse x01 false 42%Z)), s') /\ carefully answered s'.
Proof.
  destruct (read (data_int false 1) x01 132 answered) as [o s'] eqn:E.
  assert (V : o = Val (Ok (mkResponse x01 false 42%Z))) by (vm_compute in E; injection E as E1 E2; rewrite <- E1; reflexivity).
  subst o. exists s'. split; [exact answered_survives|]. split; [exact answered_calm|]. split; [reflexivity|].
  eapply cf_call; [apply cf_start|exact careful_read_byte|exact E].
Qed.
