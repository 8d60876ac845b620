(** * StatusProofs: status responses, timeouts and the device's read loop *)
From Coq Require Import ZArith ZifyN ZifyNat ZifyBool.
From Verif Require Import Base Endian Error Checksum Bytestuff Packet Time Bus Data Client
  Instructions Device Api Spec CallSpec StreamSpec Demo Lib ChecksumProofs CrcErrorProofs StuffProofs
  WriteProofs ReadProofs ApiProofs StreamProofs MessageProofs SendProofs SendTheorems ReadTheorems.
Ltac Zify.zify_post_hook ::= Z.div_mod_to_equations.

(** ** Frames *)

Lemma read_frame_refl : forall d s, read_frame d s s.
Proof. intros d s. apply read_frame_same_port; reflexivity. Qed.

Lemma read_packet_frame : forall d s o s', inv s -> read_packet_deadline d s = (o, s') -> read_frame d s s'.
Proof.
  intros d s o s' [H1 H2] E. destruct (Nat.lt_ge_cases (length (b_rbuf s)) 10) as [L|L].
  - rewrite read_packet_small in E by exact L. injection E as _ <-. apply read_frame_refl.
  - destruct (read_packet_spec d s o s' H1 L E) as [dat [sc' [F K1 K2 K3 K4]]]. exact K2.
Qed.

Lemma read_call_reads : forall d evs, Forall (read_call d) evs -> Forall (reads_with d) evs.
Proof.
  intros d evs H. induction H as [|e evs H F IH]; constructor; [|exact IH].
  destruct e; cbn in *; try contradiction; apply H.
Qed.

Definition after_deadline (t : duration) (s : bus) : bus := snd (port_make_deadline t s).
Definition deadline_of (t : duration) (s : bus) : deadline := mkDeadline (p_deadlines (b_port s)) t.

Lemma make_deadline_eq : forall t s, port_make_deadline t s = (Val (deadline_of t s), after_deadline t s).
Proof. reflexivity. Qed.

Lemma after_deadline_pending : forall t s, pending (after_deadline t s) = pending s.
Proof. reflexivity. Qed.

Lemma after_deadline_inv : forall t s, inv s -> inv (after_deadline t s).
Proof. intros t s H. exact H. Qed.

(** What a read with its own deadline leaves alone. *)
Record timed (t : duration) (s s' : bus) : Prop := mkTimed {
  ti_frame : read_frame (deadline_of t s) (after_deadline t s) s';
}.

Lemma timed_calls : forall t s s', timed t s s' ->
  exists evs, calls s s' (LDeadline (deadline_of t s) :: evs) /\ Forall (reads_with (deadline_of t s)) evs.
Proof.
  intros t s s' [[_ _ _ _ _ _ _ _ [evs [E F]]]]. exists evs. split; [|apply read_call_reads, F].
  unfold calls. rewrite E. unfold after_deadline, port_make_deadline. cbn [snd set_port b_port log_event p_log].
  rewrite <- app_assoc. reflexivity.
Qed.

(** ** Status responses *)

Definition status_check (p : packet) : out (result packet read_error) :=
  let* st := as_status p in
  match st with
  | None => let* i := pk_instruction p in Val (Err (RInvalidMessage (IMInstruction i STATUS)))
  | Some status =>
      let* e := st_error status in
      match motor_error_check e with Err raw => Val (Err (RMotorError raw)) | Ok _ => Val (Ok status) end
  end.

Definition status_of (o : out (result packet read_error)) : out (result packet read_error) :=
  match o with Val (Ok p) => status_check p | o => o end.

Lemma read_status_timeout_spec : forall t s o s', inv s -> read_status_response_timeout t s = (o, s') ->
  exists o1, ideal (length (b_rbuf s)) (pending s) = (o1, pending s') /\ o = status_of o1 /\
    inv s' /\ timed t s s'.
Proof.
  intros t s o s' Hi E. unfold read_status_response_timeout in E. unfold bind at 1 in E.
  rewrite make_deadline_eq in E. unfold try_, bind at 1 in E.
  destruct (read_packet_deadline (deadline_of t s) (after_deadline t s)) as [o1 s1] eqn:R.
  pose proof (read_ideal _ _ _ _ (proj1 (after_deadline_inv t s Hi)) R) as K.
  pose proof (read_packet_frame _ _ _ _ (after_deadline_inv t s Hi) R) as F.
  destruct (read_cap _ _ _ _ (after_deadline_inv t s Hi) R) as [I1 C1].
  rewrite after_deadline_pending in K. change (length (b_rbuf (after_deadline t s))) with (length (b_rbuf s)) in K.
  exists o1.
  assert (Es : s' = s1 /\ o = status_of o1).
  { destruct o1 as [[p|e]|pn|]; cbn [status_of].
    - unfold bind, lift, ret, tryr in E. unfold status_check.
      destruct (as_status p) as [[st|]|pp|]; cbn [obind].
      + destruct (st_error st) as [e|pe|]; cbn [obind] in *; [|injection E as <- <-; auto..].
        destruct (motor_error_check e); injection E as <- <-; auto.
      + destruct (pk_instruction p); cbn [obind]; injection E as <- <-; auto.
      + injection E as <- <-; auto.
      + injection E as <- <-; auto.
    - injection E as <- <-. auto.
    - injection E as <- <-. auto.
    - injection E as <- <-. auto. }
  destruct Es as [-> ->]. split; [congruence|]. split; [reflexivity|]. split; [exact I1|].
  constructor. exact F.
Qed.

Lemma response_timeout_val : forall dbg baud n, (n < 2 ^ 16)%N -> (baud <> 0)%N ->
  exists t, response_timeout dbg baud n = Val t.
Proof.
  intros dbg baud n Hn Hb. unfold response_timeout, message_transfer_time, u64_mul.
  set (m := (N.of_nat (st_message_len (N.to_nat n)) mod 2 ^ 32)%N).
  assert (Hm : (m <= 65546)%N).
  { unfold m, st_message_len, HEADER_SIZE. rewrite N.mod_small; lia. }
  replace (u64_max <? m * 10)%N with false by (symmetry; apply N.ltb_ge; unfold u64_max; lia).
  cbn [obind]. apply N.eqb_neq in Hb. rewrite Hb. apply N.eqb_neq in Hb.
  assert (Hq : (m * 10 mod baud <= m * 10)%N) by (apply N.mod_le; exact Hb).
  replace (u64_max <? m * 10 mod baud * 1000000000)%N with false
    by (symmetry; apply N.ltb_ge; unfold u64_max; lia).
  cbn [obind]. unfold dur_new, dur_add.
  set (x := (m * 10 mod baud * 1000000000)%N). set (k := ((_ + _) mod 2 ^ 32)%N).
  assert (Hk : (k < 2 ^ 32)%N) by (apply N.mod_lt; lia).
  assert (Hs : (m * 10 / baud <= 655460)%N).
  { etransitivity; [apply N.div_le_upper_bound with (q := (m * 10)%N); [exact Hb|]; nia|lia]. }
  destruct (k <? nanos_per_sec)%N eqn:Ek; cbn [obind d_secs d_nanos dur_34ms].
  - replace (u64_max <? _)%N with false.
    + eauto.
    + symmetry. apply N.ltb_ge. unfold u64_max. destruct (nanos_per_sec <=? k + 34000000)%N; lia.
  - assert (Hk2 : (k / nanos_per_sec <= 4)%N) by (unfold nanos_per_sec; lia).
    replace (u64_max <? m * 10 / baud + k / nanos_per_sec)%N with false
      by (symmetry; apply N.ltb_ge; unfold u64_max; lia).
    cbn [obind d_secs d_nanos].
    replace (u64_max <? _)%N with false.
    + eauto.
    + symmetry. apply N.ltb_ge. unfold u64_max. destruct (nanos_per_sec <=? _)%N; lia.
Qed.

Lemma response_timeout_zero : forall dbg n, exists p, response_timeout dbg 0 n = Panic p.
Proof.
  intros dbg n. unfold response_timeout, message_transfer_time, u64_mul.
  destruct (u64_max <? _)%N; [destruct dbg|]; cbn [obind N.eqb]; eauto.
Qed.

Lemma read_status_spec : forall n s o s', inv s -> read_status_response n s = (o, s') ->
  (exists p, response_timeout (b_dbg s) (b_baud s) n = Panic p /\ o = Panic p /\ s' = s) \/
  (exists t o1, response_timeout (b_dbg s) (b_baud s) n = Val t /\
     ideal (length (b_rbuf s)) (pending s) = (o1, pending s') /\ o = status_of o1 /\
     inv s' /\ timed t s s').
Proof.
  intros n s o s' Hi E. unfold read_status_response, bind, get, lift in E.
  destruct (response_timeout (b_dbg s) (b_baud s) n) as [t|p|] eqn:T.
  - right. destruct (read_status_timeout_spec _ _ _ _ Hi E) as [o1 [K1 [K2 [K3 K4]]]].
    exists t, o1. auto.
  - left. injection E as <- <-. eauto.
  - exfalso. unfold response_timeout, message_transfer_time, u64_mul, dur_new, dur_add in T.
    repeat match type of T with context [if ?c then _ else _] => destruct c; cbn [obind] in T end; discriminate T.
Qed.

(** ** The packet a successful read returns *)

Lemma ideal_ok_packet : forall cap p pk p', ideal cap p = (Val (Ok pk), p') ->
  exists id body, body <> [] /\ carries p id body p' /\ packet_is pk id body.
Proof.
  intros cap p pk p' E. destruct (ideal_ok_inv _ _ _ _ E) as [_ [g [id [body [w [G [F [_ [Hb [P ->]]]]]]]]]].
  exists id, (unst 0 body). split.
  { intro K. apply (proj1 (unst_nil _)) in K. contradiction. }
  split; [|apply packet_head].
  exists g, body, w. split; [exact G|]. split; [exact F|]. split; [apply unst_some|exact P].
Qed.

Lemma packet_instruction : forall pk id i body, packet_is pk id (i :: body) -> pk_instruction pk = Val i.
Proof. intros pk id i body H. apply L_C18_accessors in H. apply H. Qed.

Lemma packet_error : forall pk id i e body, packet_is pk id (i :: e :: body) ->
  st_error pk = Val e /\ st_parameters pk = Val body.
Proof. intros pk id i e body H. apply L_C18_accessors in H. destruct H as [_ [_ [_ H]]]. apply H. reflexivity. Qed.

Lemma packet_is_inj : forall pk id1 b1 id2 b2, packet_is pk id1 b1 -> packet_is pk id2 b2 -> id1 = id2 /\ b1 = b2.
Proof. intros pk id1 b1 id2 b2 [H1 H2] [H3 H4]. split; congruence. Qed.

Lemma motor_error_check_ok : forall e, motor_error_check e = Ok tt <-> N.land (b2n e) 127 = 0%N.
Proof.
  intro e. unfold motor_error_check. destruct (N.land (b2n e) 127 =? 0)%N eqn:E.
  - apply N.eqb_eq in E. split; auto.
  - apply N.eqb_neq in E. split; [discriminate|contradiction].
Qed.

(** Whatever is in the packet, [status_check] depends on its fields only. *)
Lemma status_check_other : forall pk id i body, packet_is pk id (i :: body) -> i <> STATUS ->
  status_check pk = Val (Err (RInvalidMessage (IMInstruction i STATUS))).
Proof.
  intros pk id i body H Hi. pose proof (packet_instruction _ _ _ _ H) as E.
  unfold status_check, as_status. rewrite E. cbn [obind].
  destruct (beq i STATUS) eqn:B; [apply beq_true in B; contradiction|]. reflexivity.
Qed.

Lemma status_check_status : forall pk id e body, packet_is pk id (STATUS :: e :: body) ->
  status_check pk = if (N.land (b2n e) 127 =? 0)%N then Val (Ok pk) else Val (Err (RMotorError e)).
Proof.
  intros pk id e body H. pose proof (packet_instruction _ _ _ _ H) as E.
  destruct (packet_error _ _ _ _ _ H) as [E1 _].
  unfold status_check, as_status. rewrite E. cbn [obind]. rewrite beq_refl. rewrite E1. cbn [obind].
  unfold motor_error_check. destruct (N.land (b2n e) 127 =? 0)%N; reflexivity.
Qed.

Lemma status_check_short : forall pk id, packet_is pk id [STATUS] -> status_check pk = Panic PIndex.
Proof.
  intros pk id H. pose proof (packet_instruction _ _ _ _ H) as E.
  unfold status_check, as_status. rewrite E. cbn [obind]. rewrite beq_refl. unfold st_error.
  destruct H as [_ H]. unfold slice_from in H. apply slice_inv in H. destruct H as [L [_ H]].
  assert (length (pk_data pk) = 8).
  { apply (f_equal (@length byte)) in H. rewrite firstn_length, skipn_length in H. cbn [length] in H. lia. }
  unfold idx. destruct (nth_error (pk_data pk) 8) eqn:N1; [|reflexivity].
  assert (nth_error (pk_data pk) 8 <> None) as N2 by congruence. apply nth_error_Some in N2. lia.
Qed.

Lemma status_check_ok_inv : forall pk id body q, packet_is pk id body -> body <> [] -> status_check pk = Val (Ok q) ->
  q = pk /\ exists e params, body = STATUS :: e :: params /\ N.land (b2n e) 127 = 0%N.
Proof.
  intros pk id body q H Hb E. destruct body as [|i body]; [contradiction|].
  destruct (Byte.byte_eq_dec i STATUS) as [->|Ne].
  - destruct body as [|e params].
    + rewrite (status_check_short _ _ H) in E. discriminate.
    + rewrite (status_check_status _ _ _ _ H) in E. destruct (N.land (b2n e) 127 =? 0)%N eqn:K; [|discriminate].
      apply N.eqb_eq in K. injection E as <-. eauto.
  - rewrite (status_check_other _ _ _ _ H Ne) in E. discriminate.
Qed.

(** ** The device's loop *)

Inductive listens (cap : nat) : list item -> out (result packet read_error) -> list item -> Prop :=
| li_skip : forall p pk p1 o p', ideal cap p = (Val (Ok pk), p1) -> pk_instruction pk = Val STATUS ->
    listens cap p1 o p' -> listens cap p o p'
| li_packet : forall p pk i p', ideal cap p = (Val (Ok pk), p') -> pk_instruction pk = Val i -> i <> STATUS ->
    listens cap p (Val (Ok pk)) p'
| li_other : forall p o p', ideal cap p = (o, p') -> (forall pk, o <> Val (Ok pk)) -> listens cap p o p'.

Lemma listens_fun : forall cap p o p', listens cap p o p' -> forall o2 p2, listens cap p o2 p2 -> o = o2 /\ p' = p2.
Proof.
  intros cap p o p' H. induction H as [p pk p1 o p' E I H IH|p pk i p' E I Ne|p o p' E Ne];
    intros o2 p2 H2; destruct H2 as [p pk2 p12 o2 p2 E2 I2 H2|p pk2 i2 p2 E2 I2 Ne2|p o2 p2 E2 Ne2];
    rewrite E in E2; try (exfalso; congruence).
  - apply IH. replace p1 with p12 by congruence. exact H2.
  - split; congruence.
  - split; congruence.
Qed.

Lemma ideal_ok_shorter : forall cap p pk p', ideal cap p = (Val (Ok pk), p') -> length p' + 10 <= length p.
Proof.
  intros cap p pk p' E. destruct (ideal_ok_inv _ _ _ _ E) as [_ [g [id [body [w [G [F [_ [Hb [P _]]]]]]]]]].
  subst p. apply framed_iff in F. destruct F as [crc [-> _]].
  rewrite app_length, map_length, app_length, message_length.
  destruct body; [contradiction|]. cbn [length]. unfold item. lia.
Qed.

Lemma device_loop_spec : forall fuel d s o s', inv s -> length (pending s) < fuel ->
  device_loop fuel d s = (o, s') ->
  listens (length (b_rbuf s)) (pending s) o (pending s') /\ read_frame d s s' /\ inv s'.
Proof.
  induction fuel as [|fuel IH]; intros d s o s' Hi L E; [lia|].
  cbn [device_loop] in E. unfold try_, bind at 1 in E.
  destruct (read_packet_deadline d s) as [o1 s1] eqn:R.
  pose proof (read_ideal _ _ _ _ (proj1 Hi) R) as K. symmetry in K.
  pose proof (read_packet_frame _ _ _ _ Hi R) as F.
  destruct (read_cap _ _ _ _ Hi R) as [I1 C1].
  destruct o1 as [[p|e]|pn|].
  - destruct (ideal_ok_packet _ _ _ _ K) as [id [body [Hb [_ Pk]]]].
    destruct body as [|i body]; [contradiction|].
    pose proof (packet_instruction _ _ _ _ Pk) as Ei.
    unfold bind, lift, ret, as_instruction in E. rewrite Ei in E. cbn [obind] in E.
    destruct (beq i STATUS) eqn:B; cbn [negb] in E.
    + apply beq_true in B. subst i.
      pose proof (ideal_ok_shorter _ _ _ _ K).
      destruct (IH d s1 o s' I1 ltac:(lia) E) as [J1 [J2 J3]]. rewrite C1 in J1.
      split; [|split; [eapply read_frame_trans; eassumption|exact J3]].
      eapply li_skip; eassumption.
    + injection E as <- <-. split; [|auto].
      eapply li_packet; [exact K|exact Ei|]. intro; subst i. rewrite beq_refl in B. discriminate.
  - injection E as <- <-. split; [|auto]. apply li_other; [exact K|discriminate].
  - injection E as <- <-. split; [|auto]. apply li_other; [exact K|discriminate].
  - injection E as <- <-. split; [|auto]. apply li_other; [exact K|discriminate].
Qed.

(** The fuel given by [read_raw_instruction_timeout] is enough. *)
Lemma device_loop_fuel_irrelevant : forall f1 f2 d s, inv s ->
  length (pending s) < f1 -> length (pending s) < f2 -> device_loop f1 d s = device_loop f2 d s.
Proof.
  induction f1 as [|f1 IH]; intros f2 d s Hi L1 L2; [lia|]. destruct f2 as [|f2]; [lia|].
  cbn [device_loop]. unfold try_, bind, lift.
  destruct (read_packet_deadline d s) as [o1 s1] eqn:R.
  destruct o1 as [[p|e]|pn|]; try reflexivity.
  pose proof (read_ideal _ _ _ _ (proj1 Hi) R) as K. symmetry in K.
  destruct (read_cap _ _ _ _ Hi R) as [I1 C1].
  pose proof (ideal_ok_shorter _ _ _ _ K).
  destruct (as_instruction p) as [[i|]|pp|]; try reflexivity.
  apply IH; [exact I1|lia|lia].
Qed.

Lemma items_length : forall sc, length (items sc) <= script_size sc.
Proof.
  induction sc as [|[bs|e] sc IH]; cbn [items script_size length]; [lia| |lia].
  rewrite app_length, map_length. unfold item in *; lia.
Qed.

Lemma device_fuel_enough : forall s, length (pending s) < device_fuel s.
Proof.
  intro s. unfold pending, device_fuel. rewrite app_length, map_length, skipn_length, firstn_length.
  pose proof (items_length (p_script (b_port s))). unfold item in *; lia.
Qed.

Lemma read_raw_spec : forall t s o s', inv s -> read_raw_instruction_timeout t s = (o, s') ->
  listens (length (b_rbuf s)) (pending s) o (pending s') /\ timed t s s' /\ inv s'.
Proof.
  intros t s o s' Hi E. unfold read_raw_instruction_timeout in E. unfold bind at 1 in E.
  rewrite make_deadline_eq in E. unfold bind, get in E.
  destruct (device_loop_spec _ _ _ _ _ (after_deadline_inv t s Hi) (device_fuel_enough (after_deadline t s)) E)
    as [K1 [K2 K3]].
  split; [exact K1|]. split; [constructor; exact K2|exact K3].
Qed.

(** ** Messages the loop skips *)

Lemma unst_first : forall b l, unst 0 (b :: l) = b :: unst (unext 0 b) l.
Proof. reflexivity. Qed.

Lemma ideal_framed : forall cap g id body w p', 10 <= cap -> ~ contains g header -> framed id body w ->
  body <> [] -> length w <= cap ->
  ideal cap (map inl (g ++ w) ++ p') = (Val (Ok (mkPacket (msg_head id (N.of_nat (length body + 2)) ++ unst 0 body))), p').
Proof.
  intros cap g id body w p' L G F Hb Hc. apply framed_iff in F. destruct F as [crc [-> [Hl C]]].
  rewrite message_length in Hc.
  rewrite ideal_message; [|exact L|exact G|apply C|exact Hl|lia].
  rewrite message_event_good by assumption. reflexivity.
Qed.

Lemma listens_skips : forall cap p p1, 10 <= cap -> skips cap p p1 -> forall o p', listens cap p1 o p' -> listens cap p o p'.
Proof.
  intros cap p p1 L H. induction H as [line|g id stuffed w l1 l2 G F Hc H IH]; intros o p' K; [exact K|].
  specialize (IH _ _ K). eapply li_skip; [| |exact IH].
  - apply (ideal_framed cap g id (STATUS :: stuffed) w l1 L G F); [discriminate|exact Hc].
  - rewrite unst_first. apply (packet_instruction _ _ _ _ (packet_head id _ _)).
Qed.

Lemma listens_inv : forall cap p o p', listens cap p o p' ->
  exists line, skips cap p line /\
   ((exists pk i, o = Val (Ok pk) /\ ideal cap line = (Val (Ok pk), p') /\ pk_instruction pk = Val i /\ i <> STATUS) \/
    (ideal cap line = (o, p') /\ forall pk, o <> Val (Ok pk))).
Proof.
  intros cap p o p' H. induction H as [p pk p1 o p' E I H IH|p pk i p' E I Ne|p o p' E Ne].
  - destruct IH as [line [S1 S2]]. exists line. split; [|exact S2].
    destruct (ideal_ok_inv _ _ _ _ E) as [_ [g [id [body [w [G [F [Hc [Hb [P Pk]]]]]]]]]].
    destruct body as [|b body]; [contradiction|].
    assert (b = STATUS) as ->.
    { rewrite Pk, unst_first, (packet_instruction _ _ _ _ (packet_head id _ _)) in I. congruence. }
    rewrite P. eapply skip_status; eassumption.
  - exists p. split; [constructor|]. left. exists pk, i. auto.
  - exists p. split; [constructor|]. right. auto.
Qed.
