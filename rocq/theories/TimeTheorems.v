(** * TimeTheorems: transfer times and timeouts *)
From Coq Require Import ZArith ZifyN ZifyNat ZifyBool.
From Verif Require Import Base Endian Error Checksum Bytestuff Packet Time Bus Data Client
  Instructions Device Api Spec CallSpec StreamSpec DeviceSpec InstructionSpec TimeSpec Demo Lib ChecksumProofs
  CrcErrorProofs StuffProofs WriteProofs ReadProofs ApiProofs StreamProofs MessageProofs SendProofs
  SendTheorems ReadTheorems StatusProofs DeviceTheorems InstructionProofs DemoProofs TransferTheorems.
Local Open Scope N_scope.

Lemma mod_lt' : forall a b, b <> 0 -> a mod b < b.
Proof. intros. apply N.mod_lt. assumption. Qed.

Lemma ceil_spec : forall x b, b <> 0 ->
  let c := x / b + (if x mod b =? 0 then 0 else 1) in x <= c * b /\ forall y, x <= y * b -> c <= y.
Proof.
  intros x b Hb c. pose proof (N.div_mod x b Hb) as E. pose proof (N.mod_lt x b Hb) as L.
  set (q := x / b) in *. set (r := x mod b) in *. subst c.
  split.
  - destruct (r =? 0) eqn:K; [apply N.eqb_eq in K|apply N.eqb_neq in K]; nia.
  - intros y Hy. destruct (r =? 0) eqn:K; [apply N.eqb_eq in K|apply N.eqb_neq in K]; nia.
Qed.

Lemma L_C39_transfer_time : forall dbg size baud, size < 2 ^ 32 -> baud <> 0 -> baud < 2 ^ 32 ->
  exists t, message_transfer_time dbg size baud = Val t /\ valid_duration t /\
    enough_time size baud (nanoseconds t) /\
    forall ns, enough_time size baud ns -> nanoseconds t <= ns.
Proof.
  intros dbg size baud Hs Hb Hb2. unfold message_transfer_time, u64_mul.
  replace (u64_max <? size * 10) with false by (symmetry; apply N.ltb_ge; unfold u64_max; lia).
  cbn [obind]. rewrite (proj2 (N.eqb_neq baud 0) Hb).
  pose proof (N.div_mod (size * 10) baud Hb) as E. pose proof (N.mod_lt (size * 10) baud Hb) as L.
  set (q := size * 10 / baud) in *. set (r := size * 10 mod baud) in *.
  assert (Lx : r * 1000000000 <= u64_max).
  { unfold u64_max. change (2 ^ 64 - 1) with 18446744073709551615. change (2 ^ 32) with 4294967296 in *. lia. }
  replace (u64_max <? r * 1000000000) with false by (symmetry; apply N.ltb_ge; exact Lx).
  cbn [obind]. set (x := r * 1000000000) in *.
  destruct (ceil_spec x baud Hb) as [C1 C2]. cbv zeta in C1, C2.
  set (c := x / baud + (if x mod baud =? 0 then 0 else 1)) in *.
  assert (Hc : c <= 1000000000) by (apply C2; unfold x; nia).
  rewrite N.mod_small by (change (2 ^ 32) with 4294967296; lia).
  assert (Hq : q <= 42949672960) by (change (2 ^ 32) with 4294967296 in *; nia).
  assert (En : enough_time size baud (q * 1000000000 + c)).
  { unfold enough_time. rewrite E. replace ((baud * q + r) * 1000000000) with (q * 1000000000 * baud + x) by (unfold x; nia). nia. }
  assert (Mi : forall ns, enough_time size baud ns -> q * 1000000000 + c <= ns).
  { unfold enough_time. intros ns H. rewrite E in H.
    replace ((baud * q + r) * 1000000000) with (q * 1000000000 * baud + x) in H by (unfold x; nia).
    assert (q * 1000000000 <= ns) by nia.
    assert (c <= ns - q * 1000000000); [|lia]. apply C2. nia. }
  clearbody c x q r. unfold dur_new, nanos_per_sec.
  destruct (c <? 1000000000) eqn:Lc.
  - apply N.ltb_lt in Lc. eexists. split; [reflexivity|]. unfold valid_duration, nanoseconds. cbn [d_secs d_nanos].
    split; [split; [change (2 ^ 64) with 18446744073709551616; lia|exact Lc]|]. split; [exact En|exact Mi].
  - apply N.ltb_ge in Lc. assert (c = 1000000000) by lia. subst c.
    change (1000000000 / 1000000000) with 1. change (1000000000 mod 1000000000) with 0.
    replace (u64_max <? q + 1) with false by (symmetry; apply N.ltb_ge; unfold u64_max; lia).
    eexists. split; [reflexivity|]. unfold valid_duration, nanoseconds. cbn [d_secs d_nanos].
    split; [split; [change (2 ^ 64) with 18446744073709551616; lia|lia]|].
    replace ((q + 1) * 1000000000 + 0) with (q * 1000000000 + 1000000000) by lia. split; [exact En|exact Mi].
Qed.

Lemma L_C39_monotone : forall dbg size size' baud t t', size <= size' -> size' < 2 ^ 32 -> baud < 2 ^ 32 ->
  message_transfer_time dbg size baud = Val t -> message_transfer_time dbg size' baud = Val t' ->
  nanoseconds t <= nanoseconds t'.
Proof.
  intros dbg size size' baud t t' L Hs Hb E E'.
  assert (Nz : baud <> 0). { intros ->. unfold message_transfer_time, u64_mul in E. destruct (u64_max <? size * 10); destruct dbg; discriminate. }
  destruct (L_C39_transfer_time dbg size baud ltac:(lia) Nz Hb) as [u [E1 [_ [_ M]]]].
  destruct (L_C39_transfer_time dbg size' baud Hs Nz Hb) as [u' [E2 [_ [En _]]]].
  rewrite E in E1. injection E1 as <-. rewrite E' in E2. injection E2 as <-.
  apply M. unfold enough_time in *. nia.
Qed.

Lemma L_C39_faster_line : forall dbg size baud baud' t t', size < 2 ^ 32 -> baud <= baud' -> baud' < 2 ^ 32 ->
  message_transfer_time dbg size baud = Val t -> message_transfer_time dbg size baud' = Val t' ->
  nanoseconds t' <= nanoseconds t.
Proof.
  intros dbg size baud baud' t t' Hs L Hb E E'.
  assert (Nz : baud <> 0). { intros ->. unfold message_transfer_time, u64_mul in E. destruct (u64_max <? size * 10); destruct dbg; discriminate. }
  destruct (L_C39_transfer_time dbg size baud Hs Nz ltac:(lia)) as [u [E1 [_ [En _]]]].
  destruct (L_C39_transfer_time dbg size baud' Hs ltac:(lia) Hb) as [u' [E2 [_ [_ M]]]].
  rewrite E in E1. injection E1 as <-. rewrite E' in E2. injection E2 as <-.
  apply M. unfold enough_time in *. nia.
Qed.

(** ** Adding and multiplying durations *)

Lemma dur_add_spec : forall a b, valid_duration a -> valid_duration b ->
  nanoseconds a + nanoseconds b < 2 ^ 64 * 1000000000 ->
  exists t, dur_add a b = Val t /\ valid_duration t /\ nanoseconds t = nanoseconds a + nanoseconds b.
Proof.
  intros [s1 n1] [s2 n2] [A1 A2] [B1 B2] H. unfold valid_duration, nanoseconds, dur_add, nanos_per_sec, u64_max in *.
  cbn [d_secs d_nanos] in *. change (2 ^ 64) with 18446744073709551616 in *.
  destruct (1000000000 <=? n1 + n2) eqn:K; [apply N.leb_le in K|apply N.leb_gt in K].
  - replace (18446744073709551616 - 1 <? s1 + s2 + 1) with false by (symmetry; apply N.ltb_ge; lia).
    eexists. split; [reflexivity|]. cbn [d_secs d_nanos]. lia.
  - replace (18446744073709551616 - 1 <? s1 + s2 + 0) with false by (symmetry; apply N.ltb_ge; lia).
    eexists. split; [reflexivity|]. cbn [d_secs d_nanos]. lia.
Qed.

Lemma dur_mul_spec : forall a k, valid_duration a -> nanoseconds a * k < 2 ^ 64 * 1000000000 ->
  exists t, dur_mul a k = Val t /\ valid_duration t /\ nanoseconds t = nanoseconds a * k.
Proof.
  intros [s n] k [A1 A2] H. unfold valid_duration, nanoseconds, dur_mul, nanos_per_sec, u64_max in *.
  cbn [d_secs d_nanos] in *. change (2 ^ 64) with 18446744073709551616 in *.
  pose proof (N.div_mod (n * k) 1000000000 ltac:(lia)) as E. pose proof (N.mod_lt (n * k) 1000000000 ltac:(lia)) as L.
  set (q := n * k / 1000000000) in *. set (r := n * k mod 1000000000) in *.
  replace (18446744073709551616 - 1 <? s * k + q) with false by (symmetry; apply N.ltb_ge; nia).
  eexists. split; [reflexivity|]. cbn [d_secs d_nanos]. nia.
Qed.

(** ** C40 *)

(** The response timeout is exactly the transfer time of a response without
    stuffing plus 34 ms. *)
Lemma response_timeout_exact : forall dbg baud n, n < 2 ^ 16 -> baud <> 0 -> baud < 2 ^ 32 ->
  exists t x, response_timeout dbg baud n = Val t /\ valid_duration t /\ nanoseconds t = x + 34000000 /\
    enough_time (11 + n) baud x /\ forall y, enough_time (11 + n) baud y -> x <= y.
Proof.
  intros dbg baud n Hn Hb Hb2. unfold response_timeout, st_message_len, HEADER_SIZE.
  rewrite N.mod_small by lia.
  replace (N.of_nat _) with (11 + n) by lia.
  destruct (L_C39_transfer_time dbg (11 + n) baud ltac:(lia) Hb Hb2) as [u [E [V [En M]]]].
  rewrite E. cbn [obind].
  assert (U : nanoseconds u <= 700000000000000).
  { apply M. unfold enough_time. change (2 ^ 16) with 65536 in *. nia. }
  destruct (dur_add_spec u dur_34ms V) as [t [E2 [V2 N2]]].
  - split; reflexivity.
  - change (nanoseconds dur_34ms) with 34000000. change (2 ^ 64) with 18446744073709551616. lia.
  - exists t, (nanoseconds u). split; [exact E2|]. split; [exact V2|]. split; [exact N2|]. split; assumption.
Qed.

(** The call made one deadline, [t] from its start, and every read used that one. *)
Lemma status_deadline : forall s n o s', reach s -> n < 2 ^ 16 -> b_baud s <> 0 -> b_baud s < 2 ^ 32 ->
  read_status_response n s = (o, s') ->
  exists t x, waits_at_most s s' t /\ valid_duration t /\ nanoseconds t = x + 34000000 /\
    enough_time (11 + n) (b_baud s) x.
Proof.
  intros s n o s' R Hn Hb Hb2 E.
  destruct (response_timeout_exact (b_dbg s) (b_baud s) n Hn Hb Hb2) as [t [x [Et [V [Nx [En _]]]]]].
  pose proof (L_C41_status_response s n o s' R E) as K. rewrite Et in K.
  destruct K as [d [evs [D [C F]]]]. exists t, x. split; [exists d, evs; auto|]. auto.
Qed.

(** A status packet with [n] parameters, as long as nothing in it needs stuffing,
    fits in the timeout with 34 ms to spare. *)
Lemma L_C40_timeout_partial : forall s n o s', reach s -> n < 2 ^ 16 -> b_baud s <> 0 -> b_baud s < 2 ^ 32 ->
  read_status_response n s = (o, s') ->
  exists t, waits_at_most s s' t /\ 34000000 <= nanoseconds t /\
    forall id e params w, is_frame id (x55 :: e :: params) w -> N.of_nat (length params) = n ->
      pstuff (x55 :: e :: params) = x55 :: e :: params ->
      enough_time (N.of_nat (length w)) (b_baud s) (nanoseconds t - 34000000).
Proof.
  intros s n o s' R Hn Hb Hb2 E.
  destruct (status_deadline s n o s' R Hn Hb Hb2 E) as [t [x [W [V [Nx En]]]]].
  exists t. split; [exact W|]. split; [lia|]. intros id e params w F L P.
  replace (nanoseconds t - 34000000) with x by lia.
  destruct F as [crc [-> _]]. rewrite P. unfold wire_of_body. rewrite !app_length. cbn [length header le16].
  replace (N.of_nat _) with (11 + n) by lia. exact En.
Qed.

(** In general the time for the stuffing bytes comes out of the 34 ms: what is left
    for the motor is [spare] nanoseconds if the [k] stuffing bytes fit in 34 ms - [spare]. *)
Lemma L_C40_stuffing_uses_up_allowance : forall s n o s', reach s -> n < 2 ^ 16 -> b_baud s <> 0 -> b_baud s < 2 ^ 32 ->
  read_status_response n s = (o, s') ->
  exists t, waits_at_most s s' t /\
    forall id e params w k spare, is_frame id (x55 :: e :: params) w -> N.of_nat (length params) = n ->
      N.of_nat (length w) = 11 + n + k -> spare <= 34000000 -> enough_time k (b_baud s) (34000000 - spare) ->
      spare <= nanoseconds t /\ enough_time (N.of_nat (length w)) (b_baud s) (nanoseconds t - spare).
Proof.
  intros s n o s' R Hn Hb Hb2 E.
  destruct (status_deadline s n o s' R Hn Hb Hb2 E) as [t [x [W [V [Nx En]]]]].
  exists t. split; [exact W|]. intros id e params w k spare F L K D H.
  split; [lia|]. rewrite K, Nx. unfold enough_time in *. nia.
Qed.

(** 120 parameters of which every third byte completes FF FF FD. *)
Definition stuffy : list byte := concat (repeat [xff; xff; xfd] 40).

Lemma stuffy_frame : exists w, is_frame x01 (x55 :: x00 :: stuffy) w /\ length w = 171%nat.
Proof.
  exists (frame x01 (x55 :: x00 :: stuffy)). split; [apply frame_ok; vm_compute; reflexivity|vm_compute; reflexivity].
Qed.

Lemma waits_unique : forall s s' t t', waits_at_most s s' t -> waits_at_most s s' t' -> t = t'.
Proof.
  intros s s' t t' [d [evs [D [C _]]]] [d' [evs' [D' [C' _]]]]. unfold calls in *. rewrite C in C'.
  apply app_inv_head in C'. injection C' as ? _. congruence.
Qed.

(** A client at 9600 baud. *)
Definition slow_bus : bus :=
  mkBus (mkPort [] [] [] [] 0 []) 9600 (repeat x00 200) 0 0 (header ++ repeat x00 20) true.

Lemma slow_bus_reach : reach slow_bus.
Proof.
  apply (reach_new true (mkPort [] [] [] [] 0 []) (repeat x00 200) (repeat x00 24) 9600). vm_compute. reflexivity.
Qed.

Lemma slow_bus_waits : exists o s', read_status_response 120 slow_bus = (o, s') /\
  forall t, waits_at_most slow_bus s' t -> nanoseconds t = 170458334.
Proof.
  destruct (read_status_response 120 slow_bus) as [o s'] eqn:E. exists o, s'. split; [reflexivity|].
  intros t W. pose proof (L_C41_status_response slow_bus 120 o s' slow_bus_reach E) as K.
  destruct (response_timeout (b_dbg slow_bus) (b_baud slow_bus) 120) as [t'|?|] eqn:T; [|discriminate T..].
  rewrite (waits_unique _ _ _ _ W K). vm_compute in T. injection T as <-. reflexivity.
Qed.

Lemma L_C40_timeout_refuted :
  ~ (forall s n o s', reach s -> n < 2 ^ 16 -> b_baud s <> 0 -> b_baud s < 2 ^ 32 ->
       read_status_response n s = (o, s') ->
       exists t, waits_at_most s s' t /\ 34000000 <= nanoseconds t /\
         forall id e params w, is_frame id (x55 :: e :: params) w -> N.of_nat (length params) = n ->
           enough_time (N.of_nat (length w)) (b_baud s) (nanoseconds t - 34000000)).
Proof.
  intro H. destruct stuffy_frame as [w [F L]]. destruct slow_bus_waits as [o [s' [E W]]].
  destruct (H slow_bus 120 o s' slow_bus_reach eq_refl ltac:(discriminate) eq_refl E) as [t [Wt [_ K]]].
  specialize (K x01 x00 stuffy w F eq_refl). rewrite L, (W t Wt) in K. apply K. reflexivity.
Qed.

(** With much stuffing, even the response of a motor that answers at once does not fit. *)
Lemma L_C40_instant_answer_times_out : exists s n o s', reach s /\ read_status_response n s = (o, s') /\
  b_baud s = 9600 /\ (exists t, waits_at_most s s' t) /\
  forall t, waits_at_most s s' t ->
    exists id e params w, is_frame id (x55 :: e :: params) w /\ N.of_nat (length params) = n /\
      ~ enough_time (N.of_nat (length w)) (b_baud s) (nanoseconds t).
Proof.
  destruct stuffy_frame as [w [F L]]. destruct slow_bus_waits as [o [s' [E W]]].
  exists slow_bus, 120, o, s'. split; [exact slow_bus_reach|]. split; [exact E|]. split; [reflexivity|].
  split.
  { destruct (status_deadline slow_bus 120 o s' slow_bus_reach eq_refl ltac:(discriminate) eq_refl E) as [t [x [Wt _]]]. eauto. }
  intros t Wt. exists x01, x00, stuffy, w. split; [exact F|]. split; [reflexivity|].
  rewrite L, (W t Wt). intro K. apply K. reflexivity.
Qed.

(** A scan waits long enough for 253 ping responses (of 14 bytes: a response to a
    ping contains no FF FF FD). *)
Lemma scan_timeout_enough : forall dbg baud, baud <> 0 -> baud < 2 ^ 32 ->
  exists t, scan_timeout dbg baud = Val t /\ valid_duration t /\ 34000000 <= nanoseconds t /\
    enough_time (253 * 14) baud (nanoseconds t - 34000000).
Proof.
  intros dbg baud Hb Hb2. unfold scan_timeout.
  destruct (L_C39_transfer_time dbg 14 baud ltac:(lia) Hb Hb2) as [u [E [V [En M]]]]. rewrite E. cbn [obind].
  assert (U : nanoseconds u <= 140000000000).
  { apply M. unfold enough_time. nia. }
  destruct (dur_mul_spec u 253 V) as [v [E2 [V2 N2]]].
  { change (2 ^ 64) with 18446744073709551616. lia. }
  rewrite E2. cbn [obind].
  destruct (dur_add_spec v dur_34ms V2) as [t [E3 [V3 N3]]].
  { split; reflexivity. }
  { change (nanoseconds dur_34ms) with 34000000. change (2 ^ 64) with 18446744073709551616. lia. }
  change (nanoseconds dur_34ms) with 34000000 in N3.
  exists t. split; [exact E3|]. split; [exact V3|]. split; [lia|].
  replace (nanoseconds t - 34000000) with (nanoseconds u * 253) by lia.
  unfold enough_time in *. nia.
Qed.
