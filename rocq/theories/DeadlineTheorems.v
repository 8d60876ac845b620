(** * DeadlineTheorems: proofs of C72 *)
From Coq Require Import ZArith.
From Verif Require Import Base Endian Error Checksum Bytestuff Packet Time Bus Data Client
  Instructions Device Api Spec CallSpec StreamSpec TimeSpec Serial2 Demo DemoProofs BaudTheorems.
Local Open Scope N_scope.

Lemma L_C72_any_timeout_refuted : ~ (forall now t, now <= linux_limit -> valid_duration t ->
  exists d, serial2_make_deadline linux_limit now t = Val d).
Proof.
  intros H. destruct (H 0 (mkDur (2 ^ 64 - 1) 999999999)) as [d E].
  - vm_compute. discriminate.
  - split; reflexivity.
  - vm_compute in E. discriminate.
Qed.

Lemma L_C72_exactly : forall limit now t,
  (now + nanoseconds t <= limit -> serial2_make_deadline limit now t = Val (now + nanoseconds t)) /\
  (limit < now + nanoseconds t -> serial2_make_deadline limit now t = Panic POverflow).
Proof.
  intros limit now t. unfold serial2_make_deadline, serial2_deadline, nanoseconds.
  split; intros H; destruct (N.ltb_spec limit (now + (d_secs t * 1000000000 + d_nanos t))); try lia; reflexivity.
Qed.

Lemma shortest_bound bytes baud x : baud <> 0 -> shortest_time bytes baud x -> x <= bytes * 10000000000.
Proof.
  intros B [_ H]. apply H. unfold enough_time. 
  replace (bytes * 10 * 1000000000) with (bytes * 10000000000 * 1) by lia. apply N.mul_le_mono_l. lia.
Qed.

Lemma L_C72_own_timeouts_fit : forall s n o s' limit now, reach s -> n < 2 ^ 16 -> b_baud s <> 0 -> b_baud s < 2 ^ 32 ->
  now + 655460034000000 <= limit -> read_status_response n s = (o, s') ->
  exists t d, waits_at_most s s' t /\ serial2_make_deadline limit now t = Val d.
Proof.
  intros s n o s' limit now R Hn B1 B2 L E. destruct (L_C40_exact s n o s' R Hn B1 B2 E) as [t [x [W [_ [Et Sx]]]]].
  exists t, (now + nanoseconds t). split; [exact W|]. apply L_C72_exactly. apply (shortest_bound _ _ _ B1) in Sx.
  change (2 ^ 16) with 65536 in Hn. lia.
Qed.

Lemma L_C72_scan_timeouts_fit : forall s o s' limit now, reach s -> b_baud s <> 0 -> b_baud s < 2 ^ 32 ->
  now + 35420034000000 <= limit -> scan_next s = (o, s') ->
  exists t d, waits_at_most s s' t /\ serial2_make_deadline limit now t = Val d.
Proof.
  intros s o s' limit now R B1 B2 L E. destruct (L_C40_scan_exact s o s' R B1 B2 E) as [t [x [W [_ [Et Sx]]]]].
  exists t, (now + nanoseconds t). split; [exact W|]. apply L_C72_exactly. apply (shortest_bound _ _ _ B1) in Sx. lia.
Qed.

Lemma L_C72_linux : forall now t, now < 2 ^ 32 * 1000000000 -> valid_duration t ->
  (d_secs t < 2 ^ 63 - 2 ^ 32 -> serial2_make_deadline linux_limit now t = Val (now + nanoseconds t)) /\
  (2 ^ 63 <= d_secs t -> serial2_make_deadline linux_limit now t = Panic POverflow).
Proof.
  intros now t Hn [_ V]. split; intros H; apply L_C72_exactly; unfold linux_limit, nanoseconds in *;
  change (2 ^ 63) with 9223372036854775808 in *; change (2 ^ 32) with 4294967296 in *; lia.
Qed.
