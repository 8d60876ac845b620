(** * CostTheorems: C89 *)
From Coq Require Import ZArith ZifyN ZifyNat ZifyBool.
From Verif Require Import Base Endian Error Checksum Bytestuff Packet Time Bus Data Client
  Instructions Device Api Spec CallSpec StreamSpec InstructionSpec CostSpec Lib ChecksumProofs
  CrcErrorProofs StuffProofs WriteProofs ReadProofs ApiProofs StreamProofs MessageProofs SendProofs
  SendTheorems ReadTheorems StatusProofs DeviceTheorems InstructionProofs.
Ltac Zify.zify_post_hook ::= Z.div_mod_to_equations.

Lemma only_reads_cost : forall evs, Forall only_reads evs -> bytes_written evs = 0.
Proof.
  intros evs H. unfold bytes_written. induction H as [|e l He _ IH]; [reflexivity|].
  cbn [map list_sum fold_right]. unfold list_sum in IH. rewrite IH. destruct e; try contradiction; reflexivity.
Qed.

Lemma nothing_cost : forall evs, nothing_sent evs -> bytes_written evs = 0.
Proof.
  intros evs H. unfold nothing_sent in H. destruct H as [->|[e ->]]; reflexivity.
Qed.

Lemma costs_value : forall B E (m : M (result B E)) id i params ins k, request m id i params ins -> costs m k ->
  k = 10 + length params + fcount 0 (i :: params).
Proof.
  intros B E m id i params ins k H [P [s [o [s' [evs [R [Em [C W]]]]]]]].
  destruct (request_transmits _ _ _ _ _ _ _ H s o s' R Em) as [evs' [C' [[S|[S _]] _]]];
    pose proof (calls_inj _ _ _ _ C C') as <-.
  - destruct S as [r [l [-> F]]]. apply only_reads_cost in F. unfold bytes_written in *. cbn [map list_sum fold_right] in *.
    unfold list_sum in F. rewrite F in W. rewrite code_wire_length in W. cbn [length] in W. lia.
  - apply nothing_cost in S. lia.
Qed.

(** ** Counting stuffing *)

Lemma fnext_le : forall s b, fnext s b <= 2.
Proof. intros [|[|s]] b; cbn; try destruct (beq b xff); lia. Qed.

Lemma fcount_reset : forall s b l, b <> xff -> b <> xfd -> fcount s (b :: l) = fcount 0 l.
Proof.
  intros s b l H1 H2. cbn [fcount]. assert (E1 : beq b xff = false) by (apply beq_false, H1).
  assert (E2 : beq b xfd = false) by (apply beq_false, H2).
  unfold fhit. rewrite E2, Bool.andb_false_r. destruct s as [|[|s]]; cbn [fnext]; rewrite ?E1; reflexivity.
Qed.

Lemma low_byte : forall b, (b2n b <= 252)%N -> b <> xff /\ b <> xfd.
Proof. intros b H. split; intros ->; vm_compute in H; apply H; reflexivity. Qed.

Lemma fcount_app : forall l m s, s <= 2 -> exists t, t <= 2 /\ fcount s (l ++ m) = fcount s l + fcount t m.
Proof.
  induction l as [|b l IH]; intros m s H; [exists s; split; [exact H|reflexivity]|].
  cbn [app fcount]. destruct (IH m (fnext s b) (fnext_le s b)) as [t [Ht ->]]. exists t. split; [exact Ht|]. lia.
Qed.

(** Where the matcher stands makes a difference of at most one. *)
Lemma fcount_near : forall l s t, s <= 2 -> t <= 2 -> fcount s l <= fcount t l + 1.
Proof.
  induction l as [|b l IH]; intros s t Hs Ht; [cbn; lia|].
  destruct (beq b xff) eqn:E.
  - apply beq_true in E. subst b. specialize (IH (fnext s xff) (fnext t xff) (fnext_le _ _) (fnext_le _ _)).
    cbn [fcount]. unfold fhit. change (beq xff xfd) with false. rewrite !Bool.andb_false_r. lia.
  - assert (N : forall u, fnext u b = 0) by (intros [|[|u]]; cbn [fnext]; rewrite ?E; reflexivity).
    cbn [fcount]. rewrite !N. destruct (fhit s b), (fhit t b); lia.
Qed.

Lemma fcount_two : forall a b l, exists t, t <= 2 /\ fcount 0 (a :: b :: l) = fcount t l.
Proof.
  intros a b l. exists (fnext (fnext 0 a) b). split; [apply fnext_le|]. cbn [fcount]. unfold fhit at 1. cbn [Nat.eqb andb].
  destruct (beq a xff) eqn:E; cbn [fnext]; rewrite E; reflexivity.
Qed.

Lemma high_byte : forall n, ordinary n -> (b2n (n2b (n / 256)) <= 252)%N.
Proof. intros n H. unfold ordinary in H. rewrite b2n_n2b. lia. Qed.

Lemma fcount_ordinary : forall n l, ordinary n -> fcount 0 (le16 n ++ l) = fcount 0 l.
Proof.
  intros n l H. apply high_byte, low_byte in H. destruct H as [H1 H2]. unfold le16. cbn [app].
  rewrite <- (fcount_reset (fnext 0 (n2b n)) (n2b (n / 256)) l H1 H2). reflexivity.
Qed.

Lemma fcount_16_id : forall n id l, motor_id id -> fcount 0 (le16 n ++ id :: l) = fcount 0 l.
Proof.
  intros n id l H. apply low_byte in H. destruct H as [H1 H2]. unfold le16. cbn [app].
  destruct (fcount_two (n2b n) (n2b (n / 256)) (id :: l)) as [t [_ ->]]. apply fcount_reset; assumption.
Qed.

(** The counts of the separate writes, added up. *)
Lemma sync_entries_count : forall l s, s <= 2 -> Forall (fun x => motor_id (sw_id x)) l ->
  fcount s (sync_entries l) = list_sum (map (fun x => fcount 0 (sw_data x)) l).
Proof.
  induction l as [|x l IH]; intros s Hs H; [reflexivity|].
  apply Forall_cons_iff in H. destruct H as [Hx Hl]. apply low_byte in Hx. destruct Hx as [H1 H2].
  change (sync_entries (x :: l)) with (sw_id x :: sw_data x ++ sync_entries l).
  rewrite fcount_reset by assumption.
  destruct (fcount_app (sw_data x) (sync_entries l) 0 ltac:(lia)) as [t [Ht ->]].
  rewrite (IH t Ht Hl). reflexivity.
Qed.

Lemma sync_header_count : forall a n l, ordinary a -> Forall (fun x => motor_id (sw_id x)) l ->
  fcount 0 (x83 :: le16 a ++ le16 n ++ sync_entries l) = list_sum (map (fun x => fcount 0 (sw_data x)) l).
Proof.
  intros a n l Ha Hl. rewrite fcount_reset by discriminate. rewrite fcount_ordinary by exact Ha.
  destruct (fcount_two (n2b n) (n2b (n / 256)) (sync_entries l)) as [t [Ht E]].
  change (le16 n ++ sync_entries l) with (n2b n :: n2b (n / 256) :: sync_entries l). rewrite E.
  apply sync_entries_count; assumption.
Qed.

Lemma write_count : forall a d, ordinary a -> fcount 0 (x03 :: le16 a ++ d) = fcount 0 d.
Proof. intros a d H. rewrite fcount_reset by discriminate. apply fcount_ordinary, H. Qed.

Lemma ordinary_u16 : forall n, ordinary n -> is_u16 n.
Proof. intros n H. unfold ordinary, is_u16 in *. change (2 ^ 16)%N with 65536%N. lia. Qed.

Lemma L_C89_sync_write : forall a n l k ks, ordinary a -> is_u16 n ->
  Forall (fun x => motor_id (sw_id x) /\ length (sw_data x) = N.to_nat n) l ->
  costs (sync_write_bytes a n l) k -> Forall2 (fun x => costs (write_bytes (sw_id x) a (sw_data x))) l ks ->
  k + 11 * length l = list_sum ks + 14.
Proof.
  intros a n l k ks Ha Hn Hl Hk Hs. pose proof (ordinary_u16 _ Ha) as Ua.
  assert (Hi : Forall (fun x => motor_id (sw_id x)) l) by (eapply Forall_impl; [|exact Hl]; intros ? [? ?]; assumption).
  assert (Hd : Forall (fun x => length (sw_data x) = N.to_nat n) l) by (eapply Forall_impl; [|exact Hl]; intros ? [? ?]; assumption).
  apply (costs_value _ _ _ _ _ _ _ _ (rq_sync_write_bytes a n l Ua Hn Hd)) in Hk.
  rewrite (sync_header_count a n l Ha Hi), !app_length, !le16_length in Hk.
  assert (G : length (sync_entries l) + list_sum (map (fun x => fcount 0 (sw_data x)) l) + 11 * length l = list_sum ks).
  { clear Hk Hl. induction Hs as [|x y l ks Hx Hs IH]; [reflexivity|].
    apply Forall_cons_iff in Hi, Hd. specialize (IH (proj2 Hi) (proj2 Hd)).
    apply (costs_value _ _ _ _ _ _ _ _ (rq_write_bytes (sw_id x) a (sw_data x) Ua)) in Hx.
    rewrite (write_count a _ Ha), app_length, le16_length in Hx.
    change (sync_entries (x :: l)) with (sw_id x :: sw_data x ++ sync_entries l).
    cbn [length map list_sum fold_right]. rewrite app_length. unfold list_sum in *. lia. }
  lia.
Qed.

(** In general. *)
Lemma L_C89_sync_write_shorter : forall a n l k ks, is_u16 a -> is_u16 n ->
  Forall (fun x => length (sw_data x) = N.to_nat n) l -> 2 <= length l ->
  costs (sync_write_bytes a n l) k -> Forall2 (fun x => costs (write_bytes (sw_id x) a (sw_data x))) l ks ->
  k < list_sum ks.
Proof.
  intros a n l k ks Ua Hn Hd L Hk Hs.
  apply (costs_value _ _ _ _ _ _ _ _ (rq_sync_write_bytes a n l Ua Hn Hd)) in Hk.
  assert (G : forall s, s <= 2 -> length (sync_entries l) + fcount s (sync_entries l) + 8 * length l <= list_sum ks).
  { clear Hk L. induction Hs as [|x y l ks Hx Hs IH]; intros s Hss; [cbn; lia|].
    apply Forall_cons_iff in Hd. specialize (IH (proj2 Hd)).
    apply (costs_value _ _ _ _ _ _ _ _ (rq_write_bytes (sw_id x) a (sw_data x) Ua)) in Hx.
    rewrite app_length, le16_length, fcount_reset in Hx by discriminate.
    unfold le16 in Hx. cbn [app] in Hx.
    destruct (fcount_two (n2b a) (n2b (a / 256)) (sw_data x)) as [u [Hu Eu]]. rewrite Eu in Hx.
    change (sync_entries (x :: l)) with (sw_id x :: sw_data x ++ sync_entries l).
    cbn [length fcount map list_sum fold_right]. rewrite app_length.
    destruct (fcount_app (sw_data x) (sync_entries l) (fnext s (sw_id x)) (fnext_le _ _)) as [t [Ht ->]].
    specialize (IH t Ht). pose proof (fcount_near (sw_data x) (fnext s (sw_id x)) u (fnext_le _ _) Hu).
    unfold list_sum in *. destruct (fhit s (sw_id x)); lia. }
  rewrite !app_length, !le16_length, fcount_reset in Hk by discriminate.
  unfold le16 in Hk. cbn [app] in Hk.
  destruct (fcount_two (n2b a) (n2b (a / 256)) (n2b n :: n2b (n / 256) :: sync_entries l)) as [u [Hu Eu]]. rewrite Eu in Hk.
  destruct (fcount_app [n2b n; n2b (n / 256)] (sync_entries l) u Hu) as [t [Ht Et]]. cbn [app] in Et. rewrite Et in Hk.
  specialize (G t Ht).
  assert (F : fcount u [n2b n; n2b (n / 256)] <= 1).
  { cbn [fcount]. destruct u as [|[|[|u]]]; try lia; unfold fhit; cbn [Nat.eqb andb fnext];
      repeat match goal with |- context [beq ?x ?y] => destruct (beq x y) end; cbn; lia. }
  lia.
Qed.

(** ** Bulk write *)

Lemma bulk_entry_count : forall l s, s <= 2 ->
  Forall (fun x => motor_id (bw_id x) /\ ordinary (bw_address x) /\ ordinary (N.of_nat (length (bw_data x)))) l ->
  fcount s (bulk_write_entries l) = list_sum (map (fun x => fcount 0 (bw_data x)) l).
Proof.
  induction l as [|x l IH]; intros s Hs H; [reflexivity|].
  apply Forall_cons_iff in H. destruct H as [[Hx [Ha Hd]] Hl]. apply low_byte in Hx. destruct Hx as [H1 H2].
  change (bulk_write_entries (x :: l))
    with (bw_id x :: (le16 (bw_address x) ++ le16 (N.of_nat (length (bw_data x))) ++ bw_data x) ++ bulk_write_entries l).
  rewrite fcount_reset by assumption. rewrite <- !app_assoc, !fcount_ordinary by assumption.
  destruct (fcount_app (bw_data x) (bulk_write_entries l) 0 ltac:(lia)) as [t [Ht ->]].
  rewrite (IH t Ht Hl). reflexivity.
Qed.

Lemma L_C89_bulk_write : forall l k ks,
  Forall (fun x => motor_id (bw_id x) /\ ordinary (bw_address x) /\ ordinary (N.of_nat (length (bw_data x)))) l ->
  costs (bulk_write l) k -> Forall2 (fun x => costs (write_bytes (bw_id x) (bw_address x) (bw_data x))) l ks ->
  k + 7 * length l = list_sum ks + 10.
Proof.
  intros l k ks Hl Hk Hs.
  assert (Hu : Forall (fun c => is_u16 (N.of_nat (length (bw_data c)))) l).
  { eapply Forall_impl; [|exact Hl]. intros x [_ [_ H]]. apply ordinary_u16, H. }
  apply (costs_value _ _ _ _ _ _ _ _ (rq_bulk_write l Hu)) in Hk.
  rewrite fcount_reset, bulk_entry_count in Hk by (discriminate || lia || assumption).
  assert (G : length (bulk_write_entries l) + list_sum (map (fun x => fcount 0 (bw_data x)) l) + 7 * length l = list_sum ks).
  { clear Hk Hu. induction Hs as [|x y l ks Hx Hs IH]; [reflexivity|].
    apply Forall_cons_iff in Hl. destruct Hl as [[Hi [Ha Hd]] Hl]. specialize (IH Hl).
    apply (costs_value _ _ _ _ _ _ _ _ (rq_write_bytes (bw_id x) (bw_address x) (bw_data x) (ordinary_u16 _ Ha))) in Hx.
    rewrite (write_count _ _ Ha), app_length, le16_length in Hx.
    change (bulk_write_entries (x :: l))
      with (bw_id x :: (le16 (bw_address x) ++ le16 (N.of_nat (length (bw_data x))) ++ bw_data x) ++ bulk_write_entries l).
    cbn [length map list_sum fold_right]. rewrite !app_length, !le16_length. unfold list_sum in *. lia. }
  lia.
Qed.

Lemma L_C89_bulk_write_not_longer : forall l k ks,
  Forall (fun x => motor_id (bw_id x) /\ is_u16 (bw_address x) /\ ordinary (N.of_nat (length (bw_data x)))) l -> 2 <= length l ->
  costs (bulk_write l) k -> Forall2 (fun x => costs (write_bytes (bw_id x) (bw_address x) (bw_data x))) l ks ->
  k <= list_sum ks.
Proof.
  intros l k ks Hl L Hk Hs.
  assert (Hu : Forall (fun c => is_u16 (N.of_nat (length (bw_data c)))) l).
  { eapply Forall_impl; [|exact Hl]. intros x [_ [_ H]]. apply ordinary_u16, H. }
  apply (costs_value _ _ _ _ _ _ _ _ (rq_bulk_write l Hu)) in Hk.
  rewrite fcount_reset in Hk by discriminate.
  assert (G : forall s, s <= 2 -> length (bulk_write_entries l) + fcount s (bulk_write_entries l) + 5 * length l <= list_sum ks).
  { clear Hk L Hu. induction Hs as [|x y l ks Hx Hs IH]; intros s Hss; [cbn; lia|].
    apply Forall_cons_iff in Hl. destruct Hl as [[Hi [Ha Hd]] Hl]. specialize (IH Hl).
    apply (costs_value _ _ _ _ _ _ _ _ (rq_write_bytes (bw_id x) (bw_address x) (bw_data x) Ha)) in Hx.
    rewrite app_length, le16_length, fcount_reset in Hx by discriminate.
    change (bulk_write_entries (x :: l))
      with (bw_id x :: (le16 (bw_address x) ++ le16 (N.of_nat (length (bw_data x))) ++ bw_data x) ++ bulk_write_entries l).
    apply low_byte in Hi. destruct Hi as [H1 H2]. rewrite fcount_reset by assumption.
    unfold le16 in Hx. cbn [app] in Hx.
    destruct (fcount_two (n2b (bw_address x)) (n2b (bw_address x / 256)) (bw_data x)) as [u [Hu Eu]]. rewrite Eu in Hx.
    cbn [length map list_sum fold_right]. rewrite !app_length, !le16_length.
    rewrite <- !app_assoc. unfold le16 at 1. cbn [app].
    destruct (fcount_two (n2b (bw_address x)) (n2b (bw_address x / 256))
      (le16 (N.of_nat (length (bw_data x))) ++ bw_data x ++ bulk_write_entries l)) as [v [Hv ->]].
    unfold le16. cbn [app]. apply high_byte, low_byte in Hd. destruct Hd as [D1 D2].
    set (b0 := n2b (N.of_nat (length (bw_data x)))). set (b1 := n2b (N.of_nat (length (bw_data x)) / 256)) in *.
    change (fcount v (b0 :: b1 :: bw_data x ++ bulk_write_entries l)) with
      ((if fhit v b0 then 1 else 0) + fcount (fnext v b0) (b1 :: bw_data x ++ bulk_write_entries l)).
    rewrite (fcount_reset _ b1) by assumption.
    destruct (fcount_app (bw_data x) (bulk_write_entries l) 0 ltac:(lia)) as [t [Ht ->]].
    specialize (IH t Ht). pose proof (fcount_near (bw_data x) 0 u ltac:(lia) Hu).
    unfold list_sum in *. destruct (fhit v b0); lia. }
  specialize (G 0 ltac:(lia)). lia.
Qed.

(** ** Reads *)

Lemma ids_count : forall ids s, Forall motor_id ids -> fcount s ids = 0.
Proof.
  intros ids s H. destruct H as [|x l Hx Hl]; [reflexivity|]. revert s x Hx.
  induction Hl as [|y l Hy Hl IH]; intros s x Hx; apply low_byte in Hx; rewrite fcount_reset by apply Hx; [reflexivity|].
  apply IH, Hy.
Qed.

Lemma read_count : forall a n, ordinary a -> fcount 0 (x02 :: le16 a ++ le16 n) = 0.
Proof.
  intros a n H. rewrite fcount_reset by discriminate. rewrite fcount_ordinary by exact H.
  unfold le16. destruct (fcount_two (n2b n) (n2b (n / 256)) []) as [t [_ ->]]. reflexivity.
Qed.

Lemma L_C89_sync_read : forall a n ids k ks, ordinary a -> is_u16 n -> Forall motor_id ids ->
  costs (sync_read_bytes ids a n) k -> Forall2 (fun id => costs (read_bytes id a n)) ids ks ->
  k + 13 * length ids = list_sum ks + 14.
Proof.
  intros a n ids k ks Ha Hn Hi Hk Hs. pose proof (ordinary_u16 _ Ha) as Ua.
  apply (costs_value _ _ _ _ _ _ _ _ (rq_sync_read_bytes ids a n Ua Hn)) in Hk.
  rewrite fcount_reset, fcount_ordinary in Hk by (discriminate || assumption).
  change (le16 n ++ ids) with (n2b n :: n2b (n / 256) :: ids) in Hk at 2.
  destruct (fcount_two (n2b n) (n2b (n / 256)) ids) as [t [_ E]]. rewrite E, (ids_count ids t Hi), !app_length, !le16_length in Hk.
  assert (G : 14 * length ids = list_sum ks).
  { clear Hk E. induction Hs as [|x y l ks Hx Hs IH]; [reflexivity|].
    apply Forall_cons_iff in Hi. specialize (IH (proj2 Hi)).
    apply (costs_value _ _ _ _ _ _ _ _ (rq_read_bytes x a n Ua Hn)) in Hx.
    rewrite (read_count a n Ha), app_length, !le16_length in Hx.
    cbn [length map list_sum fold_right]. unfold list_sum in *. lia. }
  lia.
Qed.

Lemma bulk_read_count : forall l s, s <= 2 -> Forall (fun x => motor_id (br_id x) /\ ordinary (br_address x)) l ->
  fcount s (bulk_read_entries l) = 0.
Proof.
  induction l as [|x l IH]; intros s Hs H; [reflexivity|].
  apply Forall_cons_iff in H. destruct H as [[Hx Ha] Hl]. apply low_byte in Hx. destruct Hx as [H1 H2].
  change (bulk_read_entries (x :: l)) with (br_id x :: (le16 (br_address x) ++ le16 (br_count x)) ++ bulk_read_entries l).
  rewrite fcount_reset by assumption. rewrite <- app_assoc, fcount_ordinary by assumption.
  unfold le16. cbn [app].
  destruct (fcount_two (n2b (br_count x)) (n2b (br_count x / 256)) (bulk_read_entries l)) as [t [Ht ->]].
  apply IH; assumption.
Qed.

Lemma L_C89_bulk_read : forall l k ks,
  Forall (fun x => motor_id (br_id x) /\ ordinary (br_address x) /\ is_u16 (br_count x)) l -> NoDup (map br_id l) ->
  costs (bulk_read_bytes l) k -> Forall2 (fun x => costs (read_bytes (br_id x) (br_address x) (br_count x))) l ks ->
  k + 9 * length l = list_sum ks + 10.
Proof.
  intros l k ks Hl Hd Hk Hs.
  apply (costs_value _ _ _ _ _ _ _ _ (rq_bulk_read_bytes l Hd)) in Hk.
  rewrite fcount_reset, bulk_read_count, bulk_read_entries_length in Hk
    by (discriminate || lia || (eapply Forall_impl; [|exact Hl]; intros ? [? [? ?]]; split; assumption)).
  assert (G : 14 * length l = list_sum ks).
  { clear Hk Hd. induction Hs as [|x y l ks Hx Hs IH]; [reflexivity|].
    apply Forall_cons_iff in Hl. destruct Hl as [[Hi [Ha Hn]] Hl]. specialize (IH Hl).
    apply (costs_value _ _ _ _ _ _ _ _ (rq_read_bytes (br_id x) (br_address x) (br_count x) (ordinary_u16 _ Ha) Hn)) in Hx.
    rewrite (read_count _ _ Ha), app_length, !le16_length in Hx.
    cbn [length map list_sum fold_right]. unfold list_sum in *. lia. }
  lia.
Qed.
