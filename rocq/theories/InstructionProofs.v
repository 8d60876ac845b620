(** * InstructionProofs: what the instruction functions send *)
From Coq Require Import ZArith ZifyN ZifyNat ZifyBool.
From Verif Require Import Base Endian Error Checksum Bytestuff Packet Time Bus Data Client
  Instructions Device Api Spec CallSpec StreamSpec DeviceSpec InstructionSpec Demo Lib ChecksumProofs
  CrcErrorProofs StuffProofs WriteProofs ReadProofs ApiProofs StreamProofs MessageProofs SendProofs
  SendTheorems ReadTheorems StatusProofs DeviceTheorems.

(** ** The encoders *)

Lemma two_bytes : forall (l : list byte) n, length l = S (S n) -> exists x y r, l = x :: y :: r /\ length r = n.
Proof. intros [|x [|y r]] n H; try discriminate. exists x, y, r. cbn [length] in H. split; [reflexivity|lia]. Qed.

Lemma copy_tail : forall a m src, length src = length m ->
  copy_into (a ++ m) (length a) (length (a ++ m)) src = Val (a ++ src).
Proof.
  intros a m src H. pose proof (copy_into_val a m [] src (length a) (length (a ++ m)) eq_refl) as K.
  rewrite !app_nil_r in K. apply K; [apply app_length|exact H].
Qed.

Lemma with_slice_tail : forall R a m (f : list byte -> out (list byte * R)) m' r, f m = Val (m', r) -> length m' = length m ->
  with_slice (a ++ m) (length a) (length (a ++ m)) f = Val (a ++ m', r).
Proof.
  intros R a m f m' r H L. pose proof (with_slice_app3 R a m [] f (length a) (length (a ++ m)) eq_refl) as K.
  rewrite app_nil_r in K. rewrite K by apply app_length. rewrite H. cbn [obind].
  unfold splice. rewrite firstn_app, firstn_all, Nat.sub_diag, skipn_all2 by (rewrite app_length; lia).
  cbn [firstn]. rewrite !app_nil_r. reflexivity.
Qed.

Lemma u16_at0 : forall x y l v, write_u16_at (x :: y :: l) 0 v = Val (n2b v :: n2b (v / 256) :: l).
Proof. intros. exact (write_u16_at_val [] x y l v 0 eq_refl). Qed.
Lemma u16_at1 : forall a x y l v, write_u16_at (a :: x :: y :: l) 1 v = Val (a :: n2b v :: n2b (v / 256) :: l).
Proof. intros. exact (write_u16_at_val [a] x y l v 1 eq_refl). Qed.
Lemma u16_at2 : forall a b x y l v, write_u16_at (a :: b :: x :: y :: l) 2 v = Val (a :: b :: n2b v :: n2b (v / 256) :: l).
Proof. intros. exact (write_u16_at_val [a; b] x y l v 2 eq_refl). Qed.
Lemma u16_at3 : forall a b c x y l v,
  write_u16_at (a :: b :: c :: x :: y :: l) 3 v = Val (a :: b :: c :: n2b v :: n2b (v / 256) :: l).
Proof. intros. exact (write_u16_at_val [a; b; c] x y l v 3 eq_refl). Qed.
Lemma u8_at0 : forall x l v, write_u8_at (x :: l) 0 v = Val (v :: l).
Proof. intros. exact (write_u8_at_val [] x l v 0 eq_refl). Qed.

Lemma no_params_writes : writes_parameters no_params [].
Proof. split; [apply no_params_ok|]. intros [|b s] H; [reflexivity|discriminate]. Qed.

Lemma read_params_writes : forall a n,
  writes_parameters (enc_ok (fun b => let* b := write_u16_at b 0 a in write_u16_at b 2 n)) (le16 a ++ le16 n).
Proof.
  intros a n. split; [apply read_params_ok|]. intros [|x0 [|x1 [|x2 [|x3 [|]]]]] H; try discriminate.
  unfold enc_ok. rewrite u16_at0. cbn [obind app].
  rewrite u16_at2. reflexivity.
Qed.

Lemma address_and_bytes_writes : forall a d, writes_parameters (address_and_bytes a d) (le16 a ++ d).
Proof.
  intros a d. split; [apply address_and_bytes_ok|]. intros s H. rewrite app_length in H. cbn [le16 length] in H.
  destruct (two_bytes s (length d) H) as [x [y [r [-> L]]]]. unfold address_and_bytes, enc_ok.
  rewrite u16_at0. cbn [obind app].
  change (n2b a :: n2b (a / 256) :: r) with (le16 a ++ r).
  change 2 with (length (le16 a)) at 1. rewrite (copy_tail (le16 a) r d) by lia. reflexivity.
Qed.

Lemma address_and_value_writes : forall A (D : data_impl A) a v bytes, data_ok D -> encodes_as D v bytes ->
  writes_parameters (address_and_value D a v) (le16 a ++ bytes).
Proof.
  intros A D a v bytes HD [L E]. split; [apply address_and_value_ok, HD|]. intros s H.
  rewrite app_length in H. cbn [le16 length] in H.
  destruct (two_bytes s (length bytes) H) as [x [y [r [-> Lr]]]]. unfold address_and_value.
  rewrite u16_at0. cbn [obind app].
  apply (with_slice_tail _ [n2b a; n2b (a / 256)] r (d_encode D v) bytes); [apply E|]; lia.
Qed.

Lemma factory_reset_writes : forall k, writes_parameters (factory_reset_params k) [reset_code k].
Proof.
  intro k. split; [apply factory_reset_params_ok|]. intros [|x [|]] H; try discriminate. destruct k; reflexivity.
Qed.

Lemma clear_revolution_writes : writes_parameters clear_revolution_count_parameters [x01; x44; x58; x4c; x22].
Proof.
  split; [apply clear_revolution_count_parameters_ok|]. intros s H.
  unfold clear_revolution_count_parameters, enc_ok, copy_from_slice. rewrite H. reflexivity.
Qed.

Lemma clear_error_writes : writes_parameters clear_error_parameters [x01; x45; x52; x43; x4c].
Proof.
  split; [apply clear_error_parameters_ok|]. intros s H.
  unfold clear_error_parameters, enc_ok, copy_from_slice. rewrite H. reflexivity.
Qed.

Lemma four_bytes : forall (l : list byte) n, length l = 4 + n ->
  exists x y z u r, l = x :: y :: z :: u :: r /\ length r = n.
Proof.
  intros [|x [|y [|z [|u r]]]] n H; try discriminate. exists x, y, z, u, r. cbn [length] in H. split; [reflexivity|lia].
Qed.

Lemma address_count : forall x y z u r a n,
  (let* b := write_u16_at (x :: y :: z :: u :: r) 0 a in write_u16_at b 2 n) = Val ((le16 a ++ le16 n) ++ r).
Proof.
  intros. rewrite u16_at0. cbn [obind app].
  rewrite u16_at2. reflexivity.
Qed.

Lemma obind_assoc3 : forall A B C (m : out A) (f : A -> out B) (g : B -> out C),
  (let* a := m in let* b := f a in g b) = (let* b := (let* a := m in f a) in g b).
Proof. intros A B C [a|p|] f g; reflexivity. Qed.

Lemma sync_read_writes : forall a n ids,
  writes_parameters (enc_ok (fun b =>
    let* b := write_u16_at b 0 a in let* b := write_u16_at b 2 n in copy_into b 4 (length b) ids))
    (le16 a ++ le16 n ++ ids).
Proof.
  intros a n ids. split; [apply sync_read_params_ok|]. intros s H.
  rewrite !app_length in H. cbn [le16 length] in H.
  destruct (four_bytes s (length ids) H) as [x [y [z [u [r [-> L]]]]]]. unfold enc_ok.
  rewrite obind_assoc3, address_count. cbn [obind].
  change 4 with (length (le16 a ++ le16 n)) at 1. rewrite (copy_tail (le16 a ++ le16 n) r ids) by lia. rewrite <- app_assoc. reflexivity.
Qed.

(** A slice in the middle. *)
Lemma with_slice_mid : forall R a m b (f : list byte -> out (list byte * R)) m' r p q, p = length a -> q = length a + length m ->
  f m = Val (m', r) -> length m' = length m ->
  with_slice (a ++ m ++ b) p q f = Val (a ++ m' ++ b, r).
Proof.
  intros R a m b f m' r p q -> -> H L. rewrite with_slice_app3 by reflexivity. rewrite H. cbn [obind].
  unfold splice. rewrite firstn_app, firstn_all, Nat.sub_diag. cbn [firstn]. rewrite app_nil_r.
  assert (K : skipn (length a + length m') (a ++ m ++ b) = b).
  { rewrite L, app_assoc, <- app_length, skipn_app, skipn_all, Nat.sub_diag. reflexivity. }
  rewrite K. reflexivity.
Qed.

Lemma split_at : forall (l : list byte) n m, length l = n + m -> exists a b, l = a ++ b /\ length a = n /\ length b = m.
Proof.
  intros l n m H. exists (firstn n l), (skipn n l). rewrite firstn_skipn, firstn_length, skipn_length. repeat split; lia.
Qed.

Lemma sync_write_bytes_loop_val : forall c l i done rest,
  Forall (fun x => length (sw_data x) = c) l -> length done = 4 + i * (1 + c) -> length rest = length l * (1 + c) ->
  sync_write_bytes_loop c i l (done ++ rest) = Val (done ++ sync_entries l).
Proof.
  intros c. induction l as [|x l IH]; intros i done rest F Ld Lr; cbn [sync_write_bytes_loop sync_entries flat_map].
  - destruct rest; [rewrite app_nil_r; reflexivity|discriminate].
  - inversion F as [|? ? Hx F']; subst. rewrite Nat.eqb_refl. cbn [negb]. cbv zeta.
    cbn [length] in Lr. set (c := length (sw_data x)) in *.
    destruct (split_at rest (S c) (length l * S c)) as [m [b [-> [Lm Lb]]]]; [cbn in Lr; lia|].
    destruct m as [|m0 m]; [discriminate|]. cbn [length] in Lm.
    rewrite (with_slice_mid _ done (m0 :: m) b _ (sw_id x :: sw_data x) tt).
    + cbn [obind]. change (sw_id x :: sw_data x) with ([sw_id x] ++ sw_data x).
      rewrite app_assoc. rewrite IH with (done := done ++ sw_id x :: sw_data x).
      * rewrite <- app_assoc. reflexivity.
      * exact F'.
      * rewrite app_length. cbn [length]. fold c. cbn [Nat.mul Nat.add] in *. lia.
      * cbn [Nat.add] in *. lia.
    + rewrite Ld. cbn. lia.
    + cbn [length]. cbn [Nat.add] in *. lia.
    + unfold set. cbn [length Nat.ltb Nat.leb obind list_set].
      pose proof (copy_tail [sw_id x] m (sw_data x) ltac:(fold c; lia)) as K. cbn [app length] in K |- *.
      rewrite K. reflexivity.
    + cbn [length]. fold c. lia.
Qed.

Lemma sync_entries_length : forall c l, Forall (fun x => length (sw_data x) = c) l ->
  length (sync_entries l) = length l * (1 + c).
Proof.
  intros c l F. induction F as [|x l H F IH]; [reflexivity|]. cbn [sync_entries flat_map app length].
  rewrite app_length. fold (sync_entries l). rewrite IH, H. lia.
Qed.

Lemma sync_write_bytes_writes : forall a n l, Forall (fun x => length (sw_data x) = N.to_nat n) l ->
  writes_parameters (enc_ok (fun b =>
    let* b := write_u16_at b 0 a in let* b := write_u16_at b 2 n in
    sync_write_bytes_loop (N.to_nat n) 0 l b)) (le16 a ++ le16 n ++ sync_entries l).
Proof.
  intros a n l F. split; [apply sync_write_bytes_params_ok|]. intros s H.
  rewrite !app_length in H. cbn [le16 length] in H.
  destruct (four_bytes s (length (sync_entries l)) H) as [x [y [z [u [r [-> L]]]]]]. unfold enc_ok.
  rewrite obind_assoc3, address_count. cbn [obind].
  rewrite sync_write_bytes_loop_val; [rewrite <- app_assoc; reflexivity|exact F|reflexivity|].
  rewrite L. apply sync_entries_length, F.
Qed.

Lemma bulk_read_loop_val : forall l i done rest,
  length done = i * 5 -> length rest = length l * 5 ->
  bulk_read_loop i l (done ++ rest) = Val (done ++ bulk_read_entries l).
Proof.
  induction l as [|x l IH]; intros i done rest Ld Lr; cbn [bulk_read_loop bulk_read_entries flat_map].
  - destruct rest; [rewrite app_nil_r; reflexivity|discriminate].
  - cbn [length Nat.mul Nat.add] in Lr.
    destruct (split_at rest 5 (length l * 5)) as [m [b [-> [Lm Lb]]]]; [lia|].
    destruct m as [|m0 [|m1 [|m2 [|m3 [|m4 [|]]]]]]; try discriminate Lm.
    rewrite (with_slice_mid _ done [m0; m1; m2; m3; m4] b _ (br_id x :: le16 (br_address x) ++ le16 (br_count x)) tt).
    + cbn [obind]. rewrite app_assoc. rewrite IH.
      * rewrite <- app_assoc. reflexivity.
      * rewrite app_length, Ld. cbn [length le16 app]. lia.
      * exact Lb.
    + symmetry; exact Ld.
    + rewrite Ld. reflexivity.
    + rewrite u8_at0. cbn [obind app].
      rewrite u16_at1. cbn [obind app].
      rewrite u16_at3.
      reflexivity.
    + reflexivity.
Qed.

Lemma bulk_read_entries_length : forall l, length (bulk_read_entries l) = 5 * length l.
Proof. induction l as [|x l IH]; [reflexivity|]. 
  unfold bulk_read_entries in *. cbn [flat_map]. rewrite app_length, IH. cbn [length app le16]. lia.
Qed.

Lemma bulk_read_writes : forall l, writes_parameters (enc_ok (bulk_read_loop 0 l)) (bulk_read_entries l).
Proof.
  intro l. split; [apply bulk_read_params_ok|]. intros s H. unfold enc_ok.
  change s with ([] ++ s). rewrite (bulk_read_loop_val l 0 [] s eq_refl).
  - reflexivity.
  - rewrite H, bulk_read_entries_length. lia.
Qed.

Lemma bulk_write_loop_val : forall l offset done rest, Forall (fun c => is_u16 (N.of_nat (length (bw_data c)))) l ->
  length done = offset -> length rest = length (bulk_write_entries l) ->
  bulk_write_loop offset l (done ++ rest) = Val (done ++ bulk_write_entries l).
Proof.
  induction l as [|x l IH]; intros offset done rest F Ld Lr; cbn [bulk_write_loop bulk_write_entries flat_map] in *.
  - destruct rest; [rewrite app_nil_r; reflexivity|discriminate].
  - inversion F as [|? ? Hx F']; subst. cbv zeta. fold (bulk_write_entries l) in *.
    set (n := length (bw_data x)) in *.
    assert (Lr' : length rest = 5 + n + length (bulk_write_entries l)).
    { rewrite Lr. cbn [app length le16]. rewrite app_length. fold n. lia. }
    destruct (split_at rest (5 + n) (length (bulk_write_entries l))) as [m [b [-> [Lm Lb]]]]; [exact Lr'|].
    destruct m as [|m0 [|m1 [|m2 [|m3 [|m4 m]]]]]; try discriminate Lm. cbn [length Nat.add] in Lm.
    set (entry := bw_id x :: le16 (bw_address x) ++ le16 (N.of_nat n) ++ bw_data x).
    rewrite (with_slice_tail _ done ((m0 :: m1 :: m2 :: m3 :: m4 :: m) ++ b) _ (entry ++ b) tt).
    + cbn [obind]. rewrite app_assoc. rewrite IH.
      * rewrite <- app_assoc. reflexivity.
      * exact F'.
      * rewrite app_length. unfold entry. cbn [app length le16]. fold n. lia.
      * exact Lb.
    + unfold entry. cbn [app le16].
      rewrite u8_at0. cbn [obind app].
      rewrite u16_at1. cbn [obind app].
      rewrite u16_at3.
      cbn [obind app]. rewrite N.mod_small by exact Hx.
      match goal with |- context [copy_into ?l 5 _ _] =>
        change l with ([bw_id x; n2b (bw_address x); n2b (bw_address x / 256); n2b (N.of_nat n); n2b (N.of_nat n / 256)] ++ m ++ b) end.
      rewrite (copy_into_val [bw_id x; n2b (bw_address x); n2b (bw_address x / 256); n2b (N.of_nat n); n2b (N.of_nat n / 256)] m b
                 (bw_data x) 5 (5 + n) eq_refl).
      * reflexivity.
      * cbn [length]. lia.
      * fold n. lia.
    + unfold entry. cbn [app le16 length]. rewrite !app_length. fold n. lia.
Qed.

Lemma bulk_write_writes : forall l, Forall (fun c => is_u16 (N.of_nat (length (bw_data c)))) l ->
  writes_parameters (enc_ok (bulk_write_loop 0 l)) (bulk_write_entries l).
Proof.
  intros l F. split; [apply bulk_write_params_ok|]. intros s H. unfold enc_ok.
  change s with ([] ++ s). rewrite (bulk_write_loop_val l 0 [] s F eq_refl H). reflexivity.
Qed.

Lemma bulk_write_count_val : forall l k, Forall (fun c => is_u16 (N.of_nat (length (bw_data c)))) l ->
  bulk_write_count l k = Val (k + length (bulk_write_entries l)).
Proof.
  induction l as [|x l IH]; intros k F; cbn [bulk_write_count bulk_write_entries flat_map].
  - rewrite Nat.add_0_r. reflexivity.
  - inversion F as [|? ? Hx F']; subst. unfold is_u16 in Hx. change (2 ^ 16)%N with 65536%N in Hx.
    replace (65535 <? N.of_nat (length (bw_data x)))%N with false by lia.
    rewrite IH by exact F'. f_equal. fold (bulk_write_entries l). cbn [app length le16]. rewrite app_length. lia.
Qed.

(** ** Functions that only read *)

Definition quiet {A} (m : M A) : Prop := keeps m /\
  forall s o s', inv s -> m s = (o, s') -> exists evs, calls s s' evs /\ Forall only_reads evs.

Lemma quiet_same : forall s, exists evs, calls s s evs /\ Forall only_reads evs.
Proof. intro s. exists []. split; [unfold calls; rewrite app_nil_r; reflexivity|constructor]. Qed.

Lemma quiet_ret : forall A (a : A), quiet (ret a).
Proof. intros A a. split; [apply keeps_ret|]. intros s o s' H E. injection E as <- <-. apply quiet_same. Qed.

Lemma quiet_lift : forall A (x : out A), quiet (lift x).
Proof. intros A x. split; [apply keeps_lift|]. intros s o s' H E. injection E as <- <-. apply quiet_same. Qed.

Lemma quiet_get : quiet get.
Proof. split; [apply keeps_get|]. intros s o s' H E. injection E as <- <-. apply quiet_same. Qed.

Lemma calls_trans : forall a b c e f, calls a b e -> calls b c f -> calls a c (e ++ f).
Proof. unfold calls. intros a b c e f H K. rewrite K, H, app_assoc. reflexivity. Qed.

Lemma quiet_bind : forall A B (m : M A) (k : A -> M B), quiet m -> (forall a, quiet (k a)) -> quiet (bind m k).
Proof.
  intros A B m k [Hm1 Hm2] Hk. split; [apply keeps_bind; [exact Hm1|apply Hk]|].
  intros s o s' H E. unfold bind in E. destruct (m s) as [[a|p|] s1] eqn:M1.
  - destruct (Hm2 _ _ _ H M1) as [e1 [C1 F1]]. pose proof (ev_inv _ _ (Hm1 _ _ _ H M1)) as H1.
    destruct (proj2 (Hk a) _ _ _ H1 E) as [e2 [C2 F2]]. exists (e1 ++ e2).
    split; [apply (calls_trans _ _ _ _ _ C1 C2)|apply Forall_app; auto].
  - injection E as <- <-. apply (Hm2 _ _ _ H M1).
  - injection E as <- <-. apply (Hm2 _ _ _ H M1).
Qed.

Lemma quiet_try : forall A B E F (f : E -> F) (m : M (result A E)) (k : A -> M (result B F)),
  quiet m -> (forall a, quiet (k a)) -> quiet (try_ f m k).
Proof. intros. apply quiet_bind; [assumption|]. intros [a|e]; [auto|apply quiet_ret]. Qed.

Lemma quiet_tryr : forall A B E F (f : E -> F) (r : result A E) (k : A -> M (result B F)),
  (forall a, quiet (k a)) -> quiet (tryr f r k).
Proof. intros A B E F f [a|e] k H; [apply H|apply quiet_ret]. Qed.

Lemma reads_only : forall d evs, Forall (reads_with d) evs -> Forall only_reads evs.
Proof. intros d evs F. induction F as [|e evs H F IH]; constructor; [|exact IH]. destruct e; cbn in *; auto. Qed.

Lemma quiet_rsr : forall n, quiet (read_status_response n).
Proof.
  intro n. split; [apply keeps_rsr|]. intros s o s' H E.
  destruct (read_status_spec n s o s' H E) as [[p [_ [_ ->]]]|[t [o1 [_ [_ [_ [_ T]]]]]]]; [apply quiet_same|].
  destruct (timed_calls _ _ _ T) as [evs [C F]]. exists (LDeadline (deadline_of t s) :: evs).
  split; [exact C|]. constructor; [exact I|apply (reads_only _ _ F)].
Qed.

Ltac quiet_all :=
  repeat first
    [ apply quiet_ret | apply quiet_lift | apply quiet_get | apply quiet_rsr
    | apply quiet_bind; [|intro] | apply quiet_try; [|intro] | apply quiet_tryr; intro
    | match goal with |- quiet (if ?c then _ else _) => destruct c end
    | match goal with |- quiet (match ?c with _ => _ end) => destruct c end ].

(** ** Functions that transmit *)

(** As [sent] and [transmits], with the exact bytes. *)
Definition sentW (id i : byte) (params : list byte) (evs : list io_event) : Prop :=
  exists r evs', evs = LDiscard None :: LWrite (code_wire id (i :: params)) r :: evs' /\
    Forall only_reads evs'.
Definition transmitsW {B E} (m : M (result B E)) (id i : byte) (params : list byte) : Prop :=
  forall s o s', reach s -> m s = (o, s') ->
  exists evs, calls s s' evs /\
    (sentW id i params evs \/ nothing_sent evs /\ forall b, o <> Val (Ok b)) /\
    (plenty_of_room s (length params) -> hd None (p_discards (b_port s)) = None -> sentW id i params evs).

Lemma sent_of : forall id i params evs, sentW id i params evs -> sent id i params evs.
Proof.
  intros id i params evs [r [evs' [E F]]]. exists (code_wire id (i :: params)), r, evs'.
  split; [exact E|]. split; [apply code_wire_packet|]. split; [|exact F].
  intros H1 H2. apply code_wire_frame_iff. auto.
Qed.

Lemma transmits_of : forall B E (m : M (result B E)) id i params, transmitsW m id i params -> transmits m id i params.
Proof.
  intros B E m id i params H s o s' R Eq. destruct (H s o s' R Eq) as [evs [C [S P]]].
  exists evs. split; [exact C|]. split; [destruct S as [S|S]; [left; apply sent_of, S|right; exact S]|].
  intros P1 P2. apply sent_of, P; assumption.
Qed.

Lemma sent_app : forall id i params e f, sentW id i params e -> Forall only_reads f -> sentW id i params (e ++ f).
Proof.
  intros id i params e f [r [e' [-> F]]] Ff. exists r, (e' ++ f).
  split; [reflexivity|apply Forall_app; auto].
Qed.

Lemma room_fcount : forall s i params, plenty_of_room s (length params) ->
  10 + length params + fcount 0 (i :: params) <= length (b_wbuf s) /\
  (N.of_nat (length (code_stuff (i :: params)) + 2) < 2 ^ 16)%N.
Proof.
  intros s i params [R1 R2]. pose proof (fcount_third (i :: params)) as F. rewrite code_stuff_length.
  cbn [length] in *. replace (S (length params)) with (length params + 1) in F |- * by lia.
  set (q := (length params + 1) / 3) in *. change (2 ^ 16)%N with 65536%N in *. split; lia.
Qed.

Lemma transmits_sends : forall m id i params, sends m id i params -> transmitsW m id i params.
Proof.
  intros m id i params H s o s' R E. apply reach_inv in R.
  pose proof (sends_effect m id i params s H R) as X. rewrite E in X.
  pose proof (room_fcount s i params) as RF.
  remember (o, s') as os eqn:Eo.
  destruct X as [X|e w' X1 X2 X3|p X1 X2 X3|e w' X1 X2 X3 X4|w' X1 X2 X3 X4 X5]; injection Eo as <- <-.
  - exists []. split; [unfold calls; rewrite app_nil_r; reflexivity|]. split; [right; split; [left; reflexivity|discriminate]|].
    intros P. exfalso. destruct P as [_ P]. rewrite usize_max_val in X. change (2 ^ 16)%N with 65536%N in P. lia.
  - exists []. split; [unfold calls; rewrite app_nil_r; reflexivity|]. split; [right; split; [left; reflexivity|discriminate]|].
    intros P _. exfalso. apply RF in P. lia.
  - exists []. split; [unfold calls; rewrite app_nil_r; reflexivity|]. split; [right; split; [left; reflexivity|discriminate]|].
    intros P _. exfalso. apply RF in P. destruct P as [P1 P2]. destruct X3 as [[_ [_ X3]]|[_ X3]]; [|lia].
    rewrite N.mod_small in X3; [lia|]. change (2 ^ 16)%N with 65536%N in *. lia.
  - exists [LDiscard (Some e)]. split; [reflexivity|]. split; [right; split; [right; eauto|discriminate]|].
    intros _ D. congruence.
  - set (w := code_wire id (i :: params)). exists [LDiscard None; LWrite w (hd None (p_writes (b_port s)))].
    split; [reflexivity|].
    assert (K : sentW id i params [LDiscard None; LWrite w (hd None (p_writes (b_port s)))]).
    { exists (hd None (p_writes (b_port s))), []. split; [reflexivity|constructor]. }
    split; [left; exact K|intros _ _; exact K].
Qed.

Lemma transmits_write : forall id i params n enc, writes_parameters enc params -> n = length params ->
  transmitsW (write_instruction id i n enc) id i params.
Proof. intros id i params n enc H ->. apply transmits_sends. constructor. exact H. Qed.

Lemma transmits_try : forall A B E F (f : E -> F) (m : M (result A E)) (k : A -> M (result B F)) id i params,
  keeps m -> transmitsW m id i params -> (forall a, quiet (k a)) -> transmitsW (try_ f m k) id i params.
Proof.
  intros A B E F f m k id i params Km Tm Hk s o s' R Eq. pose proof (reach_inv _ R) as H.
  unfold try_, bind in Eq. destruct (m s) as [[[a|e]|p|] s1] eqn:M1.
  - destruct (Tm _ _ _ R M1) as [e1 [C1 [S1 P1]]].
    destruct S1 as [S1|[_ N1]]; [|exfalso; apply (N1 a); reflexivity].
    destruct (proj2 (Hk a) _ _ _ (ev_inv _ _ (Km _ _ _ H M1)) Eq) as [e2 [C2 F2]].
    exists (e1 ++ e2). split; [apply (calls_trans _ _ _ _ _ C1 C2)|].
    assert (K : sentW id i params (e1 ++ e2)) by (apply sent_app; assumption). auto.
  - injection Eq as <- <-. destruct (Tm _ _ _ R M1) as [e1 [C1 [S1 P1]]]. exists e1. split; [exact C1|].
    split; [|exact P1]. destruct S1 as [S1|[S1 _]]; [left; exact S1|right; split; [exact S1|discriminate]].
  - injection Eq as <- <-. destruct (Tm _ _ _ R M1) as [e1 [C1 [S1 P1]]]. exists e1. split; [exact C1|].
    split; [|exact P1]. destruct S1 as [S1|[S1 _]]; [left; exact S1|right; split; [exact S1|discriminate]].
  - injection Eq as <- <-. destruct (Tm _ _ _ R M1) as [e1 [C1 [S1 P1]]]. exists e1. split; [exact C1|].
    split; [|exact P1]. destruct S1 as [S1|[S1 _]]; [left; exact S1|right; split; [exact S1|discriminate]].
Qed.

Lemma transmits_ext : forall B E (m m' : M (result B E)) id i params, (forall s, m s = m' s) ->
  transmitsW m' id i params -> transmitsW m id i params.
Proof. intros B E m m' id i params H T s o s' R Eq. rewrite H in Eq. apply (T _ _ _ R Eq). Qed.

Lemma quiet_rr : forall id, quiet (read_response_if_not_broadcast id).
Proof. intro id. unfold read_response_if_not_broadcast. quiet_all. Qed.

Lemma transmits_instruct : forall id i params n enc, writes_parameters enc params -> n = length params ->
  transmitsW (instruct id i n enc) id i params.
Proof.
  intros id i params n enc H Hn. unfold instruct. apply transmits_try.
  - apply keeps_wi, H.
  - apply transmits_write; assumption.
  - intros _. apply quiet_try; [apply quiet_rr|]. intro. apply quiet_ret.
Qed.

Lemma transmits_transfer : forall id i params n e enc, writes_parameters enc params -> n = length params ->
  transmitsW (transfer_single id i n e enc) id i params.
Proof.
  intros id i params n e enc H Hn. unfold transfer_single. apply transmits_try.
  - apply keeps_wi, H.
  - apply transmits_write; assumption.
  - intros _. quiet_all.
Qed.

Lemma transmits_read_raw : forall id a n, transmitsW (read_raw id a n) id READ (le16 a ++ le16 n).
Proof.
  intros id a n. unfold read_raw. apply transmits_try.
  - apply keeps_transfer, read_params_ok.
  - apply transmits_transfer; [apply read_params_writes|reflexivity].
  - intro. quiet_all.
Qed.

Lemma bulk_read_dup_iff : forall l, bulk_read_dup l = false <-> NoDup (map br_id l).
Proof.
  induction l as [|x l IH]; cbn [bulk_read_dup map].
  - split; [constructor|reflexivity].
  - rewrite orb_false_iff, IH. rewrite NoDup_cons_iff. split; intros [H1 H2]; split; auto.
    + intro K. apply in_map_iff in K. destruct K as [y [Ky Iy]].
      assert (T : existsb (fun r' => beq (br_id x) (br_id r')) l = true).
      { apply existsb_exists. exists y. split; [exact Iy|]. rewrite Ky. apply beq_refl. }
      congruence.
    + destruct (existsb _ l) eqn:T; [|reflexivity]. apply existsb_exists in T. destruct T as [y [Iy B]].
      apply beq_true in B. exfalso. apply H1. rewrite B. apply in_map, Iy.
Qed.

Lemma keeps_write_bulk_read : forall l, keeps (write_bulk_read_instruction l).
Proof.
  intro l. unfold write_bulk_read_instruction. destruct (bulk_read_dup l); [apply keeps_lift|].
  apply keeps_wi, bulk_read_params_ok.
Qed.

Lemma request_transmits : forall B E (m : M (result B E)) id i params ins,
  request m id i params ins -> transmitsW m id i params.
Proof.
  intros B E m id i params ins H.
  destruct H as [id| |id a n Ha Hn|A D id a Ha Hn|A D id a v bytes Ha HD He|id a d Ha|id a d Ha|id| |id k|k|id| |id|
                 |ids a n Ha Hn|A D ids a Ha Hn|a n l Ha Hn Hl|l Hl|l Hl].
  - unfold ping. apply transmits_try; [apply keeps_transfer, no_params_ok| |intro; quiet_all].
    apply transmits_transfer; [apply no_params_writes|reflexivity].
  - apply transmits_write; [apply no_params_writes|reflexivity].
  - unfold read_bytes. apply transmits_try; [apply keeps_read_raw|apply transmits_read_raw|intro; quiet_all].
  - unfold read. apply transmits_try; [apply keeps_read_raw|apply transmits_read_raw|intro; quiet_all].
  - apply transmits_instruct; [apply address_and_value_writes; assumption|].
    rewrite app_length. rewrite (proj1 He). reflexivity.
  - apply transmits_instruct; [apply address_and_bytes_writes|]. rewrite app_length. reflexivity.
  - apply transmits_instruct; [apply address_and_bytes_writes|]. rewrite app_length. reflexivity.
  - apply transmits_instruct; [apply no_params_writes|reflexivity].
  - apply transmits_write; [apply no_params_writes|reflexivity].
  - apply transmits_instruct; [apply factory_reset_writes|reflexivity].
  - apply transmits_write; [apply factory_reset_writes|reflexivity].
  - apply transmits_instruct; [apply no_params_writes|reflexivity].
  - apply transmits_write; [apply no_params_writes|reflexivity].
  - apply transmits_instruct; [apply clear_revolution_writes|reflexivity].
  - apply transmits_write; [apply clear_revolution_writes|reflexivity].
  - unfold sync_read_bytes, write_sync_read. apply transmits_try; [apply keeps_wi, sync_read_params_ok| |intro; quiet_all].
    apply transmits_write; [apply sync_read_writes|]. rewrite !app_length. reflexivity.
  - unfold sync_read, write_sync_read. apply transmits_try; [apply keeps_wi, sync_read_params_ok| |intro; quiet_all].
    apply transmits_write; [apply sync_read_writes|]. rewrite !app_length. reflexivity.
  - unfold sync_write_bytes. cbv zeta. apply transmits_write; [apply sync_write_bytes_writes, Hl|].
    rewrite !app_length, (sync_entries_length _ _ Hl). reflexivity.
  - unfold bulk_read_bytes. apply transmits_try; [apply keeps_write_bulk_read| |intro; quiet_all].
    unfold write_bulk_read_instruction. rewrite (proj2 (bulk_read_dup_iff l) Hl).
    apply transmits_write; [apply bulk_read_writes|]. symmetry. apply bulk_read_entries_length.
  - apply transmits_ext with (m' := write_instruction BROADCAST BULK_WRITE (length (bulk_write_entries l)) (enc_ok (bulk_write_loop 0 l))).
    + intro s. unfold bulk_write, bind, lift. rewrite (bulk_write_count_val l 0 Hl). reflexivity.
    + apply transmits_write; [apply bulk_write_writes, Hl|reflexivity].
Qed.

Lemma L_C29_parameters_on_the_wire : forall B E (m : M (result B E)) id i params ins,
  request m id i params ins -> transmits m id i params.
Proof. intros B E m id i params ins H. apply transmits_of. eapply request_transmits, H. Qed.

Lemma L_C29_clear_error_refuted : ~ (forall id, transmits (clear_error id) id x10 clear_error_code).
Proof.
  intro H. set (s := fresh true [] 32 32).
  destruct (H xfe s _ _ (fresh_reach true [] 32 32 ltac:(lia)) (surjective_pairing _)) as [evs [C [_ S]]].
  destruct (transmits_of _ _ _ _ _ _ (transmits_instruct xfe x10 _ 5 clear_error_parameters clear_error_writes eq_refl) s _ _
              (fresh_reach true [] 32 32 ltac:(lia)) (surjective_pairing _)) as [evs' [C' [_ S']]].
  assert (R : plenty_of_room s 5) by (split; vm_compute; [lia|reflexivity]).
  specialize (S R eq_refl). specialize (S' R eq_refl).
  pose proof (calls_inj _ _ _ _ C C') as K. subst evs'.
  destruct S as [w [r [e [-> [[b1 [c1 [W [B _]]]] _]]]]].
  destruct S' as [w' [r' [e' [K [[b2 [c2 [W' [B' _]]]] _]]]]]. injection K as -> -> ->.
  rewrite W in W'. apply (f_equal (skipn 7)) in W'. cbn [header app skipn le16] in W'.
  inversion B; subst. inversion B'; subst.
  match goal with H1 : some_stuffed clear_error_code _, H2 : some_stuffed [x01; x45; x52; x43; x4c] _ |- _ =>
    inversion H1; subst; inversion H2; subst end; try discriminate W'.
Qed.

Lemma L_C29_clear_error_partial : forall id,
  transmits (clear_error id) id x10 [x01; x45; x52; x43; x4c] /\
  transmits broadcast_clear_error xfe x10 [x01; x45; x52; x43; x4c].
Proof.
  intro id. split.
  - apply transmits_of, transmits_instruct; [apply clear_error_writes|reflexivity].
  - apply transmits_of, transmits_write; [apply clear_error_writes|reflexivity].
Qed.
