(** * ReadTheorems: proofs of the properties of reading *)
From Coq Require Import ZArith ZifyN ZifyNat ZifyBool.
From Verif Require Import Base Endian Error Checksum Bytestuff Packet Time Bus Data Client
  Instructions Device Api Spec CallSpec StreamSpec Demo Lib ChecksumProofs CrcErrorProofs StuffProofs
  WriteProofs ReadProofs ApiProofs StreamProofs MessageProofs SendProofs SendTheorems.

(** Removing the stuffing bytes. *)
Definition seen (s : nat) : list byte := firstn s [xff; xff; xfd].
Lemma some_stuffed_cons : forall a l w, some_stuffed l w -> some_stuffed (a ++ l) (a ++ w).
Proof. induction a as [|x a IH]; intros l w H; cbn [app]; [exact H|]. constructor. apply IH, H. Qed.

Lemma unst_some_from : forall l s, s <= 3 -> some_stuffed (seen s ++ unst s l) (seen s ++ l).
Proof.
  induction l as [|b l IH]; intros s Hs; cbn [unst].
  { apply some_stuffed_cons. constructor. }
  destruct (udel s b) eqn:U.
  - unfold udel in U. apply andb_true_iff in U. destruct U as [U1 U2]. apply beq_true in U2. subst b.
    assert (s = 3) as -> by lia. apply ss_pattern. apply (IH 0). lia.
  - assert (C : (unext s b = 0) \/ (unext s b <= 3 /\ seen (unext s b) = seen s ++ [b])).
    { unfold unext. destruct s as [|[|[|s]]].
      - destruct (beq b xff) eqn:B; [apply beq_true in B; subst b; right; cbn; split; [lia|reflexivity]|left; reflexivity].
      - destruct (beq b xff) eqn:B; [apply beq_true in B; subst b; right; cbn; split; [lia|reflexivity]|left; reflexivity].
      - destruct (beq b xfd) eqn:B; [apply beq_true in B; subst b; right; cbn; split; [lia|reflexivity]|left; reflexivity].
      - left. reflexivity. }
    destruct C as [C|[C1 C2]].
    + rewrite C. apply some_stuffed_cons. constructor. apply (IH 0). lia.
    + specialize (IH _ C1). rewrite C2 in IH. rewrite <- !app_assoc in IH. exact IH.
Qed.

Lemma unst_some : forall l, some_stuffed (unst 0 l) l.
Proof. intro l. apply (unst_some_from l 0). lia. Qed.

(** ** One read *)

Lemma read_step : forall d s o p', inv s -> ideal (length (b_rbuf s)) (pending s) = (o, p') ->
  exists s', read_packet_deadline d s = (o, s') /\ pending s' = p' /\ inv s' /\
    length (b_rbuf s') = length (b_rbuf s).
Proof.
  intros d s o p' Hi E. destruct (read_packet_deadline d s) as [o1 s1] eqn:R.
  pose proof (read_ideal _ _ _ _ (proj1 Hi) R) as K. rewrite E in K.
  destruct (read_cap _ _ _ _ Hi R) as [I1 C1].
  exists s1. assert (o1 = o) by congruence. assert (pending s1 = p') by congruence. subst. auto.
Qed.

Lemma reads_step : forall ds s o p', inv s -> ideal_reads (length (b_rbuf s)) (length ds) (pending s) = (o, p') ->
  exists s', reads ds s = (o, s') /\ pending s' = p' /\ inv s' /\ length (b_rbuf s') = length (b_rbuf s).
Proof.
  intros ds s o p' Hi E. destruct (reads ds s) as [o1 s1] eqn:R.
  destruct (reads_ideal _ _ _ _ Hi R) as [K [I1 C1]]. rewrite E in K.
  exists s1. assert (o1 = o) by congruence. assert (pending s1 = p') by congruence. subst. auto.
Qed.

Lemma rest_items : forall (u : list byte) (q : list item), map inl (upto q) ++ from_err (map inl u ++ q) = q.
Proof. intros u q. rewrite from_err_app. symmetry. apply upto_split. Qed.

Lemma ideal_message : forall cap g id body crc q, 10 <= cap ->
  ~ contains g header -> (crc < 2 ^ 16)%N ->
  (N.of_nat (length body + 2) < 2 ^ 16)%N -> length body + 9 <= cap ->
  ideal cap (map inl (g ++ message id body crc) ++ q) = (ev_out (message_event id body crc), q).
Proof.
  intros cap g id body crc q H Hg Hcrc Hlen Hcap. unfold ideal.
  replace (cap <? 10) with false by lia.
  rewrite upto_app, <- app_assoc, next_event_message by assumption.
  rewrite rest_items. reflexivity.
Qed.

(** The event of a message with a correct CRC. *)
Lemma message_event_good : forall id body crc,
  is_crc16 0 (msg_head id (N.of_nat (length body + 2)) ++ body) crc -> body <> [] ->
  message_event id body crc = EvPacket (msg_head id (N.of_nat (length body + 2)) ++ unst 0 body).
Proof.
  intros id body crc H Hb. apply checksum_iff_crc16 in H; [|reflexivity].
  unfold message_event. cbv zeta. rewrite <- H, N.eqb_refl.
  destruct (unst 0 body) eqn:U; [|reflexivity]. apply (proj1 (unst_nil _)) in U. contradiction.
Qed.

Lemma message_event_bad : forall id body crc c,
  is_crc16 0 (msg_head id (N.of_nat (length body + 2)) ++ body) c -> crc <> c ->
  message_event id body crc = EvError (RInvalidMessage (IMChecksum crc c)).
Proof.
  intros id body crc c H Hc. apply checksum_iff_crc16 in H; [|reflexivity].
  unfold message_event. cbv zeta. rewrite <- H. apply N.eqb_neq in Hc. rewrite Hc. reflexivity.
Qed.

Lemma packet_head : forall id n u, packet_is (mkPacket (msg_head id n ++ u)) id u.
Proof.
  intros id n u. split; [reflexivity|]. cbn [pk_data].
  rewrite slice_from_val by (rewrite app_length, msg_head_length; lia).
  rewrite skipn_app_ge by (rewrite msg_head_length; lia). rewrite msg_head_length. reflexivity.
Qed.

Lemma packet_is_fun : forall p id a b, packet_is p id a -> slice_from (pk_data p) 7 = Val b -> a = b.
Proof. intros p id a b [_ H] K. rewrite H in K. congruence. Qed.

Lemma frame_message : forall id body w, is_frame id body w ->
  exists crc, w = message id (pstuff body) crc /\ (crc < 2 ^ 16)%N /\
    (N.of_nat (length (pstuff body) + 2) < 2 ^ 16)%N /\
    is_crc16 0 (msg_head id (N.of_nat (length (pstuff body) + 2)) ++ pstuff body) crc /\
    length w = length (pstuff body) + 9.
Proof.
  intros id body w [crc [-> [L C]]]. exists crc. split; [reflexivity|].
  split; [apply C|]. split; [exact L|]. split.
  - unfold msg_head. rewrite <- !app_assoc. exact C.
  - change (wire_of_body id (pstuff body) crc) with (message id (pstuff body) crc).
    rewrite message_length. lia.
Qed.

Lemma pstuff_nil : forall l, pstuff l = [] -> l = [].
Proof.
  intros l H. apply (f_equal (@length byte)) in H. rewrite pstuff_length in H.
  destruct l; [reflexivity|cbn [length] in H; lia].
Qed.

(** A frame of a conforming peer. *)
Lemma ideal_frame : forall cap g id body w q, ~ contains g header -> is_frame id body w -> body <> [] ->
  length w <= cap ->
  exists p, ideal cap (map inl (g ++ w) ++ q) = (Val (Ok p), q) /\ packet_is p id (unst 0 (pstuff body)).
Proof.
  intros cap g id body w q Hg F Hb Hc.
  destruct (frame_message _ _ _ F) as [crc [-> [C1 [C2 [C3 C4]]]]].
  assert (Hp : pstuff body <> []) by (intro K; apply Hb, pstuff_nil, K).
  assert (1 <= length (pstuff body)) by (destruct (pstuff body); [contradiction|cbn; lia]).
  eexists. rewrite ideal_message by (try assumption; lia).
  rewrite message_event_good by assumption. cbn [ev_out]. split; [reflexivity|apply packet_head].
Qed.

(** ** C07 *)

Lemma L_C07_conforming_peer_refuted :
  ~ (forall s d id body w rest, reach s -> is_frame id body w -> body <> [] ->
     length w <= length (b_rbuf s) -> pending s = map inl w ++ rest ->
     exists p s', read_packet_deadline d s = (Val (Ok p), s') /\ packet_is p id body).
Proof.
  intro H. set (body := [STATUS; x00; xff; xff; xff; xfd]).
  set (w := wire_of_body x01 (pstuff body) (calculate_checksum 0 (header ++ [x01] ++ le16 9 ++ pstuff body))).
  assert (F : is_frame x01 body w).
  { eexists. split; [reflexivity|]. split; [reflexivity|]. apply checksum_iff_crc16; reflexivity. }
  destruct (H (fresh true [RdData w] 32 32) (mkDeadline 0 dur_34ms) x01 body w []
              (fresh_reach true [RdData w] 32 32 ltac:(lia)) F) as [p [s' [E P]]].
  - discriminate.
  - vm_compute. lia.
  - reflexivity.
  - vm_compute in E. injection E as <- _. destruct P as [_ P]. vm_compute in P. discriminate.
Qed.

Lemma L_C07_conforming_peer_partial : forall s d g id body w rest, reach s ->
  ~ contains g header -> is_frame id body w -> body <> [] ->
  length w <= length (b_rbuf s) -> pending s = map inl (g ++ w) ++ rest ->
  exists p s', read_packet_deadline d s = (Val (Ok p), s') /\ pending s' = rest /\
    (packet_is p id body <-> ff_runs_ok body).
Proof.
  intros s d g id body w rest R Hg F Hb L P.
  destruct (ideal_frame _ g id body w rest Hg F Hb L) as [p [E Q]].
  destruct (read_step d s (Val (Ok p)) rest (reach_inv _ R)) as [s' [E1 [E2 _]]]; [rewrite P; exact E|].
  exists p, s'. split; [exact E1|]. split; [exact E2|].
  rewrite <- unst_pstuff_iff. split.
  - intros [_ K]. apply (packet_is_fun _ _ _ _ Q K).
  - intro K. rewrite K in Q. exact Q.
Qed.

(** ** C16 *)

Lemma L_C16_read_never_panics_refuted :
  ~ (forall s d o s', reach s -> read_packet_deadline d s = (o, s') ->
     match o with Panic _ => False | _ => True end).
Proof.
  intro H. set (w := message x01 [] (calculate_checksum 0 (msg_head x01 2))).
  specialize (H (fresh false [RdData w] 32 32) (mkDeadline 0 dur_34ms) _ _
                (fresh_reach false [RdData w] 32 32 ltac:(lia)) (surjective_pairing _)).
  vm_compute in H. exact H.
Qed.

Lemma clean_eq_garbage : forall u r, clean u = header ++ r <->
  exists g, ~ contains g header /\ u = g ++ header ++ r.
Proof.
  intros u r. split.
  - intro E. destruct (clean_split u) as [S1 [S2 S3]]. rewrite E in S1, S3.
    exists (firstn (find_header u) u). split; [|exact S1].
    intros [a [b K]]. destruct a as [|x a].
    + apply (S3 [] xff ([xff; xfd; x00] ++ b) K). left. exists (b ++ header ++ r). rewrite <- !app_assoc. reflexivity.
    + apply (S3 (x :: a) xff ([xff; xfd; x00] ++ b)); [exact K|].
      left. exists (b ++ header ++ r). rewrite <- !app_assoc. reflexivity.
  - intros [g [G ->]]. apply clean_garbage, G.
Qed.

Lemma map_inl_upto : forall u p, upto p = u -> exists q, p = map inl u ++ q /\ upto q = [].
Proof.
  intros u p <-. exists (from_err p). split; [apply upto_split|apply upto_from_err].
Qed.

Lemma map_app_upto : forall (u r : list byte) p, upto p = u ++ r ->
  exists q, p = map inl u ++ q.
Proof.
  intros u r p E. destruct (map_inl_upto _ _ E) as [q [-> _]]. rewrite map_app, <- app_assoc. eauto.
Qed.

Lemma L_C16_exactly_when_read_panics : forall s d, reach s -> 10 <= length (b_rbuf s) ->
  ((exists p s', read_packet_deadline d s = (Panic p, s')) <->
   (exists g id crc rest, ~ contains g header /\
      pending s = map inl (g ++ header ++ [id; x02; x00] ++ le16 crc) ++ rest /\
      is_crc16 0 (header ++ [id; x02; x00]) crc)).
Proof.
  intros s d R L. destruct (reach_inv _ R) as [I1 I2].
  destruct (read_packet_deadline d s) as [o s'] eqn:E.
  pose proof (read_ideal _ _ _ _ I1 E) as K. unfold ideal in K.
  replace (length (b_rbuf s) <? 10) with false in K by lia.
  assert (MS : forall id crc, message id [] crc = header ++ [id; x02; x00] ++ le16 crc) by reflexivity.
  split.
  - intros [p [s'' E']]. injection E' as -> <-.
    destruct (next_event (length (b_rbuf s)) (upto (pending s))) as [[ev r]|] eqn:N.
    2:{ destruct (from_err (pending s)) as [|[b|e] q]; discriminate K. }
    assert (ev = EvPanic p) as ->.
    { destruct ev; cbn [ev_out] in K; congruence. }
    apply next_event_panic_iff in N; [|exact L]. destruct N as [_ [id Ec]].
    rewrite MS, <- app_assoc in Ec. apply clean_eq_garbage in Ec. destruct Ec as [g [G U]].
    destruct (map_app_upto (g ++ header ++ [id; x02; x00] ++ le16 (calculate_checksum 0 (msg_head id 2))) r (pending s)) as [q Q].
    { rewrite U, <- !app_assoc. reflexivity. }
    exists g, id, (calculate_checksum 0 (msg_head id 2)), q.
    split; [exact G|]. split; [exact Q|]. apply checksum_iff_crc16; reflexivity.
  - intros [g [id [crc [rest [G [P C]]]]]].
    assert (N : ideal (length (b_rbuf s)) (pending s) = (ev_out (message_event id [] crc), rest)).
    { rewrite P. change (header ++ [id; x02; x00] ++ le16 crc) with (message id [] crc).
      apply ideal_message; [exact L|exact G|apply C|reflexivity|cbn [length]; lia]. }
    unfold ideal in N. replace (length (b_rbuf s) <? 10) with false in N by lia.
    rewrite N in K. apply checksum_iff_crc16 in C; [|reflexivity].
    unfold message_event in K. cbv zeta in K. cbn [length] in K. rewrite app_nil_r in K.
    change (msg_head id (N.of_nat (0 + 2))) with (header ++ [id; x02; x00]) in K.
    rewrite <- C, N.eqb_refl in K. cbn [unst ev_out] in K.
    exists PIndex, s'. congruence.
Qed.

(** ** C17 *)

Lemma L_C17_chunking_does_not_matter : forall s t ds1 ds2 o1 o2 s' t',
  reach s -> reach t -> length (b_rbuf s) = length (b_rbuf t) ->
  pending s = pending t -> length ds1 = length ds2 ->
  reads ds1 s = (o1, s') -> reads ds2 t = (o2, t') ->
  o1 = o2 /\ pending s' = pending t'.
Proof.
  intros s t ds1 ds2 o1 o2 s' t' Rs Rt C P L E1 E2.
  destruct (reads_ideal _ _ _ _ (reach_inv _ Rs) E1) as [K1 _].
  destruct (reads_ideal _ _ _ _ (reach_inv _ Rt) E2) as [K2 _].
  rewrite C, P, L in K1. split; congruence.
Qed.

Lemma L_C17_scripts : forall dbg p1 p2 rb1 rb2 wb1 wb2 baud1 baud2 s t ds,
  items (p_script p1) = items (p_script p2) -> length rb1 = length rb2 ->
  with_buffers_and_baud_rate dbg p1 rb1 wb1 baud1 = Val s ->
  with_buffers_and_baud_rate dbg p2 rb2 wb2 baud2 = Val t ->
  fst (reads ds s) = fst (reads ds t).
Proof.
  intros dbg p1 p2 rb1 rb2 wb1 wb2 baud1 baud2 s t ds I L Es Et.
  pose proof (new_inv _ _ _ _ _ _ Es) as [_ [Ps [_ [Rs [_ [_ [_ [_ Us]]]]]]]].
  pose proof (new_inv _ _ _ _ _ _ Et) as [_ [Pt [_ [Rt [_ [_ [_ [_ Ut]]]]]]]].
  destruct (reads ds s) as [o1 s'] eqn:E1. destruct (reads ds t) as [o2 t'] eqn:E2. cbn [fst].
  refine (proj1 (L_C17_chunking_does_not_matter s t ds ds o1 o2 s' t' _ _ _ _ eq_refl E1 E2)).
  - apply (reach_new _ _ _ _ _ _ Es).
  - apply (reach_new _ _ _ _ _ _ Et).
  - congruence.
  - rewrite !pending_unread, Us, Ut, Ps, Pt, I. reflexivity.
Qed.

(** ** C18 *)

Lemma ideal_code_wire : forall cap g id i params q, ~ contains g header ->
  (N.of_nat (length (code_wire id (i :: params)) - 7) < 2 ^ 16)%N ->
  length (code_wire id (i :: params)) <= cap ->
  exists p, ideal cap (map inl (g ++ code_wire id (i :: params)) ++ q) = (Val (Ok p), q) /\
    packet_is p id (unst 0 (code_stuff (i :: params))).
Proof.
  intros cap g id i params q Hg Hl Hc. rewrite code_wire_length in Hl, Hc.
  rewrite code_wire_wire_of_body.
  change (wire_of_body id ?a ?b) with (message id a b).
  assert (L : length (code_stuff (i :: params)) = S (length params) + fcount 0 (i :: params)) by apply code_stuff_length.
  cbn [length] in Hl, Hc.
  eexists. rewrite ideal_message; [|lia|exact Hg|apply covered_crc|lia|lia].
  rewrite message_event_good.
  - cbn [ev_out]. split; [reflexivity|apply packet_head].
  - unfold msg_head. rewrite <- !app_assoc. apply covered_crc.
  - intro K. rewrite K in L. cbn in L. lia.
Qed.

Lemma L_C18_write_then_read_refuted :
  ~ (forall s m id i params s' w t d g rest,
     reach s -> sends m id i params -> m s = (Val (Ok tt), s') ->
     calls s s' [LDiscard None; LWrite w None] -> (N.of_nat (length w) < 2 ^ 16)%N ->
     reach t -> ~ contains g header -> length w <= length (b_rbuf t) ->
     pending t = map inl (g ++ w) ++ rest ->
     exists p t', read_packet_deadline d t = (Val (Ok p), t') /\ pending t' = rest /\
       packet_is p id (i :: params)).
Proof.
  intro H. set (params := [xff; xff; xfd; x00; xff; xff; xff; xfd]).
  destruct (fresh_send x01 WRITE params true [] 32 32) as [s' E];
    [lia|vm_compute; discriminate|vm_compute; lia|intros _; vm_compute; reflexivity|].
  pose proof (fresh_reach true [] 32 32 ltac:(lia)) as R.
  pose proof (sends_instruction x01 WRITE params _ (fill_writes params)) as Sd.
  destruct (sends_ok _ _ _ _ _ _ R Sd E) as [C _].
  set (w := code_wire x01 (WRITE :: params)) in *.
  destruct (H _ _ _ _ _ _ w (fresh true [RdData w] 32 32) (mkDeadline 0 dur_34ms) [] [] R Sd E C)
    as [p [t' [E' [_ P]]]].
  - vm_compute. reflexivity.
  - apply fresh_reach. lia.
  - apply no_header_nil.
  - vm_compute. lia.
  - reflexivity.
  - vm_compute in E'. injection E' as <- _. destruct P as [_ P]. vm_compute in P. discriminate.
Qed.

Lemma L_C18_write_then_read_partial : forall s m id i params s' w t d g rest,
  reach s -> sends m id i params -> m s = (Val (Ok tt), s') ->
  calls s s' [LDiscard None; LWrite w None] -> (N.of_nat (length w - 7) < 2 ^ 16)%N ->
  reach t -> ~ contains g header -> length w <= length (b_rbuf t) ->
  pending t = map inl (g ++ w) ++ rest ->
  exists p t', read_packet_deadline d t = (Val (Ok p), t') /\ pending t' = rest /\
    (packet_is p id (i :: params) <-> comes_back (i :: params)).
Proof.
  intros s m id i params s' w t d g rest R Sd E C L Rt G Lt P.
  destruct (sends_ok _ _ _ _ _ _ R Sd E) as [C' _].
  assert (w = code_wire id (i :: params)) as ->.
  { pose proof (calls_inj _ _ _ _ C C') as K. congruence. }
  destruct (ideal_code_wire _ g id i params rest G L Lt) as [p [EI Q]].
  destruct (read_step d t _ _ (reach_inv _ Rt) ltac:(rewrite P; exact EI)) as [t' [E1 [E2 _]]].
  exists p, t'. split; [exact E1|]. split; [exact E2|]. rewrite <- unst_code_stuff_iff. split.
  - intro K. destruct Q as [_ Q], K as [_ K]. congruence.
  - intro K. rewrite K in Q. exact Q.
Qed.

Lemma L_C18_accessors : forall p id i params, packet_is p id (i :: params) ->
  pk_id p = Val id /\ pk_instruction p = Val i /\ in_parameters p = Val params /\
  forall error rest, params = error :: rest -> st_error p = Val error /\ st_parameters p = Val rest.
Proof.
  intros p id i params [H1 H2]. unfold slice_from in H2. apply slice_inv in H2. destruct H2 as [L [_ H2]].
  assert (S7 : skipn 7 (pk_data p) = i :: params).
  { rewrite H2. symmetry. apply firstn_all2. rewrite skipn_length. lia. }
  clear H2. assert (D : pk_data p = firstn 7 (pk_data p) ++ i :: params) by (rewrite <- S7; symmetry; apply firstn_skipn).
  assert (L7 : length (firstn 7 (pk_data p)) = 7) by (rewrite firstn_length; lia).
  set (h := firstn 7 (pk_data p)) in *.
  split; [exact H1|]. unfold pk_instruction, in_parameters, st_error, st_parameters, HEADER_SIZE.
  rewrite D. split; [|split].
  - apply idx_app. congruence.
  - rewrite slice_from_val by (rewrite app_length; cbn [length]; lia).
    rewrite skipn_app_ge by lia. rewrite L7. reflexivity.
  - intros error rest ->. split.
    + change (h ++ i :: error :: rest) with (h ++ [i] ++ error :: rest). rewrite app_assoc.
      apply idx_app. rewrite app_length. cbn [length]. lia.
    + rewrite slice_from_val by (rewrite app_length; cbn [length]; lia).
      rewrite skipn_app_ge by lia. rewrite L7. reflexivity.
Qed.

(** ** C19 *)

Lemma L_C19_back_to_back : forall s ds sent chunks rest, reach s ->
  Forall2 (arrives (length (b_rbuf s))) sent chunks -> length ds = length sent ->
  pending s = map inl (concat chunks) ++ rest ->
  exists packets s', reads ds s = (Val (map Ok packets), s') /\ pending s' = rest /\
    Forall2 (fun p x => packet_is p (fst x) (snd x)) packets sent.
Proof.
  intros s ds sent chunks rest R F L P.
  assert (K : forall cap sent chunks rest, Forall2 (arrives cap) sent chunks ->
    exists packets, ideal_reads cap (length sent) (map inl (concat chunks) ++ rest) = (Val (map Ok packets), rest)
      /\ Forall2 (fun p x => packet_is p (fst x) (snd x)) packets sent).
  { clear. intros cap sent chunks rest F.
    induction F as [|[id body] ch sent chunks A F IH]; cbn [length ideal_reads concat map app].
    - exists []. split; [reflexivity|constructor].
    - destruct A as [g [w [-> [G [Fr [Hb [Hr Hc]]]]]]]. cbn [fst snd] in *.
      destruct IH as [ps [IH1 IH2]].
      destruct (ideal_frame cap g id body w (map inl (concat chunks) ++ rest) G Fr Hb Hc) as [p [E Q]].
      rewrite map_app, <- app_assoc, E, IH1.
      apply unst_pstuff_iff in Hr. rewrite Hr in Q.
      exists (p :: ps). split; [reflexivity|]. constructor; assumption. }
  destruct (K _ _ _ rest F) as [ps [K1 K2]]. rewrite <- L, <- P in K1.
  destruct (reads_step ds s _ _ (reach_inv _ R) K1) as [s' [E1 [E2 _]]].
  exists ps, s'. auto.
Qed.

(** ** C20 *)

Lemma L_C20_io_error_loses_nothing : forall s d e s',
  reach s -> read_packet_deadline d s = (Val (Err (RIo e)), s') ->
  exists received rest, pending s = map inl received ++ inr e :: rest /\
    forall t ds, reach t -> length (b_rbuf t) = length (b_rbuf s) ->
      pending t = map inl received ++ rest ->
      fst (reads ds s') = fst (reads ds t).
Proof.
  intros s d e s' R E. destruct (reach_inv _ R) as [I1 I2].
  pose proof (read_ideal _ _ _ _ I1 E) as K. unfold ideal in K.
  destruct (length (b_rbuf s) <? 10) eqn:L; [discriminate|].
  destruct (next_event (length (b_rbuf s)) (upto (pending s))) as [[ev r]|] eqn:N.
  { exfalso. injection K as K _.
    pose proof (next_event_front (length (b_rbuf s)) (upto (pending s))) as F. rewrite N in F.
    remember (Some (ev, r)) as oe eqn:Eo. destruct F; try discriminate Eo; injection Eo as <- <-; try discriminate K.
    unfold message_event in K. cbv zeta in K. destruct (_ =? _)%N; [destruct (unst 0 body)|]; discriminate K. }
  destruct (from_err (pending s)) as [|[b|e'] q] eqn:FE; try discriminate K.
  assert (e' = e) as -> by congruence.
  assert (Ps' : pending s' = map inl (clean (upto (pending s))) ++ q) by congruence.
  exists (upto (pending s)), q. split; [rewrite (upto_split (pending s)) at 1; rewrite FE; reflexivity|].
  intros t ds Rt Ct Pt.
  destruct (read_cap _ _ _ _ (conj I1 I2) E) as [I' C'].
  destruct (reads ds s') as [o1 s1] eqn:E1. destruct (reads ds t) as [o2 t1] eqn:E2. cbn [fst].
  destruct (reads_ideal _ _ _ _ I' E1) as [Q1 _].
  destruct (reads_ideal _ _ _ _ (reach_inv _ Rt) E2) as [Q2 _].
  rewrite C', Ps' in Q1. rewrite Ct, Pt in Q2.
  destruct ds as [|d' ds]; [cbn [length ideal_reads] in *; congruence|].
  cbn [length ideal_reads] in Q1, Q2. rewrite ideal_clean in Q1 by lia. congruence.
Qed.

(** A packet whose bytes arrive with errors in between. *)
Lemma map_inl_split : forall (q : list item), errors_in q = [] -> q = map inl (bytes_in q).
Proof.
  induction q as [|[b|e] q IH]; intro H; cbn [errors_in bytes_in map] in *;
    [reflexivity| |discriminate]. f_equal. apply IH, H.
Qed.

Lemma first_error : forall (q : list item) e es, errors_in q = e :: es ->
  exists a q', q = map inl a ++ inr e :: q' /\ errors_in q' = es /\ bytes_in q = a ++ bytes_in q'.
Proof.
  induction q as [|[b|e'] q IH]; intros e es H; cbn [errors_in bytes_in] in *; [discriminate| |].
  - destruct (IH _ _ H) as [a [q' [-> [E1 E2]]]]. exists (b :: a), q'. cbn [map app]. rewrite E2. auto.
  - injection H as <- <-. exists [], q. auto.
Qed.

Lemma interrupted : forall cap g id body w, ~ contains g header -> is_frame id body w -> body <> [] ->
  ff_runs_ok body -> length w <= cap -> forall es q rest b a, errors_in q = es ->
  a ++ bytes_in q ++ [b] = g ++ w ->
  exists p, ideal_reads cap (S (length es)) (map inl a ++ q ++ inl b :: rest) =
    (Val (map (fun e => Err (RIo e)) es ++ [Ok p]), rest) /\ packet_is p id body.
Proof.
  intros cap g id body w G F Hb Hr Hc. induction es as [|e es IH]; intros q rest b a He Hq.
  - rewrite (map_inl_split _ He).
    assert (Eq : (map inl a ++ map inl (bytes_in q) ++ inl b :: rest : list item) = map inl (g ++ w) ++ rest).
    { rewrite <- Hq, !map_app, <- !app_assoc. reflexivity. }
    unfold item in *. rewrite Eq.
    destruct (ideal_frame cap g id body w rest G F Hb Hc) as [p [E Q]].
    cbn [length ideal_reads]. unfold item in *. rewrite E. apply unst_pstuff_iff in Hr. rewrite Hr in Q.
    exists p. split; [reflexivity|exact Q].
  - destruct (first_error _ _ _ He) as [a' [q' [-> [E1 E2]]]].
    rewrite E2 in Hq. rewrite <- app_assoc in Hq.
    specialize (IH q' rest b (a ++ a') E1).
    rewrite <- app_assoc in IH. specialize (IH Hq). destruct IH as [p [IH1 IH2]].
    exists p. split; [|exact IH2].
    change (length (e :: es)) with (S (length es)).
    assert (Eq : (map inl a ++ (map inl a' ++ inr e :: q') ++ inl b :: rest : list item) =
                 map inl (a ++ a') ++ inr e :: q' ++ inl b :: rest).
    { rewrite map_app, <- !app_assoc. reflexivity. }
    unfold item in *. rewrite Eq.
    remember (S (length es)) as k eqn:Ek. cbn [ideal_reads].
    destruct (frame_message _ _ _ F) as [crc [-> [C1 [C2 [C3 C4]]]]].
    assert (Hp : pstuff body <> []) by (intro K; apply Hb, pstuff_nil, K).
    assert (1 <= length (pstuff body)) by (destruct (pstuff body); [contradiction|cbn; lia]).
    assert (Hn : next_event cap (a ++ a') = None).
    { destruct (next_event cap (a ++ a')) as [[ev r]|] eqn:E; [|reflexivity]. exfalso.
      apply (next_event_app _ _ (bytes_in q' ++ [b])) in E.
      rewrite <- app_assoc, Hq in E.
      rewrite <- (app_nil_r (message _ _ _)), next_event_message in E by (try assumption; lia).
      injection E as _ E. symmetry in E. apply app_eq_nil in E. destruct E as [_ E].
      destruct (bytes_in q'); discriminate E. }
    assert (Hi : ideal cap (map inl (a ++ a') ++ inr e :: q' ++ inl b :: rest) =
      (Val (Err (RIo e)), map inl (clean (a ++ a')) ++ q' ++ inl b :: rest)).
    { unfold ideal. replace (cap <? 10) with false by lia.
      rewrite upto_app, from_err_app. cbn [upto from_err]. rewrite app_nil_r, Hn. reflexivity. }
    rewrite Hi.
    assert (Hk : ideal_reads cap k (map inl (clean (a ++ a')) ++ q' ++ inl b :: rest) =
                 ideal_reads cap k (map inl (a ++ a') ++ q' ++ inl b :: rest)).
    { subst k. cbn [ideal_reads]. rewrite ideal_clean by lia. reflexivity. }
    rewrite Hk, IH1. reflexivity.
Qed.

Lemma L_C20_interrupted_packet_arrives : forall s ds g id body w q b rest, reach s ->
  ~ contains g header -> is_frame id body w -> body <> [] -> ff_runs_ok body ->
  length w <= length (b_rbuf s) -> bytes_in (q ++ [inl b]) = g ++ w ->
  pending s = q ++ inl b :: rest -> length ds = S (length (errors_in q)) ->
  exists p s', reads ds s = (Val (map (fun e => Err (RIo e)) (errors_in q) ++ [Ok p]), s') /\
    packet_is p id body /\ pending s' = rest.
Proof.
  intros s ds g id body w q b rest R G F Hb Hr Hc Hq P L.
  assert (Hq' : [] ++ bytes_in q ++ [b] = g ++ w).
  { rewrite <- Hq. clear. cbn [app]. induction q as [|[x|e] q IH]; cbn [bytes_in app]; [reflexivity| |exact IH].
    f_equal. exact IH. }
  destruct (interrupted _ g id body w G F Hb Hr Hc _ q rest b [] eq_refl Hq') as [p [E Q]].
  cbn [map app] in E. rewrite <- L in E. unfold item in *.
  destruct (reads_step ds s _ _ (reach_inv _ R) ltac:(rewrite P; exact E)) as [s' [E1 [E2 _]]].
  exists p, s'. auto.
Qed.

(** ** C21 *)

Lemma L_C21_bad_checksum_skipped : forall s d g id body crc c rest, reach s -> 10 <= length (b_rbuf s) ->
  ~ contains g header -> (crc < 2 ^ 16)%N -> (N.of_nat (length body + 2) < 2 ^ 16)%N ->
  length body + 9 <= length (b_rbuf s) ->
  is_crc16 0 (header ++ [id] ++ le16 (N.of_nat (length body + 2)) ++ body) c -> crc <> c ->
  pending s = map inl (g ++ message id body crc) ++ rest ->
  exists s', read_packet_deadline d s = (Val (Err (RInvalidMessage (IMChecksum crc c))), s') /\
    pending s' = rest.
Proof.
  intros s d g id body crc c rest R L G Hcrc Hl Hc C Hne P.
  destruct (read_step d s (Val (Err (RInvalidMessage (IMChecksum crc c)))) rest (reach_inv _ R)) as [s' [E1 [E2 _]]].
  - rewrite P, ideal_message by assumption. rewrite (message_event_bad _ _ _ c); [reflexivity| |exact Hne].
    unfold msg_head. rewrite <- !app_assoc. exact C.
  - exists s'. auto.
Qed.

(** ** C23 *)

Lemma L_C23_oversized : forall s d g id n x r rest, reach s -> 10 <= length (b_rbuf s) ->
  ~ contains g header -> (n < 2 ^ 16)%N -> (N.of_nat (length (b_rbuf s)) < 7 + n)%N ->
  pending s = map inl (g ++ header ++ [id] ++ le16 n ++ x :: r) ++ rest ->
  exists s', read_packet_deadline d s =
      (Val (Err (RBufferFull (mkBTS (7 + N.to_nat n) (length (b_rbuf s))))), s') /\
    pending s' = map inl (x :: r) ++ rest.
Proof.
  intros s d g id n x r rest R L G Hn Hc P.
  destruct (read_step d s (Val (Err (RBufferFull (mkBTS (7 + N.to_nat n) (length (b_rbuf s))))))
              (map inl (x :: r) ++ rest) (reach_inv _ R)) as [s' [E1 [E2 _]]].
  - rewrite P. unfold ideal. replace (length (b_rbuf s) <? 10) with false by lia.
    rewrite upto_app, from_err_app.
    replace ((g ++ header ++ [id] ++ le16 n ++ x :: r) ++ upto rest)
      with (g ++ msg_head id n ++ x :: r ++ upto rest).
    2:{ unfold msg_head. rewrite <- !app_assoc. reflexivity. }
    rewrite next_event_oversized by assumption. cbn [ev_out].
    f_equal. change (x :: r ++ upto rest) with ((x :: r) ++ upto rest).
    rewrite map_app, <- app_assoc, <- upto_split. reflexivity.
  - exists s'. auto.
Qed.

(** After an oversized packet the bytes of its body are garbage like any other:
    the next packet behind them is read. *)
Lemma L_C23_reading_resumes : forall s d1 d2 g id n x r id2 body2 w2 rest, reach s ->
  ~ contains g header -> (n < 2 ^ 16)%N -> (N.of_nat (length (b_rbuf s)) < 7 + n)%N ->
  ~ contains (x :: r) header -> is_frame id2 body2 w2 -> body2 <> [] -> ff_runs_ok body2 ->
  length w2 <= length (b_rbuf s) ->
  pending s = map inl (g ++ header ++ [id] ++ le16 n ++ (x :: r) ++ w2) ++ rest ->
  exists p s', reads [d1; d2] s =
      (Val [Err (RBufferFull (mkBTS (7 + N.to_nat n) (length (b_rbuf s)))); Ok p], s') /\
    packet_is p id2 body2 /\ pending s' = rest.
Proof.
  intros s d1 d2 g id n x r id2 body2 w2 rest R G Hn Hc G2 F Hb Hr Hw P.
  destruct (frame_message _ _ _ F) as [crc [Ew [C1 [C2 [C3 C4]]]]].
  assert (Hp : pstuff body2 <> []) by (intro K; apply Hb, pstuff_nil, K).
  assert (1 <= length (pstuff body2)) by (destruct (pstuff body2); [contradiction|cbn; lia]).
  cbn [app] in P. destruct (L_C23_oversized s d1 g id n x (r ++ w2) rest R ltac:(lia) G Hn Hc P) as [s1 [E1 P1]].
  destruct (read_cap _ _ _ _ (reach_inv _ R) E1) as [I1 K1].
  destruct (ideal_frame (length (b_rbuf s1)) (x :: r) id2 body2 w2 rest G2 F Hb ltac:(lia)) as [p [E Q]].
  destruct (read_step d2 s1 (Val (Ok p)) rest I1) as [s2 [E2 [P2 _]]].
  { rewrite P1. exact E. }
  exists p, s2. split; [|split; [|exact P2]].
  - cbn [reads]. unfold bind, ret. rewrite E1, E2. reflexivity.
  - apply unst_pstuff_iff in Hr. rewrite Hr in Q. exact Q.
Qed.

(** With only the seven bytes of the header received, the reader waits for more. *)
Lemma L_C23_header_alone_waits : forall s d g id n e rest, reach s -> 10 <= length (b_rbuf s) ->
  ~ contains g header -> (n < 2 ^ 16)%N ->
  pending s = map inl (g ++ header ++ [id] ++ le16 n) ++ inr e :: rest ->
  exists s', read_packet_deadline d s = (Val (Err (RIo e)), s') /\
    pending s' = map inl (header ++ [id] ++ le16 n) ++ rest.
Proof.
  intros s d g id n e rest R L G Hn P.
  assert (Ec : clean (g ++ header ++ [id] ++ le16 n) = msg_head id n) by (apply clean_garbage, G).
  destruct (read_step d s (Val (Err (RIo e))) (map inl (msg_head id n) ++ rest) (reach_inv _ R)) as [s' [E1 [E2 _]]].
  - rewrite P. unfold ideal. replace (length (b_rbuf s) <? 10) with false by lia.
    rewrite upto_app, from_err_app. cbn [upto from_err]. rewrite app_nil_r.
    unfold next_event. cbv zeta. rewrite Ec. unfold parse1. rewrite msg_head_length. reflexivity.
  - exists s'. split; [exact E1|]. rewrite E2. reflexivity.
Qed.

(** ** C24 *)

Lemma at_error_upto : forall q, at_error q -> upto q = [] /\ from_err q = q.
Proof. intros q [->|[e [q' ->]]]; split; reflexivity. Qed.

Lemma L_C24_garbage_does_not_matter : forall s t ds u g c q, reach s -> reach t ->
  10 <= length (b_rbuf s) -> length (b_rbuf t) = length (b_rbuf s) ->
  garbage_split u g c -> pending s = map inl u ++ q -> pending t = map inl c ++ q ->
  fst (reads ds s) = fst (reads ds t).
Proof.
  intros s t ds u g c q Rs Rt L C Sp Ps Pt.
  destruct (split_unique _ _ _ Sp) as [-> _].
  destruct (reads ds s) as [o1 s1] eqn:E1. destruct (reads ds t) as [o2 t1] eqn:E2. cbn [fst].
  destruct (reads_ideal _ _ _ _ (reach_inv _ Rs) E1) as [Q1 _].
  destruct (reads_ideal _ _ _ _ (reach_inv _ Rt) E2) as [Q2 _].
  rewrite Ps in Q1. rewrite C, Pt in Q2.
  destruct ds as [|d' ds]; [cbn [length ideal_reads] in *; congruence|].
  cbn [length ideal_reads] in Q1, Q2. rewrite ideal_clean in Q2 by lia. congruence.
Qed.

Lemma L_C24_split_exists : forall u, exists g c, garbage_split u g c /\
  forall g' c', garbage_split u g' c' -> g' = g /\ c' = c.
Proof.
  intro u. exists (firstn (find_header u) u), (clean u). split; [apply clean_split|].
  intros g' c' H. destruct (split_unique _ _ _ H). auto.
Qed.

Lemma ideal_io_inv : forall cap p e p', ideal cap p = (Val (Err (RIo e)), p') ->
  10 <= cap /\ exists q, p = map inl (upto p) ++ inr e :: q /\ p' = map inl (clean (upto p)) ++ q.
Proof.
  intros cap p e p' E. unfold ideal in E. destruct (cap <? 10) eqn:L; [discriminate|].
  split; [lia|].
  destruct (next_event cap (upto p)) as [[ev r]|] eqn:N.
  { exfalso. injection E as E _.
    pose proof (next_event_front cap (upto p)) as F. rewrite N in F.
    remember (Some (ev, r)) as oe eqn:Eo. destruct F; try discriminate Eo; injection Eo as <- <-; try discriminate E.
    unfold message_event in E. cbv zeta in E. destruct (_ =? _)%N; [destruct (unst 0 body)|]; discriminate E. }
  destruct (from_err p) as [|[b|e'] q] eqn:FE; try discriminate E.
  exists q. assert (e' = e) as -> by congruence.
  split; [|congruence]. rewrite (upto_split p) at 1. rewrite FE. reflexivity.
Qed.

Lemma L_C24_only_garbage_dropped : forall s d e s', reach s ->
  read_packet_deadline d s = (Val (Err (RIo e)), s') ->
  exists u g c rest, pending s = map inl u ++ inr e :: rest /\ garbage_split u g c /\
    pending s' = map inl c ++ rest.
Proof.
  intros s d e s' R E. pose proof (read_ideal _ _ _ _ (proj1 (reach_inv _ R)) E) as K. symmetry in K.
  destruct (ideal_io_inv _ _ _ _ K) as [_ [q [P P']]].
  exists (upto (pending s)), (firstn (find_header (upto (pending s))) (upto (pending s))),
    (clean (upto (pending s))), q.
  split; [exact P|]. split; [apply clean_split|exact P'].
Qed.

(** ** What a successful read says about the line *)

Lemma framed_iff : forall id body w, framed id body w <->
  exists crc, w = message id body crc /\ (N.of_nat (length body + 2) < 2 ^ 16)%N /\
    is_crc16 0 (msg_head id (N.of_nat (length body + 2)) ++ body) crc.
Proof.
  intros id body w. unfold framed, msg_head.
  split; intros [crc [-> [L C]]]; exists crc; split; auto; split; auto; rewrite <- !app_assoc in *; exact C.
Qed.

Lemma ideal_ok_inv : forall cap p pk p', ideal cap p = (Val (Ok pk), p') ->
  10 <= cap /\ exists g id body w, ~ contains g header /\ framed id body w /\ length w <= cap /\
    body <> [] /\ p = map inl (g ++ w) ++ p' /\
    pk = mkPacket (msg_head id (N.of_nat (length body + 2)) ++ unst 0 body).
Proof.
  intros cap p pk p' E. unfold ideal in E. destruct (cap <? 10) eqn:L; [discriminate|].
  split; [lia|].
  destruct (next_event cap (upto p)) as [[ev r]|] eqn:N.
  2:{ exfalso. destruct (from_err p) as [|[b|e'] q]; discriminate E. }
  pose proof (next_event_front cap (upto p)) as F. rewrite N in F.
  remember (Some (ev, r)) as oe eqn:Eo.
  destruct F as [|id n x r' Ec Hn Hc|id n r' Ec Hn Hc Hl|id body crc r' Ec Hcrc Hb Hc|id n r' crc comp Hn Ec Hr Hc Hne];
    try discriminate Eo; injection Eo as <- <-; try discriminate E.
  assert (E1 : ev_out (message_event id body crc) = Val (Ok pk)) by congruence.
  assert (E2 : p' = map inl r' ++ from_err p) by congruence. clear E.
  assert (Hm : exists m, message id body crc ++ r' = header ++ m).
  { rewrite message_shape. unfold msg_head. rewrite <- !app_assoc. eauto. }
  destruct Hm as [m Em]. rewrite Em in Ec. apply clean_eq_garbage in Ec. destruct Ec as [g [G U]].
  rewrite <- Em in U.
  unfold message_event in E1. cbv zeta in E1.
  destruct (crc =? _)%N eqn:C; [|discriminate]. apply N.eqb_eq in C.
  destruct (unst 0 body) as [|u0 us] eqn:Un; [discriminate|]. cbn [ev_out] in E1.
  exists g, id, body, (message id body crc). split; [exact G|]. split.
  { apply framed_iff. exists crc. split; [reflexivity|]. split; [exact Hb|].
    apply checksum_iff_crc16; [reflexivity|]. exact C. }
  split; [rewrite message_length; lia|]. split; [intros ->; discriminate|].
  split; [|congruence].
  rewrite (upto_split p) at 1. rewrite U, E2, !map_app, <- !app_assoc. reflexivity.
Qed.

Lemma L_C24_only_packet_consumed : forall s d p s', reach s ->
  read_packet_deadline d s = (Val (Ok p), s') ->
  exists g id body w, ~ contains g header /\ framed id body w /\
    pending s = map inl (g ++ w) ++ pending s' /\
    exists u, packet_is p id u /\ some_stuffed u body.
Proof.
  intros s d p s' R E. pose proof (read_ideal _ _ _ _ (proj1 (reach_inv _ R)) E) as K. symmetry in K.
  destruct (ideal_ok_inv _ _ _ _ K) as [_ [g [id [body [w [G [F [_ [_ [P ->]]]]]]]]]].
  exists g, id, body, w. split; [exact G|]. split; [exact F|]. split; [exact P|].
  exists (unst 0 body). split; [apply packet_head|]. apply unst_some.
Qed.
