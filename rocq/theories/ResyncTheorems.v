(** * ResyncTheorems: finding back to packet boundaries *)
From Coq Require Import ZArith ZifyN ZifyNat ZifyBool.
From Verif Require Import Base Endian Error Checksum Bytestuff Packet Time Bus Data Client
  Instructions Device Api Spec CallSpec StreamSpec ResyncSpec Demo Lib ChecksumProofs
  CrcErrorProofs StuffProofs WriteProofs ReadProofs ApiProofs StreamProofs MessageProofs SendProofs
  SendTheorems ReadTheorems StatusProofs DeviceTheorems DemoProofs.
Ltac Zify.zify_post_hook ::= Z.div_mod_to_equations.

(** ** Where a cut lands *)

Lemma contains_app_l : forall a l p, contains l p -> contains (a ++ l) p.
Proof. intros a l p [x [y ->]]. exists (a ++ x), y. rewrite <- app_assoc. reflexivity. Qed.
Lemma contains_app_r : forall a l p, contains l p -> contains (l ++ a) p.
Proof. intros a l p [x [y ->]]. exists x, (y ++ a). rewrite <- !app_assoc. reflexivity. Qed.

Lemma skip_tail : forall (w : list byte) t, t <> 0 -> ~ contains (tl w) header -> ~ contains (skipn t w) header.
Proof.
  intros w t Ht H K. apply H. destruct t as [|t]; [congruence|]. destruct w as [|b w]; [exact K|].
  cbn [skipn tl] in *. rewrite <- (firstn_skipn t w). apply contains_app_l, K.
Qed.

Lemma cut : forall ws more t, Forall (fun w => ~ contains (tl w) header) ws -> t <= length (concat ws) ->
  exists j g, skipn t (concat ws ++ more) = g ++ concat (skipn j ws) ++ more /\ ~ contains g header.
Proof.
  induction ws as [|w ws IH]; intros more t F L.
  - cbn [concat length] in L. assert (t = 0) by lia. subst t. exists 0, []. split; [reflexivity|apply no_header_nil].
  - cbn [concat] in *. rewrite app_length in L.
    destruct (Nat.eq_dec t 0) as [->|Ht]; [exists 0, []; split; [reflexivity|apply no_header_nil]|].
    destruct (Nat.le_gt_cases (length w) t) as [K|K].
    + destruct (IH more (t - length w) (Forall_inv_tail F) ltac:(lia)) as [j [g [E G]]].
      exists (S j), g. split; [|exact G]. rewrite <- app_assoc, skipn_app_ge by exact K. exact E.
    + exists 1, (skipn t w). split; [|apply (skip_tail _ _ Ht (Forall_inv F))].
      rewrite <- app_assoc, skipn_app_le by lia. reflexivity.
Qed.

(** ** One step through junk *)

Lemma header_dec : forall v : list byte, (~ contains v header) \/
  (exists g r, v = g ++ header ++ r /\ ~ contains g header).
Proof.
  induction v as [|b v IH] using rev_ind; [left; apply no_header_nil|].
  destruct IH as [IH|[g [r [-> G]]]].
  - destruct (le_lt_dec 4 (length (v ++ [b]))) as [L|L].
    + destruct (list_eq_dec byte_eq_dec (skipn (length (v ++ [b]) - 4) (v ++ [b])) header) as [E|E].
      * right. exists (firstn (length (v ++ [b]) - 4) (v ++ [b])), []. rewrite app_nil_r.
        split; [rewrite <- E; symmetry; apply firstn_skipn|].
        intro K. apply IH. rewrite firstn_app_le in K by (rewrite app_length; cbn; lia).
        rewrite <- (firstn_skipn (length (v ++ [b]) - 4) v). apply contains_app_r, K.
      * left. intros [x [y K]]. destruct y as [|c y] using rev_ind.
        -- apply E. rewrite K, app_nil_r, app_length. cbn [length header].
           rewrite skipn_app_ge by lia. replace (length x + 4 - 4 - length x) with 0 by lia. reflexivity.
        -- apply IH. rewrite !app_assoc in K. apply app_inj_tail in K. destruct K as [-> _].
           exists x, y. rewrite <- app_assoc. reflexivity.
    + left. intros [x [y K]]. rewrite K, !app_length in L. cbn [length header] in L. lia.
  - right. exists g, (r ++ [b]). rewrite <- !app_assoc. auto.
Qed.

Lemma event_at_header : forall cap g r, 10 <= cap -> ~ contains g header -> cap <= length r + 4 -> 4 <= length r ->
  exists ev t, next_event cap (g ++ header ++ r) = Some (ev, skipn t (header ++ r)) /\ 7 <= t <= cap.
Proof.
  intros cap g r Hc G L L4. unfold next_event. cbv zeta. rewrite clean_garbage by exact G.
  unfold parse1. cbv zeta. set (c := header ++ r). assert (Lc : length c = length r + 4) by (unfold c; rewrite app_length; cbn; lia).
  replace (7 <? length c) with true by lia.
  destruct (7 + body_len c <=? cap) eqn:E.
  - replace (7 + body_len c <=? length c) with true by lia. do 2 eexists. split; [reflexivity|lia].
  - do 2 eexists. split; [reflexivity|lia].
Qed.

Lemma event_no_panic : forall cap u ev r, 10 <= cap -> no_empty_message u -> next_event cap u = Some (ev, r) ->
  exists res, ev_out ev = Val res.
Proof.
  intros cap u ev r Hc H E. destruct ev as [d|e|p]; [eexists; reflexivity..|]. exfalso.
  apply (next_event_panic_iff cap u p r Hc) in E. destruct E as [_ [id E]].
  apply (H id (message id [] (calculate_checksum 0 (msg_head id 2)))).
  - exists (calculate_checksum 0 (msg_head id 2)). split; [reflexivity|]. split; [reflexivity|].
    apply checksum_iff_crc16; reflexivity.
  - destruct (clean_split u) as [K _]. exists (firstn (find_header u) u), r. rewrite <- E. exact K.
Qed.

Lemma no_empty_skip : forall a b, no_empty_message (a ++ b) -> no_empty_message b.
Proof. intros a b H id w F K. apply (H id w F). apply contains_app_l, K. Qed.

(** ** Through all of it *)

Lemma ideal_event : forall cap u rest ev r, 10 <= cap -> next_event cap u = Some (ev, r) ->
  ideal cap (map inl u ++ rest) = (ev_out ev, map inl r ++ rest).
Proof.
  intros cap u rest ev r Hc E. unfold ideal. replace (cap <? 10) with false by lia.
  rewrite upto_app, (next_event_app _ _ (upto rest) _ _ E), from_err_app, map_app, <- app_assoc, <- upto_split.
  reflexivity.
Qed.

Lemma through : forall cap ws more rest, 10 <= cap -> cap <= length (concat ws) + 4 -> 4 <= length (concat ws) ->
  Forall (fun w => ~ contains (tl w) header) ws ->
  forall n v, length v <= n -> no_empty_message (v ++ concat ws ++ more) ->
  exists k rs j g, ideal_reads cap k (map inl (v ++ concat ws ++ more) ++ rest) =
      (Val rs, map inl (g ++ concat (skipn j ws) ++ more) ++ rest) /\ length rs = k /\ ~ contains g header.
Proof.
  intros cap ws more rest Hc Lc L4 F. induction n as [|n IH]; intros v Lv H.
  - destruct v; [|cbn in Lv; lia]. exists 0, [], 0, []. split; [reflexivity|]. split; [reflexivity|apply no_header_nil].
  - destruct (header_dec v) as [K|[g [r [-> G]]]]; [exists 0, [], 0, v; split; [reflexivity|split; [reflexivity|exact K]]|].
    set (C := concat ws ++ more) in *. 
    assert (LC : length (concat ws) <= length C) by (unfold C; rewrite app_length; lia).
    destruct (event_at_header cap g (r ++ C) Hc G) as [ev [t [E Ht]]];
      [rewrite app_length; lia|rewrite app_length; lia|].
    assert (Eq : (g ++ header ++ r) ++ C = g ++ header ++ r ++ C) by (rewrite <- !app_assoc; reflexivity).
    pose proof H as H'. rewrite Eq in H'. destruct (event_no_panic cap _ _ _ Hc H' E) as [res Er].
    assert (K1 : forall u, ideal cap (map inl ((g ++ header ++ r) ++ C) ++ u) =
                  (Val res, map inl (skipn t (header ++ r ++ C)) ++ u)).
    { intro u. rewrite Eq, (ideal_event cap _ u _ _ Hc E), Er. reflexivity. }
    destruct (Nat.le_gt_cases t (length (header ++ r))) as [Kt|Kt].
    + (* the message ends within the junk *)
      assert (Es : skipn t (header ++ r ++ C) = skipn t (header ++ r) ++ C).
      { rewrite app_assoc, skipn_app_le by exact Kt. reflexivity. }
      destruct (IH (skipn t (header ++ r))) as [k [rs [j [g' [E2 [Lr G']]]]]].
      * rewrite skipn_length. rewrite app_length in Lv. lia.
      * apply (no_empty_skip (g ++ firstn t (header ++ r))). rewrite <- app_assoc, (app_assoc (firstn t _)), firstn_skipn.
        rewrite app_assoc. exact H.
      * exists (S k), (res :: rs), j, g'. split; [|split; [cbn; lia|exact G']].
        cbn [ideal_reads]. rewrite K1, Es, E2. reflexivity.
    + (* it ends among the packets *)
      destruct (cut ws more (t - length (header ++ r)) F) as [j [g' [E2 G']]].
      { rewrite app_length in *. cbn [length header] in *. lia. }
      exists 1, [res], j, g'. split; [|split; [reflexivity|exact G']].
      cbn [ideal_reads]. rewrite K1. do 3 f_equal.
      rewrite app_assoc, skipn_app_ge by lia. exact E2.
Qed.

Lemma Forall2_len : forall A B (R : A -> B -> Prop) l l', Forall2 R l l' -> length l = length l'.
Proof. intros A B R l l' H. induction H; cbn; auto. Qed.

Lemma Forall2_skipn : forall A B (R : A -> B -> Prop) l l' n, Forall2 R l l' -> Forall2 R (skipn n l) (skipn n l').
Proof.
  intros A B R l l' n H. revert n. induction H as [|x y l l' K H IH]; intros [|n]; cbn [skipn]; auto.
Qed.

Lemma plain_arrives : forall cap x w, plain_packet cap x w -> arrives cap x w.
Proof.
  intros cap x w [H1 [H2 [H3 [H4 _]]]]. exists [], w. split; [reflexivity|]. split; [apply no_header_nil|]. auto.
Qed.

Lemma plain_tails : forall cap sent ws, Forall2 (plain_packet cap) sent ws -> Forall (fun w => ~ contains (tl w) header) ws.
Proof. intros cap sent ws H. induction H as [|x w sent ws K H IH]; constructor; [apply K|exact IH]. Qed.

Lemma ideal_reads_app : forall cap n m p rs p' o p'', ideal_reads cap n p = (Val rs, p') ->
  ideal_reads cap m p' = (Val o, p'') -> ideal_reads cap (n + m) p = (Val (rs ++ o), p'').
Proof.
  intros cap n. induction n as [|n IH]; intros m p rs p' o p'' H1 H2.
  - injection H1 as <- <-. exact H2.
  - cbn [Nat.add ideal_reads] in *. destruct (ideal cap p) as [[r|?|] p1]; try discriminate.
    destruct (ideal_reads cap n p1) as [[rs1|?|] p2] eqn:E; try discriminate. injection H1 as <- <-.
    rewrite (IH m p1 rs1 p2 o p'' E H2). reflexivity.
Qed.

Lemma ideal_arrives : forall cap sent chunks rest, Forall2 (arrives cap) sent chunks ->
  exists packets, ideal_reads cap (length sent) (map inl (concat chunks) ++ rest) = (Val (map Ok packets), rest)
    /\ Forall2 (fun p x => packet_is p (fst x) (snd x)) packets sent.
Proof.
  intros cap sent chunks rest F.
  induction F as [|[id body] ch sent chunks A F IH]; cbn [length ideal_reads concat map app].
  - exists []. split; [reflexivity|constructor].
  - destruct A as [g [w [-> [G [Fr [Hb [Hr Hc]]]]]]]. cbn [fst snd] in *.
    destruct IH as [ps [IH1 IH2]].
    destruct (ideal_frame cap g id body w (map inl (concat chunks) ++ rest) G Fr Hb Hc) as [p [E Q]].
    rewrite map_app, <- app_assoc, E, IH1.
    apply unst_pstuff_iff in Hr. rewrite Hr in Q.
    exists (p :: ps). split; [reflexivity|]. constructor; assumption.
Qed.

Lemma L_C67_finds_back_partial : forall s junk sent1 ws1 x sent2 w ws2 rest, reach s -> 10 <= length (b_rbuf s) ->
  Forall2 (plain_packet (length (b_rbuf s))) (sent1 ++ x :: sent2) (ws1 ++ w :: ws2) -> length sent1 = length ws1 ->
  length (b_rbuf s) <= length (concat ws1) + 4 -> ws1 <> [] ->
  no_empty_message (junk ++ concat (ws1 ++ w :: ws2)) ->
  pending s = map inl (junk ++ concat (ws1 ++ w :: ws2)) ++ rest ->
  exists k, forall ds, length ds = k + S (length sent2) ->
    exists first packets s', reads ds s = (Val (first ++ map Ok packets), s') /\ length first = k /\
      Forall2 (fun p x => packet_is p (fst x) (snd x)) packets (x :: sent2) /\ pending s' = rest.
Proof.
  intros s junk sent1 ws1 x sent2 w ws2 rest R Hc F L Lc Ne H P.
  set (cap := length (b_rbuf s)) in *.
  destruct (Forall2_app_inv_l _ _ F) as [l1 [l2 [F1 [F2 E]]]].
  assert (E1 : l1 = ws1 /\ l2 = w :: ws2).
  { pose proof (Forall2_len _ _ _ _ _ F1) as L1. clear - E L L1. revert ws1 E L L1. 
    assert (K : forall a b c d : list (list byte), a ++ b = c ++ d -> length a = length c -> a = c /\ b = d).
    { induction a as [|y a IH]; intros b [|z c] d Eq Ln; try discriminate; [auto|].
      injection Eq as -> Eq. injection Ln as Ln. destruct (IH _ _ _ Eq Ln) as [-> ->]. auto. }
    intros ws1 E L L1. apply K; [symmetry; exact E|congruence]. }
  destruct E1 as [-> ->]. clear E.
  assert (L4 : 4 <= length (concat ws1)).
  { destruct ws1 as [|w1 ws1]; [congruence|]. inversion F1 as [|? ? ? ? K1 K2]; subst. destruct K1 as [[crc [-> _]] _].
    cbn [concat]. rewrite app_length. cbn. lia. }
  rewrite concat_app in *.
  destruct (through cap ws1 (concat (w :: ws2)) rest Hc Lc L4 (plain_tails _ _ _ F1) (length junk) junk (le_n _) H)
    as [k [rs [j [g [E [Lr G]]]]]].
  assert (A : exists chunks, Forall2 (arrives cap) (skipn j sent1 ++ x :: sent2) chunks /\
     concat chunks = g ++ concat (skipn j ws1) ++ concat (w :: ws2)).
  { assert (K : forall sn wl, Forall2 (plain_packet cap) sn wl -> sn <> [] -> exists chunks,
      Forall2 (arrives cap) sn chunks /\ concat chunks = g ++ concat wl).
    { intros sn wl K Hne. destruct K as [|y z sn wl Ky K]; [congruence|]. exists ((g ++ z) :: wl). split.
      - constructor.
        + destruct Ky as [H1 [H2 [H3 [H4 _]]]]. exists g, z. auto 8.
        + clear - K. induction K; constructor; [apply plain_arrives; assumption|assumption].
      - cbn [concat]. rewrite <- app_assoc. reflexivity. }
    rewrite <- concat_app. apply K.
    - apply Forall2_app; [apply Forall2_skipn, F1|exact F2].
    - intro K2. apply app_eq_nil in K2. destruct K2; discriminate. }
  destruct A as [chunks [A1 A2]].
  destruct (ideal_arrives cap _ _ rest A1) as [ps [I1 I2]].
  rewrite <- A2 in E. rewrite <- P in E.
  pose proof (ideal_reads_app _ _ _ _ _ _ _ _ E I1) as I.
  assert (S2 : exists p1 p2, ps = p1 ++ p2 /\ length p1 = length (skipn j sent1) /\
    Forall2 (fun p x => packet_is p (fst x) (snd x)) p2 (x :: sent2)).
  { destruct (Forall2_app_inv_r _ _ I2) as [p1 [p2 [J1 [J2 ->]]]]. exists p1, p2.
    split; [reflexivity|]. split; [apply (Forall2_len _ _ _ _ _ J1)|exact J2]. }
  destruct S2 as [p1 [p2 [-> [Lp J2]]]].
  exists (k + length (skipn j sent1)). intros ds Ld.
  rewrite app_length in I. cbn [length] in I.
  replace (k + (length (skipn j sent1) + S (length sent2))) with (length ds) in I by lia.
  destruct (reads_step ds s _ _ (reach_inv _ R) I) as [s' [E1 [E2 _]]].
  exists (rs ++ map Ok p1), p2, s'. rewrite E1, map_app, app_assoc. split; [reflexivity|].
  split; [rewrite app_length, map_length; lia|]. split; [exact J2|exact E2].
Qed.

(** ** Headers inside packets *)

Lemma pstuff_no_open_end : forall l a, pstuff l <> a ++ [xff; xff; xfd].
Proof.
  assert (K : forall n l a, length l <= n -> pstuff l <> a ++ [xff; xff; xfd]).
  { induction n as [|n IH]; intros l a L E.
    - destruct l; [|cbn in L; lia]. destruct a; discriminate.
    - destruct l as [|x [|y [|z l]]].
      + destruct a; discriminate.
      + destruct a as [|? [|? ?]]; discriminate.
      + destruct a as [|? [|? [|? ?]]]; discriminate.
      + cbn [pstuff] in E. destruct (beq x xff && beq y xff && beq z xfd) eqn:B.
        * rewrite !andb_true_iff in B. destruct B as [[B1 B2] B3].
          apply beq_true in B1, B2, B3. subst x y z.
          destruct a as [|a0 [|a1 [|a2 [|a3 a]]]]; cbn [app] in E; try discriminate E.
          injection E as _ _ _ _ E. apply (IH l a); [cbn in L; lia|exact E].
        * destruct a as [|a0 a]; cbn [app] in E.
          -- injection E as -> E. change (pstuff (y :: z :: l) = [xff; xfd]) in E.
             assert (Hy : y = xff /\ z = xfd).
             { cbn [pstuff] in E. destruct l as [|z2 l]; [injection E as -> ->; auto|].
               destruct (beq y xff && beq z xff && beq z2 xfd); [discriminate|]. injection E as -> E.
               destruct l as [|z3 l]; [discriminate|]. destruct (beq z xff && beq z2 xff && beq z3 xfd); [discriminate|].
               injection E as -> E. auto. }
             destruct Hy as [-> ->]. discriminate.
          -- injection E as _ E. apply (IH (y :: z :: l) a); [cbn in *; lia|exact E]. }
  intros l a. apply (K (length l) l a (le_n _)).
Qed.

Lemma L_C67_second_header : forall id body w, is_frame id body w -> (N.of_nat (length w) < 65024)%N ->
  contains (tl w) header <-> exists a, w = a ++ header.
Proof.
  intros id body w [crc [-> [Hl _]]] Hw.
  set (p := pstuff body) in *. set (n := N.of_nat (length p + 2)) in *.
  assert (Hn : (n < 65023)%N).
  { unfold wire_of_body in Hw. rewrite !app_length in Hw. unfold n. cbn [length header le16] in Hw. lia. }
  split.
  - intros [x [y E]]. unfold wire_of_body in E. cbn [header app tl le16] in E.
    assert (Hh : b2n (n2b (n / 256)) <> 255%N /\ (b2n (n2b (n / 256)) = 253%N -> b2n (n2b n) <> 255%N)).
    { rewrite !b2n_n2b. fold n. lia. }
    fold n in E.
    destruct x as [|x0 [|x1 [|x2 [|x3 [|x4 [|x5 x]]]]]]; cbn [app header] in E;
      try discriminate E.
    + exfalso. injection E. intros _ E1 E2 _ _ _ _. apply (f_equal b2n) in E1, E2. change (b2n xfd) with 253%N in *.
      change (b2n xff) with 255%N in *. apply (proj2 Hh); assumption.
    + exfalso. injection E. intros _ E1 _ _ _ _ _. apply (f_equal b2n) in E1. apply (proj1 Hh), E1.
    + exfalso. injection E. intros _ E1 _ _ _ _ _. apply (f_equal b2n) in E1. apply (proj1 Hh), E1.
    + injection E as _ _ _ _ _ _ E. unfold le16 in E.
      destruct (le_lt_dec 2 (length y)) as [L|L].
      * exfalso. assert (K : contains p header).
        { exists x, (firstn (length y - 2) y).
          assert (Lp : length p + 2 = length x + 4 + length y).
          { apply (f_equal (@length byte)) in E. rewrite !app_length in E. cbn [length le16] in E. lia. }
          transitivity (firstn (length p) (p ++ [n2b crc; n2b (crc / 256)])).
          { rewrite firstn_app_le, firstn_all by lia. reflexivity. }
          rewrite E. change (x ++ xff :: xff :: xfd :: x00 :: y) with (x ++ header ++ y).
          rewrite app_assoc, firstn_app_ge by (rewrite app_length; cbn [length header]; lia).
          rewrite <- app_assoc. do 2 f_equal. f_equal. rewrite app_length. cbn [length header]. lia. }
        exact (pstuff_no_header body K).
      * destruct y as [|y0 [|y1 y]]; [| |cbn in L; lia].
        -- assert (E' : p ++ [n2b crc; n2b (crc / 256)] = (x ++ [xff; xff]) ++ [xfd; x00]) by (rewrite <- app_assoc; exact E).
           exists (header ++ [id] ++ le16 n ++ x). unfold wire_of_body. fold n. rewrite <- !app_assoc. do 3 f_equal.
           exact E.
        -- exfalso. assert (E' : (p ++ [n2b crc]) ++ [n2b (crc / 256)] = (x ++ [xff; xff; xfd; x00]) ++ [y0])
             by (rewrite <- !app_assoc; exact E).
           apply app_inj_tail in E'. destruct E' as [E' _].
           assert (E2 : p ++ [n2b crc] = (x ++ [xff; xff; xfd]) ++ [x00]) by (rewrite <- app_assoc; exact E').
           apply app_inj_tail in E2. destruct E2 as [E2 _]. exact (pstuff_no_open_end body x E2).
  - intros [a E]. destruct a as [|a0 a].
    + apply (f_equal (@length byte)) in E. unfold wire_of_body in E. rewrite !app_length in E. cbn [length header le16] in E. lia.
    + rewrite E. cbn [app tl]. exists a, []. rewrite app_nil_r. reflexivity.
Qed.

(** ** Out of step for ever *)

Lemma trap_frame : is_frame x35 [x55; x00; x4a; xff; xff] trap.
Proof. replace trap with (frame x35 [x55; x00; x4a; xff; xff]) by (vm_compute; reflexivity). demo. Qed.

Definition too_big (cap : nat) : result packet read_error := Err (RBufferFull (mkBTS (7 + N.to_nat 65023) cap)).

Lemma trap_step : forall cap g more, (N.of_nat cap < 65030)%N -> ~ contains g header ->
  next_event cap (g ++ header ++ trap ++ more) =
    Some (EvError (RBufferFull (mkBTS (7 + N.to_nat 65023) cap)), [x00; x35; x07; x00; x55; x00; x4a] ++ header ++ more).
Proof.
  intros cap g more Hc G.
  exact (next_event_oversized cap g xff 65023 x00 ([x35; x07; x00; x55; x00; x4a] ++ header ++ more) G
           ltac:(reflexivity) ltac:(lia)).
Qed.

Lemma rest_plain : ~ contains [x00; x35; x07; x00; x55; x00; x4a] header.
Proof. apply header_in_false. reflexivity. Qed.

Lemma trapped : forall cap n g rest, 10 <= cap -> (N.of_nat cap < 65030)%N -> ~ contains g header ->
  exists g', ~ contains g' header /\
    ideal_reads cap n (map inl (g ++ header ++ concat (repeat trap n)) ++ rest) =
      (Val (repeat (too_big cap) n), map inl (g' ++ header) ++ rest).
Proof.
  intros cap n. induction n as [|n IH]; intros g rest H10 Hc G.
  - exists g. split; [exact G|]. cbn [repeat concat ideal_reads]. rewrite app_nil_r. reflexivity.
  - destruct (IH _ rest H10 Hc rest_plain) as [g' [G' E]]. exists g'. split; [exact G'|].
    cbn [repeat concat ideal_reads]. rewrite (ideal_event cap _ rest _ _ H10 (trap_step cap g _ Hc G)).
    cbn [ev_out]. rewrite E. reflexivity.
Qed.

Lemma L_C67_never_finds_back : forall s n ds rest, reach s -> 10 <= length (b_rbuf s) ->
  (N.of_nat (length (b_rbuf s)) < 65030)%N -> length ds = n ->
  pending s = map inl (header ++ concat (repeat trap n)) ++ rest ->
  is_frame x35 [x55; x00; x4a; xff; xff] trap /\
  exists g s', reads ds s =
      (Val (repeat (Err (RBufferFull (mkBTS (7 + N.to_nat 65023) (length (b_rbuf s))))) n), s') /\
    pending s' = map inl (g ++ header) ++ rest.
Proof.
  intros s n ds rest R H10 Hc L P. split; [exact trap_frame|].
  destruct (trapped (length (b_rbuf s)) n [] rest H10 Hc no_header_nil) as [g [_ E]].
  cbn [app] in E. rewrite <- P, <- L in E.
  destruct (reads_step ds s _ _ (reach_inv _ R) E) as [s' [E1 [E2 _]]].
  exists g, s'. rewrite L in E1. auto.
Qed.

(** Also if the line is silent after each packet. *)
Lemma trapped_pauses : forall cap e n rest, 10 <= cap -> (N.of_nat cap < 65030)%N ->
  ideal_reads cap (2 * n) (map inl header ++ concat (repeat (map inl trap ++ [inr e]) n) ++ rest) =
    (Val (concat (repeat [too_big cap; Err (RIo e)] n)), map inl header ++ rest).
Proof.
  intros cap e n rest H10 Hc. induction n as [|n IH]; [reflexivity|].
  replace (2 * S n) with (S (S (2 * n))) by lia. cbn [repeat concat ideal_reads].
  set (more := concat (repeat (map inl trap ++ [inr e]) n) ++ rest) in *.
  assert (E1 : map inl header ++ ((map inl trap ++ [inr e]) ++ concat (repeat (map inl trap ++ [inr e]) n)) ++ rest =
               map inl ([] ++ header ++ trap ++ []) ++ inr e :: more).
  { rewrite app_nil_r. cbn [app]. rewrite map_app, <- !app_assoc. reflexivity. }
  rewrite E1, (ideal_event cap _ (inr e :: more) _ _ H10 (trap_step cap [] [] Hc no_header_nil)). cbn [ev_out].
  rewrite app_nil_r.
  assert (E2 : ideal cap (map inl ([x00; x35; x07; x00; x55; x00; x4a] ++ header) ++ inr e :: more) =
               (Val (Err (RIo e)), map inl header ++ more)).
  { unfold ideal. replace (cap <? 10) with false by lia. reflexivity. }
  rewrite E2, IH. reflexivity.
Qed.

Lemma L_C67_never_finds_back_pauses : forall s e n ds rest, reach s -> 10 <= length (b_rbuf s) ->
  (N.of_nat (length (b_rbuf s)) < 65030)%N -> length ds = 2 * n ->
  pending s = map inl header ++ concat (repeat (map inl trap ++ [inr e]) n) ++ rest ->
  exists s', reads ds s =
      (Val (concat (repeat [Err (RBufferFull (mkBTS (7 + N.to_nat 65023) (length (b_rbuf s)))); Err (RIo e)] n)), s') /\
    pending s' = map inl header ++ rest.
Proof.
  intros s e n ds rest R H10 Hc L P.
  pose proof (trapped_pauses (length (b_rbuf s)) e n rest H10 Hc) as E. rewrite <- P, <- L in E.
  destruct (reads_step ds s _ _ (reach_inv _ R) E) as [s' [E1 [E2 _]]]. exists s'. auto.
Qed.

(** *** The full claim *)

Fixpoint has_empty (l : list byte) : bool :=
  match l with
  | [] => false
  | _ :: t =>
      match l with
      | a :: b :: c :: d :: _ :: e :: f :: _ :: _ :: _ =>
          beq a xff && beq b xff && beq c xfd && beq d x00 && beq e x02 && beq f x00
      | _ => false
      end || has_empty t
  end.

Lemma has_empty_no : forall line, has_empty line = false -> no_empty_message line.
Proof.
  intros line H id w [crc [-> _]] [a [b E]]. revert line H E. induction a as [|x a IH]; intros line H E.
  - rewrite E in H. cbn in H. discriminate.
  - destruct line as [|y line]; [discriminate|]. injection E as _ E. cbn [has_empty] in H.
    apply orb_false_iff in H. apply (IH line); [apply H|exact E].
Qed.

Lemma ideal_reads_stuck : forall cap n m p rs p' q, ideal_reads cap n p = (Val rs, p') ->
  ideal cap p' = (Blocked, q) -> fst (ideal_reads cap (n + S m) p) = Blocked.
Proof.
  intros cap n. induction n as [|n IH]; intros m p rs p' q H1 H2.
  - injection H1 as <- <-. cbn [Nat.add ideal_reads]. rewrite H2. reflexivity.
  - cbn [Nat.add ideal_reads] in *. destruct (ideal cap p) as [[r|?|] p1]; try discriminate.
    destruct (ideal_reads cap n p1) as [[rs1|?|] p2] eqn:E; try discriminate. injection H1 as <- <-.
    pose proof (IH m p1 rs1 p2 q E H2) as K. destruct (ideal_reads cap (n + S m) p1) as [[?|?|] ?]; try discriminate.
    reflexivity.
Qed.

Lemma repeat_last : forall A (x y : A) l n, l ++ [y] = repeat x n -> y = x.
Proof.
  intros A x y l n E. assert (K : In y (repeat x n)) by (rewrite <- E; apply in_or_app; right; left; reflexivity).
  symmetry. exact (eq_sym (repeat_spec _ _ _ K)).
Qed.

Lemma L_C67_finds_back_refuted :
  ~ (forall s junk sent1 ws1 x sent2 w ws2 rest, reach s -> 10 <= length (b_rbuf s) ->
     Forall2 (fun x w => is_frame (fst x) (snd x) w /\ snd x <> [] /\ ff_runs_ok (snd x) /\ length w <= length (b_rbuf s))
       (sent1 ++ x :: sent2) (ws1 ++ w :: ws2) -> length sent1 = length ws1 ->
     length (b_rbuf s) <= length (concat ws1) + 4 -> ws1 <> [] ->
     no_empty_message (junk ++ concat (ws1 ++ w :: ws2)) ->
     pending s = map inl (junk ++ concat (ws1 ++ w :: ws2)) ++ rest ->
     exists k, forall ds, length ds = k + S (length sent2) ->
       exists first packets s', reads ds s = (Val (first ++ map Ok packets), s') /\ length first = k /\
         Forall2 (fun p x => packet_is p (fst x) (snd x)) packets (x :: sent2) /\ pending s' = rest).
Proof.
  intro H.
  set (s := fresh true [RdData (header ++ trap ++ trap ++ trap)] 20 20).
  set (x := (x35, [x55; x00; x4a; xff; xff])).
  assert (R : reach s) by (apply fresh_reach; lia).
  assert (P : pending s = map inl (header ++ trap ++ trap ++ trap)) by (vm_compute; reflexivity).
  assert (Fr : is_frame (fst x) (snd x) trap /\ snd x <> [] /\ ff_runs_ok (snd x) /\ length trap <= length (b_rbuf s)).
  { split; [exact trap_frame|]. split; [discriminate|]. split; [demo|vm_compute; lia]. }
  destruct (H s header [x; x] [trap; trap] x [] trap [] []) as [k K].
  - exact R.
  - vm_compute; lia.
  - repeat (constructor; [exact Fr|]). constructor.
  - reflexivity.
  - vm_compute; lia.
  - discriminate.
  - apply has_empty_no. reflexivity.
  - rewrite P, app_nil_r. reflexivity.
  - destruct (K (repeat now (k + 1)) (repeat_length _ _)) as [first [packets [s' [E [Lf [F _]]]]]].
    assert (Pk : exists p, packets = [p]).
    { inversion F as [|p ? ps ? _ F2]; subst. inversion F2; subst. eauto. }
    destruct Pk as [p ->]. cbn [map] in E.
    destruct (reads_ideal _ _ _ _ (reach_inv _ R) E) as [I _]. rewrite repeat_length, P in I.
    change (length (b_rbuf s)) with 20 in I.
    destruct (Nat.le_gt_cases (k + 1) 3) as [L|L].
    + destruct (trapped 20 (k + 1) [] (map inl (concat (repeat trap (3 - (k + 1))))) ltac:(lia) ltac:(reflexivity) no_header_nil)
        as [g [_ T]].
      cbn [app] in T. rewrite <- map_app, <- app_assoc, <- concat_app, <- repeat_app in T.
      replace (k + 1 + (3 - (k + 1))) with 3 in T by lia. cbn [repeat concat] in T. rewrite app_nil_r in T.
      rewrite T in I. injection I as I _. apply repeat_last in I. discriminate I.
    + destruct (trapped 20 3 [] [] ltac:(lia) ltac:(reflexivity) no_header_nil) as [g [G T]].
      cbn [app repeat concat] in T. rewrite !app_nil_r in T.
      assert (St : ideal 20 (map inl (g ++ header)) = (Blocked, map inl header)).
      { rewrite <- (app_nil_r (map inl (g ++ header))), <- ideal_clean by lia.
        replace (g ++ header) with (g ++ header ++ []) by (rewrite app_nil_r; reflexivity).
        rewrite clean_garbage by exact G. reflexivity. }
      pose proof (ideal_reads_stuck 20 3 (k - 3) _ _ _ _ T St) as B.
      replace (3 + S (k - 3)) with (k + 1) in B by lia. rewrite <- I in B. discriminate B.
Qed.
