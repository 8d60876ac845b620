(** * SizeTheorems: the sizes named by buffer errors *)
From Coq Require Import ZArith ZifyN ZifyNat ZifyBool.
From Verif Require Import Base Endian Error Checksum Bytestuff Packet Time Bus Data Client
  Instructions Device Api Spec CallSpec StreamSpec Lib Demo DemoProofs StuffProofs WriteProofs ReadProofs ApiProofs
  StreamProofs MessageProofs SendProofs SendTheorems ReadTheorems.
Ltac Zify.zify_post_hook ::= Z.div_mod_to_equations.

(** ** Writing *)

Lemma L_C63_actual_size_refuted :
  ~ (forall s m id i params e s', reach s -> sends m id i params ->
     m s = (Val (Err (WBufferTooSmall e)), s') -> total_size e = length (b_wbuf s)).
Proof.
  intro H. set (params := [xff; xff; xfd; xff; xff; xfd; xff; xff; xfd]).
  specialize (H (fresh true [] 32 19) (write_instruction x01 WRITE 9 (fill params)) x01 WRITE params
    (mkBTS 13 12)).
  assert (E : exists s', write_instruction x01 WRITE 9 (fill params) (fresh true [] 32 19) =
                (Val (Err (WBufferTooSmall (mkBTS 13 12))), s')) by (eexists; vm_compute; reflexivity).
  destruct E as [s' E].
  specialize (H s' (fresh_reach true [] 32 19 ltac:(lia)) (sends_instruction x01 WRITE params _ (fill_writes params)) E).
  vm_compute in H. discriminate.
Qed.

Lemma L_C63_needed_size_refuted :
  ~ (forall s m id i params e s', reach s -> sends m id i params ->
     m s = (Val (Err (WBufferTooSmall e)), s') ->
     forall t, reach t -> length (b_wbuf t) = required_size e ->
     exists r t', m t = (Val r, t') /\ not_too_small r).
Proof.
  intro H. set (params := [xff; xff; xfd]).
  specialize (H (fresh true [] 32 12) (write_instruction x01 WRITE 3 (fill params)) x01 WRITE params
    (mkBTS 13 12)).
  assert (E : exists s', write_instruction x01 WRITE 3 (fill params) (fresh true [] 32 12) =
                (Val (Err (WBufferTooSmall (mkBTS 13 12))), s')) by (eexists; vm_compute; reflexivity).
  destruct E as [s' E].
  specialize (H s' (fresh_reach true [] 32 12 ltac:(lia)) (sends_instruction x01 WRITE params _ (fill_writes params)) E).
  destruct (H (fresh true [] 32 13) (fresh_reach true [] 32 13 ltac:(lia)) eq_refl) as [r [t' [K _]]].
  vm_compute in K. discriminate.
Qed.

Lemma sizes_exact : forall s m id i params e s', inv s -> sends m id i params ->
  m s = (Val (Err (WBufferTooSmall e)), s') ->
  e = if length (b_wbuf s) <? length params + 10 then mkBTS (length params + 10) (length (b_wbuf s))
      else mkBTS (length (i :: params) + fcount 0 (i :: params)) (length (b_wbuf s) - 7).
Proof.
  intros s m id i params e s' Hi S E.
  destruct (N.lt_ge_cases usize_max (N.of_nat (length params + 10))) as [O|O].
  { rewrite (sends_overflow _ _ _ _ _ S Hi O) in E. discriminate. }
  rewrite (sends_value _ _ _ _ _ S Hi O) in E. unfold write_value in E. cbv zeta in E.
  destruct (length (b_wbuf s) <? length params + 10); [congruence|].
  unfold build_result in E. cbv zeta in E.
  destruct (length (b_wbuf s) <? 7 + length (i :: params) + fcount 0 (i :: params)); [congruence|].
  destruct (_ && _); [discriminate|]. destruct (_ <? _); [discriminate|].
  unfold transmit in E. destruct (hd None (p_discards _)); [discriminate|].
  exfalso. revert E. cbv beta iota zeta. destruct (hd None (p_writes _)); discriminate.
Qed.

Lemma L_C63_write_sizes_exact : forall s m id i params e s', reach s -> sends m id i params ->
  m s = (Val (Err (WBufferTooSmall e)), s') ->
  e = if length (b_wbuf s) <? length params + 10 then mkBTS (length params + 10) (length (b_wbuf s))
      else mkBTS (length (i :: params) + noticed_from 0 (i :: params)) (length (b_wbuf s) - 7).
Proof.
  intros s m id i params e s' R S E. rewrite (noticed_fcount _ 0).
  exact (sizes_exact s m id i params e s' (reach_inv _ R) S E).
Qed.

Lemma L_C63_write_sizes_partial : forall s m id i params e s', reach s -> sends m id i params ->
  m s = (Val (Err (WBufferTooSmall e)), s') -> noticed_from 0 (i :: params) = 0 ->
  total_size e = length (b_wbuf s) /\ total_size e < required_size e /\
  forall t, reach t -> required_size e <= length (b_wbuf t) -> (N.of_nat (length params + 3) < 2 ^ 16)%N ->
    exists r t', m t = (Val r, t') /\ not_too_small r.
Proof.
  intros s m id i params e s' R S E Z.
  pose proof (sizes_exact s m id i params e s' (reach_inv _ R) S E) as K.
  rewrite (noticed_fcount _ 0) in Z. change (0 mod 3) with 0 in Z. rewrite Z in K. cbn [length] in K.
  pose proof (sends_effect _ _ _ _ _ S (reach_inv _ R)) as X. rewrite E in X.
  assert (Q : length (b_wbuf s) < length params + 10).
  { inversion X; subst; try (destruct (hd None (p_writes (b_port s))); discriminate); rewrite ?Z in *; lia. }
  replace (length (b_wbuf s) <? length params + 10) with true in K by lia. subst e.
  cbn [total_size required_size]. split; [reflexivity|]. split; [exact Q|]. intros t Rt Lt Ln.
  apply (sends_not_too_small m id i params t Rt S).
  - rewrite usize_max_val. change (2 ^ 16)%N with 65536%N in Ln. lia.
  - rewrite code_stuff_length. cbn [length]. lia.
  - lia.
Qed.

(** ** Reading *)

Lemma ideal_full_inv : forall cap p e p', ideal cap p = (Val (Err (RBufferFull e)), p') ->
  total_size e = cap /\ cap < required_size e /\
  (cap < 10 /\ required_size e = 10 \/
   10 <= cap /\ exists g id n x, ~ contains g header /\ (n < 2 ^ 16)%N /\ required_size e = 7 + N.to_nat n /\
     exists r, upto p = g ++ header ++ [id] ++ le16 n ++ x :: r).
Proof.
  intros cap p e p' E. unfold ideal in E. destruct (cap <? 10) eqn:L.
  { assert (e = mkBTS 10 cap) as -> by congruence. cbn [total_size required_size].
    split; [reflexivity|]. split; [lia|]. left. lia. }
  destruct (next_event cap (upto p)) as [[ev r]|] eqn:N.
  2:{ exfalso. destruct (from_err p) as [|[b|e'] q]; discriminate E. }
  pose proof (next_event_front cap (upto p)) as F. rewrite N in F.
  remember (Some (ev, r)) as oe eqn:Eo.
  destruct F as [|id n x r' Ec Hn Hc|id n r' Ec Hn Hc Hl|id body crc r' Ec Hcrc Hb Hc|id n r' crc comp Hn Ec Hr Hc Hne];
    try discriminate Eo; injection Eo as <- <-; try discriminate E.
  - cbn [ev_out] in E. assert (e = mkBTS (7 + N.to_nat n) cap) as -> by (injection E as <- _; reflexivity).
    cbn [total_size required_size]. split; [reflexivity|]. split; [lia|]. right. split; [lia|].
    assert (Hm : msg_head id n ++ x :: r' = header ++ [id] ++ le16 n ++ x :: r').
    { unfold msg_head. rewrite <- !app_assoc. reflexivity. }
    rewrite Hm in Ec. apply clean_eq_garbage in Ec. destruct Ec as [g [G U]].
    exists g, id, n, x. split; [exact G|]. split; [exact Hn|]. split; [reflexivity|]. exists r'. exact U.
  - exfalso. unfold message_event in E. cbv zeta in E.
    destruct (_ =? _)%N; [destruct (unst 0 body)|]; discriminate E.
Qed.

Lemma L_C63_read_sizes : forall s d e s', reach s ->
  read_packet_deadline d s = (Val (Err (RBufferFull e)), s') ->
  total_size e = length (b_rbuf s) /\ total_size e < required_size e /\
  (length (b_rbuf s) < 10 /\ required_size e = 10 \/
   10 <= length (b_rbuf s) /\ exists g id n x rest, ~ contains g header /\ (n < 2 ^ 16)%N /\
     pending s = map inl (g ++ header ++ [id] ++ le16 n ++ [x]) ++ rest /\ required_size e = 7 + N.to_nat n).
Proof.
  intros s d e s' R E. pose proof (read_ideal _ _ _ _ (proj1 (reach_inv _ R)) E) as K. symmetry in K.
  destruct (ideal_full_inv _ _ _ _ K) as [A [B C]]. split; [exact A|]. split; [lia|].
  destruct C as [C|[C [g [id [n [x [G [Hn [Q [r U]]]]]]]]]]; [left; exact C|right].
  split; [exact C|]. exists g, id, n, x, (map inl r ++ from_err (pending s)).
  split; [exact G|]. split; [exact Hn|]. split; [|exact Q].
  rewrite (upto_split (pending s)) at 1. rewrite U.
  replace (g ++ header ++ [id] ++ le16 n ++ x :: r) with ((g ++ header ++ [id] ++ le16 n ++ [x]) ++ r)
    by (rewrite <- !app_assoc; reflexivity).
  rewrite map_app, <- app_assoc. reflexivity.
Qed.

Lemma L_C63_needed_size_suffices : forall s d e s' t d' e' t', reach s -> reach t ->
  10 <= length (b_rbuf s) -> read_packet_deadline d s = (Val (Err (RBufferFull e)), s') ->
  pending t = pending s -> required_size e <= length (b_rbuf t) ->
  read_packet_deadline d' t <> (Val (Err (RBufferFull e')), t').
Proof.
  intros s d e s' t d' e' t' R Rt L E P H E'.
  pose proof (read_ideal _ _ _ _ (proj1 (reach_inv _ R)) E) as K. symmetry in K.
  pose proof (read_ideal _ _ _ _ (proj1 (reach_inv _ Rt)) E') as K'. symmetry in K'. rewrite P in K'.
  destruct (ideal_full_inv _ _ _ _ K) as [A [B [C|[_ [g [id [n [x [G [Hn [Q [r U]]]]]]]]]]]]; [lia|].
  destruct (ideal_full_inv _ _ _ _ K') as [A' [B' [C'|[_ [g' [id' [n' [x' [G' [Hn' [Q' [r' U']]]]]]]]]]]]; [lia|].
  assert (X : clean (upto (pending s)) = header ++ [id] ++ le16 n ++ x :: r) by (apply clean_eq_garbage; eauto).
  assert (X' : clean (upto (pending s)) = header ++ [id'] ++ le16 n' ++ x' :: r') by (apply clean_eq_garbage; eauto).
  rewrite X in X'. unfold header, le16 in X'. cbn [app] in X'. injection X' as _ E1 E2 _ _.
  assert (n' = n).
  { apply (f_equal b2n) in E1, E2. rewrite !b2n_n2b in E1, E2.
    change (2 ^ 16)%N with 65536%N in *. lia. }
  subst n'. lia.
Qed.
