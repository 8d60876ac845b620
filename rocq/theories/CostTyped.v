(** * CostTyped: the bytes saved by the typed calls (C89) *)
From Coq Require Import ZArith ZifyN ZifyNat ZifyBool.
From Verif Require Import Base Endian Error Checksum Bytestuff Packet Time Bus Data Client
  Instructions Device Api Spec CallSpec StreamSpec DataSpec InstructionSpec TypedSpec CostSpec TypedTheorems CostTheorems.

(** Calls that leave the same state in every reachable state cost the same. *)
Lemma costs_same : forall A B (m : M A) (m' : M B) k, (forall s, reach s -> snd (m' s) = snd (m s)) -> costs m k -> costs m' k.
Proof.
  intros A B m m' k H [P [s [o [s' [evs [R [E [C W]]]]]]]]. split; [exact P|]. specialize (H s R). rewrite E in H. cbn [snd] in H.
  destruct (m' s) as [o' t] eqn:E'. cbn [snd] in H. subst t. exists s, o', s', evs. auto.
Qed.

Lemma read_same : forall A (D : data_impl A) id a s, snd (read D id a s) = snd (read_bytes id a (N.of_nat (d_size D)) s).
Proof.
  intros A D id a s. destruct (read_bytes id a (N.of_nat (d_size D)) s) as [o s'] eqn:E.
  rewrite (L_C73_read _ _ _ _ _ _ _ E). reflexivity.
Qed.

Lemma sync_read_same : forall A (D : data_impl A) ids a s,
  snd (sync_read D ids a s) = snd (sync_read_bytes ids a (N.of_nat (d_size D)) s).
Proof.
  intros A D ids a s. destruct (sync_read_bytes ids a (N.of_nat (d_size D)) s) as [o s'] eqn:E.
  pose proof (L_C73_sync_read _ D _ _ _ _ _ E) as K. destruct o as [[it|e]|p|].
  - destruct K as [it' [K _]]. rewrite K. reflexivity.
  - rewrite K. reflexivity.
  - rewrite K. reflexivity.
  - rewrite K. reflexivity.
Qed.

Lemma L_C89_typed_sync_read : forall A (D : data_impl A) a ids k ks, ordinary a -> is_u16 (N.of_nat (d_size D)) ->
  Forall motor_id ids -> costs (sync_read D ids a) k -> Forall2 (fun id => costs (read D id a)) ids ks ->
  k + 13 * length ids = list_sum ks + 14.
Proof.
  intros A D a ids k ks Ha Hn Hi Hk Hs. apply (L_C89_sync_read a (N.of_nat (d_size D)) ids k ks Ha Hn Hi).
  - revert Hk. apply costs_same. intros s _. symmetry. apply sync_read_same.
  - clear Hk Hi. induction Hs as [|x y l ks Hx Hs IH]; constructor; [|exact IH].
    revert Hx. apply costs_same. intros s _. symmetry. apply read_same.
Qed.

Lemma L_C89_typed_sync_write_one_byte : forall A (D : data_impl A) a l k ks, ordinary a -> data_ok D -> d_size D = 1 ->
  Forall (fun x => motor_id (sw_id x) /\ exists b, encodes_as D (sw_data x) [b]) l ->
  costs (sync_write D a l) k -> Forall2 (fun x => costs (write D (sw_id x) a (sw_data x))) l ks ->
  k + 11 * length l = list_sum ks + 14.
Proof.
  intros A D a l k ks Ha HD H1 Hl Hk Hs.
  assert (X : exists l', Forall2 (fun c c' => sw_id c = sw_id c' /\ encodes_as D (sw_data c) (sw_data c')) l l' /\
    Forall (fun x => motor_id (sw_id x) /\ length (sw_data x) = N.to_nat 1) l').
  { clear Hk Hs. induction Hl as [|x l [Hi [b Hb]] Hl [l' [F1 F2]]]; [exists []; split; constructor|].
    exists (mkSync (sw_id x) [b] :: l'). split; constructor; auto. }
  destruct X as [l' [F1 F2]]. assert (El : length l = length l') by (clear - F1; induction F1; cbn [length]; congruence). rewrite El. apply (L_C89_sync_write a 1 l' k ks Ha eq_refl F2).
  - revert Hk. apply costs_same. intros s R. rewrite (L_C73_sync_write_one_byte_partial A D a l l' s R HD H1 F1). reflexivity.
  - clear Hk Hl F2 El. revert ks Hs. induction F1 as [|c c' l l' [Ei Ee] F1 IH]; intros ks Hs; inversion Hs as [|x y l0 ks0 Hx Hs0]; subst; constructor; [|apply IH, Hs0].
    revert Hx. apply costs_same. intros s R. rewrite (L_C73_write A D (sw_id c) a (sw_data c) (sw_data c') s R HD Ee), Ei. reflexivity.
Qed.
