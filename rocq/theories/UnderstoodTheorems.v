(** * UnderstoodTheorems: what the client sends, as a device sees it *)
From Coq Require Import ZArith ZifyN ZifyNat ZifyBool.
From Verif Require Import Base Endian Error Checksum Bytestuff Packet Time Bus Data Client
  Instructions Device Api Spec CallSpec StreamSpec DeviceSpec InstructionSpec Demo Lib ChecksumProofs
  CrcErrorProofs StuffProofs WriteProofs ReadProofs ApiProofs StreamProofs MessageProofs SendProofs
  SendTheorems ReadTheorems StatusProofs DeviceTheorems InstructionProofs DemoProofs TransferTheorems.

Lemma request_means : forall B E (m : M (result B E)) id i params ins, request m id i params ins ->
  means i params ins /\ follows_rule i (length params) /\ i <> STATUS.
Proof.
  intros B E m id i params ins H.
  destruct H; (split; [|split; [|discriminate]]);
    try (constructor; assumption); try (constructor; fail);
    try exact I; try (unfold follows_rule; cbn [parameter_rule le16 app length]; lia).
  - destruct k; apply m_factory_reset.
  - destruct k; apply m_factory_reset.
Qed.

(** A device that receives exactly the bytes [code_wire id (i :: params)]. *)
Lemma device_code_wire : forall c t line g id i params rest ins, reach c ->
  skips (length (b_rbuf c)) (pending c) line -> ~ contains g header ->
  (N.of_nat (length (code_wire id (i :: params)) - 7) < 2 ^ 16)%N ->
  length (code_wire id (i :: params)) <= length (b_rbuf c) -> comes_back (i :: params) ->
  line = map inl (g ++ code_wire id (i :: params)) ++ rest ->
  means i params ins -> follows_rule i (length params) -> i <> STATUS ->
  exists c', device_read t c = (Val (Ok (mkInstruction id ins)), c') /\ pending c' = rest.
Proof.
  intros c t line g id i params rest ins R Sk G Lw Lc F -> M Fr Hi.
  destruct (device_read t c) as [o c'] eqn:E.
  destruct (device_read_spec _ _ _ _ (reach_inv _ R) E) as [o1 [K1 [K2 [K3 K4]]]].
  destruct (ideal_code_wire _ g id i params rest G Lw Lc) as [p [E1 Q]].
  rewrite unst_code_stuff in Q by exact F.
  assert (L : 10 <= length (b_rbuf c)) by (apply ideal_ok_inv in E1; apply E1).
  pose proof (listens_skips _ _ _ L Sk _ _ (li_packet _ _ p i rest E1 (packet_instruction _ _ _ _ Q) Hi)) as K.
  destruct (listens_fun _ _ _ _ K1 _ _ K) as [-> P]. exists c'. split; [|exact P]. subst o.
  destruct (L_C44_malformed_rejected _ _ _ _ Q) as [A _]. destruct (A Fr) as [ins' [E2 M']].
  rewrite E2. cbn [obind map_err]. rewrite (L_C44_meaning_is_unique _ _ _ _ M M'). reflexivity.
Qed.

Lemma L_C43_understood_partial : forall B E (m : M (result B E)) id i params ins s o s' evs w r c t line g rest,
  request m id i params ins -> reach s -> m s = (o, s') -> calls s s' evs -> In (LWrite w r) evs ->
  comes_back (i :: params) -> (N.of_nat (length w - 7) < 2 ^ 16)%N ->
  reach c -> skips (length (b_rbuf c)) (pending c) line -> ~ contains g header -> length w <= length (b_rbuf c) ->
  line = map inl (g ++ w) ++ rest ->
  exists c', device_read t c = (Val (Ok (mkInstruction id ins)), c') /\ pending c' = rest.
Proof.
  intros B E m id i params ins s o s' evs w r c t line g rest Rq R Eq C In_w F Lw Rc Sk G Lc P.
  destruct (request_means _ _ _ _ _ _ _ Rq) as [M [Fr Hi]].
  destruct (request_transmits _ _ _ _ _ _ _ Rq s o s' R Eq) as [evs' [C' [S _]]].
  pose proof (calls_inj _ _ _ _ C C') as K. subst evs'.
  assert (w = code_wire id (i :: params)) as ->.
  { destruct S as [[r' [e' [-> Fo]]]|[[->|[e ->]] _]]; cbn [In] in In_w.
    - destruct In_w as [K|[K|K]]; [discriminate|congruence|]. rewrite Forall_forall in Fo. destruct (Fo _ K).
    - contradiction.
    - destruct In_w as [K|[]]. discriminate. }
  exact (device_code_wire c t line g id i params rest ins Rc Sk G Lw Lc F P M Fr Hi).
Qed.

(** With data on which the code's stuffing goes wrong the device gets something else. *)
Lemma L_C43_understood_refuted : ~ (forall B E (m : M (result B E)) id i params ins s o s' evs w r c t line g rest,
  request m id i params ins -> reach s -> m s = (o, s') -> calls s s' evs -> In (LWrite w r) evs ->
  (N.of_nat (length w - 7) < 2 ^ 16)%N ->
  reach c -> skips (length (b_rbuf c)) (pending c) line -> ~ contains g header -> length w <= length (b_rbuf c) ->
  line = map inl (g ++ w) ++ rest ->
  exists c', device_read t c = (Val (Ok (mkInstruction id ins)), c') /\ pending c' = rest).
Proof.
  intro H. set (d := [xff; xff; xfd; x00; xff; xff; xff; xfd]). set (s := fresh true [] 32 32).
  set (w := code_wire xfe (x03 :: le16 0 ++ d)).
  assert (E : exists s', write_bytes xfe 0 d s = (Val (Ok (mkResponse xfe false tt)), s') /\
                calls s s' [LDiscard None; LWrite w None]).
  { eexists. split; vm_compute; reflexivity. }
  destruct E as [s' [E C]].
  pose proof (fresh_reach true [] 32 32 ltac:(lia)) as R.
  destruct (H _ _ _ _ _ _ _ _ _ _ _ w None (fresh true [RdData w] 32 32) dur_34ms (map inl ([] ++ w) ++ []) [] []
     (rq_write_bytes xfe 0 d eq_refl) R E C) as [c' [K _]].
  - right. left. reflexivity.
  - vm_compute. reflexivity.
  - apply fresh_reach. lia.
  - apply skip_none.
  - apply no_header_nil.
  - vm_compute. lia.
  - reflexivity.
  - apply (f_equal fst) in K. vm_compute in K. discriminate K.
Qed.

(** *** Clearing the error state *)

Lemma L_C43_clear_error_refuted : ~ (forall id s o s' evs w r c t line g rest,
  reach s -> clear_error id s = (o, s') -> calls s s' evs -> In (LWrite w r) evs ->
  reach c -> skips (length (b_rbuf c)) (pending c) line -> ~ contains g header -> length w <= length (b_rbuf c) ->
  line = map inl (g ++ w) ++ rest ->
  exists c', device_read t c = (Val (Ok (mkInstruction id (IClear ClearErrors))), c') /\ pending c' = rest).
Proof.
  intro H. set (s := fresh true [] 32 32).
  set (w := code_wire xfe [x10; x01; x45; x52; x43; x4c]).
  assert (E : exists s', clear_error xfe s = (Val (Ok (mkResponse xfe false tt)), s') /\
                calls s s' [LDiscard None; LWrite w None]).
  { eexists. split; vm_compute; reflexivity. }
  destruct E as [s' [E C]].
  pose proof (fresh_reach true [] 32 32 ltac:(lia)) as R.
  destruct (H _ _ _ _ _ w None (fresh true [RdData w] 32 32) dur_34ms (map inl ([] ++ w) ++ []) [] [] R E C) as [c' [K _]].
  - right. left. reflexivity.
  - apply fresh_reach. lia.
  - apply skip_none.
  - apply no_header_nil.
  - vm_compute. lia.
  - reflexivity.
  - apply (f_equal fst) in K. vm_compute in K. discriminate K.
Qed.

(** A device takes it for an instruction to clear the revolution counter. *)
Lemma L_C43_clear_error_misread : forall id s o s' evs w r c t line g rest,
  reach s -> clear_error id s = (o, s') -> calls s s' evs -> In (LWrite w r) evs ->
  reach c -> skips (length (b_rbuf c)) (pending c) line -> ~ contains g header -> length w <= length (b_rbuf c) ->
  line = map inl (g ++ w) ++ rest ->
  exists c', device_read t c = (Val (Ok (mkInstruction id (IClear ClearMultiTurns))), c') /\ pending c' = rest.
Proof.
  intros id s o s' evs w r c t line g rest R Eq C In_w Rc Sk G Lc P.
  destruct (transmits_instruct id x10 _ 5 _ clear_error_writes eq_refl s o s' R Eq) as [evs' [C' [S _]]].
  pose proof (calls_inj _ _ _ _ C C') as K. subst evs'.
  assert (w = code_wire id [x10; x01; x45; x52; x43; x4c]) as ->.
  { destruct S as [[r' [e' [-> Fo]]]|[[->|[e ->]] _]]; cbn [In] in In_w.
    - destruct In_w as [K|[K|K]]; [discriminate|congruence|]. rewrite Forall_forall in Fo. destruct (Fo _ K).
    - contradiction.
    - destruct In_w as [K|[]]. discriminate. }
  apply (device_code_wire c t line g id x10 [x01; x45; x52; x43; x4c] rest); auto.
  - rewrite code_wire_length. vm_compute. reflexivity.
  - exact I.
  - apply (m_clear x01).
  - unfold follows_rule. cbn. lia.
  - discriminate.
Qed.
