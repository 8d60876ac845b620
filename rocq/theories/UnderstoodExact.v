(** * UnderstoodExact: exactly which requests a device understands *)
From Coq Require Import ZArith ZifyN ZifyNat ZifyBool.
From Verif Require Import Base Endian Error Checksum Bytestuff Packet Time Bus Data Client
  Instructions Device Api Spec CallSpec StreamSpec DeviceSpec InstructionSpec Lib
  StuffProofs WriteProofs ReadProofs ApiProofs StreamProofs MessageProofs SendProofs
  SendTheorems ReadTheorems StatusProofs DeviceTheorems InstructionProofs TransferTheorems UnderstoodTheorems.

Lemma factory_reset_injective : forall a b, factory_reset_of a = factory_reset_of b -> a = b.
Proof.
  assert (K : forall a, match factory_reset_of a with FRAll => xff | FRExceptId => x01 | FRExceptIdBaudRate => x02 | FRUnknown p => p end = a).
  { intro a. destruct a; reflexivity. }
  intros a b H. rewrite <- (K a), <- (K b), H. reflexivity.
Qed.

Lemma means_injective : forall i ps ps' ins, means i ps ins -> means i ps' ins ->
  ~ In i [x01; x05; x08; x10] -> ps = ps'.
Proof.
  intros i ps ps' ins M. destruct M; intros M' N; inversion M'; subst; try reflexivity; try (exfalso; apply N; cbn; tauto).
  match goal with H : factory_reset_of ?a = _ |- _ => apply factory_reset_injective in H; subst; reflexivity end.
Qed.

Lemma request_plain : forall B E (m : M (result B E)) id i params ins, request m id i params ins ->
  ~ In i [x01; x05; x08; x10] \/ comes_back (i :: params).
Proof.
  intros B E m id i params ins H. destruct H; try (left; cbn; intuition discriminate); right; exact I.
Qed.

Lemma L_C43_understood_exactly : forall B E (m : M (result B E)) id i params ins s o s' evs w r c t line g rest,
  request m id i params ins -> reach s -> m s = (o, s') -> calls s s' evs -> In (LWrite w r) evs ->
  (N.of_nat (length w - 7) < 2 ^ 16)%N ->
  reach c -> skips (length (b_rbuf c)) (pending c) line -> ~ contains g header -> length w <= length (b_rbuf c) ->
  line = map inl (g ++ w) ++ rest ->
  exists x c', device_read t c = (Val x, c') /\ pending c' = rest /\
    (x = Ok (mkInstruction id ins) <-> comes_back (i :: params)).
Proof.
  intros B E m id i params ins s o s' evs w r c t line g rest Rq R Eq C In_w Lw Rc Sk G Lc P.
  destruct (request_means _ _ _ _ _ _ _ Rq) as [M [Fr Hi]].
  destruct (request_transmits _ _ _ _ _ _ _ Rq s o s' R Eq) as [evs' [C' [S _]]].
  pose proof (calls_inj _ _ _ _ C C') as K. subst evs'.
  assert (w = code_wire id (i :: params)) as ->.
  { destruct S as [[r' [e' [-> Fo]]]|[[->|[e ->]] _]]; cbn [In] in In_w.
    - destruct In_w as [K|[K|K]]; [discriminate|congruence|]. rewrite Forall_forall in Fo. destruct (Fo _ K).
    - contradiction.
    - destruct In_w as [K|[]]. discriminate. }
  clear S C C' Eq R In_w. subst line.
  destruct (device_read t c) as [x c'] eqn:Er.
  destruct (device_read_spec _ _ _ _ (reach_inv _ Rc) Er) as [o1 [K1 [_ [_ K4]]]].
  destruct (ideal_code_wire _ g id i params rest G Lw Lc) as [p [E1 Q]].
  assert (Hd : exists ps, unst 0 (code_stuff (i :: params)) = i :: ps) by (eexists; reflexivity).
  destruct Hd as [ps Hd]. pose proof (unst_code_stuff_iff (i :: params)) as U. rewrite Hd in Q, U.
  assert (L : 10 <= length (b_rbuf c)) by (apply ideal_ok_inv in E1; apply E1).
  pose proof (listens_skips _ _ _ L Sk _ _ (li_packet _ _ p i rest E1 (packet_instruction _ _ _ _ Q) Hi)) as K.
  destruct (listens_fun _ _ _ _ K1 _ _ K) as [-> P].
  destruct (L_C44_malformed_rejected _ _ _ _ Q) as [A1 A2].
  assert (D : follows_rule i (length ps) \/ ~ follows_rule i (length ps)).
  { unfold follows_rule. destruct (parameter_rule i) as [[n|n|n]|]; [| | |left; exact I];
      match goal with |- ?a = ?b \/ _ => destruct (Nat.eq_dec a b) | |- ?a <= ?b \/ _ => destruct (le_dec a b) end; auto. }
  destruct D as [D|D].
  - destruct (A1 D) as [ins' [F M']]. rewrite F in K4. cbn [obind map_err] in K4. subst x.
    eexists. exists c'. split; [reflexivity|]. split; [exact P|]. rewrite <- U. split; intro Z.
    + injection Z as ->. destruct (request_plain _ _ _ _ _ _ _ Rq) as [N|N].
      * f_equal. symmetry. exact (means_injective _ _ _ _ M M' N).
      * apply U in N. exact N.
    + injection Z as ->. f_equal. f_equal. exact (L_C44_meaning_is_unique _ _ _ _ M' M).
  - destruct (A2 D) as [e [_ F]]. rewrite F in K4. cbn [obind map_err] in K4. subst x.
    eexists. exists c'. split; [reflexivity|]. split; [exact P|]. rewrite <- U. split; intro Z; [discriminate Z|].
    injection Z as ->. contradiction.
Qed.
