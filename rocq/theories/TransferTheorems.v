(** * TransferTheorems: requests and their responses *)
From Coq Require Import ZArith ZifyN ZifyNat ZifyBool.
From Verif Require Import Base Endian Error Checksum Bytestuff Packet Time Bus Data Client
  Instructions Device Api Spec CallSpec StreamSpec DeviceSpec InstructionSpec Demo Lib ChecksumProofs
  CrcErrorProofs StuffProofs WriteProofs ReadProofs ApiProofs StreamProofs MessageProofs SendProofs
  SendTheorems ReadTheorems StatusProofs DeviceTheorems InstructionProofs DemoProofs.

(** ** The write half *)

Lemma write_as_fill : forall s id i n enc s1, inv s -> encoder_ok enc ->
  write_instruction id i n enc s = (Val (Ok tt), s1) ->
  exists params, length params = n /\ write_instruction id i (length params) (fill params) s = (Val (Ok tt), s1).
Proof.
  intros s id i n enc s1 [H1 H2] He E. unfold write_instruction in *. rewrite write_packet_gen in E by assumption.
  unfold write_gen in E. cbv zeta in E.
  destruct (usize_max <? N.of_nat (n + 10))%N eqn:U; [discriminate|].
  destruct (length (b_wbuf s) <? n + 10) eqn:L; [discriminate|].
  destruct (enc (firstn n (skipn 8 (b_wbuf s)))) as [[params [u|e]]|p|] eqn:En; try discriminate.
  apply He in En. rewrite firstn_length, skipn_length in En.
  exists params. assert (length params = n) by lia. split; [assumption|].
  rewrite write_packet_value; [exact E|exact H2|lia|apply writes_encodes, fill_writes].
Qed.

Record written (s s1 : bus) : Prop := mkWritten {
  wr_pending : pending s1 = incoming s;
  wr_incoming : incoming s1 = incoming s;
  wr_rcap : length (b_rbuf s1) = length (b_rbuf s);
  wr_baud : b_baud s1 = b_baud s;
  wr_dbg : b_dbg s1 = b_dbg s;
  wr_reach : reach s1;
}.

Lemma write_ok_state : forall s id i n enc s1, reach s -> encoder_ok enc ->
  write_instruction id i n enc s = (Val (Ok tt), s1) -> written s s1.
Proof.
  intros s id i n enc s1 R He E.
  assert (R1 : reach s1) by (eapply reach_call; [exact R|apply (api_write_instruction id i n enc He)|exact E]).
  destruct (write_as_fill _ _ _ _ _ _ (reach_inv _ R) He E) as [params [L E2]].
  pose proof (sends_effect _ id i params s (sends_instruction id i params _ (fill_writes params)) (reach_inv _ R)) as X.
  rewrite E2 in X. remember (Val (Ok tt), s1) as os eqn:Eo. destruct X; try discriminate Eo.
  injection Eo as _ <-. constructor; try reflexivity. exact R1.
Qed.

Lemma write_succeeds : forall s id i n enc params, reach s -> writes_parameters enc params -> n = length params ->
  plenty_of_room s n -> port_ready s ->
  exists s1, write_instruction id i n enc s = (Val (Ok tt), s1) /\ written s s1.
Proof.
  intros s id i n enc params R Hw -> P [D W].
  destruct (write_instruction id i (length params) enc s) as [o s1] eqn:E.
  assert (o = Val (Ok tt)) as ->.
  { pose proof (sends_effect _ id i params s (sends_instruction id i params _ Hw) (reach_inv _ R)) as X.
    rewrite E in X. pose proof (room_fcount s i params P) as [F1 F2].
    remember (o, s1) as os eqn:Eo.
    destruct X as [X|e w' X1 X2 X3|p X1 X2 X3|e w' X1 X2 X3 X4|w' X1 X2 X3 X4 X5]; injection Eo as <- <-.
    - exfalso. destruct P as [_ P]. rewrite usize_max_val in X. change (2 ^ 16)%N with 65536%N in P. lia.
    - exfalso. lia.
    - exfalso. destruct X3 as [[_ [_ X3]]|[_ X3]]; [|lia].
      rewrite N.mod_small in X3; [lia|]. change (2 ^ 16)%N with 65536%N in *. lia.
    - congruence.
    - rewrite W. reflexivity. }
  exists s1. split; [reflexivity|]. apply (write_ok_state _ _ _ _ _ _ R (proj1 Hw) E).
Qed.

(** ** The read half *)

Lemma land127 : forall e, N.land (b2n e) 127 = 0%N <-> no_error e.
Proof. intro e. unfold no_error. change 127%N with (N.ones 7). rewrite N.land_ones. reflexivity. Qed.

Lemma status_read_ok : forall n s p s', reach s -> read_status_response n s = (Val (Ok p), s') ->
  exists id e ps, carries (pending s) id (STATUS :: e :: ps) (pending s') /\ no_error e /\
    packet_is p id (STATUS :: e :: ps).
Proof.
  intros n s p s' R E. destruct (read_status_spec n s _ s' (reach_inv _ R) E)
    as [[x [_ [K _]]]|[t [o1 [_ [I [K _]]]]]]; [discriminate|].
  destruct o1 as [[pk|er]|x|]; try discriminate. cbn [status_of] in K.
  destruct (ideal_ok_packet _ _ _ _ I) as [id [body [Hb [Ca P]]]].
  symmetry in K. destruct (status_check_ok_inv _ _ _ _ P Hb K) as [-> [e [ps [-> Hz]]]].
  exists id, e, ps. split; [exact Ca|]. split; [apply land127, Hz|exact P].
Qed.

Lemma status_accessors : forall p id e ps, packet_is p id (STATUS :: e :: ps) ->
  pk_id p = Val id /\ st_error p = Val e /\ st_alert p = Val (alert_bit e) /\ st_parameters p = Val ps.
Proof.
  intros p id e ps H. destruct (L_C28_error_and_alert _ _ _ _ H) as [H1 [H2 _]].
  split; [apply H|]. split; [exact H1|]. split; [exact H2|]. apply (packet_error _ _ _ _ _ H).
Qed.

Lemma status_read_complete : forall n s id e ps g w rest, reach s -> (n < 2 ^ 16)%N -> b_baud s <> 0%N ->
  ~ contains g header -> is_frame id (STATUS :: e :: ps) w -> ff_runs_ok (STATUS :: e :: ps) ->
  length w <= length (b_rbuf s) -> pending s = map inl (g ++ w) ++ rest ->
  exists s', pending s' = rest /\
    (no_error e -> exists p, packet_is p id (STATUS :: e :: ps) /\ read_status_response n s = (Val (Ok p), s')) /\
    (~ no_error e -> read_status_response n s = (Val (Err (RMotorError e)), s')).
Proof.
  intros n s id e ps g w rest R Hn Hb G F Ff L P.
  destruct (response_timeout_val (b_dbg s) (b_baud s) n Hn Hb) as [t T].
  destruct (L_C28_client_reports t s g id e ps w rest R G F Ff L P) as [s' [P' [K1 K2]]].
  assert (Eq : read_status_response n s = read_status_response_timeout t s).
  { unfold read_status_response, bind, get, lift. rewrite T. reflexivity. }
  exists s'. rewrite Eq. split; [exact P'|]. split; [exact K1|exact K2].
Qed.

(** ** C25 *)

Lemma L_C25_transfer_single : forall s id i n expected enc p s', reach s -> encoder_ok enc ->
  transfer_single id i n expected enc s = (Val (Ok p), s') ->
  exists e params, carries (incoming s) id (x55 :: e :: params) (pending s') /\ no_error e /\
    packet_is p id (x55 :: e :: params).
Proof.
  intros s id i n expected enc p s' R He E. unfold transfer_single, try_, bind at 1 in E.
  destruct (write_instruction id i n enc s) as [[[[]|?]|?|] s1] eqn:W; try discriminate.
  pose proof (write_ok_state _ _ _ _ _ _ R He W) as Ws.
  unfold bind at 1 in E.
  destruct (read_status_response expected s1) as [[[q|?]|?|] s2] eqn:Rd; try discriminate.
  destruct (status_read_ok _ _ _ _ (wr_reach _ _ Ws) Rd) as [id' [e [ps [C [Z P]]]]].
  unfold bind, lift in E. destruct (status_accessors _ _ _ _ P) as [A1 _]. rewrite A1 in E.
  unfold packet_id_check in E. destruct (beq id' id) eqn:B; [|discriminate].
  apply beq_true in B. subst id'. cbn in E. injection E as <- <-.
  exists e, ps. rewrite <- (wr_pending _ _ Ws). auto.
Qed.

Lemma transfer_outcome : forall s id i n expected enc params id' e ps rest,
  reach s -> writes_parameters enc params -> n = length params ->
  plenty_of_room s n -> port_ready s -> (expected < 2 ^ 16)%N -> b_baud s <> 0%N ->
  status_comes s id' e ps rest ->
  exists s', pending s' = rest /\
    (~ no_error e ->
       transfer_single id i n expected enc s = (Val (Err (TReadError (RMotorError e))), s')) /\
    (no_error e -> id' <> id ->
       transfer_single id i n expected enc s =
         (Val (Err (TReadError (RInvalidMessage (IMPacketId id' (Some id))))), s')) /\
    (no_error e -> id' = id -> exists p, packet_is p id (x55 :: e :: ps) /\
       transfer_single id i n expected enc s = (Val (Ok p), s')).
Proof.
  intros s id i n expected enc params id' e ps rest R Hw Hn Rm Pr He Hb [g [w [G [F [Ff [L Hi]]]]]].
  destruct (write_succeeds s id i n enc params R Hw Hn Rm Pr) as [s1 [W Ws]].
  destruct (status_read_complete expected s1 id' e ps g w rest (wr_reach _ _ Ws) He) as [s2 [P [K1 K2]]]; try assumption.
  - rewrite (wr_baud _ _ Ws). exact Hb.
  - rewrite (wr_rcap _ _ Ws). exact L.
  - rewrite (wr_pending _ _ Ws). exact Hi.
  - exists s2. split; [exact P|].
    unfold transfer_single, try_, bind. rewrite W. split; [|split].
    + intro Z. rewrite (K2 Z). reflexivity.
    + intros Z Ne. destruct (K1 Z) as [p [Pk Rd]]. rewrite Rd. unfold lift.
      destruct (status_accessors _ _ _ _ Pk) as [A1 _]. rewrite A1. unfold packet_id_check.
      destruct (beq id' id) eqn:B; [apply beq_true in B; contradiction|]. reflexivity.
    + intros Z ->. destruct (K1 Z) as [p [Pk Rd]]. exists p. split; [exact Pk|]. rewrite Rd. unfold lift.
      destruct (status_accessors _ _ _ _ Pk) as [A1 _]. rewrite A1. unfold packet_id_check.
      rewrite beq_refl. reflexivity.
Qed.

Lemma L_C25_transfer_single_outcome : forall s id i expected enc params id' e ps rest,
  reach s -> writes_parameters enc params -> plenty_of_room s (length params) -> port_ready s ->
  (expected < 2 ^ 16)%N -> b_baud s <> 0%N -> status_comes s id' e ps rest ->
  exists s', pending s' = rest /\
    (~ no_error e ->
       transfer_single id i (length params) expected enc s = (Val (Err (TReadError (RMotorError e))), s')) /\
    (no_error e -> id' <> id ->
       transfer_single id i (length params) expected enc s =
         (Val (Err (TReadError (RInvalidMessage (IMPacketId id' (Some id))))), s')) /\
    (no_error e -> id' = id -> exists p, packet_is p id (x55 :: e :: ps) /\
       transfer_single id i (length params) expected enc s = (Val (Ok p), s')).
Proof. intros. eapply transfer_outcome; eauto. Qed.

Lemma response_ping_val : forall p id e ps, packet_is p id (STATUS :: e :: ps) ->
  response_ping p =
    match ps with
    | [a; b; c] => Val (Ok (mkResponse id (alert_bit e) (mkPing (b2n a + 256 * b2n b) c)))
    | _ => Val (Err (IMParameterCount (length ps) (Exact 3)))
    end.
Proof.
  intros p id e ps H. destruct (status_accessors _ _ _ _ H) as [A1 [A2 [A3 A4]]].
  unfold response_ping. rewrite A4. cbn [obind]. unfold param_count_check.
  destruct ps as [|a [|b [|c [|d ps]]]]; try reflexivity.
  cbn [length Nat.eqb]. rewrite A1, A3. cbn [obind].
  change (slice_from [a; b; c] 0) with (Val [a; b; c]). cbn [obind]. rewrite read_u16_le_val.
  reflexivity.
Qed.

Lemma L_C25_ping : forall s id r s', reach s -> ping id s = (Val (Ok r), s') ->
  exists e m0 m1 f, carries (incoming s) id [x55; e; m0; m1; f] (pending s') /\ no_error e /\
    r = mkResponse id (alert_bit e) (mkPing (b2n m0 + 256 * b2n m1) f).
Proof.
  intros s id r s' R E. unfold ping, try_, bind at 1 in E.
  destruct (transfer_single id PING 0 3 no_params s) as [[[p|?]|?|] s1] eqn:T; try discriminate.
  destruct (L_C25_transfer_single _ _ _ _ _ _ _ _ R no_params_ok T) as [e [ps [C [Z P]]]].
  unfold bind, lift in E. rewrite (response_ping_val _ _ _ _ P) in E.
  destruct ps as [|a [|b [|c [|d ps]]]]; try discriminate. cbn in E. injection E as <- <-.
  exists e, a, b, c. auto.
Qed.

Lemma read_raw_ok : forall s id a n p s', reach s -> read_raw id a n s = (Val (Ok p), s') ->
  exists e ps, carries (incoming s) id (x55 :: e :: ps) (pending s') /\ no_error e /\
    packet_is p id (x55 :: e :: ps) /\ length ps = N.to_nat n.
Proof.
  intros s id a n p s' R E. unfold read_raw, try_, bind at 1 in E.
  destruct (transfer_single id READ 4 n _ s) as [[[q|?]|?|] s1] eqn:T; try discriminate.
  destruct (L_C25_transfer_single _ _ _ _ _ _ _ _ R (read_params_ok a n) T) as [e [ps [C [Z P]]]].
  unfold bind, lift in E. destruct (status_accessors _ _ _ _ P) as [A1 [A2 [A3 A4]]]. rewrite A4 in E.
  unfold param_count_check in E. destruct (length ps =? N.to_nat n) eqn:L; [|discriminate].
  cbn in E. injection E as <- <-. exists e, ps. apply Nat.eqb_eq in L. auto.
Qed.

Lemma no_error_check : forall e, no_error e -> motor_error_check e = Ok tt.
Proof. intros e H. apply motor_error_check_ok, land127, H. Qed.

Lemma L_C25_read_bytes : forall s id a n r s', reach s -> read_bytes id a n s = (Val (Ok r), s') ->
  exists e data, carries (incoming s) id (x55 :: e :: data) (pending s') /\ no_error e /\
    length data = N.to_nat n /\ r = mkResponse id (alert_bit e) data.
Proof.
  intros s id a n r s' R E. unfold read_bytes, try_, bind at 1 in E.
  destruct (read_raw id a n s) as [[[q|?]|?|] s1] eqn:T; try discriminate.
  destruct (read_raw_ok _ _ _ _ _ _ R T) as [e [ps [C [Z [P L]]]]].
  unfold bind, lift, decode_status_packet_bytes in E.
  destruct (status_accessors _ _ _ _ P) as [A1 [A2 [A3 A4]]].
  rewrite A2 in E. cbn [obind] in E. rewrite (no_error_check _ Z), A1, A3, A4 in E. cbn in E.
  injection E as <- <-. exists e, ps. auto.
Qed.

Lemma L_C25_read : forall A (D : data_impl A) s id a r s', reach s -> read D id a s = (Val (Ok r), s') ->
  exists e data v, carries (incoming s) id (x55 :: e :: data) (pending s') /\ no_error e /\
    length data = d_size D /\ d_decode D data = Val (Ok v) /\ r = mkResponse id (alert_bit e) v.
Proof.
  intros A D s id a r s' R E. unfold read, try_, bind at 1 in E.
  destruct (read_raw id a (N.of_nat (d_size D)) s) as [[[q|?]|?|] s1] eqn:T; try discriminate.
  destruct (read_raw_ok _ _ _ _ _ _ R T) as [e [ps [C [Z [P L]]]]]. rewrite Nat2N.id in L.
  unfold bind, lift, decode_status_packet in E.
  destruct (status_accessors _ _ _ _ P) as [A1 [A2 [A3 A4]]].
  rewrite A2 in E. cbn [obind] in E. rewrite (no_error_check _ Z), A1, A3, A4 in E. cbn [obind] in E.
  destruct (d_decode D ps) as [[v|?]|?|] eqn:Dc; try discriminate. cbn in E.
  injection E as <- <-. exists e, ps, v. auto 6.
Qed.

Lemma L_C25_ping_outcome : forall s id id' e ps rest,
  reach s -> plenty_of_room s 0 -> port_ready s -> b_baud s <> 0%N -> status_comes s id' e ps rest ->
  exists s', pending s' = rest /\
    ping id s =
      (Val (if negb (b2n e mod 128 =? 0)%N then Err (TReadError (RMotorError e))
            else if negb (beq id' id) then Err (TReadError (RInvalidMessage (IMPacketId id' (Some id))))
            else match ps with
                 | [m0; m1; f] => Ok (mkResponse id (alert_bit e) (mkPing (b2n m0 + 256 * b2n m1) f))
                 | _ => Err (TReadError (RInvalidMessage (IMParameterCount (length ps) (Exact 3))))
                 end), s').
Proof.
  intros s id id' e ps rest R Rm Pr Hb St.
  destruct (transfer_outcome s id PING 0 3 no_params [] id' e ps rest R no_params_writes eq_refl Rm Pr
              ltac:(reflexivity) Hb St) as [s' [P [K1 [K2 K3]]]].
  exists s'. split; [exact P|]. unfold ping, try_, bind.
  destruct (b2n e mod 128 =? 0)%N eqn:Z; cbn [negb].
  - apply N.eqb_eq in Z. destruct (beq id' id) eqn:B; cbn [negb].
    + apply beq_true in B. destruct (K3 Z B) as [p [Pk E]]. rewrite E. unfold lift, ret.
      rewrite (response_ping_val _ _ _ _ Pk). destruct ps as [|? [|? [|? [|]]]]; reflexivity.
    + assert (id' <> id) by (intros ->; rewrite beq_refl in B; discriminate). rewrite K2 by assumption. reflexivity.
  - rewrite K1 by (apply N.eqb_neq, Z). reflexivity.
Qed.

Lemma read_raw_outcome : forall s id a n id' e ps rest,
  reach s -> plenty_of_room s 4 -> port_ready s -> b_baud s <> 0%N -> is_u16 n -> status_comes s id' e ps rest ->
  exists s', pending s' = rest /\
    (~ no_error e -> read_raw id a n s = (Val (Err (TReadError (RMotorError e))), s')) /\
    (no_error e -> id' <> id ->
       read_raw id a n s = (Val (Err (TReadError (RInvalidMessage (IMPacketId id' (Some id))))), s')) /\
    (no_error e -> id' = id -> length ps <> N.to_nat n ->
       read_raw id a n s = (Val (Err (TReadError (RInvalidMessage (IMParameterCount (length ps) (Exact (N.to_nat n)))))), s')) /\
    (no_error e -> id' = id -> length ps = N.to_nat n -> exists p, packet_is p id (x55 :: e :: ps) /\
       read_raw id a n s = (Val (Ok p), s')).
Proof.
  intros s id a n id' e ps rest R Rm Pr Hb Hn St.
  destruct (transfer_outcome s id READ 4 n _ _ id' e ps rest R (read_params_writes a n) eq_refl Rm Pr Hn Hb St)
    as [s' [P [K1 [K2 K3]]]].
  exists s'. split; [exact P|]. unfold read_raw, try_, bind. split; [|split; [|split]].
  - intro Z. rewrite (K1 Z). reflexivity.
  - intros Z Ne. rewrite (K2 Z Ne). reflexivity.
  - intros Z Eq Ne. destruct (K3 Z Eq) as [p [Pk E]]. rewrite E. unfold lift.
    destruct (status_accessors _ _ _ _ Pk) as [A1 [A2 [A3 A4]]]. rewrite A4. unfold param_count_check.
    replace (length ps =? N.to_nat n) with false by lia. reflexivity.
  - intros Z Eq L. destruct (K3 Z Eq) as [p [Pk E]]. exists p. split; [exact Pk|]. rewrite E. unfold lift.
    destruct (status_accessors _ _ _ _ Pk) as [A1 [A2 [A3 A4]]]. rewrite A4. unfold param_count_check.
    replace (length ps =? N.to_nat n) with true by lia. reflexivity.
Qed.

Lemma L_C25_read_bytes_outcome : forall s id a n id' e ps rest,
  reach s -> plenty_of_room s 4 -> port_ready s -> b_baud s <> 0%N -> is_u16 n -> status_comes s id' e ps rest ->
  exists s', pending s' = rest /\
    read_bytes id a n s =
      (Val (if negb (b2n e mod 128 =? 0)%N then Err (TReadError (RMotorError e))
            else if negb (beq id' id) then Err (TReadError (RInvalidMessage (IMPacketId id' (Some id))))
            else if negb (length ps =? N.to_nat n) then
              Err (TReadError (RInvalidMessage (IMParameterCount (length ps) (Exact (N.to_nat n)))))
            else Ok (mkResponse id (alert_bit e) ps)), s').
Proof.
  intros s id a n id' e ps rest R Rm Pr Hb Hn St.
  destruct (read_raw_outcome s id a n id' e ps rest R Rm Pr Hb Hn St) as [s' [P [K1 [K2 [K3 K4]]]]].
  exists s'. split; [exact P|]. unfold read_bytes, try_, bind.
  destruct (b2n e mod 128 =? 0)%N eqn:Z; cbn [negb]; [|rewrite K1 by (apply N.eqb_neq, Z); reflexivity].
  apply N.eqb_eq in Z. destruct (beq id' id) eqn:B; cbn [negb].
  2:{ assert (id' <> id) by (intros ->; rewrite beq_refl in B; discriminate). rewrite K2 by assumption. reflexivity. }
  apply beq_true in B. destruct (length ps =? N.to_nat n) eqn:L; cbn [negb].
  - apply Nat.eqb_eq in L. destruct (K4 Z B L) as [p [Pk E]]. rewrite E. unfold lift, decode_status_packet_bytes.
    destruct (status_accessors _ _ _ _ Pk) as [A1 [A2 [A3 A4]]].
    rewrite A2. cbn [obind]. rewrite (no_error_check _ Z), A1, A3, A4. reflexivity.
  - apply Nat.eqb_neq in L. rewrite K3 by assumption. reflexivity.
Qed.

Lemma L_C25_read_outcome : forall A (D : data_impl A) s id a id' e ps rest decoded,
  reach s -> plenty_of_room s 4 -> port_ready s -> b_baud s <> 0%N -> is_u16 (N.of_nat (d_size D)) ->
  status_comes s id' e ps rest -> (length ps = d_size D -> d_decode D ps = Val decoded) ->
  exists s', pending s' = rest /\
    read D id a s =
      (Val (if negb (b2n e mod 128 =? 0)%N then Err (TReadError (RMotorError e))
            else if negb (beq id' id) then Err (TReadError (RInvalidMessage (IMPacketId id' (Some id))))
            else if negb (length ps =? d_size D) then
              Err (TReadError (RInvalidMessage (IMParameterCount (length ps) (Exact (d_size D)))))
            else match decoded with
                 | Ok v => Ok (mkResponse id (alert_bit e) v)
                 | Err x => Err (TReadError (RInvalidMessage x))
                 end), s').
Proof.
  intros A D s id a id' e ps rest decoded R Rm Pr Hb Hn St Dc.
  destruct (read_raw_outcome s id a (N.of_nat (d_size D)) id' e ps rest R Rm Pr Hb Hn St) as [s' [P [K1 [K2 [K3 K4]]]]].
  rewrite Nat2N.id in *.
  exists s'. split; [exact P|]. unfold read, try_, bind.
  destruct (b2n e mod 128 =? 0)%N eqn:Z; cbn [negb]; [|rewrite K1 by (apply N.eqb_neq, Z); reflexivity].
  apply N.eqb_eq in Z. destruct (beq id' id) eqn:B; cbn [negb].
  2:{ assert (id' <> id) by (intros ->; rewrite beq_refl in B; discriminate). rewrite K2 by assumption. reflexivity. }
  apply beq_true in B. destruct (length ps =? d_size D) eqn:L; cbn [negb].
  - apply Nat.eqb_eq in L. destruct (K4 Z B L) as [p [Pk E]]. rewrite E. unfold lift, decode_status_packet.
    destruct (status_accessors _ _ _ _ Pk) as [A1 [A2 [A3 A4]]].
    rewrite A2. cbn [obind]. rewrite (no_error_check _ Z), A1, A3, A4. cbn [obind]. rewrite (Dc L).
    destruct decoded; reflexivity.
  - apply Nat.eqb_neq in L. rewrite K3 by assumption. reflexivity.
Qed.

(** ** C26 *)

Lemma acknowledged_instruct : forall f, acknowledged f ->
  exists i n enc, encoder_ok enc /\ forall id, f id = instruct id i n enc.
Proof.
  intros f H. destruct H; do 3 eexists; (split; [|intro id; reflexivity]); auto with enc.
Qed.

Lemma response_unit_val : forall p id e ps, packet_is p id (STATUS :: e :: ps) ->
  response_unit p =
    match ps with
    | [] => Val (Ok (mkResponse id (alert_bit e) tt))
    | _ => Val (Err (IMParameterCount (length ps) (Exact 0)))
    end.
Proof.
  intros p id e ps H. destruct (status_accessors _ _ _ _ H) as [A1 [A2 [A3 A4]]].
  unfold response_unit. rewrite A4. cbn [obind]. unfold param_count_check.
  destruct ps; [|reflexivity]. cbn [length Nat.eqb]. rewrite A1, A3. reflexivity.
Qed.

Lemma L_C26_acknowledged_partial : forall f s id r s', acknowledged f -> id <> xfe -> reach s ->
  f id s = (Val (Ok r), s') ->
  exists id' e, carries (incoming s) id' [x55; e] (pending s') /\ no_error e /\
    r = mkResponse id' (alert_bit e) tt.
Proof.
  intros f s id r s' Ha Hid R E. destruct (acknowledged_instruct f Ha) as [i [n [enc [He Hf]]]].
  rewrite Hf in E. unfold instruct, try_ in E. unfold bind at 1 in E.
  destruct (write_instruction id i n enc s) as [[[[]|?]|?|] s1] eqn:W; try discriminate.
  pose proof (write_ok_state _ _ _ _ _ _ R He W) as Ws.
  unfold read_response_if_not_broadcast in E.
  destruct (beq id BROADCAST) eqn:B; [apply beq_true in B; contradiction|].
  unfold try_, bind, lift in E.
  destruct (read_status_response 0 s1) as [[[q|?]|?|] s2] eqn:Rd; try discriminate.
  destruct (status_read_ok _ _ _ _ (wr_reach _ _ Ws) Rd) as [id' [e [ps [C [Z P]]]]].
  rewrite (response_unit_val _ _ _ _ P) in E.
  destruct ps; [|discriminate]. cbn in E. injection E as <- <-.
  exists id', e. rewrite <- (wr_pending _ _ Ws). auto.
Qed.

Lemma L_C26_acknowledged_outcome : forall f s id o s' id' e ps rest,
  acknowledged f -> id <> xfe -> reach s -> b_baud s <> 0%N -> status_comes s id' e ps rest ->
  f id s = (Val o, s') ->
  (exists x, o = Err (TWriteError x)) \/
  pending s' = rest /\
  o = (if negb (b2n e mod 128 =? 0)%N then Err (TReadError (RMotorError e))
       else match ps with
            | [] => Ok (mkResponse id' (alert_bit e) tt)
            | _ => Err (TReadError (RInvalidMessage (IMParameterCount (length ps) (Exact 0))))
            end).
Proof.
  intros f s id o s' id' e ps rest Ha Hid R Hb [g [w [G [F [Ff [L Hi]]]]]] E.
  destruct (acknowledged_instruct f Ha) as [i [n [enc [He Hf]]]].
  rewrite Hf in E. unfold instruct, try_ in E. unfold bind at 1 in E.
  destruct (write_instruction id i n enc s) as [[[[]|x]|?|] s1] eqn:W; try discriminate.
  2:{ left. injection E as <- <-. exists x. reflexivity. }
  right. pose proof (write_ok_state _ _ _ _ _ _ R He W) as Ws.
  destruct (status_read_complete 0 s1 id' e ps g w rest (wr_reach _ _ Ws)) as [s2 [P [K1 K2]]]; try assumption.
  { reflexivity. }
  { rewrite (wr_baud _ _ Ws). exact Hb. }
  { rewrite (wr_rcap _ _ Ws). exact L. }
  { rewrite (wr_pending _ _ Ws). exact Hi. }
  unfold read_response_if_not_broadcast in E.
  destruct (beq id BROADCAST) eqn:B; [apply beq_true in B; contradiction|].
  unfold try_, bind, lift in E.
  destruct (b2n e mod 128 =? 0)%N eqn:Z; cbn [negb].
  - apply N.eqb_eq in Z. destruct (K1 Z) as [p [Pk Rd]]. rewrite Rd in E.
    rewrite (response_unit_val _ _ _ _ Pk) in E.
    destruct ps; cbn in E; injection E as <- <-; split; auto.
  - rewrite K2 in E by (apply N.eqb_neq, Z). cbn in E. injection E as <- <-. split; auto.
Qed.

(** A line that contains one header only determines the sender of its first message. *)
Lemma not_from : forall id l id' body rest, firstn 5 l = header ++ [id'] -> header_in (tl l) = false ->
  carries (map inl l ++ []) id body rest -> id = id'.
Proof.
  intros id l id' body rest Hl Hh [g [st [w [G [[crc [-> _]] [_ E]]]]]].
  assert (K : exists t, l = g ++ header ++ id :: t).
  { set (f := fun x : item => match x with inl b => b | inr _ => x00 end).
    assert (Hf : forall l, map f (map inl l) = l) by (intro l'; rewrite map_map; apply map_id).
    apply (f_equal (map f)) in E. rewrite !map_app, Hf in E. rewrite Hf, Hf, app_nil_r in E.
    rewrite E. unfold message, wire_of_body. rewrite <- !app_assoc. cbn [app]. eexists. reflexivity. }
  destruct K as [t ->]. destruct g as [|x g].
  - cbn in Hl. injection Hl as ->. reflexivity.
  - exfalso. apply (header_in_false _ Hh). exists g, (id :: t). reflexivity.
Qed.

Lemma L_C26_acknowledged_refuted : ~ (forall f s id r s', acknowledged f -> id <> xfe -> reach s ->
  f id s = (Val (Ok r), s') ->
  exists e, carries (incoming s) id [x55; e] (pending s') /\ no_error e).
Proof.
  intro H. set (s := fresh true [RdData (frame x02 [x55; x00])] 32 32).
  destruct (action x01 s) as [o s'] eqn:E.
  assert (Ho : o = Val (Ok (mkResponse x02 false tt)))
    by (pose proof (f_equal fst E) as K; vm_compute in K; rewrite <- K; reflexivity).
  subst o.
  destruct (H action s x01 _ s' ak_action ltac:(discriminate) (fresh_reach true _ 32 32 ltac:(lia)) E) as [e [C Z]].
  assert (Hs : pending s' = []).
  { pose proof (f_equal snd E) as K. cbn [snd] in K. rewrite <- K. vm_compute. reflexivity. }
  rewrite Hs in C. change (incoming s) with (map (@inl byte io_error) (frame x02 [x55; x00]) ++ []) in C.
  apply (not_from x01 _ _ _ _ (eq_refl : firstn 5 (frame x02 [x55; x00]) = header ++ [x02])) in C.
  - discriminate C.
  - vm_compute. reflexivity.
Qed.

(** ** C27 *)

Definition writing {A} (m : M A) : Prop := forall s o s', m s = (o, s') ->
  (exists evs, calls s s' evs /\ Forall only_writes evs) /\ incoming s' = incoming s /\
  p_deadlines (b_port s') = p_deadlines (b_port s).

Lemma writing_ret : forall A (a : A), writing (ret a).
Proof. intros A a s o s' H. injection H as <- <-. split; [|auto]. exists []. split; [apply eq_sym, app_nil_r|constructor]. Qed.
Lemma writing_lift : forall A (x : out A), writing (lift x).
Proof. intros A a s o s' H. injection H as <- <-. split; [|auto]. exists []. split; [apply eq_sym, app_nil_r|constructor]. Qed.
Lemma writing_get : writing get.
Proof. intros s o s' H. injection H as <- <-. split; [|auto]. exists []. split; [apply eq_sym, app_nil_r|constructor]. Qed.
Lemma writing_bind : forall A B (m : M A) (k : A -> M B), writing m -> (forall a, writing (k a)) -> writing (bind m k).
Proof.
  intros A B m k Hm Hk s o s' H. unfold bind in H. destruct (m s) as [[a|p|] s1] eqn:E.
  - destruct (Hm _ _ _ E) as [[e1 [C1 F1]] [I1 D1]]. destruct (Hk _ _ _ _ H) as [[e2 [C2 F2]] [I2 D2]].
    split; [|split; congruence]. exists (e1 ++ e2). split; [eapply calls_trans; eassumption|apply Forall_app; auto].
  - injection H as <- <-. exact (Hm _ _ _ E).
  - injection H as <- <-. exact (Hm _ _ _ E).
Qed.
Lemma writing_try : forall A B E F (f : E -> F) (m : M (result A E)) (k : A -> M (result B F)),
  writing m -> (forall a, writing (k a)) -> writing (try_ f m k).
Proof. intros. apply writing_bind; [assumption|]. intros [a|e]; [auto|apply writing_ret]. Qed.
Lemma writing_tryr : forall A B E F (f : E -> F) (r : result A E) (k : A -> M (result B F)),
  (forall a, writing (k a)) -> writing (tryr f r k).
Proof. intros A B E F f [a|e] k H; [apply H|apply writing_ret]. Qed.
Lemma writing_discard : writing port_discard.
Proof. intros s o s' H. injection H as <- <-. split; [|auto]. eexists. split; [reflexivity|]. repeat constructor. Qed.
Lemma writing_write_all : forall bs, writing (port_write_all bs).
Proof. intros bs s o s' H. injection H as <- <-. split; [|auto]. eexists. split; [reflexivity|]. repeat constructor. Qed.

Lemma writing_modify : forall A (f : bus -> bus) (k : M A), (forall s, b_port (f s) = b_port s) -> writing k ->
  writing (bind get (fun s => bind (put (f s)) (fun _ => k))).
Proof.
  intros A f k Hf Hk s o s' H. unfold bind, get, put in H.
  specialize (Hk _ _ _ H). unfold calls, incoming in *. rewrite Hf in Hk. exact Hk.
Qed.

Lemma writing_packet : forall id i n enc, writing (write_instruction id i n enc).
Proof.
  intros id i n enc s o s' H. unfold write_instruction, write_packet in H.
  unfold bind at 1, get in H. unfold bind at 1, lift in H.
  destruct (build_packet _ _ _ _ _ _) as [[w r]|p|];
    [|injection H as <- <-; split; [exists []; split; [apply eq_sym, app_nil_r|constructor]|auto]..].
  unfold bind at 1, put in H.
  revert H. generalize (set_wbuf s w) (eq_refl : b_port (set_wbuf s w) = b_port s). intros s0 E H.
  assert (X : (exists evs, calls s0 s' evs /\ Forall only_writes evs) /\ incoming s' = incoming s0 /\
     p_deadlines (b_port s') = p_deadlines (b_port s0)).
  { revert H. match goal with |- ?m s0 = _ -> _ => intro H; refine ((_ : writing m) s0 o s' H) end.
    apply writing_tryr; intro. apply (writing_modify _ (fun t => set_used (set_rlen t 0) 0)); [reflexivity|].
    apply writing_try; [apply writing_discard|intro]. apply writing_bind; [apply writing_lift|intro].
    apply writing_try; [apply writing_write_all|intro]. apply writing_ret. }
  unfold calls, incoming in *. rewrite E in X. exact X.
Qed.

Lemma L_C27_broadcast : forall f s o s', acknowledged f -> f xfe s = (o, s') ->
  (exists evs, calls s s' evs /\ Forall only_writes evs) /\
  incoming s' = incoming s /\ p_deadlines (b_port s') = p_deadlines (b_port s) /\
  (forall r, o = Val (Ok r) -> r = mkResponse xfe false tt) /\
  (forall e, o = Val (Err e) -> exists e', e = TWriteError e').
Proof.
  intros f s o s' Ha E. destruct (acknowledged_instruct f Ha) as [i [n [enc [He Hf]]]].
  rewrite Hf in E. unfold instruct, try_ in E. unfold bind at 1 in E.
  destruct (write_instruction xfe i n enc s) as [[[[]|x]|?|] s1] eqn:W;
    destruct (writing_packet _ _ _ _ _ _ _ W) as [K1 [K2 K3]];
    [cbn in E| | |]; injection E as <- <-; repeat split; auto; try discriminate.
  - intros r K. injection K as <-. reflexivity.
  - intros e K. injection K as <-. eauto.
Qed.
