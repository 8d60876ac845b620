(** * ConcurrentProofs: the programs of client and motors, message by message *)
From Coq Require Import ZArith ZifyN ZifyNat ZifyBool.
From Verif Require Import Base Endian Error Checksum Bytestuff Packet Time Bus Data Client
  Instructions Device MockDevice Api Spec CallSpec StreamSpec DeviceSpec InstructionSpec Demo Lib ChecksumProofs
  CrcErrorProofs StuffProofs WriteProofs ReadProofs ApiProofs StreamProofs MessageProofs SendProofs
  SendTheorems ReadTheorems StatusProofs DeviceTheorems InstructionProofs DemoProofs TransferTheorems
  UnderstoodTheorems ScanTheorems RemoteSpec RemoteProofs RemoteTheorems EchoSpec EchoTheorems LateSpec LateTheorems
  FitTheorems TestBus TestBusSpec ConcurrentSpec.
Ltac Zify.zify_post_hook ::= Z.div_mod_to_equations.

(** ** Reading whole messages *)

(** [w] is one message, whatever follows it. *)
Definition carries (K : nat) (w : list byte) (p : packet) : Prop :=
  forall x, exists ev, next_event K (w ++ x) = Some (ev, x) /\ ev_out ev = Val (Ok p).

Lemma carries_wire : forall cap K id i params, passes comes_back cap (i :: params) -> cap <= K ->
  exists p, carries K (code_wire id (i :: params)) p /\ packet_is p id (i :: params).
Proof.
  intros cap K id i params P L. destruct (passes_length cap id i params P) as [L1 L2].
  rewrite code_wire_length in L1, L2. cbn [length] in L1, L2.
  assert (Lc : length (code_stuff (i :: params)) = S (length params) + fcount 0 (i :: params)) by apply code_stuff_length.
  pose proof (unst_code_stuff (i :: params) (proj2 (proj2 P))) as U.
  eexists. split.
  - intro x. rewrite code_wire_wire_of_body. change (wire_of_body id ?a ?b) with (message id a b).
    eexists. split; [apply next_event_message0; [apply covered_crc|lia|lia]|].
    rewrite message_event_good.
    + cbn [ev_out]. reflexivity.
    + unfold msg_head. rewrite <- !app_assoc. apply covered_crc.
    + intro K0. rewrite K0 in Lc. cbn in Lc. lia.
  - rewrite U. apply packet_head.
Qed.

(** The state of an endpoint: unread bytes and what [read] is going to return. *)
Record box (cap K : nat) (s : bus) (u : list byte) (sc : list rd_event) : Prop := mkBox {
  bx_hardy : hardy cap s;
  bx_room : length (b_rbuf s) = K;
  bx_unread : unread s = u;
  bx_script : p_script (b_port s) = sc;
}.

Definition written (evs : list io_event) : list (list byte) :=
  flat_map (fun e => match e with LWrite w None => [w] | _ => [] end) evs.

Lemma written_app : forall a b, written (a ++ b) = written a ++ written b.
Proof. intros. apply flat_map_app. Qed.

Lemma written_reads : forall evs, Forall only_reads evs -> written evs = [].
Proof. intros evs H. induction H as [|e evs He H IH]; [reflexivity|]. destruct e; cbn in *; try contradiction; exact IH. Qed.

Lemma frame_hardy : forall cap d s s', read_frame d s s' -> inv s' -> hardy cap s -> hardy cap s'.
Proof.
  intros cap d s s' [F1 F2 F3 F4 F5 F6 F7 F8 _] I [H1 H2 H3 H4 H4' H5 H6]. constructor.
  - exact I.
  - rewrite F5. exact H2.
  - rewrite F6. exact H3.
  - rewrite F1. exact H4.
  - rewrite F1. exact H4'.
  - rewrite F2. exact H5.
  - rewrite F3. exact H6.
Qed.

Lemma box_held : forall cap K dl s w x sc p, 10 <= K -> box cap K s (w ++ x) sc -> carries K w p ->
  exists s', read_packet_deadline dl s = (Val (Ok p), s') /\ box cap K s' x sc /\ calls s s' [].
Proof.
  intros cap K dl s w x sc p Hk [H R U S] C. destruct (C x) as [ev [Ne Eo]].
  destruct (read_packet_deadline dl s) as [o s'] eqn:E. exists s'.
  destruct (read_packet_spec dl s o s' (proj1 (ha_inv _ _ H)) ltac:(lia) E) as [dat [sc' [Fe Ok Fr Re Io]]].
  rewrite R, U in *. rewrite Ne in Io. destruct (Io ltac:(discriminate)) as [Ep ->]. rewrite app_nil_r, Ne in Re.
  destruct Re as [-> [_ Ux]]. rewrite Eo. split; [reflexivity|].
  destruct (read_cap dl s _ s' (ha_inv _ _ H) E) as [I' L']. split.
  - constructor; [exact (frame_hardy cap dl s s' Fr I' H)|congruence|exact Ux|rewrite Ep; exact S].
  - unfold calls. rewrite Ep, app_nil_r. reflexivity.
Qed.

Lemma box_chunk : forall cap K dl s bs sc, 10 <= K -> box cap K s [] (RdData bs :: sc) -> length bs <= K ->
  read_packet_deadline dl s = read_packet_deadline dl (received dl s [] bs sc) /\
  box cap K (received dl s [] bs sc) bs sc /\ calls s (received dl s [] bs sc) [LRead dl K (Ok bs)].
Proof.
  intros cap K dl s bs sc Hk [H R U S] L. pose proof (proj1 (ha_inv _ _ H)) as Rd.
  split; [apply read_first_chunk; auto; lia|].
  destruct (received_ok dl s [] bs sc ltac:(cbn [length]; lia)) as [R1 [R2 R3]]. split.
  - destruct H as [H1 H2 H3 H4 H4' H5 H6]. constructor; [constructor; try assumption|congruence|exact R2|reflexivity].
    + split; [exact R1|exact (proj2 H1)].
    + rewrite R3. exact H5.
  - unfold calls, received. cbn [b_port p_log length]. rewrite R, Nat.sub_0_r. reflexivity.
Qed.

Lemma box_error : forall cap K dl s e sc, 10 <= K -> box cap K s [] (RdErr e :: sc) ->
  exists s', read_packet_deadline dl s = (Val (Err (RIo e)), s') /\ box cap K s' [] sc /\ calls s s' [LRead dl K (Err e)].
Proof.
  intros cap K dl s e sc Hk [H R U S]. pose proof (proj1 (ha_inv _ _ H)) as Rd.
  destruct (read_packet_deadline dl s) as [o s'] eqn:E. exists s'.
  pose proof (read_packet_frame dl s o s' (ha_inv _ _ H) E) as Fr.
  destruct (read_cap dl s _ s' (ha_inv _ _ H) E) as [I' L'].
  unfold read_packet_deadline in E. unfold bind at 1, get in E.
  unfold bts_check, HEADER_SIZE in E. replace (7 + 3 <=? length (b_rbuf s)) with true in E by lia. cbn [tryr] in E.
  unfold try_, bind in E. rewrite S in E at 1. rewrite read_loop_step in E by (assumption || lia). cbv zeta in E. rewrite U in E.
  change (clean []) with (@nil byte) in E. change (parse1 (length (b_rbuf s)) []) with PMore in E. cbv iota in E.
  rewrite S in E. unfold ret in E. injection E as <- <-. split; [reflexivity|]. split.
  - constructor; [exact (frame_hardy cap dl _ _ Fr I' H)|congruence|reflexivity|reflexivity].
  - unfold calls, logged. cbn [b_port p_log front length]. rewrite R, Nat.sub_0_r. reflexivity.
Qed.

Lemma box_end : forall cap K dl s, 10 <= K -> box cap K s [] [] ->
  exists s', read_packet_deadline dl s = (Blocked, s') /\ box cap K s' [] [] /\ calls s s' [LReadWait dl K].
Proof.
  intros cap K dl s Hk [H R U S]. pose proof (proj1 (ha_inv _ _ H)) as Rd.
  destruct (read_packet_deadline dl s) as [o s'] eqn:E. exists s'.
  pose proof (read_packet_frame dl s o s' (ha_inv _ _ H) E) as Fr.
  destruct (read_cap dl s _ s' (ha_inv _ _ H) E) as [I' L'].
  unfold read_packet_deadline in E. unfold bind at 1, get in E.
  unfold bts_check, HEADER_SIZE in E. replace (7 + 3 <=? length (b_rbuf s)) with true in E by lia. cbn [tryr] in E.
  unfold try_, bind in E. rewrite S in E at 1. rewrite read_loop_step in E by (assumption || lia). cbv zeta in E. rewrite U in E.
  change (clean []) with (@nil byte) in E. change (parse1 (length (b_rbuf s)) []) with PMore in E. cbv iota in E.
  rewrite S in E. injection E as <- <-. split; [reflexivity|]. split.
  - constructor; [exact (frame_hardy cap dl _ _ Fr I' H)|congruence|reflexivity|reflexivity].
  - unfold calls, logged. cbn [b_port p_log front length]. rewrite R, Nat.sub_0_r. reflexivity.
Qed.

(** ** Messages *)

Inductive note := NReq (o : op) | NSts (id e : byte) (ps : list byte).

Definition wire (n : note) : list byte :=
  match n with
  | NReq o => code_wire (packet_id_for o) (message_of o)
  | NSts id e ps => code_wire id (x55 :: e :: ps)
  end.

Definition note_ok (cap : nat) (n : note) : Prop :=
  match n with
  | NReq o => passes comes_back cap (message_of o) /\ exists ms, proper ms o
  | NSts _ e ps => passes comes_back cap (x55 :: e :: ps)
  end.

Definition wires (l : list note) : list byte := concat (map wire l).

Lemma wires_app : forall a b, wires (a ++ b) = wires a ++ wires b.
Proof. intros. unfold wires. rewrite map_app, concat_app. reflexivity. Qed.

(** [None]: a timeout. *)
Definition chunk (g : option (list note)) : rd_event :=
  match g with Some l => RdData (wires l) | None => RdErr (IoTimeout 0) end.

(** What a device makes of them: it skips answers (their number is given) up to a
    request, a timeout or the end. *)
Inductive heed : list note -> list (option (list note)) -> option (option op) ->
    list note -> list (option (list note)) -> Prop :=
| hd_status : forall id e ps us gs r us' gs', heed us gs r us' gs' -> heed (NSts id e ps :: us) gs r us' gs'
| hd_request : forall o us gs, heed (NReq o :: us) gs (Some (Some o)) us gs
| hd_chunk : forall x l gs r us' gs', heed (x :: l) gs r us' gs' -> heed [] (Some (x :: l) :: gs) r us' gs'
| hd_timeout : forall gs, heed [] (None :: gs) (Some None) [] gs
| hd_end : heed [] [] None [] [].

Definition chunk_ok (cap K : nat) (g : option (list note)) : Prop :=
  match g with Some l => l <> [] /\ Forall (note_ok cap) l /\ length (wires l) <= K | None => True end.

Fixpoint count (gs : list (option (list note))) : nat :=
  match gs with
  | [] => 0
  | Some l :: gs' => S (length l) + count gs'
  | None :: gs' => S (count gs')
  end.

Lemma heed_total : forall cap K k us gs, length us + count gs <= k -> Forall (chunk_ok cap K) gs ->
  exists r us' gs', heed us gs r us' gs'.
Proof.
  intros cap K k. induction k as [|k IH]; intros us gs L F.
  - destruct us; [|cbn in L; lia]. destruct gs as [|[l|] gs]; [|cbn in L; lia..]. eauto using heed.
  - destruct us as [|[o|id e ps] us].
    + destruct gs as [|[l|] gs]; eauto using heed. inversion F as [|? ? Ck F']; subst. destruct Ck as [Ne _].
      destruct l as [|x l]; [contradiction|]. destruct (IH (x :: l) gs) as [r [us' [gs' H]]]; [cbn in *; lia|exact F'|].
      exists r, us', gs'. constructor. exact H.
    + eauto using heed.
    + destruct (IH us gs) as [r [us' [gs' H]]]; [cbn in *; lia|exact F|]. exists r, us', gs'. constructor. exact H.
Qed.

Lemma heed_size : forall us gs r us' gs', heed us gs r us' gs' ->
  match r with None => us' = [] /\ gs' = [] | _ => length us' + count gs' < length us + count gs end.
Proof.
  intros us gs r us' gs' H. induction H; try (cbn in *; lia); [| |split; reflexivity].
  - destruct r; [cbn in *; lia|exact IHheed].
  - destruct r; [cbn in *; lia|exact IHheed].
Qed.

Lemma note_carries : forall cap K n, note_ok cap n -> cap <= K -> exists p, carries K (wire n) p /\
  match n with
  | NReq o => exists i params, message_of o = i :: params /\ packet_is p (packet_id_for o) (i :: params) /\
      means i params (instruction_for o) /\ follows_rule i (length params) /\ i <> STATUS
  | NSts id e ps => packet_is p id (x55 :: e :: ps)
  end.
Proof.
  intros cap K [o|id e ps] N L; cbn [wire note_ok] in *.
  - destruct N as [P [ms Pr]]. destruct (means_for ms o Pr) as [i [params [Em [Mn [Fr Hi]]]]]. rewrite Em in *.
    destruct (carries_wire cap K (packet_id_for o) i params P L) as [p [C Q]]. exists p. split; [exact C|].
    exists i, params. auto.
  - exact (carries_wire cap K id x55 (e :: ps) N L).
Qed.

Definition heeded (r : option (option op)) (x : out (result packet read_error)) : Prop :=
  match r with
  | None => x = Blocked
  | Some None => x = Val (Err (RIo (IoTimeout 0)))
  | Some (Some o) => exists p i params, x = Val (Ok p) /\ message_of o = i :: params /\
      packet_is p (packet_id_for o) (i :: params) /\ means i params (instruction_for o) /\ follows_rule i (length params)
  end.

(** Reads into buffers of at most [K] bytes. *)
Definition roomy (K : nat) (e : io_event) : Prop :=
  match e with LRead _ n _ | LReadWait _ n => n <= K | LDeadline _ => True | _ => False end.

Lemma roomy_only_reads : forall K evs, Forall (roomy K) evs -> Forall only_reads evs.
Proof.
  intros K evs F. induction F as [|e evs H F IH]; constructor; [|exact IH]. destruct e; cbn in *; try contradiction; exact I.
Qed.

Lemma loop_heeds : forall cap K dl us gs r us' gs', 10 <= cap -> heed us gs r us' gs' ->
  Forall (note_ok cap) us -> Forall (chunk_ok cap K) gs ->
  forall s, cap <= K -> box cap K s (wires us) (map chunk gs) ->
  exists fuel x s' evs, (forall f, fuel <= f -> device_loop f dl s = (x, s')) /\ heeded r x /\
    box cap K s' (wires us') (map chunk gs') /\ calls s s' evs /\ Forall (roomy K) evs.
Proof.
  intros cap K dl us gs r us' gs' Hc H.
  induction H as [id e ps us gs r us' gs' H IH|o us gs|x l gs r us' gs' H IH|gs|]; intros Fu Fg s Hk B.
  - inversion Fu as [|? ? N Fu']; subst. destruct (note_carries cap K _ N Hk) as [p [C Q]].
    change (wires (NSts id e ps :: us)) with (wire (NSts id e ps) ++ wires us) in B.
    destruct (box_held cap K dl s _ _ _ p ltac:(lia) B C) as [s1 [E1 [B1 C1]]].
    destruct (IH Fu' Fg s1 Hk B1) as [fuel [x [s2 [evs [E2 [Hx [B2 [C2 R2]]]]]]]].
    exists (S fuel), x, s2, evs. split; [|split; [exact Hx|split; [exact B2|split; [exact (calls_app _ _ _ _ _ C1 C2)|exact R2]]]].
    intros f Lf. destruct f as [|f]; [lia|]. cbn [device_loop]. unfold try_, bind, lift. rewrite E1.
    unfold as_instruction. rewrite (packet_instruction _ _ _ _ Q). cbn [obind]. change (beq x55 STATUS) with true. cbv iota.
    apply E2. lia.
  - inversion Fu as [|? ? N Fu']; subst. destruct (note_carries cap K _ N Hk) as [p [C [i [params [Em [Q [Mn [Fr Hi]]]]]]]].
    change (wires (NReq o :: us)) with (wire (NReq o) ++ wires us) in B.
    destruct (box_held cap K dl s _ _ _ p ltac:(lia) B C) as [s1 [E1 [B1 C1]]].
    exists 1, (Val (Ok p)), s1, []. split; [|split; [|split; [exact B1|split; [exact C1|constructor]]]].
    + intros f Lf. destruct f as [|f]; [lia|]. cbn [device_loop]. unfold try_, bind, lift. rewrite E1.
      unfold as_instruction. rewrite (packet_instruction _ _ _ _ Q). cbn [obind].
      destruct (beq i STATUS) eqn:Bi; [apply beq_true in Bi; contradiction|]. reflexivity.
    + exists p, i, params. auto.
  - inversion Fg as [|? ? Ck Fg']; subst. destruct Ck as [_ [Fl Ll]]. cbn [map chunk] in B.
    destruct (box_chunk cap K dl s _ _ ltac:(lia) B Ll) as [E1 [B1 C1]].
    destruct (IH Fl Fg' _ Hk B1) as [fuel [y [s2 [evs [E2 [Hx [B2 [C2 R2]]]]]]]].
    exists (S fuel), y, s2, (LRead dl K (Ok (wires (x :: l))) :: evs).
    split; [|split; [exact Hx|split; [exact B2|split]]].
    + intros f Lf. rewrite <- (E2 f) by lia. destruct f as [|f]; [lia|]. cbn [device_loop]. unfold try_, bind. rewrite E1. reflexivity.
    + exact (calls_app _ _ _ _ _ C1 C2).
    + constructor; [cbn; lia|exact R2].
  - cbn [map chunk] in B. destruct (box_error cap K dl s _ _ ltac:(lia) B) as [s1 [E1 [B1 C1]]].
    exists 1, (Val (Err (RIo (IoTimeout 0)))), s1, [LRead dl K (Err (IoTimeout 0))].
    split; [|split; [reflexivity|split; [exact B1|split; [exact C1|constructor; [cbn; lia|constructor]]]]].
    intros f Lf. destruct f as [|f]; [lia|]. cbn [device_loop]. unfold try_, bind, ret. rewrite E1. reflexivity.
  - cbn [map chunk] in B. destruct (box_end cap K dl s ltac:(lia) B) as [s1 [E1 [B1 C1]]].
    exists 1, Blocked, s1, [LReadWait dl K].
    split; [|split; [reflexivity|split; [exact B1|split; [exact C1|constructor; [cbn; lia|constructor]]]]].
    intros f Lf. destruct f as [|f]; [lia|]. cbn [device_loop]. unfold try_, bind. rewrite E1. reflexivity.
Qed.

Lemma box_deadline : forall cap K t s u sc, box cap K s u sc -> box cap K (after_deadline t s) u sc.
Proof. intros cap K t s u sc [H R U S]. constructor; [destruct H; constructor; assumption|exact R|exact U|exact S]. Qed.

Lemma device_read_heeds : forall cap K t us gs r us' gs' s, 10 <= cap -> cap <= K -> heed us gs r us' gs' ->
  Forall (note_ok cap) us -> Forall (chunk_ok cap K) gs -> box cap K s (wires us) (map chunk gs) ->
  exists x s' evs, device_read t s = (x, s') /\
    match r with
    | None => x = Blocked
    | Some None => x = Val (Err (RIo (IoTimeout 0)))
    | Some (Some o) => x = Val (Ok (mkInstruction (packet_id_for o) (instruction_for o)))
    end /\ box cap K s' (wires us') (map chunk gs') /\ calls s s' evs /\ Forall (roomy K) evs.
Proof.
  intros cap K t us gs r us' gs' s Hc Hk H Fu Fg B.
  destruct (loop_heeds cap K (deadline_of t s) us gs r us' gs' Hc H Fu Fg _ Hk (box_deadline _ _ t _ _ _ B))
    as [fuel [x [s' [evs [E [Hx [B' [C R]]]]]]]].
  assert (E2 : read_raw_instruction_timeout t s = (x, s')).
  { unfold read_raw_instruction_timeout. unfold bind at 1. rewrite make_deadline_eq. unfold bind, get.
    rewrite <- (E (fuel + device_fuel (after_deadline t s)) ltac:(lia)).
    apply device_loop_fuel_irrelevant; [apply B| |]; pose proof (device_fuel_enough (after_deadline t s)); lia. }
  assert (C2 : calls s s' (LDeadline (deadline_of t s) :: evs)).
  { apply (calls_app s (after_deadline t s) s' [LDeadline (deadline_of t s)] evs); [reflexivity|exact C]. }
  unfold device_read, try_. unfold bind at 1. rewrite E2.
  destruct r as [[o|]|]; cbn [heeded] in Hx.
  - destruct Hx as [p [i [params [-> [Em [Q [Mn Fr]]]]]]]. destruct (L_C44_malformed_rejected _ _ _ _ Q) as [A _].
    destruct (A Fr) as [ins' [E3 M']]. unfold bind, lift, ret. rewrite E3. cbn [map_err].
    rewrite (L_C44_meaning_is_unique _ _ _ _ Mn M'). do 3 eexists. split; [reflexivity|]. split; [reflexivity|].
    split; [exact B'|]. split; [exact C2|]. constructor; [exact I|exact R].
  - subst x. do 3 eexists. split; [reflexivity|]. split; [reflexivity|].
    split; [exact B'|]. split; [exact C2|]. constructor; [exact I|exact R].
  - subst x. do 3 eexists. split; [reflexivity|]. split; [reflexivity|].
    split; [exact B'|]. split; [exact C2|]. constructor; [exact I|exact R].
Qed.

(** ** The loop of a motor *)

Lemma roomy_room_ok : forall K evs, Forall (roomy K) evs -> Forall (room_ok K) evs.
Proof.
  intros K evs F. induction F as [|e evs H F IH]; constructor; [|exact IH]. destruct e; cbn in *; try contradiction; auto.
Qed.

(** What the motor sends for one operation. *)
Definition reply1 (o : op) (m : motor) : list (list byte) := if responds o m then [sent_by o m] else [].

Lemma works_same : forall A cap (m : M A) s a, works cap m s a [] s -> m s = (Val a, s).
Proof. intros A cap m s a [E _]. exact E. Qed.

Lemma iteration_heeds : forall cap K ms m us gs r us' gs' s, 16 <= cap -> cap <= K -> heed us gs r us' gs' ->
  Forall (note_ok cap) us -> Forall (chunk_ok cap K) gs -> box cap K s (wires us) (map chunk gs) -> In m ms ->
  match r with Some (Some o) => possible comes_back cap ms o | _ => True end ->
  exists x s' evs, mock_iteration (m_id m) (state_of m) s = (x, s') /\ calls s s' evs /\ Forall (room_ok K) evs /\
    match r with
    | None => x = Blocked /\ written evs = []
    | Some None => x = Val (state_of m) /\ written evs = [] /\ box cap K s' (wires us') (map chunk gs')
    | Some (Some o) => x = Val (state_of (touched o m)) /\ written evs = reply1 o m /\
        box cap K s' (if responds o m then [] else wires us') (map chunk gs')
    end.
Proof.
  intros cap K ms m us gs r us' gs' s Hc Hk H Fu Fg B Hin P.
  destruct (device_read_heeds cap K dur_10ms us gs r us' gs' s ltac:(lia) Hk H Fu Fg B) as [x [s1 [evs [E [Hx [B1 [C1 R1]]]]]]].
  pose proof (roomy_room_ok _ _ R1) as Ro. pose proof (written_reads _ (roomy_only_reads _ _ R1)) as Wr.
  unfold mock_iteration. unfold bind at 1. rewrite E. destruct r as [[o|]|].
  - subst x. cbn [i_id i_instruction]. pose proof (bx_hardy _ _ _ _ _ B1) as H1.
    assert (Sy : (exists a n l, o = OpSyncWrite a n l) \/ (forall a n l, o <> OpSyncWrite a n l))
      by (destruct o; try (right; discriminate); left; eauto).
    destruct Sy as [[a [n [l ->]]]|Ns].
    { change (packet_id_for (OpSyncWrite a n l)) with xfe. rewrite beq_refl, andb_false_r. cbn [instruction_for].
      rewrite (works_same _ _ _ _ _ (handle_sync_works cap ms a n l m s1 H1 P Hin)).
      exists (Val (state_of (touched (OpSyncWrite a n l) m))), s1, evs.
      split; [reflexivity|]. split; [exact C1|]. split; [exact Ro|]. split; [reflexivity|]. split; [exact Wr|exact B1]. }
    assert (Ad : responds o m = addressed (packet_id_for o) m) by (destruct o; try reflexivity; destruct (Ns _ _ _ eq_refl)).
    rewrite <- negb_orb. fold (addressed (packet_id_for o) m). rewrite <- Ad. unfold reply1. destruct (responds o m) eqn:Re; cbn [negb].
    + destruct (handle_works cap ms o m s1 Hc H1 P Hin Re) as [s2 [[W1 [W2 _]] [_ [S1 [S2 [S3 S4]]]]]]. rewrite W1.
      exists (Val (state_of (touched o m))), s2, (evs ++ [LDiscard None; LWrite (sent_by o m) None]).
      split; [reflexivity|]. split.
      { apply (calls_app _ _ _ _ _ C1). unfold sent_by. rewrite Re. exact S4. }
      split; [apply Forall_app; split; [exact Ro|repeat constructor]|]. split; [reflexivity|].
      split; [rewrite written_app, Wr; reflexivity|].
      constructor; [exact W2|rewrite S3; apply B1|exact S1|rewrite S2; apply B1].
    + rewrite (touched_other o m Ns Re). exists (Val (state_of m)), s1, evs. auto 7.
  - subst x. exists (Val (state_of m)), s1, evs. cbn [is_timeout_error]. auto 7.
  - subst x. exists Blocked, s1, evs. auto.
Qed.

Definition reqs (l : list note) : list op := flat_map (fun n => match n with NReq o => [o] | _ => [] end) l.
Definition flat (gs : list (option (list note))) : list note := flat_map (fun g => match g with Some l => l | None => [] end) gs.

Lemma reqs_app : forall a b, reqs (a ++ b) = reqs a ++ reqs b.
Proof. intros. apply flat_map_app. Qed.
Lemma flat_app : forall a b, flat (a ++ b) = flat a ++ flat b.
Proof. intros. apply flat_map_app. Qed.

(** After a request that the motor answers no other request is in the same read. *)
Definition calm (m : motor) (l : list note) : Prop :=
  forall a o b, l = a ++ NReq o :: b -> responds o m = true -> reqs b = [].
Definition calm_chunk (m : motor) (g : option (list note)) : Prop := match g with Some l => calm m l | None => True end.

Lemma calm_tail : forall m x l, calm m (x :: l) -> calm m l.
Proof. intros m x l C a o b E. apply (C (x :: a)). rewrite E. reflexivity. Qed.

Lemma heed_rest : forall cap K m us gs r us' gs', heed us gs r us' gs' ->
  Forall (note_ok cap) us -> Forall (chunk_ok cap K) gs -> calm m us -> Forall (calm_chunk m) gs ->
  Forall (note_ok cap) us' /\ Forall (chunk_ok cap K) gs' /\ calm m us' /\ Forall (calm_chunk m) gs' /\
  match r with
  | None => reqs (us ++ flat gs) = []
  | Some None => us' = [] /\ reqs (us ++ flat gs) = reqs (flat gs')
  | Some (Some o) => reqs (us ++ flat gs) = o :: reqs (us' ++ flat gs') /\ (responds o m = true -> reqs us' = [])
  end.
Proof.
  intros cap K m us gs r us' gs' H. induction H as [id e ps us gs r us' gs' H IH|o us gs|x l gs r us' gs' H IH|gs|]; intros Fu Fg Cu Cg.
  - inversion Fu; subst. exact (IH H3 Fg (calm_tail _ _ _ Cu) Cg).
  - inversion Fu; subst. split; [assumption|]. split; [exact Fg|]. split; [exact (calm_tail _ _ _ Cu)|]. split; [exact Cg|].
    split; [reflexivity|]. intro Re. exact (Cu [] o us eq_refl Re).
  - inversion Fg as [|? ? Ck Fg']; subst. destruct Ck as [_ [Fl _]]. inversion Cg; subst.
    exact (IH Fl Fg' H2 H3).
  - inversion Fg; subst. inversion Cg; subst. split; [constructor|]. split; [assumption|]. split; [exact Cu|].
    split; [assumption|]. split; reflexivity.
  - split; [constructor|]. split; [constructor|]. split; [exact Cu|]. split; [constructor|reflexivity].
Qed.

Fixpoint replies (m : motor) (os : list op) : list (list byte) :=
  match os with
  | [] => []
  | o :: os' => reply1 o m ++ replies (touched o m) os'
  end.

Lemma responds_touched : forall o o' m, responds o (touched o' m) = responds o m.
Proof. intros o o' m. unfold responds, addressed. rewrite touched_id. reflexivity. Qed.

Lemma calm_touched : forall o m l, calm m l -> calm (touched o m) l.
Proof. intros o m l C a o' b E. rewrite responds_touched. exact (C a o' b E). Qed.

Lemma calm_chunks_touched : forall o m gs, Forall (calm_chunk m) gs -> Forall (calm_chunk (touched o m)) gs.
Proof.
  intros o m gs F. induction F as [|[l|] gs C F IH]; constructor; try exact IH; [apply calm_touched, C|exact I].
Qed.

Lemma run_total : forall cap K k us gs ms m s, 16 <= cap -> cap <= K -> length us + count gs <= k ->
  Forall (note_ok cap) us -> Forall (chunk_ok cap K) gs -> calm m us -> Forall (calm_chunk m) gs ->
  box cap K s (wires us) (map chunk gs) -> In m ms -> all_possible comes_back cap ms (reqs (us ++ flat gs)) ->
  exists evs, mock_run (m_id m) (state_of m) s evs (state_of (after_ops (reqs (us ++ flat gs)) m)) Blocked /\
    written evs = replies m (reqs (us ++ flat gs)) /\ Forall (room_ok K) evs.
Proof.
  intros cap K k. induction k as [k IH] using lt_wf_ind. intros us gs ms m s Hc Hk L Fu Fg Cu Cg B Hin P.
  destruct (heed_total cap K k us gs L Fg) as [r [us' [gs' H]]].
  pose proof (heed_size _ _ _ _ _ H) as Sz.
  destruct (heed_rest cap K m _ _ _ _ _ H Fu Fg Cu Cg) as [Fu' [Fg' [Cu' [Cg' Rq]]]].
  assert (Po : match r with Some (Some o) => possible comes_back cap ms o | _ => True end).
  { destruct r as [[o|]|]; try exact I. destruct Rq as [Rq _]. rewrite Rq in P. apply P. }
  destruct (iteration_heeds cap K ms m us gs r us' gs' s Hc Hk H Fu Fg B Hin Po) as [x [s' [evs [E [C [Ro Hx]]]]]].
  destruct r as [[o|]|].
  - destruct Rq as [Rq Ra]. destruct Hx as [-> [Wr B']]. rewrite Rq in *. cbn [all_possible] in P. destruct P as [_ P].
    set (us2 := if responds o m then [] else us').
    assert (Rq2 : reqs (us2 ++ flat gs') = reqs (us' ++ flat gs')).
    { unfold us2. destruct (responds o m) eqn:Re; [|reflexivity]. rewrite !reqs_app, (Ra eq_refl). reflexivity. }
    destruct (IH (length us2 + count gs')) with (us := us2) (gs := gs') (ms := map (touched o) ms) (m := touched o m) (s := s')
      as [evs2 [Ru [Wr2 Ro2]]]; auto.
    + unfold us2. destruct (responds o m); cbn [length] in *; lia.
    + unfold us2. destruct (responds o m); [constructor|exact Fu'].
    + apply calm_touched. unfold us2. destruct (responds o m); [|exact Cu']. intros a o' b Ea. destruct a; discriminate Ea.
    + apply calm_chunks_touched, Cg'.
    + unfold us2. destruct (responds o m); exact B'.
    + apply in_map, Hin.
    + rewrite Rq2. exact P.
    + rewrite touched_id, Rq2 in *. exists (evs ++ evs2). split; [|split].
      * eapply run_goes; eauto.
      * rewrite written_app, Wr, Wr2. reflexivity.
      * apply Forall_app; auto.
  - destruct Rq as [-> Rq]. destruct Hx as [-> [Wr B']]. rewrite Rq in *.
    destruct (IH (length (@nil note) + count gs')) with (us := @nil note) (gs := gs') (ms := ms) (m := m) (s := s')
      as [evs2 [Ru [Wr2 Ro2]]]; auto; [cbn [length] in *; lia|]. cbn [app] in *.
    exists (evs ++ evs2). split; [eapply run_goes; eauto|]. split; [rewrite written_app, Wr, Wr2; reflexivity|apply Forall_app; auto].
  - destruct Hx as [-> Wr]. rewrite Rq in *. exists evs. split; [|split; [exact Wr|exact Ro]].
    eapply run_stops; [exact E|discriminate|exact C].
Qed.

Lemma mock_run_fun : forall id st s evs st' o, mock_run id st s evs st' o ->
  forall evs2 st2 o2, mock_run id st s evs2 st2 o2 -> evs2 = evs /\ st2 = st' /\ o2 = o.
Proof.
  intros id st s evs st' o H. induction H as [st s o s' evs E N C|st s st1 s1 e1 e2 st2 o E C H IH]; intros f st3 o3 H2.
  - inversion H2 as [? ? ? ? ? E2 N2 C2|? ? ? ? ? ? ? ? E2]; subst.
    + rewrite E2 in E. injection E as <- <-. split; [exact (calls_inj _ _ _ _ C2 C)|auto].
    + rewrite E2 in E. injection E as <- <-. exfalso. exact (N _ eq_refl).
  - inversion H2 as [? ? ? ? ? E2 N2 C2|? ? ? ? ? ? ? ? E2 C2 H3]; subst.
    + rewrite E2 in E. injection E as -> ->. exfalso. exact (N2 _ eq_refl).
    + rewrite E2 in E. injection E as -> ->. rewrite (calls_inj _ _ _ _ C2 C). destruct (IH _ _ _ H3) as [-> [-> ->]]. auto.
Qed.

(** ** The calls of the client *)

Lemma shaped_sent : forall R (m : M R) id i params k fin cap s, shaped m id i params k fin -> hardy cap s ->
  passes comes_back cap (i :: params) ->
  exists s1, hardy cap s1 /\ sent s (code_wire id (i :: params)) s1 /\ m s = (r <- read_status_response k ;; lift (fin r)) s1.
Proof.
  intros R m id i params k fin cap s [enc [Hw [Hk Sh]]] H P.
  destruct (sends_works cap _ id i params s (sends_instruction id i params enc Hw) H P) as [s1 [[W1 [W2 _]] [_ [_ Q]]]].
  exists s1. split; [exact W2|]. split; [exact Q|apply Sh, W1].
Qed.

Lemma read_status_quiet : forall cap k s x s', hardy cap s -> is_u16 k -> read_status_response k s = (x, s') ->
  hardy cap s' /\ exists evs, calls s s' evs /\ written evs = [].
Proof.
  intros cap k s x s' H Hk E.
  destruct (read_status_spec _ _ _ _ (ha_inv _ _ H) E) as [[p [T _]]|[t [o1 [_ [_ [_ [I T]]]]]]].
  { exfalso. destruct (response_timeout_val (b_dbg s) (b_baud s) k Hk (ha_baud _ _ H)) as [t T']. congruence. }
  split; [apply (timed_hardy cap t _ _ T I H)|]. destruct (timed_calls _ _ _ T) as [evs [C F]]. eexists.
  split; [exact C|]. cbn. apply written_reads, (reads_only _ _ F).
Qed.

Lemma shaped_written : forall R (m : M R) id i params k fin cap s, shaped m id i params k fin -> hardy cap s ->
  passes comes_back cap (i :: params) ->
  exists o s' evs, m s = (o, s') /\ hardy cap s' /\ calls s s' evs /\ written evs = [code_wire id (i :: params)].
Proof.
  intros R m id i params k fin cap s Sh H P.
  destruct (shaped_sent _ _ _ _ _ _ _ cap s Sh H P) as [s1 [H1 [[S1 [S2 [S3 S4]]] E]]].
  destruct Sh as [enc [_ [Hk _]]]. destruct (read_status_response k s1) as [x s2] eqn:Er.
  destruct (read_status_quiet cap k s1 x s2 H1 Hk Er) as [H2 [evs [C W]]].
  unfold bind, lift in E. rewrite Er in E.
  exists (match x with Val a => fin a | Panic p => Panic p | Blocked => Blocked end), s2, ([LDiscard None; LWrite (code_wire id (i :: params)) None] ++ evs).
  split; [rewrite E; destruct x; reflexivity|]. split; [exact H2|]. split; [exact (calls_app _ _ _ _ _ S4 C)|].
  rewrite written_app, W. reflexivity.
Qed.

Lemma shaped_waits : forall R (m : M R) id i params k fin cap s, shaped m id i params k fin -> 16 <= cap -> hardy cap s ->
  passes comes_back cap (i :: params) -> p_script (b_port s) = [] -> fst (m s) = Blocked.
Proof.
  intros R m id i params k fin cap s Sh Hc H P S.
  destruct (shaped_sent _ _ _ _ _ _ _ cap s Sh H P) as [s1 [H1 [[S1 [S2 [S3 S4]]] E]]].
  destruct Sh as [enc [_ [Hk _]]]. destruct (read_status_response k s1) as [x s2] eqn:Er.
  unfold bind, lift in E. rewrite E, Er.
  destruct (read_status_spec _ _ _ _ (ha_inv _ _ H1) Er) as [[p [T _]]|[t [o1 [_ [Id [Ho _]]]]]].
  { exfalso. destruct (response_timeout_val (b_dbg s1) (b_baud s1) k Hk (ha_baud _ _ H1)) as [t T']. congruence. }
  rewrite pending_unread, S1, S2, S in Id. pose proof (ha_rcap _ _ H1) as Hr. unfold ideal in Id.
  replace (length (b_rbuf s1) <? 10) with false in Id by lia. cbn in Id. injection Id as <- _. cbn in Ho. subst x. reflexivity.
Qed.

Lemma shaped_left : forall R (m : M R) id i params k fin cap s id' e ps rest, shaped m id i params k fin -> 16 <= cap ->
  hardy cap s -> passes comes_back cap (i :: params) -> passes comes_back cap (x55 :: e :: ps) ->
  p_script (b_port s) = RdData (code_wire id' (x55 :: e :: ps)) :: rest -> p_script (b_port (snd (m s))) = rest.
Proof.
  intros R m id i params k fin cap s id' e ps rest Sh Hc H P Ps S.
  destruct (shaped_sent _ _ _ _ _ _ _ cap s Sh H P) as [s1 [H1 [[S1 [S2 [S3 S4]]] E]]].
  destruct Sh as [enc [_ [Hk _]]]. destruct (read_status_response k s1) as [x s2] eqn:Er.
  unfold bind, lift in E. rewrite E, Er.
  assert (K : p_script (b_port s2) = rest).
  { destruct (status_read_script k s1 x s2 (ha_inv _ _ H1) (ha_baud _ _ H1) Hk Er) as [dl [s0 [o0 [R0 [Rb [U0 [S0 Rd]]]]]]].
    pose proof (ha_rcap _ _ H1) as Hr. destruct (passes_length cap id' x55 (e :: ps) Ps) as [L1 L2].
    apply (chunk_left dl s0 (code_wire id' (x55 :: e :: ps)) rest o0 s2 R0); try congruence; rewrite ?Rb; try lia.
    destruct (carries_wire cap (length (b_rbuf s1)) id' x55 (e :: ps) Ps Hr) as [p [C _]].
    destruct (C []) as [ev [Ne _]]. rewrite app_nil_r in Ne. rewrite Ne. discriminate. }
  destruct x; exact K.
Qed.

Definition answer_note (o : op) (m : motor) : note := NSts (m_id m) (fst (status_for o m)) (snd (status_for o m)).

(** What the motors answer. *)
Definition answer1 (o : op) (ms : list motor) : list note :=
  flat_map (fun m => if responds o m then [answer_note o m] else []) ms.
Fixpoint answers_of (ms : list motor) (os : list op) : list note :=
  match os with
  | [] => []
  | o :: os' => answer1 o ms ++ answers_of (map (touched o) ms) os'
  end.

Definition single (n : note) : rd_event := RdData (wire n).

(** The call has somebody to answer it, if it needs one. *)
Definition served (ids : list byte) (o : op) : Prop := forall id, target o = Some id -> In id ids.

Lemma answer1_none : forall o id ms, target o = Some id -> ~ In id (map m_id ms) -> answer1 o ms = [].
Proof.
  intros o id ms Ht. induction ms as [|m ms IH]; intro N; [reflexivity|]. unfold answer1. cbn [flat_map]. fold (answer1 o ms).
  rewrite IH by (intro K; apply N; right; exact K). rewrite (responds_target o m id Ht).
  destruct (beq id (m_id m)) eqn:B; [|reflexivity]. apply beq_true in B. exfalso. apply N. left. auto.
Qed.

Lemma answer1_one : forall o ms m, target o = Some (m_id m) -> NoDup (map m_id ms) -> In m ms -> answer1 o ms = [answer_note o m].
Proof.
  intros o ms m Ht N Hin. induction ms as [|m' ms IH]; [contradiction|]. unfold answer1. cbn [flat_map]. fold (answer1 o ms).
  inversion N as [|? ? N1 N2]; subst. rewrite (responds_target o m' _ Ht). destruct Hin as [->|Hin].
  - rewrite (answer1_none o (m_id m) ms Ht N1), beq_refl. reflexivity.
  - rewrite (IH N2 Hin). destruct (beq (m_id m) (m_id m')) eqn:B; [|reflexivity].
    apply beq_true in B. exfalso. apply N1. rewrite <- B. apply in_map, Hin.
Qed.

Lemma answer1_sync : forall a n l ms, answer1 (OpSyncWrite a n l) ms = [].
Proof. intros a n l ms. induction ms as [|m ms IH]; [reflexivity|exact IH]. Qed.

Lemma target_packet_id : forall o id, target o = Some id -> packet_id_for o = id.
Proof. intros o id H. unfold packet_id_for. rewrite H. reflexivity. Qed.

(** One call that is answered. *)
Lemma perform_answered : forall cap ms o m s rest, 16 <= cap -> possible comes_back cap ms o -> target o = Some (m_id m) ->
  In m ms -> hardy cap s -> p_script (b_port s) = single (answer_note o m) :: rest ->
  exists s' evs, perform o s = (Val (answered o m), s') /\ hardy cap s' /\ p_script (b_port s') = rest /\
    calls s s' evs /\ written evs = [wire (NReq o)].
Proof.
  intros cap ms o m s rest Hc P Ht Hin H S. pose proof P as [Pr [Pm _]].
  destruct (op_shaped ms o (m_id m) Pr Ht) as [i [params [k [fin [Em [Sh [A1 [A2 _]]]]]]]]. rewrite Em in Pm.
  destruct (shaped_written _ _ _ _ _ _ _ cap s Sh H Pm) as [x [s' [evs [E [H' [C W]]]]]].
  assert (Re : responds o m = true) by (rewrite (responds_target o m _ Ht); apply beq_refl).
  assert (Ps : passes comes_back cap (x55 :: fst (status_for o m) :: snd (status_for o m))).
  { apply (status_passes cap ms o m); auto. destruct (status_for o m); reflexivity. }
  exists s', evs. split; [|split; [exact H'|split; [|split; [exact C|]]]].
  - rewrite E. f_equal.
    destruct (shaped_reads _ _ _ _ _ _ _ cap s Sh H Pm Hc) as [K _].
    destruct (K (m_id m) (fst (status_for o m)) (snd (status_for o m)) (items rest) Ps) as [K1 K2].
    { unfold incoming. rewrite S. reflexivity. }
    rewrite E in K1, K2. cbn [fst] in K1, K2.
    destruct (N.eq_dec (b2n (fst (status_for o m)) mod 128) 0) as [Z|Z].
    + destruct (K1 Z) as [p [Q ->]]. exact (A1 p m eq_refl Z Q).
    + rewrite (K2 Z). exact (A2 m Z).
  - pose proof (shaped_left _ _ _ _ _ _ _ cap s _ _ _ rest Sh Hc H Pm Ps S) as K. rewrite E in K. exact K.
  - rewrite W. cbn [wire]. rewrite (target_packet_id _ _ Ht), Em. reflexivity.
Qed.

Lemma perform_waits : forall cap ms o id s, 16 <= cap -> possible comes_back cap ms o -> target o = Some id ->
  hardy cap s -> p_script (b_port s) = [] ->
  exists s' evs, perform o s = (Blocked, s') /\ calls s s' evs /\ written evs = [wire (NReq o)].
Proof.
  intros cap ms o id s Hc P Ht H S. pose proof P as [Pr [Pm _]].
  destruct (op_shaped ms o id Pr Ht) as [i [params [k [fin [Em [Sh _]]]]]]. rewrite Em in Pm.
  destruct (shaped_written _ _ _ _ _ _ _ cap s Sh H Pm) as [x [s' [evs [E [H' [C W]]]]]].
  pose proof (shaped_waits _ _ _ _ _ _ _ cap s Sh Hc H Pm S) as K. rewrite E in K. cbn [fst] in K. subst x.
  exists s', evs. split; [exact E|]. split; [exact C|]. rewrite W. cbn [wire]. rewrite (target_packet_id _ _ Ht), Em. reflexivity.
Qed.

Lemma perform_sync : forall cap ms a n l s, possible comes_back cap ms (OpSyncWrite a n l) -> hardy cap s ->
  exists s' evs, perform (OpSyncWrite a n l) s = (Val (RepSent (Ok tt)), s') /\ hardy cap s' /\
    p_script (b_port s') = p_script (b_port s) /\ calls s s' evs /\ written evs = [wire (NReq (OpSyncWrite a n l))].
Proof.
  intros cap ms a n l s [[Ha [Hn [Hl _]]] [Pm _]] H.
  pose proof (sends_instruction xfe x83 _ _ (sync_write_bytes_writes a n l Hl)) as Sd.
  destruct (sends_works cap _ xfe x83 _ s Sd H Pm) as [s' [[W1 [W2 _]] [_ [_ [_ [S2 [_ S4]]]]]]].
  exists s', [LDiscard None; LWrite (wire (NReq (OpSyncWrite a n l))) None].
  assert (E : 4 + length l * (1 + N.to_nat n) = length (le16 a ++ le16 n ++ sync_entries l)).
  { rewrite !app_length, (sync_entries_length _ _ Hl). reflexivity. }
  split; [|split; [exact W2|split; [exact S2|split; [exact S4|reflexivity]]]].
  cbn [perform]. unfold bind. unfold sync_write_bytes. cbv zeta. rewrite E.
  change SYNC_WRITE with x83. change BROADCAST with xfe. rewrite W1. reflexivity.
Qed.

(** ** A sequence of calls *)

Fixpoint all_after (os : list op) (ms : list motor) : list motor :=
  match os with [] => ms | o :: os' => all_after os' (map (touched o) ms) end.

Lemma remote_app : forall ms os rs ms1, remote ms os rs ms1 -> forall os2 rs2 ms2, remote ms1 os2 rs2 ms2 ->
  remote ms (os ++ os2) (rs ++ rs2) ms2.
Proof. intros ms os rs ms1 H. induction H; intros os2 rs2 ms2 H2; [exact H2|]. cbn [app]. econstructor; eauto. Qed.

Lemma remote_length : forall ms os rs ms', remote ms os rs ms' -> length rs = length os.
Proof. intros ms os rs ms' H. induction H; cbn [length]; congruence. Qed.

(** What the client sends without getting anything. *)
Fixpoint lead (os : list op) : list op :=
  match os with
  | [] => []
  | o :: os' => match target o with Some _ => [o] | None => o :: lead os' end
  end.

Lemma perform_all_answered : forall cap os1 ms s os2 rest, 16 <= cap -> NoDup (map m_id ms) -> all_possible comes_back cap ms os1 ->
  Forall directed os1 -> Forall (served (map m_id ms)) os1 -> hardy cap s ->
  p_script (b_port s) = map single (answers_of ms os1) ++ rest ->
  exists rs s1 evs, (forall rs2 x s2, perform_all os2 s1 = (rs2, x, s2) -> perform_all (os1 ++ os2) s = (rs ++ rs2, x, s2)) /\
    hardy cap s1 /\ p_script (b_port s1) = rest /\ calls s s1 evs /\ written evs = map (fun o => wire (NReq o)) os1 /\
    remote ms os1 rs (all_after os1 ms).
Proof.
  intros cap os1. induction os1 as [|o os1 IH]; intros ms s os2 rest Hc Nd P D Sv H S.
  - exists [], s, []. split; [auto|]. split; [exact H|]. split; [exact S|]. split; [apply calls_same|]. split; [reflexivity|constructor].
  - destruct P as [P1 P2]. inversion D as [|? ? D1 D2]; subst. inversion Sv as [|? ? Sv1 Sv2]; subst.
    cbn [answers_of] in S. rewrite map_app, <- app_assoc in S.
    assert (K : exists r s1 evs, perform o s = (Val r, s1) /\ hardy cap s1 /\
      p_script (b_port s1) = map single (answers_of (map (touched o) ms) os1) ++ rest /\ calls s s1 evs /\
      written evs = [wire (NReq o)] /\ answers o ms r).
    { destruct (target o) as [id|] eqn:Ht.
      - destruct (answerer id ms) as [[m [Hin Hm]]|N]; [|destruct (N (Sv1 id Ht))]. subst id.
        rewrite (answer1_one o ms m Ht Nd Hin) in S.
        destruct (perform_answered cap ms o m s _ Hc P1 Ht Hin H S) as [s1 [evs [E [H1 [S1 [C W]]]]]].
        exists (answered o m), s1, evs. repeat (split; [assumption|]). unfold answers. rewrite Ht. left. eauto.
      - destruct D1 as [D1|[a [n [l ->]]]]; [contradiction|]. rewrite answer1_sync in S.
        destruct (perform_sync cap ms a n l s P1 H) as [s1 [evs [E [H1 [S1 [C W]]]]]]. rewrite S in S1.
        exists (RepSent (Ok tt)), s1, evs. repeat (split; [assumption|]). reflexivity. }
    destruct K as [r [s1 [evs [E [H1 [S1 [C [W A]]]]]]]].
    destruct (IH (map (touched o) ms) s1 os2 rest Hc ltac:(rewrite touched_ids; exact Nd) P2 D2 ltac:(rewrite touched_ids; exact Sv2) H1 S1)
      as [rs [s2 [evs2 [E2 [H2 [S2 [C2 [W2 R2]]]]]]]].
    exists (r :: rs), s2, (evs ++ evs2). split.
    { intros rs2 x s3 E3. cbn [app perform_all]. rewrite E, (E2 _ _ _ E3). reflexivity. }
    split; [exact H2|]. split; [exact S2|]. split; [exact (calls_app _ _ _ _ _ C C2)|].
    split; [rewrite written_app, W, W2; reflexivity|]. cbn [all_after]. econstructor; eauto.
Qed.

Lemma perform_all_leads : forall cap os ms s, 16 <= cap -> all_possible comes_back cap ms os -> Forall directed os ->
  hardy cap s -> p_script (b_port s) = [] ->
  exists rs x s' evs, perform_all os s = (rs, x, s') /\ calls s s' evs /\
    written evs = map (fun o => wire (NReq o)) (lead os) /\ (x = Val tt /\ length rs = length os \/ x = Blocked /\ exists o id, nth_error os (length rs) = Some o /\ target o = Some id) /\
    length rs <= length os /\ Forall (fun o => target o = None) (firstn (length rs) os) /\
    exists ms', remote ms (firstn (length rs) os) rs ms'.
Proof.
  intros cap os. induction os as [|o os IH]; intros ms s Hc P D H S.
  - exists [], (Val tt), s, []. split; [reflexivity|]. split; [apply calls_same|]. split; [reflexivity|]. split; [left; split; reflexivity|].
    split; [reflexivity|]. split; [constructor|]. exists ms. constructor.
  - destruct P as [P1 P2]. inversion D as [|? ? D1 D2]; subst. cbn [perform_all lead]. destruct (target o) as [id|] eqn:Ht.
    + destruct (perform_waits cap ms o id s Hc P1 Ht H S) as [s1 [evs [E [C W]]]]. rewrite E.
      exists [], Blocked, s1, evs. split; [reflexivity|]. split; [exact C|]. split; [exact W|]. split; [right; split; [reflexivity|exists o, id; split; [reflexivity|exact Ht]]|].
      split; [cbn; lia|]. split; [constructor|]. exists ms. constructor.
    + destruct D1 as [D1|[a [n [l ->]]]]; [contradiction|].
      destruct (perform_sync cap ms a n l s P1 H) as [s1 [evs [E [H1 [S1 [C W]]]]]]. rewrite S in S1. rewrite E.
      destruct (IH _ s1 Hc P2 D2 H1 S1) as [rs [x [s2 [evs2 [E2 [C2 [W2 [Hx [L2 [N2 [ms' R2]]]]]]]]]]]. rewrite E2.
      exists (RepSent (Ok tt) :: rs), x, s2, (evs ++ evs2). split; [reflexivity|]. split; [exact (calls_app _ _ _ _ _ C C2)|].
      split; [rewrite written_app, W, W2; reflexivity|]. split; [cbn [length]; destruct Hx as [[-> Hx]|Hx]; auto|]. split; [cbn; lia|].
      cbn [length firstn]. split; [constructor; assumption|]. exists ms'. econstructor; [reflexivity|exact R2].
Qed.
