(** * TwinProofs: leftovers in the buffers have no effect *)
From Coq Require Import ZArith ZifyN ZifyNat ZifyBool.
From Verif Require Import Base Endian Error Checksum Bytestuff Packet Time Bus Data Client
  Instructions Device Api Spec CallSpec StreamSpec InstructionSpec TwinSpec Lib ChecksumProofs
  CrcErrorProofs StuffProofs WriteProofs ReadProofs ApiProofs StreamProofs MessageProofs SendProofs
  SendTheorems ReadTheorems StatusProofs DeviceTheorems InstructionProofs.

(** Twins that satisfy the invariants. *)
Record tw (s t : bus) : Prop := mkTw { tw_twins : twins s t; tw_inv1 : inv s; tw_inv2 : inv t }.

Definition agree {A} (s t : bus) (x y : out A * bus) : Prop :=
  fst x = fst y /\ tw (snd x) (snd y) /\ exists evs, calls s (snd x) evs /\ calls t (snd y) evs.

Definition firm {A} (m : M A) : Prop := forall s t, tw s t -> agree s t (m s) (m t).

Lemma calls_refl : forall s, calls s s [].
Proof. intro s. unfold calls. rewrite app_nil_r. reflexivity. Qed.

Lemma agree_same : forall A (x : out A) s t, tw s t -> agree s t (x, s) (x, t).
Proof. intros A x s t H. split; [reflexivity|]. split; [exact H|]. exists []. split; apply calls_refl. Qed.

Lemma firm_ret : forall A (a : A), firm (ret a).
Proof. intros A a s t H. apply agree_same, H. Qed.
Lemma firm_lift : forall A (x : out A), firm (lift x).
Proof. intros A x s t H. apply agree_same, H. Qed.

Lemma agree_bind : forall A B (m n : M A) (k l : A -> M B) s t, agree s t (m s) (n t) ->
  (forall a s' t', tw s' t' -> agree s' t' (k a s') (l a t')) -> agree s t (bind m k s) (bind n l t).
Proof.
  intros A B m n k l s t [H1 [H2 [evs [C1 C2]]]] K. unfold bind.
  destruct (m s) as [o s1]. destruct (n t) as [o' t1]. cbn [fst snd] in *. subst o'.
  destruct o as [a|p|].
  - destruct (K a s1 t1 H2) as [K1 [K2 [evs' [C3 C4]]]].
    split; [exact K1|]. split; [exact K2|]. exists (evs ++ evs').
    split; [apply (calls_trans _ _ _ _ _ C1 C3)|apply (calls_trans _ _ _ _ _ C2 C4)].
  - split; [reflexivity|]. split; [exact H2|]. exists evs. auto.
  - split; [reflexivity|]. split; [exact H2|]. exists evs. auto.
Qed.

Lemma firm_bind : forall A B (m : M A) (k : A -> M B), firm m -> (forall a, firm (k a)) -> firm (bind m k).
Proof. intros A B m k Hm Hk s t H. apply agree_bind; [apply Hm, H|]. intros a s' t' H'. apply Hk, H'. Qed.

Lemma firm_try : forall A B E F (f : E -> F) (m : M (result A E)) (k : A -> M (result B F)),
  firm m -> (forall a, firm (k a)) -> firm (try_ f m k).
Proof. intros A B E F f m k Hm Hk. apply firm_bind; [exact Hm|]. intros [a|e]; [apply Hk|apply firm_ret]. Qed.
Lemma firm_tryr : forall A B E F (f : E -> F) (r : result A E) (k : A -> M (result B F)),
  (forall a, firm (k a)) -> firm (tryr f r k).
Proof. intros A B E F f [a|e] k Hk; [apply Hk|apply firm_ret]. Qed.

Lemma firm_deadline : forall d, firm (port_make_deadline d).
Proof.
  intros d s t [T I J]. destruct T as [T1 T2 T3 T4 T5 T6 T7 T8 T9 T10].
  unfold port_make_deadline. cbv zeta. rewrite <- T10.
  split; [reflexivity|]. split.
  - constructor; [|exact I|exact J]. constructor; cbn; try assumption. rewrite T10. reflexivity.
  - eexists [_]. split; reflexivity.
Qed.

Lemma firm_set_baud : forall b, firm (set_baud_rate b).
Proof.
  intros b s t [T I J]. pose proof (keeps_set_baud b) as K.
  pose proof (fun o s' => K s o s' I) as K1. pose proof (fun o s' => K t o s' J) as K2. clear K.
  unfold agree. 
  destruct (set_baud_rate b s) as [o s'] eqn:E1. destruct (set_baud_rate b t) as [o2 t'] eqn:E2.
  specialize (K1 _ _ eq_refl). specialize (K2 _ _ eq_refl). cbn [fst snd].
  unfold set_baud_rate, try_, bind, port_set_baud, get, put, ret in E1, E2.
  destruct T as [T1 T2 T3 T4 T5 T6 T7 T8 T9 T10]. rewrite <- T9 in E2.
  destruct (p_setbauds (b_port s)) as [|[e|] l] eqn:P; injection E1 as <- <-; injection E2 as <- <-;
    (split; [reflexivity|]; split; [constructor; [constructor; cbn; try assumption; try reflexivity; rewrite ?T9; reflexivity|apply K1|apply K2]|];
     eexists [_]; split; reflexivity).
Qed.

(** ** Writing *)

Lemma agree_transmit : forall msg s t, tw s t -> wire_ok msg -> agree s t (transmit msg s) (transmit msg t).
Proof.
  intros msg s t [T I J] W.
  pose proof (fun o s' => transmit_evolves msg s o s' I W) as K1.
  pose proof (fun o s' => transmit_evolves msg t o s' J W) as K2.
  unfold agree.
  destruct (transmit msg s) as [o s'] eqn:E1. destruct (transmit msg t) as [o2 t'] eqn:E2.
  specialize (K1 _ _ eq_refl). specialize (K2 _ _ eq_refl). cbn [fst snd].
  destruct T as [T1 T2 T3 T4 T5 T6 T7 T8 T9 T10]. unfold transmit in E1, E2. rewrite <- T7, <- T8 in E2.
  destruct (hd None (p_discards (b_port s))) as [e|]; injection E1 as <- <-; injection E2 as <- <-;
    (split; [reflexivity|]; split; [constructor; [constructor; cbn; try assumption; rewrite ?T7, ?T8; reflexivity|apply K1|apply K2]|];
     eexists; split; reflexivity).
Qed.

Lemma tw_wbuf : forall s t w w', tw s t -> wbuf_ok w -> wbuf_ok w' -> length w = length w' ->
  tw (set_wbuf s w) (set_wbuf t w').
Proof.
  intros s t w w' [T I J] W W' L. constructor; [|split; [apply I|exact W]|split; [apply J|exact W']].
  destruct T. constructor; cbn; assumption.
Qed.

Lemma calls_set_wbuf : forall s w, calls s (set_wbuf s w) [].
Proof. intros. unfold calls. cbn. rewrite app_nil_r. reflexivity. Qed.

Lemma agree_value : forall id i params s t, tw s t -> agree s t (write_value s id i params) (write_value t id i params).
Proof.
  intros id i params s t H. pose proof H as [T [Ir Iw] [Jr Jw]]. unfold write_value. cbv zeta.
  rewrite <- (tw_wcap _ _ T), <- (tw_dbg _ _ T).
  destruct (length (b_wbuf s) <? length params + 10) eqn:L; [apply agree_same, H|].
  destruct (build_result (b_dbg s) (length (b_wbuf s)) (i :: params)) eqn:B.
  - apply build_ok_room in B. cbn [length] in B. pose proof (tw_wcap _ _ T) as LL.
    destruct (wire_buffer_ok id i params (b_wbuf s) ltac:(lia)) as [W1 W2].
    destruct (wire_buffer_ok id i params (b_wbuf t) ltac:(lia)) as [W3 W4].
    set (s1 := set_used _ 0). set (t1 := set_used _ 0).
    assert (H1 : tw s1 t1).
    { constructor.
      - destruct T. constructor; cbn; try assumption; try reflexivity. cbv zeta in W2, W4. cbn in W2, W4. congruence.
      - split; [split; cbn; lia|exact W1].
      - split; [split; cbn; lia|exact W3]. }
    destruct (agree_transmit (code_wire id (i :: params)) s1 t1 H1 ltac:(unfold wire_ok; eauto)) as [A1 [A2 A3]].
    split; [exact A1|]. split; [exact A2|]. exact A3.
  - destruct (pre_stuff_ok id i params (b_wbuf s) Iw ltac:(lia)) as [W1 W2].
    destruct (pre_stuff_ok id i params (b_wbuf t) Jw) as [W3 W4]; [rewrite <- (tw_wcap _ _ T); lia|].
    split; [reflexivity|]. split; [apply tw_wbuf; try assumption; pose proof (tw_wcap _ _ T); congruence|].
    exists []. split; apply calls_set_wbuf.
  - apply agree_same, H.
Qed.

Lemma firm_write_packet : forall id i n enc, encoder_ok enc -> ignores_old_bytes n enc ->
  firm (write_packet id i n enc).
Proof.
  intros id i n enc Ho Hi s t H. pose proof H as [T [Ir Iw] [Jr Jw]].
  rewrite !write_packet_gen by assumption. unfold write_gen. cbv zeta. pose proof (tw_wcap _ _ T) as LL. rewrite <- LL.
  destruct (usize_max <? N.of_nat (n + 10))%N; [apply agree_same, H|].
  destruct (length (b_wbuf s) <? n + 10) eqn:L; [apply agree_same, H|].
  specialize (Hi (firstn n (skipn 8 (b_wbuf s))) (firstn n (skipn 8 (b_wbuf t)))
    ltac:(rewrite firstn_length, skipn_length; lia) ltac:(rewrite firstn_length, skipn_length; lia)).
  destruct (enc (firstn n (skipn 8 (b_wbuf s)))) as [[p r]|p|] eqn:E1;
    destruct (enc (firstn n (skipn 8 (b_wbuf t)))) as [[p' r']|p'|] eqn:E2; try contradiction.
  - destruct Hi as [<- Hp]. destruct r as [[]|e].
    + rewrite <- (Hp eq_refl). apply agree_value, H.
    + apply Ho in E1, E2. rewrite firstn_length, skipn_length in E1, E2.
      destruct (pre_stuff_ok id i p (b_wbuf s) Iw ltac:(lia)) as [W1 W2].
      destruct (pre_stuff_ok id i p' (b_wbuf t) Jw ltac:(lia)) as [W3 W4].
      replace (8 + length p) with (8 + n) in * by lia. replace (8 + length p') with (8 + n) in * by lia.
      split; [reflexivity|]. split; [apply tw_wbuf; try assumption; congruence|].
      exists []. split; apply calls_set_wbuf.
  - subst p'. apply agree_same, H.
  - apply agree_same, H.
Qed.

Lemma ignores_status : forall e n enc, encoder_ok enc -> ignores_old_bytes n enc ->
  ignores_old_bytes (n + 1) (status_encoder e enc).
Proof.
  intros e n enc Ho H l l' L L'. destruct l as [|x l]; [cbn in L; lia|]. destruct l' as [|x' l']; [cbn in L'; lia|].
  rewrite !status_encoder_cons by exact Ho. cbn [length] in *.
  specialize (H l l' ltac:(lia) ltac:(lia)).
  destruct (enc l) as [[p r]|p|]; destruct (enc l') as [[p' r']|p'|]; cbn [obind]; try contradiction; auto.
  destruct H as [H1 H2]. split; [exact H1|]. intro K. rewrite (H2 K). reflexivity.
Qed.

Lemma firm_write_status : forall id e n enc, encoder_ok enc -> ignores_old_bytes n enc ->
  firm (write_status id e n enc).
Proof.
  intros id e n enc Ho Hi s t H. unfold write_status.
  destruct (usize_max <? N.of_nat (st_message_len n))%N; [apply agree_same, H|].
  unfold bind, get. rewrite <- (tw_wcap _ _ (tw_twins _ _ H)).
  apply (firm_tryr _ _ _ _ WBufferTooSmall (bts_check (st_message_len n) (length (b_wbuf s)))); [|exact H].
  intros _. apply firm_write_packet; [apply (status_encoder_ok e enc Ho)|apply (ignores_status e n enc Ho Hi)].
Qed.

(** ** Reading *)

Lemma twins_unread : forall s t, twins s t -> unread s = unread t.
Proof. intros s t H. apply (tw_unread _ _ H). Qed.

Lemma front_inv : forall s c, inv s -> length c <= length (b_rbuf s) -> inv (front s c).
Proof. intros s c [H1 H2] L. split; [apply front_ok, L|exact H2]. Qed.

Lemma tw_front : forall s t c, tw s t -> length c <= length (b_rbuf s) -> tw (front s c) (front t c).
Proof.
  intros s t c [T I J] L. pose proof (tw_rcap _ _ T) as LL.
  constructor; [|apply front_inv; assumption|apply front_inv; [exact J|lia]].
  pose proof (front_rbuf_length s c L). pose proof (front_rbuf_length t c ltac:(lia)).
  pose proof (front_unread s c) as U1. pose proof (front_unread t c) as U2. unfold unread in U1, U2.
  destruct T. constructor; try assumption; congruence.
Qed.

Lemma tw_logged : forall s t sc e, tw s t -> tw (logged s sc e) (logged t sc e).
Proof.
  intros s t sc e [T I J]. constructor; [|exact I|exact J]. destruct T. constructor; cbn; try assumption; reflexivity.
Qed.

Lemma tw_received : forall d s t c bs sc, tw s t -> length c + length bs <= length (b_rbuf s) ->
  tw (received d s c bs sc) (received d t c bs sc).
Proof.
  intros d s t c bs sc [T [I1 I2] [J1 J2]] L. pose proof (tw_rcap _ _ T) as LL.
  destruct (received_ok d s c bs sc L) as [R1 [R2 R3]].
  destruct (received_ok d t c bs sc ltac:(lia)) as [Q1 [Q2 Q3]].
  constructor; [|split; assumption|split; assumption].
  unfold unread in R2, Q2. destruct T. constructor; try assumption; try reflexivity; try congruence.
Qed.

(** A message found is at the front of the buffer. *)
Definition at_front (o : out (result nat read_error)) (s : bus) : Prop :=
  forall t, o = Val (Ok t) -> b_used s = 0 /\ b_rlen s = length (unread s) /\ 7 <= t /\ t <= length (unread s).

Lemma agree_calls1 : forall A s t s1 t1 e (x y : out A * bus), calls s s1 [e] -> calls t t1 [e] ->
  agree s1 t1 x y -> agree s t x y.
Proof.
  intros A s t s1 t1 e x y C1 C2 [H1 [H2 [evs [C3 C4]]]]. split; [exact H1|]. split; [exact H2|].
  exists ([e] ++ evs). split; [apply (calls_trans _ _ _ _ _ C1 C3)|apply (calls_trans _ _ _ _ _ C2 C4)].
Qed.

Lemma firm_read_loop : forall fuel d s t, tw s t -> 10 <= length (b_rbuf s) ->
  agree s t (read_loop fuel d s) (read_loop fuel d t) /\
  at_front (fst (read_loop fuel d s)) (snd (read_loop fuel d s)) /\
  at_front (fst (read_loop fuel d t)) (snd (read_loop fuel d t)) /\
  length (b_rbuf (snd (read_loop fuel d s))) = length (b_rbuf s).
Proof.
  induction fuel as [|fuel IH]; intros d s t H Hcap.
  { cbn [read_loop lift fst snd]. split; [apply agree_same, H|]. repeat split; discriminate. }
  pose proof H as [T [I1 I2] [J1 J2]]. pose proof (tw_rcap _ _ T) as LL.
  rewrite (read_loop_step fuel d s I1 Hcap), (read_loop_step fuel d t J1) by lia. cbv zeta.
  rewrite <- (twins_unread _ _ T), <- LL, <- (tw_script _ _ T).
  set (c := clean (unread s)). set (n := length (b_rbuf s) - length c).
  assert (Hc : length c <= length (b_rbuf s)).
  { unfold c. pose proof (clean_length (unread s)). pose proof (unread_fit s I1). lia. }
  destruct (parse1 (length (b_rbuf s)) c) eqn:P.
  - pose proof (parse1_more _ _ Hcap Hc P) as Hlt.
    destruct (p_script (b_port s)) as [|[bs|e] sc].
    + cbn [fst snd]. split; [|split; [intros ? ?; discriminate|split; [intros ? ?; discriminate|cbn; apply front_rbuf_length, Hc]]].
      split; [reflexivity|]. split; [apply tw_logged, tw_front; assumption|]. eexists [_]. split; reflexivity.
    + set (sc1 := if length bs <=? n then sc else RdData (skipn n bs) :: sc).
      assert (Lbs : length c + length (firstn n bs) <= length (b_rbuf s)) by (rewrite firstn_length; lia).
      pose proof (tw_received d s t c (firstn n bs) sc1 H Lbs) as H1.
      destruct (received_ok d s c (firstn n bs) sc1 Lbs) as [_ [_ R3]].
      destruct (IH d _ _ H1 ltac:(lia)) as [K1 [K2 [K3 K4]]].
      split; [|split; [exact K2|split; [exact K3|congruence]]].
      eapply agree_calls1; [| |exact K1].
      * reflexivity.
      * cbn [received b_port p_log]. unfold calls. cbn [received b_port p_log]. rewrite <- LL. reflexivity.
    + cbn [fst snd]. split; [|split; [intros ? ?; discriminate|split; [intros ? ?; discriminate|cbn; apply front_rbuf_length, Hc]]].
      split; [reflexivity|]. split; [apply tw_logged, tw_front; assumption|]. eexists [_]. split; reflexivity.
  - cbn [fst snd]. pose proof (front_rbuf_length s c Hc) as Lf.
    assert (L7 : length (skipn 7 c) <= length (b_rbuf (front s c))) by (rewrite skipn_length; lia).
    split; [|split; [intros ? ?; discriminate|split; [intros ? ?; discriminate|rewrite front_rbuf_length by exact L7; exact Lf]]].
    split; [reflexivity|]. split; [apply tw_front; [apply tw_front; assumption|exact L7]|].
    exists []. split; unfold calls; cbn; rewrite app_nil_r; reflexivity.
  - cbn [fst snd]. destruct (parse1_msg _ _ _ P) as [P1 [P2 [P3 [P4 P5]]]].
    split; [split; [reflexivity|]; split; [apply tw_front; assumption|]; exists []; split; unfold calls; cbn; rewrite app_nil_r; reflexivity|].
    split; [|split; [|apply front_rbuf_length, Hc]]; intros t0 E; injection E as <-; rewrite front_unread; cbn; auto.
Qed.

Lemma firm_read_packet : forall d, firm (read_packet_deadline d).
Proof.
  intros d s t H. pose proof H as [T I J]. pose proof (tw_rcap _ _ T) as LL.
  destruct (Nat.le_gt_cases 10 (length (b_rbuf s))) as [L|L].
  2:{ rewrite !read_packet_small by lia. rewrite <- LL. apply agree_same, H. }
  unfold read_packet_deadline. unfold bind at 1, get at 1. unfold bind at 1, get at 1.
  rewrite <- LL, <- (tw_script _ _ T). unfold bts_check, HEADER_SIZE.
  replace (7 + 3 <=? length (b_rbuf s)) with true by lia. cbn [tryr].
  set (fuel := S (script_size (p_script (b_port s)))).
  destruct (firm_read_loop fuel d s t H L) as [K1 [K2 [K3 K4]]].
  unfold try_, bind.
  destruct (read_loop fuel d s) as [o s1]. destruct (read_loop fuel d t) as [o' t1].
  cbn [fst snd] in *. destruct K1 as [E [H1 [evs [C1 C2]]]]. cbn [fst snd] in *. subst o'.
  destruct o as [[m|e]|p|];
    try (split; [reflexivity|]; split; [exact H1|]; exists evs; auto; fail).
  destruct (K2 m eq_refl) as [A1 [A2 [A3 A4]]]. destruct (K3 m eq_refl) as [B1 [B2 [B3 B4]]].
  pose proof H1 as [T1 I1 J1].
  destruct (finish_packet m s1) as [o2 s2] eqn:F1. destruct (finish_packet m t1) as [o3 t2] eqn:F2.
  pose proof (finish_packet_spec s1 _ m o2 s2 (proj1 I1) A1 A2 eq_refl A3 A4 F1) as [X1 [X2 [X3 [X4 [X5 [X6 [X7 X8]]]]]]].
  pose proof (finish_packet_spec t1 _ m o3 t2 (proj1 J1) B1 B2 eq_refl B3 B4 F2) as [Y1 [Y2 [Y3 [Y4 [Y5 [Y6 [Y7 Y8]]]]]]].
  rewrite <- (twins_unread _ _ T1) in Y1, Y3.
  split; cbn [fst snd]; [congruence|]. split.
  - constructor; [|split; [exact X2|rewrite X7; apply I1]|split; [exact Y2|rewrite Y7; apply J1]].
    destruct T1. constructor; rewrite ?X4, ?X5, ?X6, ?X7, ?X8, ?Y4, ?Y5, ?Y6, ?Y7, ?Y8; try assumption.
    unfold unread in *. congruence.
  - exists evs. unfold calls. rewrite X5, Y5. auto.
Qed.

(** ** Every function *)

Lemma ignores_none : forall enc, ignores_old_bytes 0 enc.
Proof.
  intros enc [|? ?] [|? ?] L L'; try discriminate. destruct (enc []) as [[p r]|p|]; auto.
Qed.

Lemma ignores_writes : forall enc params n, writes_parameters enc params -> n = length params -> ignores_old_bytes n enc.
Proof. intros enc params n [_ H] -> l l' L L'. rewrite (H l L), (H l' L'). auto. Qed.

Lemma firm_rsrt : forall t, firm (read_status_response_timeout t).
Proof.
  intro t. unfold read_status_response_timeout. apply firm_bind; [apply firm_deadline|]. intro d.
  apply firm_try; [apply firm_read_packet|]. intro p. apply firm_bind; [apply firm_lift|]. intros [st|].
  - apply firm_bind; [apply firm_lift|]. intro. apply firm_tryr. intro. apply firm_ret.
  - apply firm_bind; [apply firm_lift|]. intro. apply firm_ret.
Qed.

Lemma firm_rsr : forall n, firm (read_status_response n).
Proof.
  intros n s t H. unfold read_status_response. unfold bind at 1, get at 1. unfold bind at 2, get at 1.
  rewrite <- (tw_dbg _ _ (tw_twins _ _ H)), <- (tw_baud _ _ (tw_twins _ _ H)).
  apply (firm_bind _ _ (lift (response_timeout (b_dbg s) (b_baud s) n)) read_status_response_timeout); [apply firm_lift| |exact H].
  intro. apply firm_rsrt.
Qed.

Lemma firm_scan_next : firm scan_next.
Proof.
  unfold scan_next. apply firm_bind; [|intro; apply firm_ret].
  intros s t H. unfold scan_next_response. unfold bind at 1, get at 1. unfold bind at 3, get at 1.
  rewrite <- (tw_dbg _ _ (tw_twins _ _ H)), <- (tw_baud _ _ (tw_twins _ _ H)).
  apply (firm_bind _ _ (lift (scan_timeout (b_dbg s) (b_baud s)))); [apply firm_lift| |exact H].
  intro. apply firm_try; [apply firm_rsrt|]. intro. apply firm_bind; [apply firm_lift|]. intro. apply firm_ret.
Qed.

Lemma firm_device_loop : forall n d, firm (device_loop n d).
Proof.
  induction n as [|n IH]; intro d; cbn [device_loop]; [apply firm_lift|].
  apply firm_try; [apply firm_read_packet|]. intro p. apply firm_bind; [apply firm_lift|].
  intros [i|]; [apply firm_ret|apply IH].
Qed.

Lemma firm_rrit : forall t, firm (read_raw_instruction_timeout t).
Proof.
  intro t0. unfold read_raw_instruction_timeout. apply firm_bind; [apply firm_deadline|]. intros d s t H.
  unfold bind, get.
  rewrite (device_loop_fuel_irrelevant (device_fuel s) (device_fuel s + device_fuel t) d s (tw_inv1 _ _ H));
    [|apply device_fuel_enough|pose proof (device_fuel_enough s); lia].
  rewrite (device_loop_fuel_irrelevant (device_fuel t) (device_fuel s + device_fuel t) d t (tw_inv2 _ _ H));
    [|apply device_fuel_enough|pose proof (device_fuel_enough t); lia].
  apply firm_device_loop, H.
Qed.

Ltac firm_step :=
  lazymatch goal with
  | |- forall _, _ => intro
  | |- firm (ret _) => apply firm_ret
  | |- firm (lift _) => apply firm_lift
  | |- firm (try_ _ _ _) => apply firm_try
  | |- firm (tryr _ _ _) => apply firm_tryr
  | |- firm (bind _ _) => apply firm_bind
  | |- firm (read_status_response _) => apply firm_rsr
  | |- firm (read_status_response_timeout _) => apply firm_rsrt
  | |- firm scan_next => apply firm_scan_next
  | |- firm (read_raw_instruction_timeout _) => apply firm_rrit
  | |- firm (match ?x with _ => _ end) => destruct x
  end.
Ltac firm_all := repeat firm_step.

Lemma firm_wi : forall id i n enc, encoder_ok enc -> ignores_old_bytes n enc -> firm (write_instruction id i n enc).
Proof. intros. apply firm_write_packet; assumption. Qed.
Lemma firm_rr : forall id, firm (read_response_if_not_broadcast id).
Proof. intro. unfold read_response_if_not_broadcast. firm_all. Qed.
Lemma firm_instruct : forall id i n enc, encoder_ok enc -> ignores_old_bytes n enc -> firm (instruct id i n enc).
Proof. intros id i n enc H1 H2. unfold instruct. firm_all; [apply firm_wi; assumption|apply firm_rr]. Qed.
Lemma firm_transfer : forall id i n e enc, encoder_ok enc -> ignores_old_bytes n enc -> firm (transfer_single id i n e enc).
Proof. intros id i n e enc H1 H2. unfold transfer_single. firm_all. apply firm_wi; assumption. Qed.
Lemma firm_read_raw : forall id a n, firm (read_raw id a n).
Proof.
  intros. unfold read_raw. firm_all. apply firm_transfer; [auto with enc|].
  eapply ignores_writes; [apply read_params_writes|reflexivity].
Qed.
Lemma firm_expect_response : forall id n, firm (expect_response id n).
Proof. intros. unfold expect_response. firm_all. Qed.
Lemma firm_expect_value : forall A (D : data_impl A) id, firm (expect_value D id).
Proof. intros. unfold expect_value. firm_all. Qed.
Lemma firm_scan_drop : forall n, firm (scan_drop n).
Proof. induction n as [|n IH]; cbn [scan_drop]; firm_all. exact IH. Qed.
Lemma firm_srb_drop_loop : forall n it, firm (srb_drop_loop n it).
Proof. induction n as [|n IH]; intro it; cbn [srb_drop_loop]; firm_all. apply IH. Qed.
Lemma firm_sr_next : forall A (D : data_impl A) it, firm (sr_next D it).
Proof. intros. unfold sr_next. firm_all. apply firm_expect_value. Qed.
Lemma firm_sr_drop_loop : forall A (D : data_impl A) n it, firm (sr_drop_loop D n it).
Proof. induction n as [|n IH]; intro it; cbn [sr_drop_loop]; firm_all; [apply firm_sr_next|apply IH]. Qed.
Lemma firm_br_drop_loop : forall l, firm (br_drop_loop l).
Proof. induction l as [|x l IH]; cbn [br_drop_loop]; firm_all. exact IH. Qed.

Lemma ignores_address : forall A (D : data_impl A) n a v, data_ok D -> ignores_old_bytes n (d_encode D v) ->
  ignores_old_bytes (2 + n) (address_and_value D a v).
Proof.
  intros A D n a v HD H l l' L L'.
  destruct (two_bytes l n L) as [x [y [r [-> Lr]]]]. destruct (two_bytes l' n L') as [x' [y' [r' [-> Lr']]]].
  unfold address_and_value. rewrite !u16_at0. cbn [obind].
  set (h := [n2b a; n2b (a / 256)]).
  change (n2b a :: n2b (a / 256) :: r) with (h ++ r). change (n2b a :: n2b (a / 256) :: r') with (h ++ r').
  specialize (H r r' Lr Lr').
  replace (h ++ r) with (h ++ r ++ []) by (rewrite app_nil_r; reflexivity).
  replace (h ++ r') with (h ++ r' ++ []) by (rewrite app_nil_r; reflexivity).
  rewrite !with_slice_app3 by (rewrite ?app_length; cbn [length h]; lia).
  destruct (d_encode D v r) as [[p q]|p|] eqn:E1; destruct (d_encode D v r') as [[p' q']|p'|] eqn:E2;
    cbn [obind]; try contradiction; auto.
  destruct H as [H1 H2]. split; [exact H1|]. intro K. rewrite (H2 K) in *. apply HD in E1, E2.
  change 2 with (length h). rewrite !splice_app by congruence. reflexivity.
Qed.

(** A length mismatch in the data of [sync_write_bytes] always ends in the panic. *)
Lemma sync_write_bytes_loop_panics : forall c l i b, length b = 4 + (i + length l) * (1 + c) ->
  ~ Forall (fun x => length (sw_data x) = c) l -> sync_write_bytes_loop c i l b = Panic PAssert.
Proof.
  intro c. induction l as [|x l IH]; intros i b L H; [destruct H; constructor|].
  cbn [sync_write_bytes_loop length] in *.
  destruct (length (sw_data x) =? c) eqn:E; [|reflexivity]. apply Nat.eqb_eq in E. cbn [negb]. cbv zeta.
  assert (Hi : 4 + i * (1 + c) + (1 + c) <= length b) by nia.
  set (st := 1 + c) in *. set (o := 4 + i * st) in *. clearbody o.
  unfold with_slice. rewrite slice_val by lia. cbn [obind].
  set (m := firstn (o + st - o) (skipn o b)).
  assert (Lm : length m = st) by (unfold m; rewrite firstn_length, skipn_length; lia).
  destruct m as [|y m]; [cbn in Lm; unfold st in Lm; lia|].
  unfold set at 1. cbn [length Nat.ltb Nat.leb list_set obind].
  unfold copy_into. cbn [length]. rewrite slice_val by (cbn [length]; lia). cbn [skipn obind].
  unfold copy_from_slice. rewrite firstn_length. cbn [length] in *.
  replace (Nat.min (S (length m) - 1) (length m) =? length (sw_data x)) with true by (unfold st in *; lia).
  cbn [obind]. apply IH.
  - rewrite splice_length.
    + rewrite L. unfold st. lia.
    + rewrite splice_length by (cbn [length]; unfold st in *; lia). cbn [length]. lia.
  - intro F. apply H. constructor; assumption.
Qed.

Lemma Forall_length_dec : forall c (l : list (sync_write_data (list byte))),
  {Forall (fun x => length (sw_data x) = c) l} + {~ Forall (fun x => length (sw_data x) = c) l}.
Proof. intros c l. apply Forall_dec. intro x. apply Nat.eq_dec. Qed.

Lemma ignores_sync_write_bytes : forall a n l, ignores_old_bytes (4 + length l * (1 + N.to_nat n))
  (enc_ok (fun b => let* b := write_u16_at b 0 a in let* b := write_u16_at b 2 n in
                    sync_write_bytes_loop (N.to_nat n) 0 l b)).
Proof.
  intros a n l. destruct (Forall_length_dec (N.to_nat n) l) as [F|F].
  - eapply ignores_writes; [apply sync_write_bytes_writes, F|].
    rewrite !app_length, sync_entries_length with (c := N.to_nat n) by exact F. cbn [length le16]. lia.
  - assert (K : forall b, length b = 4 + length l * (1 + N.to_nat n) ->
      enc_ok (fun b => let* b := write_u16_at b 0 a in let* b := write_u16_at b 2 n in
                       sync_write_bytes_loop (N.to_nat n) 0 l b) b = Panic PAssert).
    { intros b L. destruct (four_bytes b _ L) as [x [y [z [u [r [-> Lr]]]]]]. unfold enc_ok.
      rewrite u16_at0. cbn [obind]. rewrite u16_at2. cbn [obind].
      rewrite sync_write_bytes_loop_panics; [reflexivity| |exact F]. cbn [length] in *. lia. }
    intros b b' L L'. rewrite (K b L), (K b' L'). reflexivity.
Qed.

Lemma sync_write_loop_ignores : forall A (D : data_impl A), data_ok D -> forall l i done r r',
  (forall x, In x l -> ignores_old_bytes 1 (d_encode D (sw_data x))) ->
  length done = 4 + i * 2 -> length r = length l * 2 -> length r' = length l * 2 ->
  match sync_write_loop D 1 i l (done ++ r), sync_write_loop D 1 i l (done ++ r') with
  | Val (p, q), Val (p', q') => q = q' /\ (q = Ok tt -> p = p')
  | Panic a, Panic b => a = b
  | Blocked, Blocked => True
  | _, _ => False
  end.
Proof.
  intros A D HD. induction l as [|x l IH]; intros i done r r' H Ld Lr Lr'.
  - destruct r; [|discriminate]. destruct r'; [|discriminate]. cbn [sync_write_loop]. auto.
  - cbn [length] in *. destruct r as [|a [|b r]]; try (cbn in Lr; lia). destruct r' as [|a' [|b' r']]; try (cbn in Lr'; lia).
    cbn [sync_write_loop]. cbv zeta. cbn [length] in *.
    change (a :: b :: r) with ([a; b] ++ r). change (a' :: b' :: r') with ([a'; b'] ++ r').
    rewrite !with_slice_app3 by (rewrite ?app_length; cbn [length]; lia).
    unfold set. cbn [length Nat.ltb Nat.leb list_set obind].
    change [sw_id x; b] with ([sw_id x] ++ [b] ++ []). change [sw_id x; b'] with ([sw_id x] ++ [b'] ++ []).
    rewrite !with_slice_app3 by reflexivity.
    pose proof (H x (or_introl eq_refl) [b] [b'] eq_refl eq_refl) as Hx.
    destruct (d_encode D (sw_data x) [b]) as [[p q]|p|] eqn:E1; destruct (d_encode D (sw_data x) [b']) as [[p' q']|p'|] eqn:E2;
      cbn [obind]; try contradiction; auto.
    destruct Hx as [<- Hx]. apply HD in E1, E2.
    destruct q as [[]|e]; [|split; [reflexivity|discriminate]]. rewrite <- (Hx eq_refl) in *.
    replace (splice ([sw_id x] ++ [b] ++ []) (length [sw_id x]) p) with ([sw_id x] ++ p ++ [])
      by (symmetry; apply splice_app; congruence).
    replace (splice ([sw_id x] ++ [b'] ++ []) (length [sw_id x]) p) with ([sw_id x] ++ p ++ [])
      by (symmetry; apply splice_app; congruence).
    rewrite !splice_app by (rewrite !app_length; cbn [length] in *; lia).
    rewrite !(app_assoc done). apply IH; try lia.
    + intros y Hy. apply H. right. exact Hy.
    + rewrite !app_length. cbn [length] in *. lia.
Qed.

Lemma ignores_sync_write : forall A (D : data_impl A) a c l, data_ok D ->
  (forall x, In x l -> ignores_old_bytes 1 (d_encode D (sw_data x))) ->
  ignores_old_bytes (4 + length l * (1 + 1)) (fun b =>
       let* b := write_u16_at b 0 a in let* b := write_u16_at b 2 c in sync_write_loop D 1 0 l b).
Proof.
  intros A D a c l HD H b b' L L'.
  destruct (four_bytes b _ L) as [x [y [z [u [r [-> Lr]]]]]]. destruct (four_bytes b' _ L') as [x' [y' [z' [u' [r' [-> Lr']]]]]].
  rewrite !u16_at0. cbn [obind]. rewrite !u16_at2. cbn [obind].
  apply (sync_write_loop_ignores A D HD l 0 [n2b a; n2b (a / 256); n2b c; n2b (c / 256)]); try assumption; reflexivity.
Qed.

Lemma bulk_write_count_panics : forall l k, ~ Forall (fun c => is_u16 (N.of_nat (length (bw_data c)))) l ->
  bulk_write_count l k = Panic PExplicit.
Proof.
  induction l as [|x l IH]; intros k F; [destruct F; constructor|]. cbn [bulk_write_count].
  destruct (65535 <? N.of_nat (length (bw_data x)))%N eqn:E; [reflexivity|].
  apply IH. intro G. apply F. constructor; [|exact G]. unfold is_u16. change (2 ^ 16)%N with 65536%N. lia.
Qed.

Lemma is_u16_dec : forall n, {is_u16 n} + {~ is_u16 n}.
Proof.
  intro n. unfold is_u16. destruct (n <? 2 ^ 16)%N eqn:E; [left; apply N.ltb_lt, E|right].
  apply N.ltb_ge in E. apply N.le_ngt, E.
Qed.

Lemma firm_bulk_write : forall l, firm (bulk_write l).
Proof.
  intro l. unfold bulk_write.
  destruct (Forall_dec _ (fun c => is_u16_dec (N.of_nat (length (bw_data c)))) l) as [F|F].
  - rewrite (bulk_write_count_val l 0 F). intros s t H.
    apply (firm_wi BROADCAST BULK_WRITE (0 + length (bulk_write_entries l)) (enc_ok (bulk_write_loop 0 l)));
      [auto with enc| |exact H].
    eapply ignores_writes; [apply bulk_write_writes, F|reflexivity].
  - rewrite bulk_write_count_panics by exact F. intros s t H. apply agree_same, H.
Qed.

Lemma steady_firm : forall A (m : M A), steady m -> firm m.
Proof.
  intros A m H. destruct H.
  - apply firm_set_baud.
  - apply firm_transfer; assumption.
  - apply firm_wi; assumption.
  - apply firm_rsrt.
  - apply firm_rsr.
  - unfold device_read. firm_all.
  - unfold device_read_owned. firm_all.
  - apply firm_rrit.
  - apply firm_write_status; assumption.
  - apply firm_write_status; [auto with enc|apply ignores_none].
  - apply firm_write_status; [auto with enc|apply ignores_none].
  - unfold ping. firm_all. apply firm_transfer; [auto with enc|apply ignores_none].
  - apply firm_wi; [auto with enc|apply ignores_none].
  - apply firm_scan_next.
  - apply firm_scan_drop.
  - unfold read_bytes. firm_all. apply firm_read_raw.
  - unfold read. firm_all. apply firm_read_raw.
  - apply firm_instruct; [auto with enc|apply ignores_address; assumption].
  - apply firm_instruct; [auto with enc|]. eapply ignores_writes; [apply address_and_bytes_writes|reflexivity].
  - apply firm_instruct; [auto with enc|apply (ignores_address _ D 1); assumption].
  - apply firm_instruct; [auto with enc|]. eapply ignores_writes; [apply address_and_bytes_writes|reflexivity].
  - apply firm_instruct; [auto with enc|apply ignores_none].
  - apply firm_wi; [auto with enc|apply ignores_none].
  - apply firm_instruct; [auto with enc|apply ignores_none].
  - apply firm_wi; [auto with enc|apply ignores_none].
  - apply firm_instruct; [auto with enc|]. eapply ignores_writes; [apply factory_reset_writes|reflexivity].
  - apply firm_wi; [auto with enc|]. eapply ignores_writes; [apply factory_reset_writes|reflexivity].
  - apply firm_instruct; [auto with enc|]. eapply ignores_writes; [apply clear_revolution_writes|reflexivity].
  - apply firm_wi; [auto with enc|]. eapply ignores_writes; [apply clear_revolution_writes|reflexivity].
  - apply firm_instruct; [auto with enc|]. eapply ignores_writes; [apply clear_error_writes|reflexivity].
  - apply firm_wi; [auto with enc|]. eapply ignores_writes; [apply clear_error_writes|reflexivity].
  - apply firm_wi; [auto with enc|]. apply ignores_sync_write; assumption.
  - apply firm_wi; [auto with enc|]. apply ignores_sync_write_bytes.
  - apply firm_bulk_write.
  - unfold sync_read_bytes, write_sync_read. firm_all. apply firm_wi; [auto with enc|].
    eapply ignores_writes; [apply sync_read_writes|cbn [length app le16]; lia].
  - unfold srb_next. firm_all. apply firm_expect_response.
  - apply firm_srb_drop_loop.
  - unfold sync_read, write_sync_read. firm_all. apply firm_wi; [auto with enc|].
    eapply ignores_writes; [apply sync_read_writes|cbn [length app le16]; lia].
  - apply firm_sr_next.
  - apply firm_sr_drop_loop.
  - unfold bulk_read_bytes, write_bulk_read_instruction. firm_all. apply firm_wi; [auto with enc|].
    eapply ignores_writes; [apply bulk_read_writes|]. rewrite bulk_read_entries_length. lia.
  - unfold br_next. firm_all. apply firm_expect_response.
  - unfold br_drop. firm_all. apply firm_br_drop_loop.
Qed.
