(** * ClockProofs: the order of deadlines and reads *)
From Coq Require Import ZArith ZifyN ZifyNat ZifyBool.
From Verif Require Import Base Endian Error Checksum Bytestuff Packet Time Bus Data Client
  Instructions Device Api Spec CallSpec StreamSpec InstructionSpec TimeSpec TwinSpec Serial2 ClockSpec Lib
  WriteProofs SendProofs StatusProofs ApiProofs SendTheorems InstructionProofs TwinProofs TimeTheorems BaudTheorems.
Ltac Zify.zify_post_hook ::= Z.div_mod_to_equations.

(** ** Reads with one deadline *)

Definition ok_read (d : deadline) (e : io_event) : Prop := exists cap bs, e = LRead d cap (Ok bs).

Inductive last_read (d : deadline) : list io_event -> Prop :=
| lr_none : last_read d []
| lr_err : forall cap e, last_read d [LRead d cap (Err e)]
| lr_wait : forall cap, last_read d [LReadWait d cap].

Definition reading {A E} (d : deadline) (o : out (result A E)) (evs : list io_event) : Prop :=
  match o with
  | Val (Ok _) => Forall (ok_read d) evs
  | _ => exists oks last, evs = oks ++ last /\ Forall (ok_read d) oks /\ last_read d last
  end.

Definition reader {A E} (d : deadline) (m : M (result A E)) : Prop :=
  forall s o s', m s = (o, s') -> exists evs, calls s s' evs /\ reading d o evs.

Definition silent {A} (m : M A) : Prop := forall s o s', m s = (o, s') -> b_port s' = b_port s.

Lemma silent_calls : forall s s', b_port s' = b_port s -> calls s s' [].
Proof. intros s s' H. unfold calls. rewrite H, app_nil_r. reflexivity. Qed.

Lemma reading_nil : forall A E d (o : out (result A E)), reading d o [].
Proof.
  intros A E d [[a|e]|p|]; cbn; try constructor; exists [], []; repeat split; constructor.
Qed.

Lemma silent_ret : forall A (a : A), silent (ret a).
Proof. intros A a s o s' E. injection E as <- <-. reflexivity. Qed.
Lemma silent_lift : forall A (a : out A), silent (lift a).
Proof. intros A a s o s' E. injection E as <- <-. reflexivity. Qed.
Lemma silent_get : silent get.
Proof. intros s o s' E. injection E as <- <-. reflexivity. Qed.
Lemma silent_bind : forall A B (m : M A) (k : A -> M B), silent m -> (forall a, silent (k a)) -> silent (bind m k).
Proof.
  intros A B m k Hm Hk s o s' E. unfold bind in E. destruct (m s) as [[a|p|] s1] eqn:E1.
  - rewrite (Hk _ _ _ _ E). apply (Hm _ _ _ E1).
  - injection E as <- <-. apply (Hm _ _ _ E1).
  - injection E as <- <-. apply (Hm _ _ _ E1).
Qed.

Lemma silent_consume : forall n, silent (consume_read_bytes n).
Proof.
  intros n s o s' E. unfold consume_read_bytes, bind, get, lift, put in E.
  destruct (b_dbg s && _); [injection E as <- <-; reflexivity|].
  destruct (slice (b_rbuf s) n (b_rlen s)); injection E as <- <-; reflexivity.
Qed.

Lemma silent_remove_garbage : silent remove_garbage.
Proof.
  unfold remove_garbage. apply silent_bind; [apply silent_get|]. intro s.
  apply silent_bind; [apply silent_lift|]. intro v. apply silent_bind; [apply silent_lift|]. intro u. cbv zeta.
  apply silent_bind; [apply silent_consume|]. intros _. apply silent_bind; [apply silent_get|]. intro s1.
  destruct (b_dbg s1 && _); [apply silent_lift|apply silent_ret].
Qed.

Lemma silent_finish : forall n, silent (finish_packet n).
Proof.
  intros n s o s' E. unfold finish_packet, bind, get, lift, put in E.
  repeat match type of E with
  | context [match ?x with _ => _ end] => lazymatch x with
      | context [match _ with _ => _ end] => fail
      | context [consume_read_bytes] => fail
      | _ => destruct x eqn:? end
  end; try (injection E as <- <-; reflexivity).
  all: destruct (consume_read_bytes n s) as [[u|p|] s1] eqn:C; pose proof (silent_consume _ _ _ _ C);
    injection E as <- <-; assumption.
Qed.

Lemma reader_after_silent : forall A B E d (m : M A) (k : A -> M (result B E)),
  silent m -> (forall a, reader d (k a)) -> reader d (bind m k).
Proof.
  intros A B E d m k Hm Hk s o s' Eq. unfold bind in Eq. destruct (m s) as [[a|p|] s1] eqn:E1.
  - destruct (Hk a _ _ _ Eq) as [evs [C R]]. exists evs. split; [|exact R].
    unfold calls in *. rewrite C, (Hm _ _ _ E1). reflexivity.
  - injection Eq as <- <-. exists []. split; [apply silent_calls, (Hm _ _ _ E1)|apply reading_nil].
  - injection Eq as <- <-. exists []. split; [apply silent_calls, (Hm _ _ _ E1)|apply reading_nil].
Qed.

Lemma reader_silent : forall A E d (m : M (result A E)), silent m -> reader d m.
Proof. intros A E d m H s o s' Eq. exists []. split; [apply silent_calls, (H _ _ _ Eq)|apply reading_nil]. Qed.

Lemma reading_err : forall A E B F d (o : out (result A E)) (o' : out (result B F)) evs,
  (match o with Val (Ok _) => False | _ => True end) -> (match o' with Val (Ok _) => False | _ => True end) ->
  reading d o evs -> reading d o' evs.
Proof. intros A E B F d [[a|e]|p|] [[a'|e']|p'|] evs H H' R; try contradiction; exact R. Qed.

Lemma reading_oks : forall A E d (o : out (result A E)) oks evs, Forall (ok_read d) oks -> reading d o evs ->
  reading d o (oks ++ evs).
Proof.
  intros A E d o oks evs F R. destruct o as [[a|e]|p|]; cbn in *.
  - apply Forall_app. split; assumption.
  - destruct R as [o2 [l [-> [F2 L]]]]. exists (oks ++ o2), l. rewrite app_assoc. repeat split; [apply Forall_app; auto|exact L].
  - destruct R as [o2 [l [-> [F2 L]]]]. exists (oks ++ o2), l. rewrite app_assoc. repeat split; [apply Forall_app; auto|exact L].
  - destruct R as [o2 [l [-> [F2 L]]]]. exists (oks ++ o2), l. rewrite app_assoc. repeat split; [apply Forall_app; auto|exact L].
Qed.

Lemma reader_try : forall A B E F d (f : E -> F) (m : M (result A E)) (k : A -> M (result B F)),
  reader d m -> (forall a, reader d (k a)) -> reader d (try_ f m k).
Proof.
  intros A B E F d f m k Hm Hk s o s' Eq. unfold try_, bind in Eq.
  destruct (m s) as [x s1] eqn:E1. destruct (Hm _ _ _ E1) as [e1 [C1 R1]].
  destruct x as [[a|e]|p|].
  - destruct (Hk a _ _ _ Eq) as [e2 [C2 R2]]. exists (e1 ++ e2). split; [apply (calls_trans _ _ _ _ _ C1 C2)|].
    apply reading_oks; assumption.
  - injection Eq as <- <-. exists e1. split; [exact C1|]. exact R1.
  - injection Eq as <- <-. exists e1. split; [exact C1|]. exact R1.
  - injection Eq as <- <-. exists e1. split; [exact C1|]. exact R1.
Qed.

Lemma reader_port_read : forall cap d, reader d (port_read cap d).
Proof.
  intros cap d s o s' E. unfold port_read in E. destruct (p_script (b_port s)) as [|[bs|e] rest].
  - injection E as <- <-. eexists. split; [reflexivity|]. exists [], [LReadWait d cap]. repeat split; constructor.
  - injection E as <- <-. eexists. split; [reflexivity|]. cbn. constructor; [|constructor]. do 2 eexists. reflexivity.
  - injection E as <- <-. eexists. split; [reflexivity|]. exists [], [LRead d cap (Err e)]. repeat split; constructor.
Qed.

Lemma silent_put_same : forall s x, b_port x = b_port s -> forall o s', put x s = (o, s') -> b_port s' = b_port s.
Proof. intros s x H o s' E. injection E as <- <-. exact H. Qed.

Lemma reader_read_loop : forall fuel d, reader d (read_loop fuel d).
Proof.
  induction fuel as [|fuel IH]; intro d; cbn [read_loop]; [apply reader_silent, silent_lift|].
  apply reader_after_silent; [apply silent_remove_garbage|]. intros _.
  apply reader_after_silent; [apply silent_get|]. intro s.
  apply reader_after_silent.
  { destruct (HEADER_SIZE <? b_rlen s); [|apply silent_ret].
    apply silent_bind; [apply silent_lift|]. intro rb. apply silent_bind; [apply silent_lift|]. intro lf.
    apply silent_bind; [apply silent_lift|]. intro bl. cbv zeta. destruct (bts_check _ _).
    - destruct (_ <=? _); apply silent_ret.
    - apply silent_bind; [apply silent_consume|]. intros _. apply silent_ret. }
  intros [[total|]|e]; [apply reader_silent, silent_ret| |apply reader_silent, silent_ret].
  apply reader_after_silent; [apply silent_get|]. intro s1.
  apply reader_after_silent; [apply silent_lift|]. intro free.
  apply reader_try; [apply reader_port_read|]. intro nd.
  intros s2 o s3 E. unfold bind, get, put in E.
  destruct (IH d _ _ _ E) as [evs [C R]]. exists evs. split; [exact C|exact R].
Qed.

Lemma reader_read_packet : forall d, reader d (read_packet_deadline d).
Proof.
  intro d. unfold read_packet_deadline. apply reader_after_silent; [apply silent_get|]. intro s.
  unfold tryr. destruct (bts_check _ _); [|apply reader_silent, silent_ret].
  apply reader_try; [apply reader_read_loop|]. intro len. apply reader_silent, silent_finish.
Qed.

(** ** Whole calls *)

Inductive orderly : list io_event -> Prop :=
| or_nil : orderly []
| or_discard : forall r evs, orderly evs -> orderly (LDiscard r :: evs)
| or_write : forall w r evs, orderly evs -> orderly (LWrite w r :: evs)
| or_set_baud : forall b r evs, orderly evs -> orderly (LSetBaud b r :: evs)
| or_listen : forall d oks last evs, Forall (ok_read d) oks -> last_read d last -> orderly evs ->
    orderly (LDeadline d :: oks ++ last ++ evs).

Lemma orderly_app : forall a b, orderly a -> orderly b -> orderly (a ++ b).
Proof.
  intros a b Ha Hb. induction Ha; cbn [app]; try (constructor; assumption); [exact Hb|].
  rewrite <- !app_assoc. constructor; assumption.
Qed.

Lemma reading_orderly : forall A E d (o : out (result A E)) evs, reading d o evs -> orderly (LDeadline d :: evs).
Proof.
  intros A E d o evs R.
  assert (K : exists oks last, evs = oks ++ last /\ Forall (ok_read d) oks /\ last_read d last).
  { destruct o as [[a|e]|p|]; try exact R. exists evs, []. rewrite app_nil_r. repeat split; [exact R|constructor]. }
  destruct K as [oks [last [-> [F L]]]]. rewrite <- (app_nil_r last). constructor; try assumption. constructor.
Qed.

Definition orders {A} (m : M A) : Prop := forall s o s', inv s -> m s = (o, s') ->
  inv s' /\ exists evs, calls s s' evs /\ orderly evs.

Lemma orders_lift : forall A (x : out A), orders (lift x).
Proof. intros A x s o s' H E. injection E as <- <-. split; [exact H|]. exists []. split; [apply calls_refl|constructor]. Qed.
Lemma orders_ret : forall A (a : A), orders (ret a).
Proof. intros A a. apply orders_lift. Qed.
Lemma orders_get : orders get.
Proof. intros s o s' H E. injection E as <- <-. split; [exact H|]. exists []. split; [apply calls_refl|constructor]. Qed.

Lemma orders_bind : forall A B (m : M A) (k : A -> M B), orders m -> (forall a, orders (k a)) -> orders (bind m k).
Proof.
  intros A B m k Hm Hk s o s' H E. unfold bind in E. destruct (m s) as [[a|p|] s1] eqn:E1;
    destruct (Hm _ _ _ H E1) as [I1 [e1 [C1 O1]]].
  - destruct (Hk a _ _ _ I1 E) as [I2 [e2 [C2 O2]]]. split; [exact I2|]. exists (e1 ++ e2).
    split; [apply (calls_trans _ _ _ _ _ C1 C2)|apply orderly_app; assumption].
  - injection E as <- <-. eauto.
  - injection E as <- <-. eauto.
Qed.
Lemma orders_try : forall A B E F (f : E -> F) (m : M (result A E)) (k : A -> M (result B F)),
  orders m -> (forall a, orders (k a)) -> orders (try_ f m k).
Proof. intros A B E F f m k Hm Hk. apply orders_bind; [exact Hm|]. intros [a|e]; [apply Hk|apply orders_ret]. Qed.
Lemma orders_tryr : forall A B E F (f : E -> F) (r : result A E) (k : A -> M (result B F)),
  (forall a, orders (k a)) -> orders (tryr f r k).
Proof. intros A B E F f [a|e] k Hk; [apply Hk|apply orders_ret]. Qed.

Lemma orders_set_baud : forall b, orders (set_baud_rate b).
Proof.
  intros b s o s' H E. pose proof (keeps_set_baud b s o s' H E) as K. split; [apply K|].
  destruct (L_C48_set_baud_rate s b) as [s2 [E2 [C _]]]. unfold client_set_baud_rate in E2.
  rewrite E2 in E. injection E as <- <-. eexists. split; [exact C|]. repeat constructor.
Qed.

Lemma orders_write_packet : forall id i n enc, encoder_ok enc -> orders (write_packet id i n enc).
Proof.
  intros id i n enc He s o s' H E. pose proof (keeps_write_packet id i n enc He s o s' H E) as K.
  split; [apply K|]. clear K.
  unfold write_packet, bind, get, lift, put in E.
  destruct (build_packet _ _ _ _ _ _) as [[b r]|p|]; [|injection E as <- <-; exists []; split; [apply calls_refl|constructor]..].
  unfold tryr in E. destruct r as [ci|e]; [|injection E as <- <-; exists []; split; [apply calls_set_wbuf|constructor]].
  unfold try_, bind, port_discard in E. cbn [b_port set_used set_rlen set_wbuf] in E.
  destruct (match p_discards (b_port s) with [] => None | r :: _ => r end) as [e|].
  { injection E as <- <-. eexists. split; [reflexivity|]. repeat constructor. }
  destruct (slice_to b (ci + 2)) as [w|p|].
  2,3: injection E as <- <-; eexists; split; [reflexivity|]; repeat constructor.
  unfold port_write_all in E. cbn [b_port set_port log_event p_writes] in E.
  destruct (match p_writes (b_port s) with [] => None | r :: _ => r end) as [e|]; injection E as <- <-;
    (eexists [_; _]; split; [unfold calls; cbn; rewrite <- app_assoc; reflexivity|repeat constructor]).
Qed.

Lemma orders_write_status : forall id e n enc, encoder_ok enc -> orders (write_status id e n enc).
Proof.
  intros id e n enc He. unfold write_status. destruct (usize_max <? _)%N; [apply orders_lift|].
  apply orders_bind; [apply orders_get|]. intro s. apply orders_tryr. intros _. apply orders_write_packet.
  apply (status_encoder_ok e enc He).
Qed.

Ltac orders_step :=
  lazymatch goal with
  | |- forall _, _ => intro
  | |- orders (ret _) => apply orders_ret
  | |- orders (lift _) => apply orders_lift
  | |- orders get => apply orders_get
  | |- orders (try_ _ _ _) => apply orders_try
  | |- orders (tryr _ _ _) => apply orders_tryr
  | |- orders (bind _ _) => apply orders_bind
  | |- orders (match ?x with _ => _ end) => destruct x
  end.
Ltac orders_all := repeat orders_step.

Lemma orders_wi : forall id i n enc, encoder_ok enc -> orders (write_instruction id i n enc).
Proof. intros. apply orders_write_packet. assumption. Qed.
Lemma orders_listen : forall A E t (k : deadline -> M (result A E)), (forall d, reader d (k d)) ->
  keeps (d <- port_make_deadline t ;; k d) -> orders (d <- port_make_deadline t ;; k d).
Proof.
  intros A E t k Hk Hp s o s' H Eq. split; [apply (Hp _ _ _ H Eq)|].
  unfold bind, port_make_deadline in Eq.
  destruct (Hk _ _ _ _ Eq) as [evs [C R]]. eexists (_ :: evs). split; [|apply (reading_orderly _ _ _ _ _ R)].
  unfold calls in *. rewrite C. cbn. rewrite <- app_assoc. reflexivity.
Qed.

Lemma orders_rsrt : forall t, orders (read_status_response_timeout t).
Proof.
  intro t. apply orders_listen; [|apply keeps_rsrt]. intro d. apply reader_try; [apply reader_read_packet|].
  intro p. apply reader_silent. apply silent_bind; [apply silent_lift|]. intros [st|].
  - apply silent_bind; [apply silent_lift|]. intro e. unfold tryr. destruct (motor_error_check e); apply silent_ret.
  - apply silent_bind; [apply silent_lift|]. intro i. apply silent_ret.
Qed.
Lemma orders_rsr : forall n, orders (read_status_response n).
Proof. intro. unfold read_status_response. orders_all. apply orders_rsrt. Qed.
Lemma reader_device_loop : forall n d, reader d (device_loop n d).
Proof.
  induction n as [|n IH]; intro d; cbn [device_loop]; [apply reader_silent, silent_lift|].
  apply reader_try; [apply reader_read_packet|]. intro p. apply reader_after_silent; [apply silent_lift|].
  intros [i|]; [apply reader_silent, silent_ret|apply IH].
Qed.
Lemma orders_rrit : forall t, orders (read_raw_instruction_timeout t).
Proof.
  intro t. apply orders_listen; [|apply keeps_rrit]. intro d. apply reader_after_silent; [apply silent_get|].
  intro s. apply reader_device_loop.
Qed.
Lemma orders_scan_next : orders scan_next.
Proof. unfold scan_next, scan_next_response. orders_all. apply orders_rsrt. Qed.
Lemma orders_scan_drop : forall n, orders (scan_drop n).
Proof. induction n as [|n IH]; cbn [scan_drop]; orders_all; [apply orders_scan_next|exact IH]. Qed.
Lemma orders_instruct : forall id i n enc, encoder_ok enc -> orders (instruct id i n enc).
Proof.
  intros. unfold instruct, read_response_if_not_broadcast. orders_all; try (apply orders_wi; assumption); apply orders_rsr.
Qed.
Lemma orders_transfer : forall id i n e enc, encoder_ok enc -> orders (transfer_single id i n e enc).
Proof. intros. unfold transfer_single. orders_all; try (apply orders_wi; assumption). apply orders_rsr. Qed.
Lemma orders_read_raw : forall id a n, orders (read_raw id a n).
Proof. intros. unfold read_raw. orders_all. apply orders_transfer; auto with enc. Qed.
Lemma orders_expect_response : forall id n, orders (expect_response id n).
Proof. intros. unfold expect_response. orders_all. apply orders_rsr. Qed.
Lemma orders_expect_value : forall A (D : data_impl A) id, orders (expect_value D id).
Proof. intros. unfold expect_value. orders_all. apply orders_rsr. Qed.
Lemma orders_srb_drop_loop : forall n it, orders (srb_drop_loop n it).
Proof. induction n as [|n IH]; intro it; cbn [srb_drop_loop]; orders_all; try apply orders_rsr; apply IH. Qed.
Lemma orders_sr_next : forall A (D : data_impl A) it, orders (sr_next D it).
Proof. intros. unfold sr_next. orders_all. apply orders_expect_value. Qed.
Lemma orders_sr_drop_loop : forall A (D : data_impl A) n it, orders (sr_drop_loop D n it).
Proof. induction n as [|n IH]; intro it; cbn [sr_drop_loop]; orders_all; [apply orders_sr_next|apply IH]. Qed.
Lemma orders_br_drop_loop : forall l, orders (br_drop_loop l).
Proof. induction l as [|x l IH]; cbn [br_drop_loop]; orders_all; try apply orders_rsr; exact IH. Qed.

Lemma api_orders : forall A (m : M A), api m -> orders m.
Proof.
  intros A m H. destruct H.
  - apply orders_set_baud.
  - apply orders_transfer; assumption.
  - apply orders_wi; assumption.
  - apply orders_rsrt.
  - apply orders_rsr.
  - unfold device_read. orders_all. apply orders_rrit.
  - unfold device_read_owned. orders_all. apply orders_rrit.
  - apply orders_rrit.
  - apply orders_write_status; assumption.
  - apply orders_write_status; auto with enc.
  - apply orders_write_status; auto with enc.
  - unfold ping. orders_all. apply orders_transfer; auto with enc.
  - apply orders_wi; auto with enc.
  - apply orders_scan_next.
  - apply orders_scan_drop.
  - unfold read_bytes. orders_all. apply orders_read_raw.
  - unfold read. orders_all. apply orders_read_raw.
  - apply orders_instruct; auto with enc.
  - apply orders_instruct; auto with enc.
  - apply orders_instruct; auto with enc.
  - apply orders_instruct; auto with enc.
  - apply orders_instruct; auto with enc.
  - apply orders_wi; auto with enc.
  - apply orders_instruct; auto with enc.
  - apply orders_wi; auto with enc.
  - apply orders_instruct; auto with enc.
  - apply orders_wi; auto with enc.
  - apply orders_instruct; auto with enc.
  - apply orders_wi; auto with enc.
  - apply orders_instruct; auto with enc.
  - apply orders_wi; auto with enc.
  - apply orders_wi; auto with enc.
  - apply orders_wi; auto with enc.
  - unfold bulk_write. orders_all. apply orders_wi; auto with enc.
  - unfold sync_read_bytes, write_sync_read. orders_all. apply orders_wi; auto with enc.
  - unfold srb_next. orders_all. apply orders_expect_response.
  - apply orders_srb_drop_loop.
  - unfold sync_read, write_sync_read. orders_all. apply orders_wi; auto with enc.
  - apply orders_sr_next.
  - apply orders_sr_drop_loop.
  - unfold bulk_read_bytes, write_bulk_read_instruction. orders_all. apply orders_wi; auto with enc.
  - unfold br_next. orders_all. apply orders_expect_response.
  - unfold br_drop. orders_all. apply orders_br_drop_loop.
Qed.

