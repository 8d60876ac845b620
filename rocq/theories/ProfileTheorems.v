(** * ProfileTheorems: debug and release builds behave the same *)
From Coq Require Import ZArith ZifyN ZifyNat ZifyBool.
From Verif Require Import Base Endian Error Checksum Bytestuff Packet Time Bus Data Client
  Instructions Device Api Spec CallSpec StreamSpec DeviceSpec InstructionSpec Demo Lib ChecksumProofs
  StuffProofs WriteProofs ReadProofs ApiProofs StreamProofs SendProofs DemoProofs
  SendTheorems StatusProofs InstructionProofs TwinSpec TwinProofs ProfileSpec.
Ltac Zify.zify_post_hook ::= Z.div_mod_to_equations.

(** ** Reading: the code paths agree unless a debug assertion fails *)

Definition loose {A} (m : M A) : Prop := forall s o s', b_dbg s = true -> m s = (o, s') ->
  b_dbg s' = true /\ (o = Panic PDebugAssert \/ m (release s) = (o, release s')).

Lemma loose_ret : forall A (a : A), loose (ret a).
Proof. intros A a s o s' D E. injection E as <- <-. split; [exact D|right; reflexivity]. Qed.
Lemma loose_lift : forall A (x : out A), loose (lift x).
Proof. intros A x s o s' D E. injection E as <- <-. split; [exact D|right; reflexivity]. Qed.

Lemma loose_bind : forall A B (m : M A) (k : A -> M B), loose m -> (forall a, loose (k a)) -> loose (bind m k).
Proof.
  intros A B m k Hm Hk s o s' D E. unfold bind in *. destruct (m s) as [[a|p|] s1] eqn:E1.
  - destruct (Hm _ _ _ D E1) as [D1 [X|X]]; [discriminate X|]. rewrite X. apply (Hk a _ _ _ D1 E).
  - destruct (Hm _ _ _ D E1) as [D1 X]. injection E as <- <-. split; [exact D1|].
    destruct X as [X|X]; [left; injection X as ->; reflexivity|right; rewrite X; reflexivity].
  - destruct (Hm _ _ _ D E1) as [D1 [X|X]]; [discriminate X|]. injection E as <- <-. split; [exact D1|].
    right. rewrite X. reflexivity.
Qed.

(** Code that looks at the state but not at the profile. *)
Lemma loose_get : forall A (k : bus -> M A), (forall s, k (release s) = k s) -> (forall s, loose (k s)) ->
  loose (bind get k).
Proof.
  intros A k Hr Hk s o s' D E. unfold bind, get in *. rewrite Hr. apply (Hk s _ _ _ D E).
Qed.

Lemma loose_try : forall A B E F (f : E -> F) (m : M (result A E)) (k : A -> M (result B F)),
  loose m -> (forall a, loose (k a)) -> loose (try_ f m k).
Proof. intros. apply loose_bind; [assumption|]. intros [a|e]; [auto|apply loose_ret]. Qed.
Lemma loose_tryr : forall A B E F (f : E -> F) (r : result A E) (k : A -> M (result B F)),
  (forall a, loose (k a)) -> loose (tryr f r k).
Proof. intros A B E F f [a|e] k H; [apply H|apply loose_ret]. Qed.

(** A state update that does not concern the profile. *)
Lemma loose_modify : forall (f : bus -> bus), (forall s, f (release s) = release (f s)) ->
  (forall s, b_dbg (f s) = b_dbg s) -> loose (s <- get ;; put (f s)).
Proof.
  intros f Hf Hd s o s' D E. unfold bind, get, put in *. injection E as <- <-.
  split; [rewrite Hd; exact D|]. right. rewrite Hf. reflexivity.
Qed.

Lemma loose_consume : forall n, loose (consume_read_bytes n).
Proof.
  intros n s o s' D E. unfold consume_read_bytes, bind, get, lift, put in *. rewrite D in E.
  cbn [release b_dbg b_rlen b_rbuf andb] in *.
  destruct (n <=? b_rlen s); cbn [negb] in E; [|injection E as <- <-; auto].
  destruct (slice (b_rbuf s) n (b_rlen s)) as [x|x|]; injection E as <- <-; (split; [first [exact D|reflexivity]|right; reflexivity]).
Qed.

Lemma loose_garbage : loose remove_garbage.
Proof.
  unfold remove_garbage. apply loose_get; [reflexivity|]. intro s.
  apply loose_bind; [apply loose_lift|]. intro v. apply loose_bind; [apply loose_lift|]. intro u. cbv zeta.
  apply loose_bind; [apply loose_consume|]. intros _ t o t' D E. unfold bind, get in *. rewrite D in E.
  cbn [release b_dbg b_used andb] in *.
  destruct (b_used t =? 0); cbn [negb] in *; injection E as <- <-; auto.
Qed.

Lemma loose_port_read : forall n d, loose (port_read n d).
Proof.
  intros n d s o s' D E. unfold port_read in *. cbn [release b_port].
  destruct (p_script (b_port s)) as [|[bs|e] sc]; injection E as <- <-; (split; [exact D|right; reflexivity]).
Qed.

Lemma loose_read_loop : forall fuel d, loose (read_loop fuel d).
Proof.
  induction fuel as [|n IH]; intro d; cbn [read_loop]; [apply loose_lift|].
  apply loose_bind; [apply loose_garbage|]. intros _. apply loose_get; [reflexivity|]. intro s.
  apply loose_bind.
  - destruct (HEADER_SIZE <? b_rlen s); [|apply loose_ret].
    do 3 (apply loose_bind; [apply loose_lift|]; intro). cbv zeta.
    destruct (bts_check _ _); [destruct (_ <=? _); apply loose_ret|].
    apply loose_bind; [apply loose_consume|]. intro. apply loose_ret.
  - intros [[t|]|e]; [apply loose_ret| |apply loose_ret]. apply loose_get; [reflexivity|]. intro t.
    apply loose_bind; [apply loose_lift|]. intro f. apply loose_try; [apply loose_port_read|]. intro b.
    intros x o x' D E. unfold bind at 1, get in E. unfold bind at 1, put in E.
    unfold bind at 1, get. unfold bind at 1, put.
    match type of E with read_loop n d ?y = _ => apply (IH d y o x' D) in E end. exact E.
Qed.

Lemma loose_finish : forall n, loose (finish_packet n).
Proof.
  intro n. unfold finish_packet. intros s o s' D E. unfold bind at 1, get at 1 in E. unfold bind at 1, get at 1.
  revert o s' E. change (b_rbuf (release s)) with (b_rbuf s). change (b_used (release s)) with (b_used s).
  (* the remaining computation, with [put (set_used s ..)] applied to the state it started from *)
  intros o s' E. unfold bind in E at 1. unfold bind at 1. unfold lift at 1 in E. unfold lift at 1.
  destruct (usize_sub n 2) as [pe|x|]; try (injection E as <- <-; auto; fail).
  unfold bind in E at 1. unfold bind at 1. unfold lift at 1 in E. unfold lift at 1.
  destruct (slice_from (b_rbuf s) pe) as [cf|x|]; try (injection E as <- <-; auto; fail).
  unfold bind in E at 1. unfold bind at 1. unfold lift at 1 in E. unfold lift at 1.
  destruct (read_u16_le cf) as [cm|x|]; try (injection E as <- <-; auto; fail).
  unfold bind in E at 1. unfold bind at 1. unfold lift at 1 in E. unfold lift at 1.
  destruct (slice_to (b_rbuf s) pe) as [cov|x|]; try (injection E as <- <-; auto; fail).
  cbv zeta in E |- *. destruct (negb (cm =? calculate_checksum 0 cov)%N).
  - revert E. apply (loose_bind _ _ (consume_read_bytes n)); [apply loose_consume| |exact D]. intro. apply loose_ret.
  - unfold bind in E at 1. unfold bind at 1. unfold put at 1 in E. unfold put at 1.
    change (set_used (release s) (b_used s + n)) with (release (set_used s (b_used s + n))).
    assert (D1 : b_dbg (set_used s (b_used s + n)) = true) by exact D. revert E.
    apply (loose_bind _ _ (lift (with_slice (b_rbuf s) HEADER_SIZE pe unstuff_inplace))); [apply loose_lift| |exact D1].
    intros [rb pc]. intros t o' t' Dt E. unfold bind in E at 1. unfold bind at 1. unfold get at 1 in E. unfold get at 1.
    unfold bind in E at 1. unfold bind at 1. unfold put at 1 in E. unfold put at 1.
    change (set_rbuf (release t) rb) with (release (set_rbuf t rb)).
    assert (D2 : b_dbg (set_rbuf t rb) = true) by exact Dt. revert E.
    apply (loose_bind _ _ (lift (slice_to rb (HEADER_SIZE + pc)))); [apply loose_lift| |exact D2].
    intro dt. cbv zeta. apply loose_bind; [apply loose_lift|]. intro i. destruct (beq i STATUS && (pc <? 1)); apply loose_ret.
Qed.

Lemma loose_read_packet : forall d, loose (read_packet_deadline d).
Proof.
  intro d. unfold read_packet_deadline. apply loose_get; [reflexivity|]. intro s. apply loose_tryr. intros _.
  apply loose_try; [apply loose_read_loop|]. intro. apply loose_finish.
Qed.

(** ** All calls *)

Definition stable {A} (m : M A) : Prop := forall s o s', inv s -> b_dbg s = true -> m s = (o, s') ->
  inv s' /\ b_dbg s' = true /\ b_baud s' = b_baud s /\ length (b_wbuf s') = length (b_wbuf s) /\
  ((o = Panic POverflow /\ ~ moderate s) \/ m (release s) = (o, release s')).

Lemma stable_lift : forall A (x : out A), stable (lift x).
Proof. intros A x s o s' I D E. injection E as <- <-. repeat (split; [auto; fail|]). right. reflexivity. Qed.
Lemma stable_ret : forall A (a : A), stable (ret a).
Proof. intros. apply (stable_lift _ (Val a)). Qed.

Lemma stable_bind : forall A B (m : M A) (k : A -> M B), stable m -> (forall a, stable (k a)) -> stable (bind m k).
Proof.
  intros A B m k Hm Hk s o s' I D E. unfold bind in *. destruct (m s) as [[a|p|] s1] eqn:E1;
    destruct (Hm _ _ _ I D E1) as [I1 [D1 [B1 [W1 X]]]].
  - destruct X as [[X _]|X]; [discriminate X|]. rewrite X. destruct (Hk a _ _ _ I1 D1 E) as [I2 [D2 [B2 [W2 Y]]]].
    split; [exact I2|]. split; [exact D2|]. split; [congruence|]. split; [congruence|].
    destruct Y as [[-> Y]|Y]; [left; split; [reflexivity|]|right; exact Y].
    unfold moderate in *. rewrite B1, W1 in Y. exact Y.
  - injection E as <- <-. repeat (split; [assumption|]). destruct X as [[X Y]|X]; [left|right; rewrite X; reflexivity].
    injection X as ->. auto.
  - injection E as <- <-. repeat (split; [assumption|]). destruct X as [[X Y]|X]; [discriminate X|right; rewrite X; reflexivity].
Qed.

Lemma stable_try : forall A B E F (f : E -> F) (m : M (result A E)) (k : A -> M (result B F)),
  stable m -> (forall a, stable (k a)) -> stable (try_ f m k).
Proof. intros. apply stable_bind; [assumption|]. intros [a|e]; [auto|apply stable_ret]. Qed.
Lemma stable_tryr : forall A B E F (f : E -> F) (r : result A E) (k : A -> M (result B F)),
  (forall a, stable (k a)) -> stable (tryr f r k).
Proof. intros A B E F f [a|e] k H; [apply H|apply stable_ret]. Qed.

Lemma stable_get : forall A (k : bus -> M A), (forall s, k (release s) = k s) -> (forall s, stable (k s)) ->
  stable (bind get k).
Proof. intros A k Hr Hk s o s' I D E. unfold bind, get in *. rewrite Hr. apply (Hk s _ _ _ I D E). Qed.

Lemma stable_deadline : forall t, stable (port_make_deadline t).
Proof.
  intros t s o s' I D E. pose proof (keeps_make_deadline t s o s' I E) as [K1 K2 K3 K4 _].
  split; [exact K1|]. split; [congruence|]. injection E as <- <-. repeat (split; [reflexivity|]). right. reflexivity.
Qed.

Lemma stable_read_packet : forall d, stable (read_packet_deadline d).
Proof.
  intros d s o s' I D E. pose proof (keeps_read_packet d s o s' I E) as [K1 K2 K3 K4 _].
  split; [exact K1|]. split; [congruence|].
  destruct (loose_read_packet d s o s' D E) as [_ X].
  destruct (Nat.le_gt_cases 10 (length (b_rbuf s))) as [L|L].
  - destruct (read_packet_spec d s o s' (proj1 I) L E) as [dat [sc' R]].
    split; [destruct R as [_ _ F _ _]; apply F|]. split; [exact K3|]. right.
    destruct X as [->|X]; [exfalso|exact X]. destruct R as [_ _ _ R _].
    destruct (next_event (length (b_rbuf s)) (unread s ++ dat)) as [[ev r]|] eqn:N.
    + destruct R as [R _]. destruct ev as [x|x|x]; cbn [ev_out] in R; try discriminate R. injection R as <-.
      revert N. unfold next_event. cbv zeta. destruct (parse1 _ _); intro N; try discriminate N.
      injection N as N _. unfold finish_event in N. destruct (negb _); [discriminate N|].
      destruct (unst 0 _); discriminate N.
    + destruct R as [_ [[_ [R _]]|[e [_ R]]]]; discriminate R.
  - rewrite read_packet_small in E by exact L. injection E as <- <-.
    split; [reflexivity|]. split; [reflexivity|]. right. destruct X as [X|X]; [discriminate X|exact X].
Qed.

Lemma big_packet : forall s i params,
  length (b_wbuf s) <? 7 + length (i :: params) + fcount 0 (i :: params) = false ->
  (2 ^ 16 <=? N.of_nat (length (i :: params) + fcount 0 (i :: params)) mod 2 ^ 16 + 2)%N = true -> ~ moderate s.
Proof.
  intros s i params L2 L3 [_ M]. change (2 ^ 16)%N with 65536%N in L3.
  set (n := length (i :: params) + fcount 0 (i :: params)) in *.
  replace (7 + length (i :: params) + fcount 0 (i :: params)) with (7 + n) in L2 by (unfold n; lia). clearbody n. lia.
Qed.

Lemma stable_write_packet : forall id i n enc, encoder_ok enc -> stable (write_packet id i n enc).
Proof.
  intros id i n enc He s o s' I D E. pose proof (keeps_write_packet id i n enc He s o s' I E) as [K1 K2 K3 K4 _].
  split; [exact K1|]. split; [congruence|].
  rewrite write_packet_gen in E by (try apply I; exact He).
  rewrite write_packet_gen by (try apply I; exact He).
  unfold write_gen in *. cbv zeta in *. cbn [release b_wbuf] in *.
  destruct (usize_max <? N.of_nat (n + 10))%N; [injection E as <- <-; repeat (split; [reflexivity|]); right; reflexivity|].
  destruct (length (b_wbuf s) <? n + 10) eqn:L; [injection E as <- <-; repeat (split; [reflexivity|]); right; reflexivity|].
  destruct (enc (firstn n (skipn 8 (b_wbuf s)))) as [[params [[]|e]]|p|] eqn:EN;
    try (injection E as <- <-; split; [reflexivity|]; split; [exact K3|]; right; reflexivity).
  unfold write_value in *. cbv zeta in *. cbn [release b_wbuf b_dbg] in *. rewrite D in E.
  destruct (length (b_wbuf s) <? length params + 10) eqn:L1;
    [injection E as <- <-; split; [reflexivity|]; split; [exact K3|]; right; reflexivity|].
  unfold build_result in *. cbv zeta in *.
  destruct (length (b_wbuf s) <? 7 + length (i :: params) + fcount 0 (i :: params)) eqn:L2;
    [injection E as <- <-; split; [reflexivity|]; split; [exact K3|]; right; reflexivity|].
  cbn [andb] in *.
  destruct (2 ^ 16 <=? N.of_nat (length (i :: params) + fcount 0 (i :: params)) mod 2 ^ 16 + 2)%N eqn:L3.
  - injection E as <- <-. repeat (split; [reflexivity|]).
    left. split; [reflexivity|]. apply (big_packet s i params L2 L3).
  - destruct (length (b_wbuf s) <? 9 + length (i :: params) + fcount 0 (i :: params)) eqn:L4.
    + injection E as <- <-. repeat (split; [reflexivity|]). right. reflexivity.
    + unfold transmit in *. cbn [set_used set_rlen set_wbuf b_port b_baud b_rbuf b_rlen b_used b_wbuf b_dbg release] in *.
      destruct (hd None (p_discards (b_port s))); injection E as <- <-; (split; [reflexivity|]; split; [exact K3|]; right; reflexivity).
Qed.

Lemma stable_write_status : forall id e n enc, encoder_ok enc -> stable (write_status id e n enc).
Proof.
  intros id e n enc He. unfold write_status. destruct (usize_max <? _)%N; [apply stable_lift|].
  apply stable_get; [reflexivity|]. intro s. apply stable_tryr. intros _. apply stable_write_packet.
  apply (status_encoder_ok e enc He).
Qed.

Lemma transfer_time_profiles : forall s size, (size < 2 ^ 32)%N ->
  message_transfer_time true size (b_baud s) = message_transfer_time false size (b_baud s) \/
  message_transfer_time true size (b_baud s) = Panic POverflow /\ ~ moderate s.
Proof.
  intros s size Hs. unfold message_transfer_time, u64_mul. change (2 ^ 32)%N with 4294967296%N in *.
  replace (u64_max <? size * 10)%N with false
    by (symmetry; apply N.ltb_ge; change u64_max with 18446744073709551615%N; lia).
  cbn [obind]. destruct (b_baud s =? 0)%N eqn:Z; [left; reflexivity|].
  destruct (u64_max <? (size * 10) mod b_baud s * 1000000000)%N eqn:O; [|left; reflexivity].
  right. split; [reflexivity|]. intros [M _]. apply N.ltb_lt in O. change u64_max with 18446744073709551615%N in O.
  change (2 ^ 32)%N with 4294967296%N in M. apply N.eqb_neq in Z.
  pose proof (N.mod_lt (size * 10) (b_baud s) Z). lia.
Qed.

(** A timeout computed from the profile and the baud rate, then something. *)
Lemma stable_timeout : forall A (f : bool -> N -> out duration) (k : duration -> M A),
  (forall s, f true (b_baud s) = f false (b_baud s) \/ f true (b_baud s) = Panic POverflow /\ ~ moderate s) ->
  (forall t, stable (k t)) -> stable (s <- get ;; t <- lift (f (b_dbg s) (b_baud s)) ;; k t).
Proof.
  intros A f k Hf Hk s o s' I D E. unfold bind at 1, get in E. unfold bind at 1, get. rewrite D in E.
  cbn [release b_dbg b_baud]. destruct (Hf s) as [F|[F M]].
  - rewrite F in E. apply (stable_bind _ _ (lift (f false (b_baud s))) k); [apply stable_lift|exact Hk|exact I|exact D|exact E].
  - rewrite F in E. unfold bind, lift in E. injection E as <- <-. repeat (split; [auto; fail|]). left. auto.
Qed.

Lemma stable_rsrt : forall t, stable (read_status_response_timeout t).
Proof.
  intro t. unfold read_status_response_timeout.
  apply stable_bind; [apply stable_deadline|]. intro d. apply stable_try; [apply stable_read_packet|]. intro p.
  apply stable_bind; [apply stable_lift|]. intros [x|].
  - apply stable_bind; [apply stable_lift|]. intro e. apply stable_tryr. intro. apply stable_ret.
  - apply stable_bind; [apply stable_lift|]. intro. apply stable_ret.
Qed.

Lemma stable_rsr : forall n, stable (read_status_response n).
Proof.
  intro n. apply (stable_timeout _ (fun dbg b => response_timeout dbg b n)); [|apply stable_rsrt].
  intro s. unfold response_timeout. cbv zeta.
  destruct (transfer_time_profiles s (N.of_nat (st_message_len (N.to_nat n)) mod 2 ^ 32)) as [->|[-> M]];
    [apply N.mod_lt; discriminate|left; reflexivity|right; auto].
Qed.

Lemma stable_scan_next : stable scan_next.
Proof.
  unfold scan_next. apply stable_bind; [|intros [x|[x|e|x|x]]; try apply stable_ret; destruct (is_timeout_error e); apply stable_ret].
  apply (stable_timeout _ scan_timeout).
  - intro s. unfold scan_timeout. destruct (transfer_time_profiles s 14) as [->|[-> M]]; [reflexivity|left; reflexivity|right; auto].
  - intro t. apply stable_try; [apply stable_rsrt|]. intro p. apply stable_bind; [apply stable_lift|]. intro. apply stable_ret.
Qed.

Lemma stable_device_loop : forall n d, stable (device_loop n d).
Proof.
  induction n as [|n IH]; intro d; cbn [device_loop]; [apply stable_lift|].
  apply stable_try; [apply stable_read_packet|]. intro p. apply stable_bind; [apply stable_lift|].
  intros [i|]; [apply stable_ret|apply IH].
Qed.

Lemma stable_rrit : forall t, stable (read_raw_instruction_timeout t).
Proof.
  intro t. unfold read_raw_instruction_timeout. apply stable_bind; [apply stable_deadline|]. intro d.
  apply stable_get; [reflexivity|]. intro. apply stable_device_loop.
Qed.

Ltac stable_step :=
  lazymatch goal with
  | |- forall _, _ => intro
  | |- stable (ret _) => apply stable_ret
  | |- stable (lift _) => apply stable_lift
  | |- stable (try_ _ _ _) => apply stable_try
  | |- stable (tryr _ _ _) => apply stable_tryr
  | |- stable (bind _ _) => apply stable_bind
  | |- stable (read_status_response _) => apply stable_rsr
  | |- stable (read_status_response_timeout _) => apply stable_rsrt
  | |- stable scan_next => apply stable_scan_next
  | |- stable (read_raw_instruction_timeout _) => apply stable_rrit
  | |- stable (write_instruction _ _ _ _) => apply stable_write_packet; auto with enc
  | |- stable (write_packet _ _ _ _) => apply stable_write_packet; auto with enc
  | |- stable (match ?x with _ => _ end) => destruct x
  end.
Ltac stable_all := repeat stable_step.

Lemma stable_rr : forall id, stable (read_response_if_not_broadcast id).
Proof. intro. unfold read_response_if_not_broadcast. stable_all. Qed.
Lemma stable_instruct : forall id i n enc, encoder_ok enc -> stable (instruct id i n enc).
Proof. intros id i n enc H. unfold instruct. stable_all. apply stable_rr. Qed.
Lemma stable_transfer : forall id i n e enc, encoder_ok enc -> stable (transfer_single id i n e enc).
Proof. intros id i n e enc H. unfold transfer_single. stable_all. Qed.
Lemma stable_read_raw : forall id a n, stable (read_raw id a n).
Proof. intros. unfold read_raw. stable_all. apply stable_transfer. auto with enc. Qed.
Lemma stable_expect_response : forall id n, stable (expect_response id n).
Proof. intros. unfold expect_response. stable_all. Qed.
Lemma stable_expect_value : forall A (D : data_impl A) id, stable (expect_value D id).
Proof. intros. unfold expect_value. stable_all. Qed.
Lemma stable_scan_drop : forall n, stable (scan_drop n).
Proof. induction n as [|n IH]; cbn [scan_drop]; stable_all. exact IH. Qed.
Lemma stable_srb_drop_loop : forall n it, stable (srb_drop_loop n it).
Proof. induction n as [|n IH]; intro it; cbn [srb_drop_loop]; stable_all. apply IH. Qed.
Lemma stable_sr_next : forall A (D : data_impl A) it, stable (sr_next D it).
Proof. intros. unfold sr_next. stable_all. apply stable_expect_value. Qed.
Lemma stable_sr_drop_loop : forall A (D : data_impl A) n it, stable (sr_drop_loop D n it).
Proof. induction n as [|n IH]; intro it; cbn [sr_drop_loop]; stable_all; [apply stable_sr_next|apply IH]. Qed.
Lemma stable_br_drop_loop : forall l, stable (br_drop_loop l).
Proof. induction l as [|x l IH]; cbn [br_drop_loop]; stable_all. exact IH. Qed.

Lemma set_baud_release : forall b s o s', set_baud_rate b s = (o, s') -> set_baud_rate b (release s) = (o, release s').
Proof.
  intros b s o s' E. unfold set_baud_rate, try_, bind, port_set_baud, get, put, ret in *.
  cbn [release b_port] in *. destruct (match p_setbauds (b_port s) with [] => None | r :: _ => r end);
    injection E as <- <-; reflexivity.
Qed.

Lemma api_profiles : forall A (m : M A) s o s', api m -> inv s -> b_dbg s = true -> m s = (o, s') ->
  (o = Panic POverflow /\ ~ moderate s) \/ m (release s) = (o, release s').
Proof.
  intros A m s o s' H I D E.
  cut (stable m \/ m (release s) = (o, release s')).
  { intros [S|S]; [apply (S s o s' I D E)|right; exact S]. }
  destruct H; try (left; unfold device_read, device_read_owned, ping, read_bytes, read, sync_read_bytes, sync_read,
      write_sync_read, bulk_read_bytes, write_bulk_read_instruction, srb_next, br_next, br_drop, bulk_write, broadcast_action,
      broadcast_reboot, broadcast_factory_reset, broadcast_clear_revolution_counter, broadcast_clear_error, scan,
      sync_write, sync_write_bytes, action, reboot, factory_reset, clear_revolution_counter, clear_error, write,
      write_bytes, reg_write, reg_write_bytes, device_write_status, device_write_status_error, device_write_status_ok;
    repeat first [stable_step | apply stable_transfer; auto with enc | apply stable_read_raw | apply stable_instruct; auto with enc
      | apply stable_write_status; auto with enc | apply stable_expect_response | apply stable_scan_drop
      | apply stable_srb_drop_loop | apply stable_sr_next | apply stable_sr_drop_loop | apply stable_br_drop_loop]; fail).
  right. apply set_baud_release, E.
Qed.

Lemma L_C59_profiles_agree_partial : forall A (m : M A) s o s', reach s -> api m -> b_dbg s = true -> moderate s ->
  m s = (o, s') -> m (release s) = (o, release s').
Proof.
  intros A m s o s' R H D M E. destruct (api_profiles A m s o s' H (reach_inv _ R) D E) as [[_ X]|X]; [contradiction|exact X].
Qed.

Lemma L_C59_only_overflow_differs : forall A (m : M A) s o s', reach s -> api m -> b_dbg s = true ->
  m s = (o, s') -> o = Panic POverflow \/ m (release s) = (o, release s').
Proof.
  intros A m s o s' R H D E. destruct (api_profiles A m s o s' H (reach_inv _ R) D E) as [[X _]|X]; auto.
Qed.

Lemma steady_api : forall A (m : M A), steady m -> api m.
Proof.
  intros A m H. destruct H.
  - apply api_set_baud_rate; assumption.
  - apply api_transfer_single; assumption.
  - apply api_write_instruction; assumption.
  - apply api_read_status_response_timeout; assumption.
  - apply api_read_status_response; assumption.
  - apply api_device_read; assumption.
  - apply api_device_read_owned; assumption.
  - apply api_read_raw_instruction_timeout; assumption.
  - apply api_device_write_status; assumption.
  - apply api_device_write_status_error; assumption.
  - apply api_device_write_status_ok; assumption.
  - apply api_ping; assumption.
  - apply api_scan; assumption.
  - apply api_scan_next; assumption.
  - apply api_scan_drop; assumption.
  - apply api_read_bytes; assumption.
  - apply api_read; assumption.
  - apply api_write; assumption.
  - apply api_write_bytes; assumption.
  - apply api_reg_write; assumption.
  - apply api_reg_write_bytes; assumption.
  - apply api_action; assumption.
  - apply api_broadcast_action; assumption.
  - apply api_reboot; assumption.
  - apply api_broadcast_reboot; assumption.
  - apply api_factory_reset; assumption.
  - apply api_broadcast_factory_reset; assumption.
  - apply api_clear_revolution_counter; assumption.
  - apply api_broadcast_clear_revolution_counter; assumption.
  - apply api_clear_error; assumption.
  - apply api_broadcast_clear_error; assumption.
  - apply api_sync_write; assumption.
  - apply api_sync_write_bytes; assumption.
  - apply api_bulk_write; assumption.
  - apply api_sync_read_bytes; assumption.
  - apply api_srb_next; assumption.
  - apply api_srb_drop; assumption.
  - apply api_sync_read; assumption.
  - apply api_sr_next; assumption.
  - apply api_sr_drop; assumption.
  - apply api_bulk_read_bytes; assumption.
  - apply api_br_next; assumption.
  - apply api_br_drop; assumption.
Qed.

Lemma L_C59_programs : forall R (p : program R) s o evs s', reach s -> b_dbg s = true -> runs p s o evs s' ->
  o = Panic POverflow \/ runs p (release s) o evs (release s').
Proof.
  intros R p s o evs s' Re D H. apply reach_inv in Re.
  induction H as [r s|A m Hm k s a s1 evs o evs' s2 E C _ IH|A m Hm k s p s1 evs E C|A m Hm k s s1 evs E C].
  - right. constructor.
  - destruct (api_profiles A m s _ _ (steady_api _ _ Hm) Re D E) as [[X _]|X]; [discriminate X|].
    pose proof (api_keeps _ _ (steady_api _ _ Hm) s _ _ Re E) as [K1 K2 K3 K4 _].
    destruct (IH K1 ltac:(congruence)) as [Y|Y]; [left; exact Y|right]. eapply runs_call; eassumption.
  - destruct (api_profiles A m s _ _ (steady_api _ _ Hm) Re D E) as [[X _]|X]; [left; injection X as ->; reflexivity|right].
    apply runs_panic; assumption.
  - destruct (api_profiles A m s _ _ (steady_api _ _ Hm) Re D E) as [[X _]|X]; [discriminate X|right].
    apply runs_blocked; assumption.
Qed.

Lemma L_C59_profiles_agree_refuted : ~ (forall A (m : M A) s o s', reach s -> api m -> b_dbg s = true ->
  (b_baud s < 2 ^ 32)%N -> m s = (o, s') -> m (release s) = (o, release s')).
Proof.
  intro H. remember (N.to_nat 65533) as n eqn:Hn0.
  assert (Hn : N.of_nat n = 65533%N) by (rewrite Hn0; apply N2Nat.id). clear Hn0. set (params := repeat x00 n).
  assert (F : fcount 0 (WRITE :: params) = 0).
  { unfold params. cbn [fcount]. rewrite fcount_zeros. reflexivity. }
  assert (LP : length params = n) by apply repeat_length.
  assert (LS : N.of_nat (length (code_stuff (WRITE :: params))) = 65534%N).
  { rewrite code_stuff_length, F. cbn [length]. rewrite LP. lia. }
  destruct (fresh_send x01 WRITE params false [] 32 (n + 10)) as [s' E].
  - lia.
  - rewrite LP, usize_max_val. lia.
  - rewrite LP, F. lia.
  - discriminate.
  - pose proof (fresh_reach true [] 32 (n + 10) ltac:(lia)) as R.
    pose proof (sends_instruction x01 WRITE params _ (fill_writes params)) as Sd.
    destruct (write_instruction x01 WRITE (length params) (fill params) (fresh true [] 32 (n + 10))) as [o t] eqn:Et.
    assert (He : encoder_ok (fill params)).
    { exact (proj1 (fill_writes params)). }
    pose proof (H _ _ _ _ _ R (api_write_instruction x01 WRITE (length params) (fill params) He) eq_refl eq_refl Et) as X.
    change (release (fresh true [] 32 (n + 10))) with (fresh false [] 32 (n + 10)) in X. rewrite X in E. injection E as -> _.
    pose proof (sends_effect _ _ _ _ _ Sd (reach_inv _ R)) as Ef. rewrite Et in Ef.
    inversion Ef as [| | | |w' W1 W2 W3 W4 W5 W6].
    specialize (W4 eq_refl). rewrite LS in W4. discriminate W4.
Qed.
