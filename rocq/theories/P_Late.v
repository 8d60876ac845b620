(** * Property C76: answers that come too late *)
From Coq Require Import ZArith.
From Verif Require Import Base Endian Error Packet Time Bus Data Client Instructions Spec CallSpec StreamSpec
  InstructionSpec RemoteSpec Demo CrcErrorProofs DemoProofs EchoSpec LateSpec LateTheorems.

(** ** C76.  Each call gets the answer to its own request, also after an answer came too late.  Not on a port on
    which discarding the input does nothing. *)
Theorem C76_own_answer_refuted :
  ~ forall discards cap s q0 c w0 st0 qs ws sts, ready cap s -> 16 <= cap -> p_script (b_port s) = [] ->
      Forall (fun q => is_u16 (q_count q)) (q0 :: qs) -> answer_is cap w0 st0 -> Forall2 (answer_is cap) ws sts ->
      length ws = length qs ->
      poll discards (one_late q0 c w0 qs ws) s = gave_up c :: reports qs sts.
Proof. exact L_C76_own_answer_refuted. Qed.
Print Assumptions C76_own_answer_refuted.

(** On a port that discards its input, it does. *)
Theorem C76_own_answer_partial : forall cap s q0 c w0 qs ws sts, ready cap s -> 16 <= cap ->
  Forall (fun q => is_u16 (q_count q)) (q0 :: qs) -> Forall2 (answer_is cap) ws sts -> length ws = length qs ->
  poll true (one_late q0 c w0 qs ws) s = gave_up c :: reports qs sts.
Proof. exact L_C76_own_answer_partial. Qed.
Print Assumptions C76_own_answer_partial.

(** Missing: the port that discards nothing, and an answer that arrives while the next call transmits. *)
Theorem C76_race_refuted :
  ~ forall cap s q w0 st0 w st, ready cap s -> 16 <= cap -> is_u16 (q_count q) -> answer_is cap w0 st0 ->
      answer_is cap w st -> poll true [(q, ([], [RdData w0; RdData w]))] s = [reported q st].
Proof. exact L_C76_race_refuted. Qed.
Print Assumptions C76_race_refuted.

(** What a call reports is the first status packet after its input was discarded, whatever came before, over any
    sequence of answered and unanswered calls. *)
Theorem C76_first_after_discard : forall cap l os s, ready cap s -> 16 <= cap -> Forall2 (gets cap) l os ->
  poll true l s = os.
Proof. exact L_C76_first_after_discard. Qed.
Print Assumptions C76_first_after_discard.

(** If nothing is discarded, the calls read from a queue: one late answer shifts all later answers, for as many
    calls as follow. *)
Theorem C76_shifted : forall cap s q0 c w0 st0 qs ws sts, ready cap s -> 16 <= cap -> p_script (b_port s) = [] ->
  Forall (fun q => is_u16 (q_count q)) (q0 :: qs) -> answer_is cap w0 st0 -> Forall2 (answer_is cap) ws sts ->
  length ws = length qs ->
  poll false (one_late q0 c w0 qs ws) s = gave_up c :: reports qs (st0 :: sts).
Proof. exact L_C76_shifted. Qed.
Print Assumptions C76_shifted.
Theorem C76_backlog : forall cap s qs ws sts back late, ready cap s -> 16 <= cap ->
  Forall (fun q => is_u16 (q_count q)) qs -> Forall2 (answer_is cap) back late -> Forall2 (answer_is cap) ws sts ->
  length ws = length qs -> p_script (b_port s) = map RdData back ->
  poll false (in_time qs ws) s = reports qs (late ++ sts).
Proof. exact L_C76_backlog. Qed.
Print Assumptions C76_backlog.

(** If the same motor is asked for the same number of bytes again and again, each call succeeds with the value
    the previous one should have returned. *)
Theorem C76_same_motor : forall cap s q0 c w0 id e0 ps0 a n ws sts, ready cap s -> 16 <= cap ->
  p_script (b_port s) = [] -> is_u16 n -> is_u16 (q_count q0) -> answer_is cap w0 (id, e0, ps0) ->
  Forall2 (answer_is cap) ws sts ->
  Forall (fun '(id', e, ps) => id' = id /\ no_error e /\ length ps = N.to_nat n) ((id, e0, ps0) :: sts) ->
  poll false (one_late q0 c w0 (repeat (mkQuery id a n) (length ws)) ws) s =
  gave_up c :: map (fun '(_, e, ps) => Val (Ok (mkResponse id (alert_bit e) ps)))
                   (firstn (length ws) ((id, e0, ps0) :: sts)).
Proof. exact L_C76_same_motor. Qed.
Print Assumptions C76_same_motor.

(** The shift ends when the port delivers two answers in one read: the second is in the client's own buffer, which
    the next call clears. *)
Theorem C76_same_read_heals : forall cap s q w0 st0 more qs ws sts, ready cap s -> 16 <= cap -> p_script (b_port s) = [] ->
  Forall (fun q => is_u16 (q_count q)) (q :: qs) -> answer_is cap w0 st0 -> length (w0 ++ more) <= cap ->
  Forall2 (answer_is cap) ws sts -> length ws = length qs ->
  poll false ((q, ([], [RdData (w0 ++ more)])) :: in_time qs ws) s = reported q st0 :: reports qs sts.
Proof. exact L_C76_same_read_heals. Qed.
Print Assumptions C76_same_read_heals.

(** Every other call that waits for one answer takes what is there for its answer as well, and leaves the rest. *)
Theorem C76_any_call : forall B (m : M (result B transfer_error)) id i params cap s w extra status rest,
  asks m id i params -> ready cap s -> 10 <= cap -> fits cap (i :: params) ->
  p_script (b_port s) = RdData (w ++ extra) :: rest -> answer_is cap w status -> length (w ++ extra) <= cap ->
  exists o s1 s2, m s = (o, s1) /\ p_script (b_port s1) = rest /\ m (set_script s [RdData w]) = (o, s2).
Proof. exact L_C76_any_call. Qed.
Print Assumptions C76_any_call.

(** A write to motor 2 is taken to be acknowledged by the late answer of motor 1. *)
Example C76_any_call_example : exists s1 s2,
  let w := frame x01 [STATUS; x00] in
  let s := fresh true [RdData (w ++ []); RdData (frame x02 [STATUS; x07])] 32 32 in
  asks (write_bytes x02 132 [x05]) x02 x03 (le16 132 ++ [x05]) /\ ready 32 s /\ fits 32 (x03 :: le16 132 ++ [x05]) /\
  answer_is 32 w (x01, x00, []) /\
  write_bytes x02 132 [x05] s = (Val (Ok (mkResponse x01 false tt)), s1) /\
  p_script (b_port s1) = [RdData (frame x02 [STATUS; x07])] /\
  write_bytes x02 132 [x05] (set_script s [RdData w]) = (Val (Ok (mkResponse x01 false tt)), s2).
Proof.
  do 2 eexists. cbv zeta. split; [apply as_write_bytes; discriminate|].
  split; [split; [apply fresh_reach; lia|vm_compute; intuition (discriminate || lia)]|].
  split; [vm_compute; intuition lia|]. split; [unfold answer_is; split; [demo|split; [demo|vm_compute; lia]]|].
  split; [vm_compute; reflexivity|]. split; vm_compute; reflexivity.
Qed.

(** Motor 1 counts up.  Its first answer is late: the client lags behind from then on. *)
Example C76_example :
  let q := mkQuery x01 132 1 in
  let w v := frame x01 [STATUS; x00; v] in
  let answer v := Val (Ok (mkResponse x01 false [v])) in
  let s := fresh true [] 32 32 in
  ready 32 s /\ Forall2 (answer_is 32) [w x2a; w x2b; w x2c] [motor_1 x2a; motor_1 x2b; motor_1 x2c] /\
  poll false (one_late q 0 (w x2a) [q; q] [w x2b; w x2c]) s = [gave_up 0; answer x2a; answer x2b] /\
  poll true (one_late q 0 (w x2a) [q; q] [w x2b; w x2c]) s = [gave_up 0; answer x2b; answer x2c] /\
  poll false [(q, ([], [RdData (w x2a ++ [])])); (q, ([], [RdData (w x2b)]))] s = [answer x2a; answer x2b].
Proof.
  cbv zeta. split; [exact quiet_ready|].
  split; [repeat (constructor; [apply motor_1_answers; cbn; auto|]); constructor|].
  split; [vm_compute; reflexivity|]. split; vm_compute; reflexivity.
Qed.

Example C76_gets_example :
  let w := frame x01 [STATUS; x00; x2a] in
  Forall2 (gets 32)
    [(mkQuery x01 132 1, ([RdData [x01; x02]], [RdData (w ++ [xff])])); (mkQuery x02 132 1, ([], gives_up 3));
     (mkQuery x02 132 1, ([RdData w], RdData (w ++ []) :: gives_up 4))]
    [Val (Ok (mkResponse x01 false [x2a])); gave_up 3;
     Val (Err (TReadError (RInvalidMessage (IMPacketId x01 (Some x02)))))].
Proof.
  cbv zeta. constructor; [|constructor; [constructor; reflexivity|constructor; [|constructor]]].
  - apply (gets_status 32 (mkQuery x01 132 1) _ (frame x01 [STATUS; x00; x2a]) [xff] [] (motor_1 x2a));
      [reflexivity|apply motor_1_answers; cbn; auto|vm_compute; lia].
  - apply (gets_status 32 (mkQuery x02 132 1) _ (frame x01 [STATUS; x00; x2a]) [] (gives_up 4) (motor_1 x2a));
      [reflexivity|apply motor_1_answers; cbn; auto|vm_compute; lia].
Qed.
