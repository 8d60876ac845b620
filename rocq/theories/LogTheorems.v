(** * LogTheorems: what the log shows (C64) *)
From Coq Require Import ZArith ZifyN ZifyNat ZifyBool Ascii String.
From Verif Require Import Base Endian Error Checksum Bytestuff Packet Time Bus Data Client
  Instructions Device Api Spec CallSpec StreamSpec Text LogModel LogSpec Lib Demo DemoProofs StuffProofs WriteProofs ReadProofs
  ApiProofs StreamProofs MessageProofs SendProofs SendTheorems ReadTheorems TextTheorems TwinProofs.
Local Open Scope list_scope.
Ltac Zify.zify_post_hook ::= Z.div_mod_to_equations.

(** ** Logging has no effect *)

Definition erase {A} (m : T A) : M A := fun s => fst (m s).
Definition same {A} (m : T A) (n : M A) : Prop := forall s, fst (m s) = n s.

Lemma same_quiet : forall A (m : M A), same (quiet m) m.
Proof. intros A m s. reflexivity. Qed.

Lemma same_bind : forall A B (m : T A) n (k : A -> T B) h, same m n -> (forall a, same (k a) (h a)) ->
  same (tbind m k) (bind n h).
Proof.
  intros A B m n k h H K s. unfold tbind, bind. rewrite <- H. destruct (m s) as [[[a|p|] s1] l]; cbn [fst]; try reflexivity.
  rewrite <- K. destruct (k a s1) as [[o s2] l']. reflexivity.
Qed.

Lemma same_say : forall B r (k : T B) h, same k h -> same (say r ;~ k) h.
Proof. intros B r k h H s. unfold tbind, say. rewrite <- H. destruct (k s) as [[o s2] l']. reflexivity. Qed.

Lemma same_ext : forall A (m : T A) n n', same m n -> (forall s, n s = n' s) -> same m n'.
Proof. intros A m n n' H E s. rewrite H. apply E. Qed.

Lemma same_try : forall A B E F (f : E -> F) (m : T (result A E)) n (k : A -> T (result B F)) h,
  same m n -> (forall a, same (k a) (h a)) -> same (ttry f m k) (try_ f n h).
Proof.
  intros. unfold ttry, try_. apply same_bind; [assumption|]. intros [a|e]; [auto|apply same_quiet].
Qed.

Lemma same_tryr : forall A B E F (f : E -> F) (r : result A E) (k : A -> T (result B F)) h,
  (forall a, same (k a) (h a)) -> same (ttryr f r k) (tryr f r h).
Proof. intros. unfold ttryr, tryr. destruct r; [auto|apply same_quiet]. Qed.

Lemma L_C64_write_unchanged : forall id i n enc s,
  fst (write_packet_log id i n enc s) = write_packet id i n enc s.
Proof.
  intros id i n enc. change (same (write_packet_log id i n enc) (write_packet id i n enc)).
  unfold write_packet_log, write_packet.
  apply same_bind; [apply same_quiet|intro s].
  apply same_bind; [apply same_quiet|intros [b r]].
  apply same_bind; [apply same_quiet|intros _].
  apply same_tryr. intro ci.
  apply same_bind; [apply same_quiet|intro s1].
  apply same_bind; [apply same_quiet|intros _].
  apply same_try; [apply same_quiet|intros _].
  apply same_bind; [apply same_quiet|intro m].
  apply same_say. apply same_try; [apply same_quiet|intros _]. apply same_quiet.
Qed.

(** What is logged by [remove_garbage]. *)
Definition garbage_log (s : bus) : list log_record :=
  let n := find_header (unread s) in
  if 0 <? n then [LogSkipping n; LogSkipped (firstn n (b_rbuf s))] else [].

Lemma slice_to_cases : forall l n, slice_to l n = Val (firstn n l) /\ n <= length l \/
  (exists p, slice_to l n = Panic p) /\ length l < n.
Proof.
  intros l n. destruct (Nat.leb_spec n (length l)) as [H|H].
  - left. split; [apply slice_to_val; exact H|exact H].
  - right. split; [|exact H]. unfold slice_to, slice. eexists.
    replace (n <=? length l) with false by lia. rewrite ?andb_false_r. reflexivity.
Qed.

Lemma slice_from_cases : forall l n, slice_from l n = Val (skipn n l) /\ n <= length l \/
  (exists p, slice_from l n = Panic p) /\ length l < n.
Proof.
  intros l n. destruct (Nat.leb_spec n (length l)) as [H|H].
  - left. split; [apply slice_from_val; exact H|exact H].
  - right. split; [|exact H]. unfold slice_from, slice. eexists.
    replace (n <=? length l) with false by lia. rewrite ?andb_false_r. reflexivity.
Qed.

Lemma fst_quiet : forall A B (m : M A) (k : A -> T B) s,
  fst (tbind (quiet m) k s) =
  match m s with (Val a, s1) => fst (k a s1) | (Panic p, s1) => (Panic p, s1) | (Blocked, s1) => (Blocked, s1) end.
Proof.
  intros. unfold tbind, quiet. destruct (m s) as [[a|p|] s1]; try reflexivity.
  destruct (k a s1) as [[o s2] l]. reflexivity.
Qed.

Lemma same_remove_garbage : same remove_garbage_log remove_garbage.
Proof.
  intro s. unfold remove_garbage_log, remove_garbage.
  rewrite fst_quiet. unfold bind at 1. cbn [get].
  rewrite fst_quiet. unfold bind at 1. unfold lift at 1 3.
  destruct (slice_to_cases (b_rbuf s) (b_rlen s)) as [[E L]|[[p E] L]]; rewrite E; [|reflexivity].
  rewrite fst_quiet. unfold bind at 1. unfold lift at 1 3.
  destruct (slice_from_cases (firstn (b_rlen s) (b_rbuf s)) (b_used s)) as [[E1 L1]|[[p E1] L1]]; rewrite E1; [|reflexivity].
  pose proof (find_header_le (skipn (b_used s) (firstn (b_rlen s) (b_rbuf s)))) as F.
  rewrite skipn_length, firstn_length in F. cbv zeta.
  set (n := find_header _) in *.
  set (kt := (quiet (consume_read_bytes (b_used s + n)) ;~ _)).
  transitivity ((consume_read_bytes (b_used s + n) ;;;
     s0 <- get ;; (if b_dbg s0 && negb (b_used s0 =? 0) then lift (Panic PDebugAssert) else ret tt)) s); [|reflexivity].
  match goal with |- _ = ?k s => assert (K : same kt k) end.
  { apply same_bind; [apply same_quiet|intros _]. apply same_bind; [apply same_quiet|intro s0].
    destruct (b_dbg s0 && negb (b_used s0 =? 0)); apply same_quiet. }
  rewrite <- K. clearbody kt. destruct (0 <? n).
  - unfold tbind, say, quiet, lift. rewrite slice_to_val by lia.
    destruct (kt s) as [[o s2] l]. reflexivity.
  - rewrite fst_quiet. reflexivity.
Qed.

Lemma same_read_loop : forall fuel d, same (read_loop_log fuel d) (read_loop fuel d).
Proof.
  induction fuel as [|fuel IH]; intro d; [apply same_quiet|]. cbn [read_loop_log read_loop].
  apply same_bind; [apply same_remove_garbage|intros _].
  apply same_bind; [apply same_quiet|intro s].
  apply same_bind; [apply same_quiet|intros [[t|]|e]]; [apply same_quiet| |apply same_quiet].
  apply same_bind; [apply same_quiet|intro s1].
  apply same_bind; [apply same_quiet|intro free].
  apply same_try; [apply same_quiet|intro new].
  apply same_bind; [apply same_quiet|intro s2].
  apply same_bind; [apply same_quiet|intros _]. apply IH.
Qed.

Lemma same_finish : forall n, same (finish_packet_log n) (finish_packet n).
Proof.
  intros n s. unfold finish_packet_log.
  rewrite fst_quiet. cbn [get]. rewrite fst_quiet. unfold lift at 1.
  destruct (usize_sub n 2) as [pe|p|] eqn:U.
  2,3: unfold finish_packet, bind, get, lift; rewrite U; reflexivity.
  rewrite fst_quiet. unfold lift at 1.
  destruct (slice_to_cases (b_rbuf s) pe) as [[E L]|[[p E] L]].
  - rewrite E. unfold tbind, say, quiet. destruct (finish_packet n s) as [o s2]. reflexivity.
  - rewrite E. unfold finish_packet, bind, get, lift. rewrite U.
    assert (Q : slice_from (b_rbuf s) pe = slice_to (b_rbuf s) pe).
    { unfold slice_from, slice_to, slice. replace (pe <=? Datatypes.length (b_rbuf s)) with false by lia.
      cbn [andb]. rewrite ?andb_false_r. reflexivity. }
    rewrite Q, E. reflexivity.
Qed.

Lemma L_C64_read_unchanged : forall d s, fst (read_packet_deadline_log d s) = read_packet_deadline d s.
Proof.
  intro d. change (same (read_packet_deadline_log d) (read_packet_deadline d)).
  unfold read_packet_deadline_log, read_packet_deadline.
  apply same_bind; [apply same_quiet|intro s]. apply same_tryr. intros _.
  apply same_try; [apply same_read_loop|intro n]. apply same_finish.
Qed.

Lemma same_rsrt : forall t, same (read_status_response_timeout_log t) (read_status_response_timeout t).
Proof.
  intro t. unfold read_status_response_timeout_log, read_status_response_timeout.
  apply same_bind; [apply same_quiet|intro d].
  apply same_try; [intro; apply L_C64_read_unchanged|intro p]. apply same_quiet.
Qed.

Lemma L_C64_transfer_unchanged : forall id i n k enc s,
  fst (transfer_single_log id i n k enc s) = transfer_single id i n k enc s.
Proof.
  intros id i n k enc. change (same (transfer_single_log id i n k enc) (transfer_single id i n k enc)).
  unfold transfer_single_log, transfer_single.
  apply same_try; [intro; apply L_C64_write_unchanged|intros _].
  apply same_try.
  { unfold read_status_response_log, read_status_response.
    apply same_bind; [apply same_quiet|intro s]. apply same_bind; [apply same_quiet|intro t]. apply same_rsrt. }
  intro p. apply same_bind; [apply same_quiet|intro rid]. apply same_quiet.
Qed.

Lemma L_C64_scan_unchanged : forall s, fst (scan_next_log s) = scan_next s.
Proof.
  change (same scan_next_log scan_next). unfold scan_next_log, scan_next.
  apply same_bind.
  { unfold scan_next_response_log, scan_next_response.
    apply same_bind; [apply same_quiet|intro s]. apply same_bind; [apply same_quiet|intro t].
    apply same_try; [apply same_rsrt|intro p]. apply same_quiet. }
  intros [r|e]; [apply same_quiet|]. destruct e as [e|e|e|e]; try apply same_quiet.
  destruct (is_timeout_error e); [apply same_say|]; apply same_quiet.
Qed.

(** ** What is written *)

Lemma written_app : forall a b, written_in (a ++ b) = written_in a ++ written_in b.
Proof. intros. unfold written_in. apply flat_map_app. Qed.
Lemma sent_app : forall a b, sent_in (a ++ b) = sent_in a ++ sent_in b.
Proof. intros. unfold sent_in. apply flat_map_app. Qed.
Lemma received_app : forall a b, received_in (a ++ b) = received_in a ++ received_in b.
Proof. intros. unfold received_in. apply flat_map_app. Qed.
Lemma garbage_app : forall a b, garbage_in (a ++ b) = garbage_in a ++ garbage_in b.
Proof. intros. unfold garbage_in. apply flat_map_app. Qed.
Lemma skip_app : forall a b, skip_count (a ++ b) = skip_count a + skip_count b.
Proof. intros. unfold skip_count. rewrite map_app, list_sum_app. reflexivity. Qed.

Lemma L_C64_write : forall id i n enc s o s' logs, write_packet_log id i n enc s = (o, s', logs) ->
  exists evs, calls s s' evs /\ sent_in logs = written_in evs /\
    logs = map LogSending (written_in evs) /\ (forall u, o = Val (Ok u) -> exists w, logs = [LogSending w]).
Proof.
  intros id i n enc s o s' logs E. unfold write_packet_log, tbind, quiet, get, lift, put, say in E.
  destruct (build_packet _ _ _ _ _ _) as [[b r]|p|].
  2,3: injection E as <- <- <-; exists []; split; [apply calls_refl|]; split; [reflexivity|]; split; [reflexivity|discriminate].
  unfold ttryr, quiet, ret in E. destruct r as [ci|e].
  2:{ injection E as <- <- <-. exists []. split; [apply calls_set_wbuf|]. split; [reflexivity|]; split; [reflexivity|discriminate]. }
  unfold ttry, tbind, port_discard, quiet, ret in E. cbn [b_port set_used set_rlen set_wbuf] in E.
  destruct (match p_discards (b_port s) with [] => None | r :: _ => r end) as [e|].
  { injection E as <- <- <-. eexists. split; [reflexivity|]. split; [reflexivity|]; split; [reflexivity|discriminate]. }
  destruct (slice_to b (ci + 2)) as [w|p|].
  2,3: injection E as <- <- <-; eexists; split; [reflexivity|]; split; [reflexivity|]; split; [reflexivity|discriminate].
  unfold port_write_all in E. cbn [b_port set_port log_event p_writes] in E.
  destruct (match p_writes (b_port s) with [] => None | r :: _ => r end) as [e|]; injection E as <- <- <-;
    (eexists; split; [unfold calls; cbn; rewrite <- app_assoc; reflexivity|]; split; [reflexivity|]; split; [reflexivity|]).
  - discriminate.
  - intros _ _. eexists. reflexivity.
Qed.

(** ** What is read *)

Lemma remove_garbage_log_spec : forall s, rd_ok s ->
  remove_garbage_log s = (Val tt, front s (clean (unread s)), garbage_log s).
Proof.
  intros s H. pose proof (same_remove_garbage s) as S. rewrite remove_garbage_spec in S by exact H.
  pose proof H as [H1 H2].
  assert (L : snd (remove_garbage_log s) = garbage_log s).
  { clear S. unfold remove_garbage_log, garbage_log. cbv zeta.
    unfold tbind, quiet, get, lift. rewrite slice_to_val by lia.
    rewrite slice_from_val by (rewrite firstn_length; lia).
    change (skipn (b_used s) (firstn (b_rlen s) (b_rbuf s))) with (unread s).
    pose proof (find_header_le (unread s)) as F. rewrite unread_length in F by exact H.
    destruct (0 <? find_header (unread s)); unfold say, ret; try rewrite slice_to_val by lia;
      rewrite consume_front by lia; cbn [front b_used Nat.eqb negb andb]; rewrite andb_false_r; reflexivity. }
  destruct (remove_garbage_log s) as [[o s'] l]. cbn [fst snd] in *. congruence.
Qed.

Lemma tbind_quiet : forall A B (m : M A) (k : A -> T B) s,
  tbind (quiet m) k s =
  match m s with (Val a, s1) => k a s1 | (Panic p, s1) => (Panic p, s1, []) | (Blocked, s1) => (Blocked, s1, []) end.
Proof.
  intros. unfold tbind, quiet. destruct (m s) as [[a|p|] s1]; try reflexivity.
  destruct (k a s1) as [[o s2] l]. reflexivity.
Qed.

Lemma read_loop_log_step : forall fuel dl s, rd_ok s -> 10 <= List.length (b_rbuf s) ->
  let c := clean (unread s) in
  let n := List.length (b_rbuf s) - List.length c in
  read_loop_log (S fuel) dl s =
  match parse1 (List.length (b_rbuf s)) c with
  | PMsg t => (Val (Ok t), front s c, garbage_log s)
  | PBig e => (Val (Err (RBufferFull e)), front (front s c) (skipn 7 c), garbage_log s)
  | PMore =>
      match p_script (b_port s) with
      | [] => (Blocked, logged (front s c) [] (LReadWait dl n), garbage_log s)
      | RdErr e :: sc => (Val (Err (RIo e)), logged (front s c) sc (LRead dl n (Err e)), garbage_log s)
      | RdData bs :: sc =>
          let '(o, s', l) := read_loop_log fuel dl
            (received dl s c (firstn n bs)
                      (if List.length bs <=? n then sc else RdData (skipn n bs) :: sc)) in
          (o, s', garbage_log s ++ l)
      end
  end.
Proof.
  intros fuel dl s Hok Hcap c n. cbn [read_loop_log].
  unfold tbind at 1. rewrite remove_garbage_log_spec by exact Hok. fold c.
  assert (Hc : List.length c <= List.length (b_rbuf s)).
  { unfold c. pose proof (clean_length (unread s)). pose proof (unread_fit s Hok). lia. }
  rewrite tbind_quiet. cbn [get]. rewrite tbind_quiet.
  pose proof (inspect_front s c Hc) as I. unfold inspect in I. unfold bind at 1, get in I. rewrite I. clear I.
  destruct (parse1 (List.length (b_rbuf s)) c) eqn:P.
  2,3: unfold quiet, ret; rewrite app_nil_r; reflexivity.
  pose proof (parse1_more _ _ Hcap Hc P) as Hlt.
  rewrite tbind_quiet. cbn [get]. rewrite tbind_quiet. unfold lift.
  rewrite slice_from_val by (rewrite front_rbuf_length by exact Hc; exact Hc).
  change (b_rlen (front s c)) with (List.length c).
  assert (Lfree : List.length (skipn (List.length c) (b_rbuf (front s c))) = n).
  { rewrite skipn_length, front_rbuf_length by exact Hc. reflexivity. }
  rewrite Lfree. unfold ttry. rewrite tbind_quiet. unfold port_read.
  change (p_script (b_port (front s c))) with (p_script (b_port s)).
  destruct (p_script (b_port s)) as [|[bs|e] sc] eqn:S.
  - unfold logged, log_event. cbn [front b_port]. rewrite S, app_nil_r. reflexivity.
  - rewrite tbind_quiet. cbn [get]. rewrite tbind_quiet. cbn [put].
    match goal with |- context [read_loop_log fuel dl (set_rlen ?x ?y)] => 
      assert (Q : set_rlen x y = received dl s c (firstn n bs)
                      (if List.length bs <=? n then sc else RdData (skipn n bs) :: sc)); [|rewrite Q; reflexivity] end.
    unfold received, set_rlen, set_rbuf, set_port, log_event.
    cbn [b_port b_baud b_rbuf b_rlen b_used b_wbuf b_dbg front
         p_script p_discards p_writes p_setbauds p_deadlines p_log].
    assert (Lbs : List.length (firstn n bs) <= n) by (rewrite firstn_length; lia).
    f_equal. unfold splice. rewrite firstn_app_le, firstn_all by lia. f_equal. f_equal.
    rewrite skipn_app_ge by lia. rewrite skipn_skipn'. f_equal. lia.
  - unfold quiet, ret. rewrite app_nil_r. reflexivity.
Qed.

Definition nothing_moved (l : list log_record) : Prop := sent_in l = [] /\ received_in l = [].

Lemma garbage_log_spec : forall s, rd_ok s ->
  nothing_moved (garbage_log s) /\
  skip_count (garbage_log s) + List.length (clean (unread s)) = List.length (unread s) /\
  (b_used s = 0 -> garbage_in (garbage_log s) ++ clean (unread s) = unread s).
Proof.
  intros s H. pose proof (find_header_le (unread s)) as F. unfold garbage_log, clean. cbv zeta.
  destruct (0 <? find_header (unread s)) eqn:E.
  - split; [split; reflexivity|]. split; [cbn; rewrite skipn_length; lia|].
    intro U. cbn. rewrite app_nil_r. rewrite unread_length in F by exact H.
    assert (Q : firstn (find_header (unread s)) (b_rbuf s) = firstn (find_header (unread s)) (unread s)).
    { set (k := find_header (unread s)) in *. unfold unread. rewrite U. cbn [skipn]. rewrite firstn_firstn. f_equal. lia. }
    rewrite Q. apply firstn_skipn.
  - split; [split; reflexivity|]. replace (find_header (unread s)) with 0 by lia. cbn. auto.
Qed.

(** The bytes shown as skipped: right when nothing is handed out, and otherwise
    right apart from those that lay in the buffer when the read began. *)
Definition shown_ok (s : bus) (logs : list log_record) (c u : list byte) : Prop :=
  (b_used s = 0 -> garbage_in logs ++ c = u) /\
  exists g1, garbage_in logs = garbage_in (garbage_log s) ++ g1 /\
    firstn (find_header (unread s)) (unread s) ++ g1 ++ c = u.

Lemma shown_start : forall s, rd_ok s -> shown_ok s (garbage_log s) (clean (unread s)) (unread s).
Proof.
  intros s H. split; [apply (garbage_log_spec s H)|]. exists []. split; [symmetry; apply app_nil_r|].
  cbn [app]. apply firstn_skipn.
Qed.

Lemma garbage_log_length : forall s, rd_ok s ->
  List.length (garbage_in (garbage_log s)) = find_header (unread s).
Proof.
  intros s H. pose proof (find_header_le (unread s)) as F. rewrite unread_length in F by exact H.
  pose proof H as [? ?]. unfold garbage_log. cbv zeta. destruct (0 <? find_header (unread s)) eqn:E.
  - cbn. rewrite app_nil_r, firstn_length. lia.
  - cbn. lia.
Qed.

(** As [read_loop_spec], with the log. *)
Lemma read_loop_log_spec : forall fuel dl s o s' logs, rd_ok s -> 10 <= List.length (b_rbuf s) ->
  script_size (p_script (b_port s)) < fuel ->
  read_loop_log fuel dl s = (o, s', logs) ->
  exists dat sc', feeds (p_script (b_port s)) dat sc' /\
    let u := unread s ++ dat in let c := clean u in
    nothing_moved logs /\ skip_count logs + List.length c = List.length u /\
    shown_ok s logs c u /\
    match parse1 (List.length (b_rbuf s)) c with
    | PMsg t => o = Val (Ok t) /\ p_script (b_port s') = sc' /\
                b_used s' = 0 /\ b_rlen s' = List.length c /\ unread s' = c /\ rd_ok s'
    | PBig e => o = Val (Err (RBufferFull e)) /\ p_script (b_port s') = sc' /\ unread s' = skipn 7 c
    | PMore => unread s' = c /\
               ((sc' = [] /\ o = Blocked /\ p_script (b_port s') = []) \/
                (exists e, sc' = RdErr e :: p_script (b_port s') /\ o = Val (Err (RIo e))))
    end.
Proof.
  induction fuel as [|fuel IH]; intros dl s o s' logs Hok Hcap Hf E; [lia|].
  rewrite read_loop_log_step in E by assumption. cbv zeta in E.
  destruct (garbage_log_spec s Hok) as [G0 [G1 _]]. pose proof (shown_start s Hok) as G2.
  pose proof (firstn_skipn (find_header (unread s)) (unread s)) as G3. fold (clean (unread s)) in G3.
  set (c := clean (unread s)) in *. set (n := List.length (b_rbuf s) - List.length c) in *.
  assert (Hc : List.length c <= List.length (b_rbuf s)).
  { unfold c. pose proof (clean_length (unread s)). pose proof (unread_fit s Hok). lia. }
  destruct (parse1 (List.length (b_rbuf s)) c) eqn:P.
  2:{ injection E as <- <- <-. exists [], (p_script (b_port s)). split; [constructor|].
      cbv zeta. rewrite app_nil_r. fold c. rewrite P. rewrite front_unread. auto 6. }
  2:{ injection E as <- <- <-. exists [], (p_script (b_port s)). split; [constructor|].
      cbv zeta. rewrite app_nil_r. fold c. rewrite P. rewrite front_unread.
      split; [exact G0|]. split; [exact G1|]. split; [exact G2|].
      repeat (split; [reflexivity|]). apply front_ok. exact Hc. }
  pose proof (parse1_more _ _ Hcap Hc P) as Hlt.
  destruct (p_script (b_port s)) as [|[bs|e] sc] eqn:S.
  - injection E as <- <- <-. exists [], []. split; [constructor|].
    cbv zeta. rewrite app_nil_r. fold c. rewrite P.
    split; [exact G0|]. split; [exact G1|]. split; [exact G2|]. split; [apply (front_unread s c)|]. left. auto.
  - set (sc1 := if List.length bs <=? n then sc else RdData (skipn n bs) :: sc) in *.
    assert (Lbs : List.length (firstn n bs) <= n) by (rewrite firstn_length; lia).
    destruct (received_ok dl s c (firstn n bs) sc1 ltac:(lia)) as [R1 [R2 R3]].
    assert (Hsz : script_size (p_script (b_port (received dl s c (firstn n bs) sc1))) < fuel).
    { change (p_script (b_port (received dl s c (firstn n bs) sc1))) with sc1.
      pose proof (received_script_size bs sc n ltac:(lia)). fold sc1 in H. lia. }
    destruct (read_loop_log fuel dl (received dl s c (firstn n bs) sc1)) as [[o1 s1] l1] eqn:E1.
    injection E as <- <- <-.
    apply IH in E1; [|exact R1|lia|exact Hsz].
    destruct E1 as [dat [sc' [F [K0 [K1 [K2 K3]]]]]].
    exists (firstn n bs ++ dat), sc'.
    assert (Ecl : clean (unread s ++ firstn n bs ++ dat)
                  = clean (unread (received dl s c (firstn n bs) sc1) ++ dat)).
    { rewrite R2. rewrite (clean_app (unread s)). fold c. rewrite app_assoc. reflexivity. }
    split.
    { change (p_script (b_port (received dl s c (firstn n bs) sc1))) with sc1 in F.
      unfold sc1 in F. destruct (List.length bs <=? n) eqn:Ln.
      - rewrite firstn_all2 by lia. apply feeds_all. exact F.
      - rewrite <- (firstn_skipn n bs) at 1. apply feeds_part. exact F. }
    cbv zeta in *. rewrite Ecl. rewrite R3 in K3. rewrite R2 in *.
    split.
    { destruct G0 as [A1 A2], K0 as [B1 B2]. split; [rewrite sent_app, A1, B1|rewrite received_app, A2, B2]; reflexivity. }
    split; [rewrite skip_app; rewrite !app_length in *; lia|].
    split; [|exact K3].
    destruct K2 as [K2 _], G2 as [G2 _]. split.
    + intro U. rewrite garbage_app, <- app_assoc, (K2 eq_refl), <- !app_assoc, app_assoc, (G2 U). reflexivity.
    + exists (garbage_in l1). split; [apply garbage_app|].
      rewrite (K2 eq_refl), <- app_assoc, app_assoc, G3. reflexivity.
  - injection E as <- <- <-. exists [], (RdErr e :: sc). split; [constructor|].
    cbv zeta. rewrite app_nil_r. fold c. rewrite P.
    split; [exact G0|]. split; [exact G1|]. split; [exact G2|]. split; [apply (front_unread s c)|]. right. exists e. split; reflexivity.
Qed.

Lemma split_shorter : forall g c1 c2, 4 <= List.length c1 -> garbage_split (g ++ c1 ++ c2) g (c1 ++ c2) ->
  garbage_split (g ++ c1) g c1.
Proof.
  intros g c1 c2 L [_ [[H|H] N]].
  { destruct c1; [cbn in L; lia|discriminate]. }
  assert (K : forall x, 4 <= List.length x -> at_header (x ++ c2) <-> at_header x).
  { intros x Lx. split; intros [[r E]|[_ [r [Nr E]]]].
    - left. exists (skipn 4 x). rewrite <- (firstn_skipn 4 x) at 1. f_equal.
      apply (f_equal (firstn 4)) in E. rewrite firstn_app_le in E by lia. exact E.
    - exfalso. apply (f_equal (@List.length byte)) in E. rewrite !app_length in E. cbn in E.
      destruct r; [congruence|cbn in E; lia].
    - left. exists (r ++ c2). rewrite E, <- app_assoc. reflexivity.
    - exfalso. apply (f_equal (@List.length byte)) in E. rewrite !app_length in E. cbn in E.
      destruct r; [congruence|cbn in E; lia]. }
  split; [reflexivity|]. split; [right; apply K; assumption|].
  intros g1 b g2 E A. apply (N g1 b g2 E).
  change (b :: g2 ++ c1 ++ c2) with ((b :: g2) ++ c1 ++ c2). rewrite app_assoc. apply K; [|exact A].
  rewrite app_length. lia.
Qed.

Lemma finish_packet_log_spec : forall s c t o s' logs, rd_ok s -> b_used s = 0 -> b_rlen s = List.length c ->
  unread s = c -> 7 <= t -> t <= List.length c -> finish_packet_log t s = (o, s', logs) ->
  finish_packet t s = (o, s') /\ logs = [LogReadPacket (firstn (t - 2) c)].
Proof.
  intros s c t o s' logs Hok U R C H7 Ht E.
  assert (F : finish_packet t s = (o, s')) by (rewrite <- same_finish, E; reflexivity).
  split; [exact F|]. pose proof Hok as [_ Hcap].
  unfold finish_packet_log in E. rewrite tbind_quiet in E. cbn [get] in E.
  rewrite tbind_quiet in E. unfold lift at 1, usize_sub in E. replace (2 <=? t) with true in E by lia.
  rewrite tbind_quiet in E. unfold lift in E. rewrite slice_to_val in E by lia.
  unfold tbind, say, quiet in E. rewrite F in E. injection E as <-. f_equal. f_equal.
  rewrite <- C. unfold unread. rewrite U. cbn [skipn]. rewrite firstn_firstn. f_equal. lia.
Qed.

Definition log_story (s s' : bus) (o : out (result packet read_error)) (logs : list log_record) : Prop :=
  exists g ws, read_story s s' o g ws /\ received_in logs = ws /\ sent_in logs = [] /\
    skip_count logs = List.length g /\ (b_used s = 0 -> garbage_in logs = g) /\
    List.length (garbage_in logs) = List.length g /\
    skipn (List.length (unread s)) (garbage_in logs) = skipn (List.length (unread s)) g.

Lemma read_log_story : forall d s o s' logs, rd_ok s -> 10 <= List.length (b_rbuf s) ->
  read_packet_deadline_log d s = (o, s', logs) -> log_story s s' o logs.
Proof.
  intros d s o s' logs Hok Hcap E. unfold read_packet_deadline_log in E.
  rewrite tbind_quiet in E. cbn [get] in E. unfold bts_check, HEADER_SIZE in E.
  replace (7 + 3 <=? List.length (b_rbuf s)) with true in E by lia. cbn [ttryr] in E.
  unfold ttry, tbind in E.
  destruct (read_loop_log (S (script_size (p_script (b_port s)))) d s) as [[o1 s1] l1] eqn:EL.
  pose proof (read_loop_log_spec _ _ _ _ _ _ Hok Hcap (Nat.lt_succ_diag_r _) EL) as [dat [sc' [F [K0 [K1 [K2 K3]]]]]].
  pose proof (feeds_items _ _ _ F) as FI. destruct K0 as [S0 S1].
  set (u := unread s ++ dat) in *. set (g := firstn (find_header u) u).
  pose proof (clean_split u) as SP. fold g in SP. set (c := clean u) in *.
  assert (Eu : u = g ++ c) by apply SP.
  assert (Pd : pending s = map inl u ++ items sc').
  { rewrite pending_unread, FI, app_assoc, <- map_app. reflexivity. }
  assert (Lg : skip_count l1 = List.length g) by (rewrite Eu, app_length in K1; lia).
  assert (Hg : b_used s = 0 -> garbage_in l1 = g).
  { intro U. apply (app_inv_tail c). rewrite <- Eu. exact (proj1 K2 U). }
  assert (Hs : List.length (garbage_in l1) = List.length g /\
               skipn (List.length (unread s)) (garbage_in l1) = skipn (List.length (unread s)) g).
  { destruct K2 as [_ [g1 [E1 E2]]]. rewrite app_assoc in E2. fold u c in E2. rewrite Eu in E2.
    apply app_inv_tail in E2. pose proof (garbage_log_length s Hok) as Lk. pose proof (find_header_le (unread s)) as Fl.
    assert (Lf : List.length (firstn (find_header (unread s)) (unread s)) = find_header (unread s))
      by (rewrite firstn_length; lia).
    rewrite E1, <- E2. split; [rewrite !app_length; lia|].
    rewrite !skipn_app_ge by lia. f_equal. lia. }
  destruct Hs as [Hs1 Hs2].
  destruct (parse1 (List.length (b_rbuf s)) c) as [|e|t] eqn:P.
  - (* more *)
    destruct K3 as [Us [[-> [-> Sc]]|[e [-> ->]]]].
    + injection E as <- <- <-. exists g, []. split; [|auto 8].
      apply story_waiting with (c := c); [rewrite Pd, Eu; apply app_nil_r| |rewrite <- Eu; exact SP].
      rewrite pending_unread, Us, Sc. apply app_nil_r.
    + unfold quiet, ret in E. injection E as <- <- <-. rewrite app_nil_r. exists g, []. split; [|auto 8].
      apply story_io with (c := c) (rest := items (p_script (b_port s1))); [rewrite Pd, Eu; reflexivity| |rewrite <- Eu; exact SP].
      rewrite pending_unread, Us. reflexivity.
  - (* too large *)
    pose proof (parse1_big _ _ _ P) as [P1 _]. destruct K3 as [-> [Sc Us]].
    unfold quiet, ret in E. injection E as <- <- <-. rewrite app_nil_r. exists g, []. split; [|auto 8].
    apply story_too_large with (h := firstn 7 c).
    + rewrite (pending_unread s1), Us, Sc, app_assoc, <- map_app, <- app_assoc, firstn_skipn, <- Eu. exact Pd.
    + rewrite firstn_length. lia.
    + apply split_shorter with (c2 := skipn 7 c); [rewrite firstn_length; lia|]. rewrite firstn_skipn, <- Eu. exact SP.
  - (* a message *)
    pose proof (parse1_msg _ _ _ P) as [P1 [P2 [P3 [P4 P5]]]].
    destruct K3 as [-> [Sc [U0 [R0 [Us Ok1]]]]].
    destruct (finish_packet_log t s1) as [[o2 s2] l2] eqn:EF. injection E as <- <- <-.
    pose proof (finish_packet_log_spec s1 c t o2 s2 l2 Ok1 U0 R0 Us P1 P3 EF) as [Fp ->].
    destruct (finish_packet_spec s1 c t o2 s2 Ok1 U0 R0 Us P1 P3 Fp) as [Eo [_ [U2 [_ [Po _]]]]].
    set (w := firstn (t - 2) c). set (cc := firstn 2 (skipn (t - 2) c)).
    assert (Et : w ++ cc = firstn t c).
    { unfold w, cc. rewrite <- (firstn_skipn (t - 2) (firstn t c)). rewrite firstn_firstn.
      replace (Nat.min (t - 2) t) with (t - 2) by lia. f_equal.
      rewrite firstn_skipn_comm. f_equal. f_equal. lia. }
    assert (Lc : List.length cc = 2) by (unfold cc; rewrite firstn_length, skipn_length; lia).
    assert (Spl : garbage_split (g ++ w ++ cc) g (w ++ cc)).
    { rewrite Et. apply split_shorter with (c2 := skipn t c); [rewrite firstn_length; lia|].
      rewrite firstn_skipn, <- Eu. exact SP. }
    assert (Pn : pending s = map inl (g ++ w ++ cc) ++ pending s2).
    { rewrite Et, (pending_unread s2), U2, Po, Sc, app_assoc, <- map_app, <- app_assoc, firstn_skipn, <- Eu. exact Pd. }
    exists g, [w]. split; [|rewrite received_app, sent_app, skip_app, garbage_app, S0, S1; cbn;
      rewrite Nat.add_0_r, app_nil_r; auto 8].
    subst o2. unfold finish_event. cbv zeta.
    destruct (negb _); [cbn [ev_out]; eapply story_invalid; eassumption|].
    destruct (unst 0 _); cbn [ev_out]; [eapply story_panic|eapply story_packet]; eassumption.
Qed.

Lemma L_C64_read : forall d s o s' logs, reach s -> 10 <= List.length (b_rbuf s) ->
  read_packet_deadline_log d s = (o, s', logs) ->
  exists g ws, read_story s s' o g ws /\ received_in logs = ws /\ sent_in logs = [] /\
    skip_count logs = List.length g.
Proof.
  intros d s o s' logs R Hcap E.
  destruct (read_log_story d s o s' logs (proj1 (reach_inv _ R)) Hcap E) as [g [ws [A [B [C [D _]]]]]].
  exists g, ws. auto.
Qed.


Lemma handed_out_none : forall s, nothing_handed_out s -> b_used s = 0.
Proof.
  intros s H. destruct H as [dbg p rb wb baud s E|id i n enc s s' E|d e s s' Hcap R E].
  - unfold with_buffers_and_baud_rate in E. destruct (HEADER_SIZE + 3 <=? _); [|discriminate].
    destruct (copy_into wb 0 4 HEADER_PREFIX); [|discriminate..]. injection E as <-. reflexivity.
  - unfold write_packet, bind, get, lift, put in E.
    destruct (build_packet _ _ _ _ _ _) as [[b r]|p|]; [|discriminate..].
    unfold tryr, ret in E. destruct r as [ci|e]; [|discriminate].
    unfold try_, bind, port_discard, ret in E. cbn [b_port set_used set_rlen set_wbuf] in E.
    destruct (match p_discards (b_port s) with [] => None | r :: _ => r end) as [e|]; [discriminate|].
    destruct (slice_to b (ci + 2)) as [w|p|]; [|discriminate..].
    unfold port_write_all in E. cbn [b_port set_port log_event p_writes] in E.
    destruct (match p_writes (b_port s) with [] => None | r :: _ => r end) as [e|]; [discriminate|].
    injection E as <-. reflexivity.
  - destruct (reach_inv _ R) as [Hok _]. unfold read_packet_deadline in E. unfold bind at 1, get in E.
    unfold bts_check, HEADER_SIZE in E. replace (7 + 3 <=? List.length (b_rbuf s)) with true in E by lia.
    cbn [tryr] in E. unfold try_, bind in E.
    destruct (read_loop (S (script_size (p_script (b_port s)))) d s) as [o1 s1] eqn:EL.
    assert (U : b_used s1 = 0).
    { clear E. revert s o1 s1 Hcap Hok EL R.
      assert (G : forall f s o1 s1, 10 <= List.length (b_rbuf s) -> rd_ok s -> script_size (p_script (b_port s)) < f ->
                read_loop f d s = (o1, s1) -> b_used s1 = 0).
      { induction f as [|f IH]; intros s o1 s1 Hcap Hok Hf EL; [lia|].
        rewrite read_loop_step in EL by assumption. cbv zeta in EL.
        set (c := clean (unread s)) in *. set (n := List.length (b_rbuf s) - List.length c) in *.
        assert (Hc : List.length c <= List.length (b_rbuf s)).
        { unfold c. pose proof (clean_length (unread s)). pose proof (unread_fit s Hok). lia. }
        destruct (parse1 (List.length (b_rbuf s)) c) eqn:P; [|injection EL as <- <-; reflexivity..].
        pose proof (parse1_more _ _ Hcap Hc P) as Hlt.
        destruct (p_script (b_port s)) as [|[bs|x] sc] eqn:S; [injection EL as <- <-; reflexivity| |injection EL as <- <-; reflexivity].
        set (sc1 := if List.length bs <=? n then sc else RdData (skipn n bs) :: sc) in *.
        assert (Lbs : List.length (firstn n bs) <= n) by (rewrite firstn_length; lia).
        destruct (received_ok d s c (firstn n bs) sc1 ltac:(lia)) as [R1 [R2 R3]].
        apply IH in EL; [exact EL|lia|exact R1|].
        change (p_script (b_port (received d s c (firstn n bs) sc1))) with sc1.
        pose proof (received_script_size bs sc n ltac:(lia)) as Q. fold sc1 in Q. lia. }
      intros s o1 s1 Hcap Hok EL _. apply (G _ _ _ _ Hcap Hok (Nat.lt_succ_diag_r _) EL). }
    pose proof (read_loop_spec _ _ _ _ _ Hok Hcap (Nat.lt_succ_diag_r _) EL) as [dat [sc' [F [K1 [K2 [K3 K4]]]]]].
    set (c := clean (unread s ++ dat)) in *.
    destruct (parse1 (List.length (b_rbuf s)) c) as [|x|t] eqn:P.
    + destruct K4 as [_ [[-> [-> _]]|[x [-> ->]]]]; [discriminate|]. unfold ret in E. injection E as <- <-. exact U.
    + destruct K4 as [-> _]. unfold ret in E. injection E as <- <-. exact U.
    + destruct K4 as [-> [_ [_ [R0 Us]]]]. pose proof (parse1_msg _ _ _ P) as [P1 [P2 [P3 [P4 P5]]]].
      destruct (finish_packet_spec s1 c t _ _ K1 U R0 Us P1 P3 E) as [Eo _].
      assert (Ck : negb (crc_field c t =? calculate_checksum 0 (firstn (t - 2) c))%N = true).
      { unfold finish_event in Eo. cbv zeta in Eo. destruct (negb _); [reflexivity|].
        destruct (unst 0 _); discriminate Eo. }
      pose proof K1 as [_ Hc1].
      assert (Er : exists junk, b_rbuf s1 = c ++ junk).
      { exists (skipn (List.length c) (b_rbuf s1)). rewrite <- (firstn_skipn (List.length c) (b_rbuf s1)) at 1.
        f_equal. unfold unread in Us. rewrite U, R0 in Us. exact Us. }
      destruct Er as [junk Er].
      unfold finish_packet in E. unfold bind at 1, get in E. unfold bind at 1, lift in E.
      unfold usize_sub in E. replace (2 <=? t) with true in E by lia.
      unfold bind at 1 in E. rewrite slice_from_val in E by lia.
      rewrite Er in E. rewrite skipn_app_le in E by lia.
      destruct (skipn_nth2 c (t - 2) ltac:(lia)) as [r Es]. rewrite Es in E. cbn [app] in E.
      rewrite read_u16_le_val in E. replace (t - 2 + 1) with (t - 1) in E by lia.
      fold (crc_field c t) in E. unfold bind at 1 in E. unfold bind at 1 in E.
      rewrite slice_to_val in E by (rewrite app_length; lia).
      rewrite firstn_app_le in E by lia. rewrite Ck in E.
      unfold bind in E. rewrite consume_front in E by lia. unfold ret in E. injection E as _ <-. reflexivity.
Qed.

Lemma L_C64_garbage_partial : forall d s o s' logs, reach s -> nothing_handed_out s -> 10 <= List.length (b_rbuf s) ->
  read_packet_deadline_log d s = (o, s', logs) ->
  exists g ws, read_story s s' o g ws /\ garbage_in logs = g.
Proof.
  intros d s o s' logs R H Hcap E.
  destruct (read_log_story d s o s' logs (proj1 (reach_inv _ R)) Hcap E) as [g [ws [A [_ [_ [_ [B _]]]]]]].
  exists g, ws. split; [exact A|]. apply B, handed_out_none, H.
Qed.

Lemma L_C64_garbage_late : forall d s o s' logs, reach s -> 10 <= List.length (b_rbuf s) ->
  read_packet_deadline_log d s = (o, s', logs) ->
  exists g ws, read_story s s' o g ws /\ List.length (garbage_in logs) = List.length g /\
    skipn (already_received s) (garbage_in logs) = skipn (already_received s) g.
Proof.
  intros d s o s' logs R Hcap E.
  destruct (read_log_story d s o s' logs (proj1 (reach_inv _ R)) Hcap E) as [g [ws [A [_ [_ [_ [_ [B C]]]]]]]].
  exists g, ws. split; [exact A|]. split; [exact B|].
  replace (already_received s) with (List.length (unread s)); [exact C|].
  unfold already_received. rewrite pending_unread, app_length, map_length. symmetry. apply Nat.add_sub.
Qed.

Lemma L_C64_garbage_refuted :
  ~ (forall d s o s' logs, reach s -> 10 <= List.length (b_rbuf s) -> read_packet_deadline_log d s = (o, s', logs) ->
     exists g ws, read_story s s' o g ws /\ garbage_in logs = g).
Proof.
  intro H.
  set (s0 := fresh true [RdData (frame x01 [STATUS; x00] ++ [x07; x08]); RdErr (IoTimeout 0)] 32 32).
  assert (E0 : exists p s, read_status_response 0 s0 = (Val (Ok p), s) /\
            pending s = map inl [x07; x08] ++ [inr (IoTimeout 0)] /\
            exists s' logs, read_packet_deadline_log now s = (Val (Err (RIo (IoTimeout 0))), s', logs) /\
              garbage_in logs = [xff; xff] /\ List.length (b_rbuf s) = 32).
  { eexists _, _. split; [vm_compute; reflexivity|]. split; [vm_compute; reflexivity|].
    eexists _, _. split; [vm_compute; reflexivity|]. split; vm_compute; reflexivity. }
  destruct E0 as [p [s [E0 [Pd [s' [logs [E [G L]]]]]]]].
  assert (R : reach s) by (exact (reach_call _ _ s0 _ s (fresh_reach true _ 32 32 ltac:(lia)) (api_read_status_response 0) E0)).
  destruct (H now s _ s' logs R ltac:(lia) E) as [g [ws [St Eg]]]. rewrite G in Eg. subst g.
  inversion St as [| | | |e g c rest P1 P2 P3|]. rewrite Pd in P1. discriminate P1.
Qed.

(** ** Sequences *)

Lemma read_no_writes : forall d s o s', inv s -> read_packet_deadline d s = (o, s') ->
  exists evs, calls s s' evs /\ written_in evs = [].
Proof.
  intros d s o s' I E. destruct (Nat.leb_spec 10 (List.length (b_rbuf s))) as [Hc|Hc].
  - destruct (read_packet_spec d s o s' (proj1 I) Hc E) as [dat [sc' [_ _ [_ _ _ _ _ _ _ _ [evs [C F]]] _ _]]].
    exists evs. split; [exact C|]. clear C. induction F as [|e evs X F IH]; [reflexivity|].
    unfold written_in in *. cbn [flat_map]. rewrite IH. destruct e; cbn in X; tauto.
  - unfold read_packet_deadline in E. unfold bind at 1, get in E. unfold bts_check, HEADER_SIZE in E.
    replace (7 + 3 <=? List.length (b_rbuf s)) with false in E by lia. unfold tryr, ret in E. injection E as _ <-.
    exists []. split; [apply calls_refl|reflexivity].
Qed.

Lemma read_log_small : forall d s, List.length (b_rbuf s) < 10 -> 
  read_packet_deadline_log d s = (Val (Err (RBufferFull (mkBTS 10 (List.length (b_rbuf s))))), s, []).
Proof.
  intros d s H. unfold read_packet_deadline_log. rewrite tbind_quiet. cbn [get]. unfold bts_check, HEADER_SIZE.
  replace (7 + 3 <=? List.length (b_rbuf s)) with false by lia. reflexivity.
Qed.

Lemma run_call_log : forall c s o s' logs, inv s ->
  match c with CWrite _ _ _ enc => encoder_ok enc | CRead _ => True end ->
  run_call c s = (o, s', logs) ->
  (forall r, o = Val r -> inv s') /\
  (exists evs, calls s s' evs /\ sent_in logs = written_in evs) /\
  (forall r, o = Val r -> List.length (received_in logs) = if got_message r then 1 else 0).
Proof.
  intros [id i n enc|d] s o s' logs I C E; cbn [run_call] in E; unfold tbind in E.
  - destruct (write_packet_log id i n enc s) as [[o1 s1] l1] eqn:W.
    destruct (L_C64_write id i n enc s o1 s1 l1 W) as [evs [A [B [D _]]]].
    assert (W1 : write_packet id i n enc s = (o1, s1)) by (rewrite <- L_C64_write_unchanged, W; reflexivity).
    assert (Rc : received_in l1 = []).
    { rewrite D. generalize (written_in evs). intro l. induction l as [|x l IH]; [reflexivity|exact IH]. }
    pose proof (keeps_wi id i n enc C s o1 s1 I W1) as [I1 _].
    destruct o1 as [r|p|].
    + unfold quiet, ret in E. injection E as <- <- <-. rewrite app_nil_r. split; [auto|]. split; [exists evs; auto|].
      intros r0 K. injection K as <-. rewrite Rc. reflexivity.
    + injection E as <- <- <-. split; [discriminate|]. split; [exists evs; auto|discriminate].
    + injection E as <- <- <-. split; [discriminate|]. split; [exists evs; auto|discriminate].
  - destruct (read_packet_deadline_log d s) as [[o1 s1] l1] eqn:W.
    assert (W1 : read_packet_deadline d s = (o1, s1)) by (rewrite <- L_C64_read_unchanged, W; reflexivity).
    destruct (read_no_writes d s o1 s1 I W1) as [evs [A B]].
    pose proof (keeps_read_packet d s o1 s1 I W1) as [I1 _].
    assert (St : (List.length (b_rbuf s) < 10 /\ l1 = [] /\ exists e, o1 = Val (Err (RBufferFull e))) \/ log_story s s1 o1 l1).
    { destruct (Nat.leb_spec 10 (List.length (b_rbuf s))) as [Hc|Hc].
      - right. eapply read_log_story; [apply I|exact Hc|exact W].
      - left. rewrite read_log_small in W by exact Hc. injection W as <- <- <-. eauto. }
    assert (Sn : sent_in l1 = []) by (destruct St as [[_ [-> _]]|[g [ws [_ [_ [K _]]]]]]; [reflexivity|exact K]).
    destruct o1 as [r|p|].
    + unfold quiet, ret in E. injection E as <- <- <-. rewrite app_nil_r. split; [auto|].
      split; [exists evs; split; [exact A|congruence]|].
      intros r0 K. injection K as <-. destruct St as [[_ [-> [e Q]]]|[g [ws [K [-> _]]]]].
      * injection Q as ->. reflexivity.
      * inversion K; subst; reflexivity.
    + injection E as <- <- <-. split; [discriminate|]. split; [exists evs; split; [exact A|congruence]|discriminate].
    + injection E as <- <- <-. split; [discriminate|]. split; [exists evs; split; [exact A|congruence]|discriminate].
Qed.

Lemma L_C64_session : forall cs s o s' logs, reach s -> closures_ok cs -> run_calls cs s = (o, s', logs) ->
  (exists evs, calls s s' evs /\ sent_in logs = written_in evs) /\
  (forall rs, o = Val rs -> List.length (received_in logs) = List.length (filter got_message rs)).
Proof.
  intros cs s o s' logs R C. apply reach_inv in R. revert s o s' logs R.
  induction C as [|c cs C0 C IH]; intros s o s' logs I E.
  - cbn in E. injection E as <- <- <-. split; [exists []; split; [apply calls_refl|reflexivity]|].
    intros rs K. injection K as <-. reflexivity.
  - cbn [run_calls] in E. unfold tbind at 1 in E. destruct (run_call c s) as [[o1 s1] l1] eqn:E1.
    destruct (run_call_log c s o1 s1 l1 I C0 E1) as [I1 [[evs [A B]] D]].
    destruct o1 as [r|p|].
    2,3: injection E as <- <- <-; split; [exists evs; auto|discriminate].
    unfold tbind in E. destruct (run_calls cs s1) as [[o2 s2] l2] eqn:E2.
    destruct (IH s1 o2 s2 l2 (I1 _ eq_refl) E2) as [[evs2 [A2 B2]] D2].
    assert (X : exists evs, calls s s2 evs /\ sent_in (l1 ++ l2) = written_in evs).
    { exists (evs ++ evs2). split; [unfold calls in *; rewrite A2, A, app_assoc; reflexivity|]. rewrite sent_app, written_app. congruence. }
    destruct o2 as [rs|p|]; unfold quiet, ret in E; injection E as <- <- <-.
    + rewrite app_nil_r. split; [exact X|]. intros rs0 K. injection K as <-.
      rewrite received_app, app_length, (D _ eq_refl), (D2 _ eq_refl). cbn [filter].
      destruct (got_message r); reflexivity.
    + split; [exact X|discriminate].
    + split; [exact X|discriminate].
Qed.

(** ** Texts *)

Lemma L_C64_texts : forall a b, record_text a = record_text b -> a = b.
Proof.
  intros a b E. destruct a as [x|x|x|x|], b as [y|y|y|y|]; cbn [record_text] in E; cbn [append] in E; try discriminate E;
    literal E; try reflexivity; try (f_equal; apply array_inj_end; exact E).
  apply dec_nat_inj in E; [|reflexivity|reflexivity]. destruct E as [-> _]. reflexivity.
Qed.

(** ** Scanning *)

Definition no_timeout (r : log_record) : Prop := r <> LogPingTimeout.
Definition discreet {A} (m : T A) : Prop := forall s, Forall no_timeout (snd (m s)).

Lemma discreet_quiet : forall A (m : M A), discreet (quiet m).
Proof. intros A m s. constructor. Qed.
Lemma discreet_say : forall r, r <> LogPingTimeout -> discreet (say r).
Proof. intros r H s. constructor; [exact H|constructor]. Qed.
Lemma discreet_bind : forall A B (m : T A) (k : A -> T B), discreet m -> (forall a, discreet (k a)) -> discreet (tbind m k).
Proof.
  intros A B m k H K s. unfold tbind. specialize (H s). destruct (m s) as [[[a|p|] s1] l]; cbn [snd] in *; try exact H.
  specialize (K a s1). destruct (k a s1) as [[o s2] l']. cbn [snd] in *. apply Forall_app. auto.
Qed.
Lemma discreet_try : forall A B E F (f : E -> F) (m : T (result A E)) (k : A -> T (result B F)),
  discreet m -> (forall a, discreet (k a)) -> discreet (ttry f m k).
Proof. intros. unfold ttry. apply discreet_bind; [assumption|]. intros [a|e]; [auto|apply discreet_quiet]. Qed.

Ltac discreet_all := repeat first
  [apply discreet_quiet | apply discreet_say; discriminate
  | apply discreet_bind; [|intro] | apply discreet_try; [|intro]].

Lemma discreet_loop : forall fuel d, discreet (read_loop_log fuel d).
Proof.
  induction fuel as [|fuel IH]; intro d; [apply discreet_quiet|]. cbn [read_loop_log].
  apply discreet_bind.
  { unfold remove_garbage_log. discreet_all.
    - destruct (0 <? find_header _); discreet_all.
    - destruct (b_dbg _ && negb (b_used _ =? 0)); discreet_all. }
  intros _. discreet_all. destruct a0 as [[t|]|e]; discreet_all. destruct a2; discreet_all. apply IH.
Qed.

Lemma discreet_read : forall d, discreet (read_packet_deadline_log d).
Proof.
  intro d. unfold read_packet_deadline_log. apply discreet_bind; [apply discreet_quiet|intro s].
  unfold ttryr. destruct (bts_check _ _); [|apply discreet_quiet]. apply discreet_try; [apply discreet_loop|intro n].
  unfold finish_packet_log. discreet_all.
Qed.

Lemma discreet_scan_response : discreet scan_next_response_log.
Proof.
  unfold scan_next_response_log, read_status_response_timeout_log.
  apply discreet_bind; [apply discreet_quiet|intro s]. apply discreet_bind; [apply discreet_quiet|intro t].
  apply discreet_try; [|intro; apply discreet_quiet]. apply discreet_bind; [apply discreet_quiet|intro d].
  apply discreet_try; [apply discreet_read|intro; apply discreet_quiet].
Qed.

Lemma L_C64_scan_timeout : forall s r s' logs, scan_next_log s = (Val r, s', logs) ->
  (r = None <-> In LogPingTimeout logs).
Proof.
  intros s r s' logs E. unfold scan_next_log, tbind at 1 in E.
  pose proof (discreet_scan_response s) as D.
  destruct (scan_next_response_log s) as [[[x|p|] s1] l1]; [|discriminate..]. cbn [snd] in D.
  assert (N : ~ In LogPingTimeout l1) by (intro I; rewrite Forall_forall in D; apply (D _ I); reflexivity).
  destruct x as [x|[e|e|e|e]]; try (unfold quiet, ret in E; injection E as <- _ <-; rewrite app_nil_r; split; [discriminate|tauto]).
  destruct (is_timeout_error e).
  - unfold tbind, say, quiet, ret in E. injection E as <- _ <-. split; [intros _|reflexivity]. apply in_or_app. right. left. reflexivity.
  - unfold quiet, ret in E. injection E as <- _ <-. rewrite app_nil_r. split; [discriminate|tauto].
Qed.

(** ** One instruction and its response *)

Lemma write_packet_ok_calls : forall id i n enc s s', write_packet id i n enc s = (Val (Ok tt), s') ->
  exists w, calls s s' [LDiscard None; LWrite w None].
Proof.
  intros id i n enc s s' E. unfold write_packet, bind, get, lift, put in E.
  destruct (build_packet _ _ _ _ _ _) as [[b r]|p|]; [|discriminate..].
  unfold tryr, ret in E. destruct r as [ci|e]; [|discriminate].
  unfold try_, bind, port_discard, ret in E. cbn [b_port set_used set_rlen set_wbuf] in E.
  destruct (match p_discards (b_port s) with [] => None | r :: _ => r end) as [e|]; [discriminate|].
  destruct (slice_to b (ci + 2)) as [w|p|]; [|discriminate..].
  unfold port_write_all in E. cbn [b_port set_port log_event p_writes] in E.
  destruct (match p_writes (b_port s) with [] => None | r :: _ => r end) as [e|]; [discriminate|].
  injection E as <-. exists w. unfold calls. cbn. rewrite <- app_assoc. reflexivity.
Qed.

Lemma L_C64_transfer : forall id i n k enc s p s' logs, reach s -> encoder_ok enc ->
  transfer_single_log id i n k enc s = (Val (Ok p), s', logs) ->
  exists s1 w g m c, write_packet id i n enc s = (Val (Ok tt), s1) /\ calls s s1 [LDiscard None; LWrite w None] /\
    pending s1 = map inl (g ++ m ++ c) ++ pending s' /\ garbage_split (g ++ m ++ c) g (m ++ c) /\ List.length c = 2 /\
    sent_in logs = [w] /\ received_in logs = [m] /\ skip_count logs = List.length g /\ garbage_in logs = g.
Proof.
  intros id i n k enc s p s' logs R He E. unfold transfer_single_log, ttry, tbind at 1 in E.
  destruct (write_packet_log id i n enc s) as [[o1 s1] l1] eqn:W.
  assert (W1 : write_packet id i n enc s = (o1, s1)) by (rewrite <- L_C64_write_unchanged, W; reflexivity).
  destruct o1 as [[[]|e]|x|]; [|discriminate..].
  assert (Hw : exists w, calls s s1 [LDiscard None; LWrite w None]).
  { destruct (write_packet_ok_calls id i n enc s s1 W1) as [w Hw]. exists w. exact Hw. }
  destruct Hw as [w Hw].
  destruct (L_C64_write id i n enc s _ s1 l1 W) as [evs [A [B [D _]]]].
  pose proof (calls_inj _ _ _ _ A Hw) as ->.
  cbn in B, D. subst l1.
  assert (I1 : inv s1) by (apply (keeps_wi id i n enc He s _ s1 (reach_inv _ R) W1)).
  pose proof (handed_out_none s1 (nho_sent _ _ _ _ _ _ W1)) as U1.
  unfold read_status_response_log in E. unfold tbind at 1 in E.
  rewrite tbind_quiet in E. cbn [get] in E. rewrite tbind_quiet in E. unfold lift at 1 in E.
  destruct (response_timeout (b_dbg s1) (b_baud s1) k) as [tm|x|]; [|discriminate..].
  unfold read_status_response_timeout_log in E. rewrite tbind_quiet in E.
  unfold port_make_deadline in E.
  set (s2 := set_port s1 _) in E. set (d := mkDeadline _ _) in E.
  assert (P2 : pending s2 = pending s1) by reflexivity.
  assert (U2 : b_used s2 = 0) by exact U1.
  assert (Ok2 : rd_ok s2) by exact (proj1 I1).
  clearbody s2. unfold ttry at 1, tbind at 1 in E.
  destruct (read_packet_deadline_log d s2) as [[o3 s3] l3] eqn:Rd.
  destruct (Nat.leb_spec 10 (List.length (b_rbuf s2))) as [Hc|Hc].
  2:{ rewrite read_log_small in Rd by exact Hc. injection Rd as <- <- <-. cbn in E. discriminate E. }
  destruct (read_log_story d s2 o3 s3 l3 Ok2 Hc Rd) as [g [ws [St [L1 [L2 [L3 L4]]]]]].
  destruct o3 as [[q|e]|x|]; [|cbn in E; discriminate E..].
  unfold quiet at 1 in E.
  match type of E with context [bind (lift (as_status q)) ?h s3] => set (kk := bind (lift (as_status q)) h) in E end.
  assert (Sk : forall o4 s4, kk s3 = (o4, s4) -> s4 = s3).
  { intros o4 s4. unfold kk, bind, lift, ret. destruct (as_status q) as [[st|]|x|]; try congruence.
    - destruct (st_error st); try congruence. unfold tryr. destruct (motor_error_check _); unfold ret; congruence.
    - destruct (pk_instruction q); congruence. }
  destruct (kk s3) as [o4 s4] eqn:K. pose proof (Sk _ _ eq_refl) as ->. clear kk Sk K.
  rewrite app_nil_r in E.
  destruct o4 as [[st|e]|x|]; [|cbn in E; discriminate E..].
  rewrite tbind_quiet in E. unfold lift in E. destruct (pk_id st) as [rid|x|]; [|discriminate..].
  unfold quiet, tryr, ret in E. destruct (packet_id_check rid id); [|discriminate].
  injection E as -> <- <-. rewrite app_nil_r.
  inversion St as [p0 g0 m c E1 E2 E3| | | | |]. subst.
  exists s1, w, g, m, c. rewrite <- P2.
  split; [exact W1|]. split; [exact Hw|]. split; [exact E1|]. split; [exact E3|]. split; [exact E2|].
  change (LogSending w :: l3) with ([LogSending w] ++ l3).
  rewrite sent_app, received_app, skip_app, garbage_app, L2, L3, (proj1 L4 U2), <- H1.
  cbn. auto.
Qed.
