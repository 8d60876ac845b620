(** * ReadProofs: the packet reader refines a pure stream parser *)
From Coq Require Import ZArith ZifyN ZifyNat ZifyBool.
From Verif Require Import Base Endian Error Checksum Bytestuff Packet Time Bus Spec Lib
  ChecksumProofs StuffProofs WriteProofs.
Ltac Zify.zify_post_hook ::= Z.div_mod_to_equations.

(** ** Garbage *)

Definition clean (l : list byte) : list byte := skipn (find_header l) l.

(** [l] is a non-empty beginning of a header, or starts with one. *)
Definition header_like (l : list byte) : bool :=
  starts_with l (firstn (Nat.min 4 (length l)) HEADER_PREFIX).

Lemma find_header_cons : forall b l,
  find_header (b :: l) = if header_like (b :: l) then 0 else S (find_header l).
Proof. reflexivity. Qed.

Lemma clean_cons : forall b l,
  clean (b :: l) = if header_like (b :: l) then b :: l else clean l.
Proof.
  intros b l. unfold clean. rewrite find_header_cons. destruct (header_like (b :: l)); reflexivity.
Qed.

Lemma find_header_le : forall l, find_header l <= length l.
Proof.
  induction l as [|b l IH]; [reflexivity|]. rewrite find_header_cons.
  destruct (header_like (b :: l)); simpl; lia.
Qed.

Lemma clean_length : forall l, length (clean l) <= length l.
Proof. intro l. unfold clean. rewrite skipn_length. lia. Qed.

Lemma clean_header_like : forall l, clean l = [] \/ header_like (clean l) = true.
Proof.
  induction l as [|b l IH]; [left; reflexivity|]. rewrite clean_cons.
  destruct (header_like (b :: l)) eqn:E; [right; exact E|exact IH].
Qed.

Lemma clean_of_header_like : forall l, header_like l = true -> clean l = l.
Proof. intros [|b l] H; [reflexivity|]. rewrite clean_cons, H. reflexivity. Qed.

Lemma clean_idem : forall l, clean (clean l) = clean l.
Proof.
  intro l. destruct (clean_header_like l) as [->|H]; [reflexivity|].
  apply clean_of_header_like, H.
Qed.

(** More input does not turn garbage into a header. *)
Lemma header_like_app : forall l m, header_like (l ++ m) = true -> header_like l = true.
Proof.
  intros l m H. unfold header_like in *. apply starts_with_true in H. destruct H as [r H].
  apply starts_with_true.
  destruct (Nat.le_gt_cases 4 (length l)) as [L|L].
  - rewrite app_length in H. rewrite Nat.min_l in H by lia. rewrite Nat.min_l by lia.
    exists (skipn 4 l). rewrite <- (firstn_skipn 4 l) at 1. f_equal.
    apply (f_equal (firstn 4)) in H. rewrite firstn_app_le in H by lia.
    rewrite H. reflexivity.
  - rewrite Nat.min_r by lia. exists [].
    rewrite app_nil_r. apply (f_equal (firstn (length l))) in H.
    rewrite firstn_app_le, firstn_all in H by lia.
    transitivity (firstn (length l) (firstn (Nat.min 4 (length (l ++ m))) HEADER_PREFIX ++ r)); [exact H|].
    rewrite firstn_app_le.
    + rewrite firstn_firstn, app_length. f_equal. lia.
    + rewrite firstn_length, app_length. cbn [length HEADER_PREFIX]. lia.
Qed.

Lemma clean_app : forall l m, clean (l ++ m) = clean (clean l ++ m).
Proof.
  induction l as [|b l IH]; intro m.
  - reflexivity.
  - rewrite clean_cons. destruct (header_like (b :: l)) eqn:E; [reflexivity|].
    cbn [app]. rewrite clean_cons.
    destruct (header_like (b :: l ++ m)) eqn:E2; [|apply IH].
    change (b :: l ++ m) with ((b :: l) ++ m) in E2. apply header_like_app in E2. congruence.
Qed.

Lemma header_like_long : forall l, 4 <= length l -> header_like l = true ->
  exists r, l = header ++ r.
Proof.
  intros l L H. unfold header_like in H. rewrite Nat.min_l in H by lia.
  apply starts_with_true in H. destruct H as [r H]. exists r. exact H.
Qed.

Lemma header_like_header : forall r, header_like (header ++ r) = true.
Proof.
  intro r. unfold header_like. rewrite Nat.min_l by (rewrite app_length; simpl; lia).
  apply starts_with_true. exists r. reflexivity.
Qed.

(** ** The pure parser *)

Inductive event :=
| EvPacket (data : list byte)
| EvError (e : read_error)
| EvPanic (p : panic_reason).

(** The length field of a message. *)
Definition body_len (c : list byte) : nat :=
  N.to_nat (b2n (nth 5 c x00) + 256 * b2n (nth 6 c x00)).

Inductive pres := PMore | PBig (e : buffer_too_small) | PMsg (total : nat).

Definition parse1 (cap : nat) (c : list byte) : pres :=
  if 7 <? length c then
    let total := 7 + body_len c in
    if total <=? cap then
      if total <=? length c then PMsg total else PMore
    else PBig (mkBTS total cap)
  else PMore.

(** The value of the two CRC bytes at the end of a message of [t] bytes. *)
Definition crc_field (c : list byte) (t : nat) : N :=
  (b2n (nth (t - 2) c x00) + 256 * b2n (nth (t - 1) c x00))%N.

(** What a complete message at the front of [c] turns into. *)
Definition finish_event (c : list byte) (t : nat) : event :=
  let computed := calculate_checksum 0 (firstn (t - 2) c) in
  if negb (crc_field c t =? computed)%N then
    EvError (RInvalidMessage (IMChecksum (crc_field c t) computed))
  else
    let body := unst 0 (firstn (t - 2 - 7) (skipn 7 c)) in
    match body with
    | [] => EvPanic PIndex
    | _ => EvPacket (firstn 7 c ++ body)
    end.

Definition next_event (cap : nat) (u : list byte) : option (event * list byte) :=
  let c := clean u in
  match parse1 cap c with
  | PMore => None
  | PBig e => Some (EvError (RBufferFull e), skipn 7 c)
  | PMsg t => Some (finish_event c t, skipn t c)
  end.

(** *** More input does not change what was already there *)

Lemma nth_app_lt : forall (l m : list byte) i, i < length l -> nth i (l ++ m) x00 = nth i l x00.
Proof. intros. apply app_nth1. assumption. Qed.

Lemma body_len_app : forall c m, 7 < length c -> body_len (c ++ m) = body_len c.
Proof. intros c m H. unfold body_len. rewrite !nth_app_lt by lia. reflexivity. Qed.

Lemma parse1_app : forall cap c m, parse1 cap c <> PMore -> parse1 cap (c ++ m) = parse1 cap c.
Proof.
  intros cap c m H. unfold parse1 in *. cbv zeta in *.
  destruct (7 <? length c) eqn:L; [|congruence].
  rewrite app_length. replace (7 <? length c + length m) with true by lia.
  rewrite body_len_app by lia.
  destruct (7 + body_len c <=? cap); [|reflexivity].
  destruct (7 + body_len c <=? length c) eqn:L2; [|congruence].
  replace (7 + body_len c <=? length c + length m) with true by lia. reflexivity.
Qed.

Lemma parse1_msg : forall cap c t, parse1 cap c = PMsg t ->
  7 <= t /\ t <= cap /\ t <= length c /\ 7 < length c /\ t = 7 + body_len c.
Proof.
  intros cap c t H. unfold parse1 in H. cbv zeta in H.
  destruct (7 <? length c) eqn:L; [|discriminate].
  destruct (7 + body_len c <=? cap) eqn:L1; [|discriminate].
  destruct (7 + body_len c <=? length c) eqn:L2; [|discriminate].
  injection H as <-. lia.
Qed.

Lemma parse1_big : forall cap c e, parse1 cap c = PBig e ->
  7 < length c /\ e = mkBTS (7 + body_len c) cap /\ cap < 7 + body_len c.
Proof.
  intros cap c e H. unfold parse1 in H. cbv zeta in H.
  destruct (7 <? length c) eqn:L; [|discriminate].
  destruct (7 + body_len c <=? cap) eqn:L1; [destruct (7 + body_len c <=? length c); discriminate|].
  injection H as <-. repeat split; lia.
Qed.

Lemma parse1_more : forall cap c, 10 <= cap -> length c <= cap -> parse1 cap c = PMore -> length c < cap.
Proof.
  intros cap c H1 H2 H. unfold parse1 in H. cbv zeta in H.
  destruct (7 <? length c) eqn:L; [|lia].
  destruct (7 + body_len c <=? cap) eqn:L1; [|discriminate].
  destruct (7 + body_len c <=? length c) eqn:L2; [discriminate|lia].
Qed.

Lemma finish_event_app : forall c m t, 7 <= t -> t <= length c ->
  finish_event (c ++ m) t = finish_event c t.
Proof.
  intros c m t H1 H2. unfold finish_event, crc_field. cbv zeta.
  rewrite !nth_app_lt by lia. rewrite firstn_app_le by lia.
  rewrite skipn_app_le by lia. rewrite firstn_app_le by (rewrite skipn_length; lia).
  rewrite firstn_app_le by lia. reflexivity.
Qed.

Lemma clean_stable : forall c m, header_like c = true -> 4 <= length c -> clean (c ++ m) = c ++ m.
Proof.
  intros c m H L. destruct (header_like_long c L H) as [r ->]. rewrite <- app_assoc.
  apply clean_of_header_like, header_like_header.
Qed.

Lemma next_event_app : forall cap u m ev r, next_event cap u = Some (ev, r) ->
  next_event cap (u ++ m) = Some (ev, r ++ m).
Proof.
  intros cap u m ev r H. unfold next_event in *. cbv zeta in *.
  rewrite clean_app.
  assert (P : parse1 cap (clean u) <> PMore) by (intro E; rewrite E in H; discriminate).
  assert (L7 : 7 < length (clean u)).
  { unfold parse1 in P. destruct (7 <? length (clean u)) eqn:L; [lia|congruence]. }
  rewrite clean_stable; [|destruct (clean_header_like u) as [E|E]; [rewrite E in L7; simpl in L7; lia|exact E]|lia].
  rewrite parse1_app by exact P.
  destruct (parse1 cap (clean u)) eqn:E; [congruence| |].
  - injection H as <- <-. rewrite skipn_app_le by lia. reflexivity.
  - apply parse1_msg in E. injection H as <- <-.
    rewrite finish_event_app by lia. rewrite skipn_app_le by lia. reflexivity.
Qed.

Lemma next_event_shorter : forall cap u ev r, next_event cap u = Some (ev, r) ->
  length r + 7 <= length u.
Proof.
  intros cap u ev r H. unfold next_event in H. cbv zeta in H.
  pose proof (clean_length u).
  destruct (parse1 cap (clean u)) eqn:E; [discriminate| |].
  - apply parse1_big in E. assert (R : r = skipn 7 (clean u)) by congruence. rewrite R, skipn_length. lia.
  - apply parse1_msg in E. assert (R : r = skipn total (clean u)) by congruence. rewrite R, skipn_length. lia.
Qed.

Lemma next_event_clean : forall cap u m, next_event cap (clean u ++ m) = next_event cap (u ++ m).
Proof. intros. unfold next_event. rewrite (clean_app u m). reflexivity. Qed.

(** ** Bus states *)

Definition rd_ok (s : bus) : Prop := b_used s <= b_rlen s /\ b_rlen s <= length (b_rbuf s).

(** The received bytes that have not been handed out. *)
Definition unread (s : bus) : list byte := skipn (b_used s) (firstn (b_rlen s) (b_rbuf s)).

(** [s] with the unread bytes [c] moved to the front. *)
Definition front (s : bus) (c : list byte) : bus :=
  mkBus (b_port s) (b_baud s) (c ++ skipn (length c) (b_rbuf s)) (length c) 0 (b_wbuf s) (b_dbg s).

Lemma unread_length : forall s, rd_ok s -> length (unread s) = b_rlen s - b_used s.
Proof.
  intros s [H1 H2]. unfold unread. rewrite skipn_length, firstn_length. lia.
Qed.

Lemma unread_fit : forall s, rd_ok s -> length (unread s) <= length (b_rbuf s).
Proof. intros s H. rewrite unread_length by exact H. destruct H. lia. Qed.

Lemma front_rbuf_length : forall s c, length c <= length (b_rbuf s) ->
  length (b_rbuf (front s c)) = length (b_rbuf s).
Proof. intros s c H. cbn [front b_rbuf]. rewrite app_length, skipn_length. lia. Qed.

Lemma front_ok : forall s c, length c <= length (b_rbuf s) -> rd_ok (front s c).
Proof. intros s c H. split; [cbn; lia|]. rewrite front_rbuf_length by exact H. cbn. exact H. Qed.

Lemma front_unread : forall s c, unread (front s c) = c.
Proof.
  intros s c. unfold unread, front. cbn [b_used b_rlen b_rbuf skipn].
  rewrite firstn_app_le, firstn_all by lia. reflexivity.
Qed.

Lemma front_front : forall s c c', length c <= length (b_rbuf s) -> length c' <= length c ->
  front (front s c) c' = mkBus (b_port s) (b_baud s)
     (c' ++ skipn (length c') (c ++ skipn (length c) (b_rbuf s))) (length c') 0 (b_wbuf s) (b_dbg s).
Proof. reflexivity. Qed.

Lemma consume_front : forall s n, n <= b_rlen s -> b_used s <= n -> b_rlen s <= length (b_rbuf s) ->
  consume_read_bytes n s = (Val tt, front s (skipn n (firstn (b_rlen s) (b_rbuf s)))).
Proof.
  intros s n H1 H2 H3. unfold consume_read_bytes. unfold bind at 1, get.
  replace (n <=? b_rlen s) with true by lia. rewrite andb_false_r.
  rewrite slice_val by lia. unfold bind, lift, put.
  assert (E : firstn (b_rlen s - n) (skipn n (b_rbuf s)) = skipn n (firstn (b_rlen s) (b_rbuf s))).
  { rewrite firstn_skipn_comm'. f_equal. f_equal. lia. }
  rewrite E. unfold front. f_equal. f_equal.
  - rewrite skipn_length, firstn_length. lia.
  - lia.
Qed.

Lemma remove_garbage_spec : forall s, rd_ok s ->
  remove_garbage s = (Val tt, front s (clean (unread s))).
Proof.
  intros s H. pose proof H as [H1 H2]. unfold remove_garbage. unfold bind at 1, get.
  rewrite slice_to_val by lia. unfold bind at 1, lift.
  rewrite slice_from_val by (rewrite firstn_length; lia). unfold bind at 1.
  change (skipn (b_used s) (firstn (b_rlen s) (b_rbuf s))) with (unread s).
  pose proof (find_header_le (unread s)) as F. rewrite unread_length in F by exact H.
  unfold bind at 1. rewrite consume_front by lia.
  unfold bind. cbn [front b_used Nat.eqb negb andb]. rewrite andb_false_r. unfold ret.
  f_equal. rewrite <- skipn_skipn'. reflexivity.
Qed.

(** ** What the port delivers *)

(** [feeds sc d sc']: the port delivers the bytes [d] (in some pieces) and then
    is left with the answers [sc']. *)
Inductive feeds : list rd_event -> list byte -> list rd_event -> Prop :=
| feeds_nil : forall sc, feeds sc [] sc
| feeds_all : forall bs sc d sc', feeds sc d sc' -> feeds (RdData bs :: sc) (bs ++ d) sc'
| feeds_part : forall a b sc d sc', feeds (RdData b :: sc) d sc' ->
    feeds (RdData (a ++ b) :: sc) (a ++ d) sc'.

(** A logged call is a read for deadline [d] into a non-empty buffer. *)
Definition read_call (d : deadline) (e : io_event) : Prop :=
  match e with
  | LRead d' cap _ => d' = d /\ 0 < cap
  | LReadWait d' cap => d' = d /\ 0 < cap
  | _ => False
  end.

(** Everything a read leaves alone, and the calls it makes. *)
Record read_frame (d : deadline) (s s' : bus) : Prop := mkFrame {
  rf_baud : b_baud s' = b_baud s;
  rf_cap : length (b_rbuf s') = length (b_rbuf s);
  rf_wbuf : b_wbuf s' = b_wbuf s;
  rf_dbg : b_dbg s' = b_dbg s;
  rf_discards : p_discards (b_port s') = p_discards (b_port s);
  rf_writes : p_writes (b_port s') = p_writes (b_port s);
  rf_setbauds : p_setbauds (b_port s') = p_setbauds (b_port s);
  rf_deadlines : p_deadlines (b_port s') = p_deadlines (b_port s);
  rf_log : exists evs, p_log (b_port s') = p_log (b_port s) ++ evs /\ Forall (read_call d) evs;
}.

Lemma read_frame_trans : forall d a b c, read_frame d a b -> read_frame d b c -> read_frame d a c.
Proof.
  intros d a b c [A1 A2 A3 A4 A5 A6 A7 A8 [e1 [A9 A10]]] [B1 B2 B3 B4 B5 B6 B7 B8 [e2 [B9 B10]]].
  constructor; try congruence. exists (e1 ++ e2). split.
  - rewrite B9, A9, app_assoc. reflexivity.
  - apply Forall_app. auto.
Qed.

Lemma read_frame_same_port : forall d s s', b_port s' = b_port s -> b_baud s' = b_baud s ->
  length (b_rbuf s') = length (b_rbuf s) -> b_wbuf s' = b_wbuf s -> b_dbg s' = b_dbg s ->
  read_frame d s s'.
Proof.
  intros d s s' H1 H2 H3 H4 H5. constructor; try assumption; try (rewrite H1; reflexivity).
  exists []. rewrite app_nil_r, H1. auto.
Qed.

Lemma read_frame_front : forall d s c, length c <= length (b_rbuf s) -> read_frame d s (front s c).
Proof. intros. apply read_frame_same_port; try reflexivity. apply front_rbuf_length. assumption. Qed.

(** ** One round of the loop *)

(** The inspection of the cleaned buffer. *)
Definition inspect : M (result (option nat) read_error) :=
  s <- get ;;
  (if HEADER_SIZE <? b_rlen s then
     read_buffer <- lift (slice_to (b_rbuf s) (b_rlen s)) ;;
     len_field <- lift (slice_from read_buffer 5) ;;
     body_len <- lift (read_u16_le len_field) ;;
     let total := HEADER_SIZE + N.to_nat body_len in
     match bts_check total (length (b_rbuf s)) with
     | Err e => consume_read_bytes HEADER_SIZE ;;; ret (Err (RBufferFull e))
     | Ok _ =>
         if total <=? b_rlen s then ret (Ok (Some total)) else ret (Ok None)
     end
   else ret (Ok None)).

Lemma nth_skipn2 : forall (l : list byte), 7 < length l ->
  exists r, skipn 5 l = nth 5 l x00 :: nth 6 l x00 :: r.
Proof.
  intros l H. do 7 (destruct l as [|? l]; [simpl in H; lia|]).
  exists l. reflexivity.
Qed.

Lemma inspect_front : forall s c, length c <= length (b_rbuf s) ->
  inspect (front s c) =
  match parse1 (length (b_rbuf s)) c with
  | PMore => (Val (Ok None), front s c)
  | PMsg t => (Val (Ok (Some t)), front s c)
  | PBig e => (Val (Err (RBufferFull e)), front (front s c) (skipn 7 c))
  end.
Proof.
  intros s c Hc. unfold inspect. unfold bind at 1, get.
  rewrite (front_rbuf_length s c Hc).
  change (b_rlen (front s c)) with (length c). unfold HEADER_SIZE.
  unfold parse1. cbv zeta. destruct (7 <? length c) eqn:L; [|reflexivity].
  rewrite slice_to_val by (rewrite front_rbuf_length; assumption).
  cbn [front b_rbuf]. rewrite firstn_app_le, firstn_all by lia.
  unfold bind at 1, lift. rewrite slice_from_val by lia. unfold bind at 1.
  destruct (nth_skipn2 c ltac:(lia)) as [r E]. rewrite E, read_u16_le_val. unfold bind at 1.
  fold (body_len c). unfold bts_check.
  destruct (7 + body_len c <=? length (b_rbuf s)).
  - destruct (7 + body_len c <=? length c); reflexivity.
  - unfold bind. rewrite consume_front; cbn [front b_rlen b_used b_rbuf]; try lia;
      [|rewrite app_length; lia].
    rewrite firstn_app_le, firstn_all by lia. reflexivity.
Qed.

Lemma read_loop_unfold : forall fuel d,
  read_loop (S fuel) d =
  (remove_garbage ;;;
   found <- inspect ;;
   match found with
   | Err e => ret (Err e)
   | Ok (Some total) => ret (Ok total)
   | Ok None =>
       s <- get ;;
       free <- lift (slice_from (b_rbuf s) (b_rlen s)) ;;
       try_ RIo (port_read (length free) d) (fun new_data =>
       s <- get ;;
       put (set_rlen (set_rbuf s (splice (b_rbuf s) (b_rlen s) new_data))
                     (b_rlen s + length new_data)) ;;;
       read_loop fuel d)
   end).
Proof. reflexivity. Qed.

(** The state after the port delivered [bs] and was left with [sc]. *)
Definition received (d : deadline) (s : bus) (c bs : list byte) (sc : list rd_event) : bus :=
  let p := b_port s in
  mkBus (mkPort sc (p_discards p) (p_writes p) (p_setbauds p) (p_deadlines p)
                (p_log p ++ [LRead d (length (b_rbuf s) - length c) (Ok bs)]))
        (b_baud s) (c ++ bs ++ skipn (length c + length bs) (b_rbuf s)) (length c + length bs) 0
        (b_wbuf s) (b_dbg s).

Lemma received_ok : forall d s c bs sc, length c + length bs <= length (b_rbuf s) ->
  rd_ok (received d s c bs sc) /\ unread (received d s c bs sc) = c ++ bs /\
  length (b_rbuf (received d s c bs sc)) = length (b_rbuf s).
Proof.
  intros d s c bs sc H.
  assert (L : length (b_rbuf (received d s c bs sc)) = length (b_rbuf s)).
  { unfold received. cbn [b_rbuf]. rewrite !app_length, skipn_length. lia. }
  split; [|split; [|exact L]].
  - split; [cbn; lia|rewrite L; cbn; lia].
  - unfold unread, received. cbn [b_used b_rlen b_rbuf skipn]. rewrite app_assoc.
    rewrite firstn_app_le by (rewrite app_length; lia). rewrite <- app_length, firstn_all. reflexivity.
Qed.

Lemma received_frame : forall d s c bs sc, length c < length (b_rbuf s) ->
  length c + length bs <= length (b_rbuf s) -> read_frame d s (received d s c bs sc).
Proof.
  intros d s c bs sc H0 H. constructor; try reflexivity.
  - apply received_ok. exact H.
  - exists [LRead d (length (b_rbuf s) - length c) (Ok bs)]. split; [reflexivity|].
    constructor; [|constructor]. split; [reflexivity|lia].
Qed.

(** ** The loop *)

Definition logged (s : bus) (sc : list rd_event) (e : io_event) : bus :=
  let p := b_port s in
  set_port s (mkPort sc (p_discards p) (p_writes p) (p_setbauds p) (p_deadlines p) (p_log p ++ [e])).

(** One round, without the monad. *)
Lemma read_loop_step : forall fuel dl s, rd_ok s -> 10 <= length (b_rbuf s) ->
  let c := clean (unread s) in
  let n := length (b_rbuf s) - length c in
  read_loop (S fuel) dl s =
  match parse1 (length (b_rbuf s)) c with
  | PMsg t => (Val (Ok t), front s c)
  | PBig e => (Val (Err (RBufferFull e)), front (front s c) (skipn 7 c))
  | PMore =>
      match p_script (b_port s) with
      | [] => (Blocked, logged (front s c) [] (LReadWait dl n))
      | RdErr e :: sc => (Val (Err (RIo e)), logged (front s c) sc (LRead dl n (Err e)))
      | RdData bs :: sc =>
          read_loop fuel dl
            (received dl s c (firstn n bs)
                      (if length bs <=? n then sc else RdData (skipn n bs) :: sc))
      end
  end.
Proof.
  intros fuel dl s Hok Hcap c n.
  rewrite read_loop_unfold. unfold bind at 1. rewrite remove_garbage_spec by exact Hok. fold c.
  assert (Hc : length c <= length (b_rbuf s)).
  { unfold c. pose proof (clean_length (unread s)). pose proof (unread_fit s Hok). lia. }
  unfold bind at 1. rewrite inspect_front by exact Hc.
  destruct (parse1 (length (b_rbuf s)) c) eqn:P; [|reflexivity|reflexivity].
  pose proof (parse1_more _ _ Hcap Hc P) as Hlt.
  unfold bind at 1, get. unfold bind at 1, lift.
  rewrite slice_from_val by (rewrite front_rbuf_length by exact Hc; exact Hc).
  change (b_rlen (front s c)) with (length c).
  assert (Lfree : length (skipn (length c) (b_rbuf (front s c))) = n).
  { rewrite skipn_length, front_rbuf_length by exact Hc. reflexivity. }
  rewrite Lfree. unfold try_, bind at 1, port_read.
  change (p_script (b_port (front s c))) with (p_script (b_port s)).
  destruct (p_script (b_port s)) as [|[bs|e] sc] eqn:S.
  - unfold logged, log_event. cbn [front b_port]. rewrite S. reflexivity.
  - unfold bind at 1, get. unfold bind at 1, put. f_equal.
    unfold received, set_rlen, set_rbuf, set_port, log_event.
    cbn [b_port b_baud b_rbuf b_rlen b_used b_wbuf b_dbg front
         p_script p_discards p_writes p_setbauds p_deadlines p_log].
    assert (Lbs : length (firstn n bs) <= n) by (rewrite firstn_length; lia).
    f_equal. unfold splice. rewrite firstn_app_le, firstn_all by lia. f_equal. f_equal.
    rewrite skipn_app_ge by lia. rewrite skipn_skipn'. f_equal. lia.
  - reflexivity.
Qed.

(** What the loop (and then the whole read) does with the bytes [dat]
    delivered by the port. *)
Definition loop_outcome (dl : deadline) (s s' : bus) (o : out (result nat read_error)) : Prop :=
  exists dat sc',
    feeds (p_script (b_port s)) dat sc' /\ rd_ok s' /\ read_frame dl s s' /\
    let c := clean (unread s ++ dat) in
    length c <= length (b_rbuf s) /\
    match parse1 (length (b_rbuf s)) c with
    | PMsg t => o = Val (Ok t) /\ p_script (b_port s') = sc' /\
                b_used s' = 0 /\ b_rlen s' = length c /\ unread s' = c
    | PBig e => o = Val (Err (RBufferFull e)) /\ p_script (b_port s') = sc' /\ unread s' = skipn 7 c
    | PMore => unread s' = c /\
               ((sc' = [] /\ o = Blocked /\ p_script (b_port s') = []) \/
                (exists e, sc' = RdErr e :: p_script (b_port s') /\ o = Val (Err (RIo e))))
    end.

Lemma received_script_size : forall bs sc n, 0 < n ->
  script_size (if length bs <=? n then sc else RdData (skipn n bs) :: sc)
  < script_size (RdData bs :: sc).
Proof.
  intros bs sc n H. cbn [script_size]. destruct (length bs <=? n) eqn:L; [lia|].
  cbn [script_size]. rewrite skipn_length. lia.
Qed.

Lemma read_loop_spec : forall fuel dl s o s', rd_ok s -> 10 <= length (b_rbuf s) ->
  script_size (p_script (b_port s)) < fuel ->
  read_loop fuel dl s = (o, s') -> loop_outcome dl s s' o.
Proof.
  induction fuel as [|fuel IH]; intros dl s o s' Hok Hcap Hf E; [lia|].
  rewrite read_loop_step in E by assumption. cbv zeta in E.
  set (c := clean (unread s)) in *. set (n := length (b_rbuf s) - length c) in *.
  assert (Hc : length c <= length (b_rbuf s)).
  { unfold c. pose proof (clean_length (unread s)). pose proof (unread_fit s Hok). lia. }
  assert (Hnil : clean (unread s ++ []) = c) by (rewrite app_nil_r; reflexivity).
  destruct (parse1 (length (b_rbuf s)) c) eqn:P.
  2:{ (* too big *)
      pose proof (parse1_big _ _ _ P) as [P1 [P2 P3]].
      injection E as <- <-.
      exists [], (p_script (b_port s)). split; [constructor|].
      assert (L1 : length (skipn 7 c) <= length (b_rbuf (front s c)))
        by (rewrite front_rbuf_length, skipn_length by exact Hc; lia).
      split; [apply front_ok; exact L1|].
      split; [eapply read_frame_trans; apply read_frame_front; assumption|].
      cbv zeta. rewrite Hnil, P. split; [exact Hc|]. rewrite front_unread. auto. }
  2:{ (* a message *)
      injection E as <- <-.
      exists [], (p_script (b_port s)). split; [constructor|].
      split; [apply front_ok; exact Hc|].
      split; [apply read_frame_front; exact Hc|].
      cbv zeta. rewrite Hnil, P. split; [exact Hc|]. rewrite front_unread. auto. }
  (* need more *)
  pose proof (parse1_more _ _ Hcap Hc P) as Hlt.
  destruct (p_script (b_port s)) as [|[bs|e] sc] eqn:S.
  - (* blocked *)
    injection E as <- <-.
    exists [], []. rewrite S. split; [constructor|].
    split; [apply (front_ok s c Hc)|]. split.
    { constructor; try reflexivity; [apply front_rbuf_length; exact Hc|].
      exists [LReadWait dl n]. split; [reflexivity|].
      constructor; [|constructor]. split; [reflexivity|unfold n; lia]. }
    cbv zeta. rewrite Hnil, P. split; [exact Hc|]. split; [apply (front_unread s c)|].
    left. auto.
  - (* data *)
    set (sc1 := if length bs <=? n then sc else RdData (skipn n bs) :: sc) in *.
    assert (Lbs : length (firstn n bs) <= n) by (rewrite firstn_length; lia).
    destruct (received_ok dl s c (firstn n bs) sc1 ltac:(lia)) as [R1 [R2 R3]].
    pose proof (received_frame dl s c (firstn n bs) sc1 Hlt ltac:(lia)) as R4.
    assert (Hsz : script_size (p_script (b_port (received dl s c (firstn n bs) sc1))) < fuel).
    { change (p_script (b_port (received dl s c (firstn n bs) sc1))) with sc1.
      pose proof (received_script_size bs sc n ltac:(lia)). fold sc1 in H. lia. }
    apply IH in E; [|exact R1|lia|exact Hsz].
    destruct E as [dat [sc' [F [K1 [K2 K3]]]]].
    exists (firstn n bs ++ dat), sc'.
    assert (Ecl : clean (unread s ++ firstn n bs ++ dat)
                  = clean (unread (received dl s c (firstn n bs) sc1) ++ dat)).
    { rewrite R2. rewrite (clean_app (unread s)). fold c. rewrite app_assoc. reflexivity. }
    split.
    { rewrite S. change (p_script (b_port (received dl s c (firstn n bs) sc1))) with sc1 in F.
      unfold sc1 in F. destruct (length bs <=? n) eqn:Ln.
      - rewrite firstn_all2 by lia. apply feeds_all. exact F.
      - rewrite <- (firstn_skipn n bs) at 1. apply feeds_part. exact F. }
    split; [exact K1|]. split; [eapply read_frame_trans; eassumption|].
    cbv zeta in *. rewrite Ecl. rewrite R3 in K3. exact K3.
  - (* error *)
    injection E as <- <-.
    exists [], (RdErr e :: sc). rewrite S. split; [constructor|].
    split; [apply (front_ok s c Hc)|]. split.
    { constructor; try reflexivity; [apply front_rbuf_length; exact Hc|].
      exists [LRead dl n (Err e)]. split; [reflexivity|].
      constructor; [|constructor]. split; [reflexivity|unfold n; lia]. }
    cbv zeta. rewrite Hnil, P. split; [exact Hc|]. split; [apply (front_unread s c)|].
    right. exists e. split; reflexivity.
Qed.

(** The fuel given by [read_packet_deadline] is enough: more changes nothing. *)
Lemma read_loop_fuel_irrelevant : forall f1 f2 dl s, rd_ok s -> 10 <= length (b_rbuf s) ->
  script_size (p_script (b_port s)) < f1 -> script_size (p_script (b_port s)) < f2 ->
  read_loop f1 dl s = read_loop f2 dl s.
Proof.
  induction f1 as [|f1 IH]; intros f2 dl s Hok Hcap H1 H2; [lia|].
  destruct f2 as [|f2]; [lia|].
  rewrite !read_loop_step by assumption. cbv zeta.
  set (c := clean (unread s)). set (n := length (b_rbuf s) - length c).
  assert (Hc : length c <= length (b_rbuf s)).
  { unfold c. pose proof (clean_length (unread s)). pose proof (unread_fit s Hok). lia. }
  destruct (parse1 (length (b_rbuf s)) c) eqn:P; [|reflexivity|reflexivity].
  pose proof (parse1_more _ _ Hcap Hc P) as Hlt.
  destruct (p_script (b_port s)) as [|[bs|e] sc] eqn:S; [reflexivity| |reflexivity].
  assert (Lbs : length (firstn n bs) <= n) by (rewrite firstn_length; lia).
  pose proof (received_script_size bs sc n ltac:(lia)) as Hsz.
  set (sc1 := if length bs <=? n then sc else RdData (skipn n bs) :: sc) in *.
  destruct (received_ok dl s c (firstn n bs) sc1 ltac:(lia)) as [R1 [R2 R3]].
  apply IH; [exact R1|lia| |];
    change (p_script (b_port (received dl s c (firstn n bs) sc1))) with sc1; lia.
Qed.

(** If the buffer already holds an event, the port is not asked. *)
Lemma read_loop_no_io : forall fuel dl s o s', rd_ok s -> 10 <= length (b_rbuf s) ->
  parse1 (length (b_rbuf s)) (clean (unread s)) <> PMore ->
  read_loop (S fuel) dl s = (o, s') -> b_port s' = b_port s.
Proof.
  intros fuel dl s o s' Hok Hcap P E. rewrite read_loop_step in E by assumption. cbv zeta in E.
  destruct (parse1 (length (b_rbuf s)) (clean (unread s))); [congruence| |]; injection E as <- <-; reflexivity.
Qed.

(** ** After the loop *)

Definition ev_out (ev : event) : out (result packet read_error) :=
  match ev with
  | EvPacket data => Val (Ok (mkPacket data))
  | EvError e => Val (Err e)
  | EvPanic p => Panic p
  end.

Lemma skipn_nth2 : forall (l : list byte) i, i + 2 <= length l ->
  exists r, skipn i l = nth i l x00 :: nth (i + 1) l x00 :: r.
Proof.
  intros l i H. assert (L : 2 <= length (skipn i l)) by (rewrite skipn_length; lia).
  destruct (skipn i l) as [|a [|b r]] eqn:E; [simpl in L; lia|simpl in L; lia|].
  exists r. rewrite <- (firstn_skipn i l), E.
  assert (Lf : length (firstn i l) = i) by (rewrite firstn_length; lia).
  rewrite !app_nth2 by lia. rewrite Lf. replace (i - i) with 0 by lia.
  replace (i + 1 - i) with 1 by lia. reflexivity.
Qed.

Lemma finish_packet_spec : forall s c t o s', rd_ok s -> b_used s = 0 -> b_rlen s = length c ->
  unread s = c -> 7 <= t -> t <= length c ->
  finish_packet t s = (o, s') ->
  o = ev_out (finish_event c t) /\ rd_ok s' /\ unread s' = skipn t c /\
  length (b_rbuf s') = length (b_rbuf s) /\ b_port s' = b_port s /\ b_baud s' = b_baud s /\
  b_wbuf s' = b_wbuf s /\ b_dbg s' = b_dbg s.
Proof.
  intros s c t o s' Hok Hu Hr Hc H7 Ht E.
  pose proof Hok as [_ Hcap].
  assert (Er : exists junk, b_rbuf s = c ++ junk).
  { exists (skipn (length c) (b_rbuf s)). rewrite <- (firstn_skipn (length c) (b_rbuf s)) at 1.
    f_equal. unfold unread in Hc. rewrite Hu, Hr in Hc. exact Hc. }
  destruct Er as [junk Er].
  unfold finish_packet in E. unfold bind at 1, get in E. unfold bind at 1, lift in E.
  unfold usize_sub in E. replace (2 <=? t) with true in E by lia.
  unfold bind at 1 in E. rewrite slice_from_val in E by lia.
  rewrite Er in E. rewrite skipn_app_le in E by lia.
  destruct (skipn_nth2 c (t - 2) ltac:(lia)) as [r Es]. rewrite Es in E. cbn [app] in E.
  rewrite read_u16_le_val in E. replace (t - 2 + 1) with (t - 1) in E by lia.
  fold (crc_field c t) in E. unfold bind at 1 in E. unfold bind at 1 in E.
  rewrite slice_to_val in E by (rewrite app_length; lia).
  rewrite firstn_app_le in E by lia. unfold finish_event. cbv zeta.
  destruct (negb (crc_field c t =? calculate_checksum 0 (firstn (t - 2) c))%N).
  - (* checksum *)
    unfold bind in E. rewrite consume_front in E by lia. unfold ret in E. injection E as <- <-.
    assert (Ef : firstn (b_rlen s) (b_rbuf s) = c)
      by (rewrite Er, Hr, firstn_app_le, firstn_all by lia; reflexivity).
    rewrite Ef.
    assert (L : length (skipn t c) <= length (b_rbuf s)) by (rewrite skipn_length; lia).
    split; [reflexivity|]. split; [apply front_ok; exact L|]. split; [apply front_unread|].
    split; [apply front_rbuf_length; exact L|]. repeat split.
  - unfold bind at 1, put in E. unfold bind at 1 in E. unfold HEADER_SIZE in E.
    destruct (Nat.leb_spec 9 t) as [H9|H9].
    + (* room for the body *)
      assert (Ec : c ++ junk = firstn 7 c ++ firstn (t - 2 - 7) (skipn 7 c) ++ (skipn (t - 2) c ++ junk)).
      { rewrite app_assoc, app_assoc. f_equal. rewrite <- app_assoc.
        replace (skipn (t - 2) c) with (skipn (t - 2 - 7) (skipn 7 c)) by (rewrite skipn_skipn'; f_equal; lia).
        rewrite firstn_skipn, firstn_skipn. reflexivity. }
      assert (L7 : length (firstn 7 c) = 7) by (rewrite firstn_length; lia).
      set (body := firstn (t - 2 - 7) (skipn 7 c)) in *.
      assert (Lb : length body = t - 2 - 7) by (unfold body; rewrite firstn_length, skipn_length; lia).
      rewrite Ec in E.
      rewrite with_slice_app3 in E by lia.
      destruct (unstuff_inplace_spec body) as [j [Eu Lu]]. rewrite Eu in E. cbn [obind] in E.
      rewrite splice_app in E by congruence.
      unfold bind at 1, get in E. unfold bind at 1, put in E. unfold bind at 1 in E.
      rewrite slice_to_val in E by (rewrite !app_length; rewrite app_length in Lu; lia).
      replace (firstn (7 + length (unst 0 body)) (firstn 7 c ++ (unst 0 body ++ j) ++ skipn (t - 2) c ++ junk))
        with (firstn 7 c ++ unst 0 body) in E.
      2:{ rewrite firstn_app_ge by lia. f_equal. rewrite <- app_assoc.
          rewrite firstn_app_le by lia. replace (7 + length (unst 0 body) - length (firstn 7 c)) with (length (unst 0 body)) by lia.
          rewrite firstn_all. reflexivity. }
      set (s2 := set_rbuf _ _) in E.
      assert (Hs2 : rd_ok s2 /\ unread s2 = skipn t c /\ length (b_rbuf s2) = length (b_rbuf s)
                    /\ b_port s2 = b_port s /\ b_baud s2 = b_baud s /\ b_wbuf s2 = b_wbuf s /\ b_dbg s2 = b_dbg s).
      { assert (L2 : length (b_rbuf s2) = length (b_rbuf s)).
        { unfold s2. cbn [set_rbuf b_rbuf]. rewrite Er, Ec. rewrite !app_length. rewrite app_length in Lu. lia. }
        split; [|split; [|split; [exact L2|repeat split]]].
        - split; unfold s2; cbn [set_rbuf set_used b_used b_rlen b_rbuf]; [lia|].
          rewrite !app_length, skipn_length. rewrite app_length in Lu. lia.
        - unfold unread, s2. cbn [set_rbuf set_used b_used b_rlen b_rbuf]. rewrite Hu, Hr. cbn [Nat.add].
          rewrite app_assoc. set (fr := firstn 7 c ++ unst 0 body ++ j).
          assert (Lfr : length fr = t - 2) by (unfold fr; rewrite app_length, Lu; lia).
          rewrite firstn_app_ge by lia. rewrite skipn_app_ge by lia.
          rewrite firstn_app_le by (rewrite skipn_length; lia).
          rewrite firstn_all2 by (rewrite skipn_length; lia).
          rewrite skipn_skipn'. f_equal. lia. }
      destruct (unst 0 body) as [|i0 rest] eqn:Eb.
      * (* empty body *)
        unfold bind at 1, pk_instruction, idx in E. cbn [pk_data] in E.
        rewrite app_nil_r in E. 
        replace (nth_error (firstn 7 c) 7) with (@None byte) in E
          by (symmetry; apply nth_error_None; lia).
        injection E as <- <-. split; [reflexivity|]. exact Hs2.
      * unfold bind at 1, pk_instruction in E. cbn [pk_data] in E.
        rewrite (idx_app (firstn 7 c) i0 rest 7 (eq_sym L7)) in E.
        cbn [length Nat.ltb Nat.leb] in E. rewrite andb_false_r in E. unfold ret in E.
        injection E as <- <-. split; [reflexivity|]. exact Hs2.
    + (* no room: the slice panics *)
      unfold with_slice in E. rewrite slice_panic in E by lia. cbn [obind] in E.
      injection E as <- <-.
      replace (t - 2 - 7) with 0 by lia. cbn [firstn unst].
      split; [reflexivity|].
      split; [split; cbn [set_used b_used b_rlen b_rbuf]; [lia|exact Hcap]|].
      split; [|repeat split].
      unfold unread. cbn [set_used b_used b_rlen b_rbuf]. rewrite Er, Hr, Hu.
      rewrite firstn_app_le, firstn_all by lia. reflexivity.
Qed.

(** ** The whole read *)

Record read_outcome (dl : deadline) (s s' : bus) (o : out (result packet read_error))
    (dat : list byte) (sc' : list rd_event) : Prop := mkOutcome {
  ro_feeds : feeds (p_script (b_port s)) dat sc';
  ro_ok : rd_ok s';
  ro_frame : read_frame dl s s';
  ro_result :
    match next_event (length (b_rbuf s)) (unread s ++ dat) with
    | Some (ev, rest) => o = ev_out ev /\ p_script (b_port s') = sc' /\ unread s' = rest
    | None => unread s' = clean (unread s ++ dat) /\
              ((sc' = [] /\ o = Blocked /\ p_script (b_port s') = []) \/
               (exists e, sc' = RdErr e :: p_script (b_port s') /\ o = Val (Err (RIo e))))
    end;
  ro_no_io : next_event (length (b_rbuf s)) (unread s) <> None -> b_port s' = b_port s /\ dat = [];
}.

Lemma feeds_same : forall sc d, feeds sc d sc -> d = [] \/ (length d <> 0 -> False).
Proof.
  intros sc d H. left.
  assert (G : forall a d b, feeds a d b -> script_size b <= script_size a /\ script_size b + length d <= script_size a).
  { clear. intros a d b H. induction H; cbn [script_size] in *; rewrite ?app_length in *; cbn [length]; lia. }
  apply G in H. destruct d; [reflexivity|simpl in H; lia].
Qed.

Lemma read_packet_spec : forall dl s o s', rd_ok s -> 10 <= length (b_rbuf s) ->
  read_packet_deadline dl s = (o, s') -> exists dat sc', read_outcome dl s s' o dat sc'.
Proof.
  intros dl s o s' Hok Hcap E. unfold read_packet_deadline in E. unfold bind at 1, get in E.
  unfold bts_check in E. unfold HEADER_SIZE in E. replace (7 + 3 <=? length (b_rbuf s)) with true in E by lia.
  cbn [tryr] in E. unfold try_, bind in E.
  destruct (read_loop (S (script_size (p_script (b_port s)))) dl s) as [o1 s1] eqn:EL.
  pose proof (read_loop_spec _ _ _ _ _ Hok Hcap (Nat.lt_succ_diag_r _) EL) as [dat [sc' [F [K1 [K2 [K3 K4]]]]]].
  exists dat, sc'.
  assert (Hne : forall x, next_event (length (b_rbuf s)) x <> None -> parse1 (length (b_rbuf s)) (clean x) <> PMore).
  { intros x Hx Hp. apply Hx. unfold next_event. cbv zeta. rewrite Hp. reflexivity. }
  assert (Hio : next_event (length (b_rbuf s)) (unread s) <> None -> b_port s1 = b_port s).
  { intro Hn. apply (read_loop_no_io _ dl s o1 s1 Hok Hcap (Hne _ Hn) EL). }
  set (c := clean (unread s ++ dat)) in *.
  destruct (parse1 (length (b_rbuf s)) c) eqn:P.
  - destruct K4 as [U [[-> [-> S]]|[e [-> ->]]]].
    + injection E as <- <-. constructor; try assumption.
      * unfold next_event. cbv zeta. fold c. rewrite P. auto.
      * intro Hn. exfalso. destruct (next_event (length (b_rbuf s)) (unread s)) as [[ev r]|] eqn:Q; [|congruence].
        apply (next_event_app _ _ dat) in Q. unfold next_event in Q. cbv zeta in Q. fold c in Q. rewrite P in Q. discriminate.
    + cbn [ret] in E. injection E as <- <-. constructor; try assumption.
      * unfold next_event. cbv zeta. fold c. rewrite P. split; [exact U|]. right. exists e. auto.
      * intro Hn. exfalso. destruct (next_event (length (b_rbuf s)) (unread s)) as [[ev r]|] eqn:Q; [|congruence].
        apply (next_event_app _ _ dat) in Q. unfold next_event in Q. cbv zeta in Q. fold c in Q. rewrite P in Q. discriminate.
  - destruct K4 as [-> [S U]]. cbn [ret] in E. injection E as <- <-.
    constructor; try assumption.
    + unfold next_event. cbv zeta. fold c. rewrite P. auto.
    + intro Hn. specialize (Hio Hn). split; [exact Hio|]. rewrite <- S, Hio in F.
      destruct (feeds_same _ _ F) as [D|D]; [exact D|]. destruct dat; [reflexivity|exfalso; apply D; discriminate].
  - destruct K4 as [-> [S [U0 [R0 U]]]].
    pose proof (parse1_msg _ _ _ P) as [T1 [T2 [T3 [T4 T5]]]].
    apply (finish_packet_spec s1 c total o s' K1 U0 R0 U T1 T3) in E.
    destruct E as [-> [A1 [A2 [A3 [A4 [A5 [A6 A7]]]]]]].
    constructor; try assumption.
    + eapply read_frame_trans; [exact K2|]. apply read_frame_same_port; assumption.
    + unfold next_event. cbv zeta. fold c. rewrite P. rewrite A4. auto.
    + intro Hn. specialize (Hio Hn). rewrite A4. split; [exact Hio|]. rewrite <- S, Hio in F.
      destruct (feeds_same _ _ F) as [D|D]; [exact D|]. destruct dat; [reflexivity|exfalso; apply D; discriminate].
Qed.

Lemma read_packet_small : forall dl s, length (b_rbuf s) < 10 ->
  read_packet_deadline dl s = (Val (Err (RBufferFull (mkBTS 10 (length (b_rbuf s))))), s).
Proof.
  intros dl s H. unfold read_packet_deadline, bind, get, bts_check, HEADER_SIZE.
  replace (7 + 3 <=? length (b_rbuf s)) with false by lia. reflexivity.
Qed.
