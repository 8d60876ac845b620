(** * FaultyTheorems: reading through a port with wrong counts *)
From Coq Require Import ZArith ZifyN ZifyNat ZifyBool.
From Verif Require Import Base Endian Error Checksum Bytestuff Packet Time Bus Data Client
  Instructions Device Api Spec CallSpec StreamSpec InstructionSpec TwinSpec Lib ChecksumProofs
  CrcErrorProofs StuffProofs WriteProofs ReadProofs ApiProofs StreamProofs MessageProofs SendProofs
  SendTheorems ReadTheorems StatusProofs DeviceTheorems InstructionProofs TwinProofs
  SurviveSpec SurviveTheorems FaultyPort FaultySpec Demo DemoProofs.

(** ** One round of the loop *)

(** The state after the port put [bs] behind the unread bytes [c]. *)
Definition filled (s : bus) (c bs : list byte) (rlen : nat) : bus :=
  mkBus (b_port s) (b_baud s) (c ++ bs ++ skipn (length c + length bs) (b_rbuf s)) rlen 0 (b_wbuf s) (b_dbg s).

Lemma f_loop_step : forall fs s, rd_ok s -> 10 <= length (b_rbuf s) ->
  let c := clean (unread s) in
  let n := length (b_rbuf s) - length c in
  f_loop fs s =
  match parse1 (length (b_rbuf s)) c with
  | PMsg t => (Val (Ok t), front s c, fs)
  | PBig e => (Val (Err (RBufferFull e)), front (front s c) (skipn 7 c), fs)
  | PMore =>
      match fs with
      | [] => (Blocked, front s c, [])
      | FdErr e :: fs => (Val (Err (RIo e)), front s c, fs)
      | FdData bs count :: fs =>
          let sum := (N.of_nat (length c) + count)%N in
          if (usize_max <? sum)%N then
            if b_dbg s then (Panic POverflow, filled s c (firstn n bs) (length c), fs)
            else f_loop fs (filled s c (firstn n bs) (N.to_nat (sum - (usize_max + 1))))
          else f_loop fs (filled s c (firstn n bs) (N.to_nat sum))
      end
  end.
Proof.
  intros fs s Hok Hcap c n.
  assert (Hc : length c <= length (b_rbuf s)).
  { unfold c. pose proof (clean_length (unread s)). pose proof (unread_fit s Hok). lia. }
  assert (E : (remove_garbage ;;; look) s =
    match parse1 (length (b_rbuf s)) c with
    | PMore => (Val (Ok None), front s c)
    | PMsg t => (Val (Ok (Some t)), front s c)
    | PBig e => (Val (Err (RBufferFull e)), front (front s c) (skipn 7 c))
    end).
  { unfold bind at 1. rewrite remove_garbage_spec by exact Hok. fold c.
    change look with inspect. apply inspect_front, Hc. }
  destruct fs as [|[bs count|e] fs]; cbn [f_loop]; rewrite E;
    destruct (parse1 (length (b_rbuf s)) c) eqn:P; try reflexivity;
    rewrite slice_from_val by (rewrite front_rbuf_length by exact Hc; exact Hc);
    try reflexivity.
  change (b_rlen (front s c)) with (length c).
  assert (Lfree : length (skipn (length c) (b_rbuf (front s c))) = n).
  { rewrite skipn_length, front_rbuf_length by exact Hc. reflexivity. }
  rewrite Lfree. cbv zeta.
  assert (S : forall k, set_rlen (set_rbuf (front s c) (splice (b_rbuf (front s c)) (length c) (firstn n bs))) k
              = filled s c (firstn n bs) k).
  { intro k. unfold filled, set_rlen, set_rbuf, splice, front. cbn [b_port b_baud b_rbuf b_rlen b_used b_wbuf b_dbg].
    assert (Lbs : length (firstn n bs) <= n) by (rewrite firstn_length; lia).
    f_equal. rewrite firstn_app_le, firstn_all by lia. f_equal. f_equal.
    rewrite skipn_app_ge by lia. rewrite skipn_skipn'. f_equal. lia. }
  change (b_rlen (set_rbuf (front s c) (splice (b_rbuf (front s c)) (length c) (firstn n bs)))) with (length c).
  change (b_dbg (set_rbuf (front s c) (splice (b_rbuf (front s c)) (length c) (firstn n bs)))) with (b_dbg s).
  rewrite !S. replace (set_rbuf (front s c) (splice (b_rbuf (front s c)) (length c) (firstn n bs)))
    with (filled s c (firstn n bs) (length c)) by (rewrite <- S; reflexivity).
  reflexivity.
Qed.

Lemma filled_rbuf_length : forall s c bs k, length c + length bs <= length (b_rbuf s) ->
  length (b_rbuf (filled s c bs k)) = length (b_rbuf s).
Proof. intros. cbn [filled b_rbuf]. rewrite !app_length, skipn_length. lia. Qed.

(** With more bytes than the buffer has, there is no way on. *)
Lemma overrun_loop : forall fs s, overrun s -> f_loop fs s = (Panic PIndex, s, fs).
Proof.
  intros fs s H. unfold overrun in H.
  assert (E : (remove_garbage ;;; look) s = (Panic PIndex, s)).
  { unfold bind at 1, remove_garbage at 1. unfold bind at 1, get at 1. unfold bind at 1, lift at 1.
    unfold slice_to, slice. replace (b_rlen s <=? length (b_rbuf s)) with false by lia. reflexivity. }
  destruct fs; cbn [f_loop]; rewrite E; reflexivity.
Qed.

(** ** The bookkeeping *)

Lemma L_C80_orderly : (forall s, survives s -> orderly s) /\
  (forall A (m : M A) s o s', api m -> orderly s -> m s = (o, s') -> orderly s').
Proof.
  split; [exact survives_inv|]. intros A m s o s' Ha I E. apply (api_keeps _ _ Ha _ _ _ I E).
Qed.


Lemma f_loop_books : forall fs s o s' fs', inv s -> 10 <= length (b_rbuf s) ->
  f_loop fs s = (o, s', fs') ->
  length (b_rbuf s') = length (b_rbuf s) /\ wbuf_ok (b_wbuf s') /\ b_port s' = b_port s /\
  (exists asked, fs = asked ++ fs') /\
  ((o = Panic PIndex /\ overrun s') \/
   (o = Panic POverflow /\ b_dbg s = true /\ Exists (absurd_count (length (b_rbuf s))) fs /\ rd_ok s') \/
   ((forall p, o <> Panic p) /\ rd_ok s' /\ at_front o s')).
Proof.
  induction fs as [|f fs IH]; intros s o s' fs' [Hok Hw] Hcap E;
    rewrite (f_loop_step _ s Hok Hcap) in E; cbv zeta in E;
    set (c := clean (unread s)) in *; set (n := length (b_rbuf s) - length c) in *;
    assert (Hc : length c <= length (b_rbuf s))
      by (unfold c; pose proof (clean_length (unread s)); pose proof (unread_fit s Hok); lia);
    pose proof (front_rbuf_length s c Hc) as Lf.
  - destruct (parse1 (length (b_rbuf s)) c) as [|e|t] eqn:P; injection E as <- <- <-.
    + split; [exact Lf|]. split; [exact Hw|]. split; [reflexivity|]. split; [exists []; reflexivity|].
      right. right. split; [discriminate|]. split; [apply front_ok, Hc|]. intros ? ?. discriminate.
    + assert (L7 : length (skipn 7 c) <= length (b_rbuf (front s c))) by (rewrite skipn_length; lia).
      split; [rewrite front_rbuf_length by exact L7; exact Lf|]. split; [exact Hw|]. split; [reflexivity|].
      split; [exists []; reflexivity|].
      right. right. split; [discriminate|]. split; [apply front_ok, L7|]. intros ? ?. discriminate.
    + split; [exact Lf|]. split; [exact Hw|]. split; [reflexivity|]. split; [exists []; reflexivity|].
      right. right. split; [discriminate|]. split; [apply front_ok, Hc|].
      destruct (parse1_msg _ _ _ P) as [P1 [P2 [P3 [P4 P5]]]].
      intros t0 E0; injection E0 as <-; rewrite front_unread; cbn; auto.
  - destruct (parse1 (length (b_rbuf s)) c) as [|e|t] eqn:P.
    2:{ injection E as <- <- <-.
      assert (L7 : length (skipn 7 c) <= length (b_rbuf (front s c))) by (rewrite skipn_length; lia).
      split; [rewrite front_rbuf_length by exact L7; exact Lf|]. split; [exact Hw|]. split; [reflexivity|].
      split; [exists []; reflexivity|].
      right. right. split; [discriminate|]. split; [apply front_ok, L7|]. intros ? ?. discriminate. }
    2:{ injection E as <- <- <-.
      split; [exact Lf|]. split; [exact Hw|]. split; [reflexivity|]. split; [exists []; reflexivity|].
      right. right. split; [discriminate|]. split; [apply front_ok, Hc|].
      destruct (parse1_msg _ _ _ P) as [P1 [P2 [P3 [P4 P5]]]].
      intros t0 E0; injection E0 as <-; rewrite front_unread; cbn; auto. }
    destruct f as [bs count|e].
    2:{ injection E as <- <- <-.
      split; [exact Lf|]. split; [exact Hw|]. split; [reflexivity|]. split; [exists [FdErr e]; reflexivity|].
      right. right. split; [discriminate|]. split; [apply front_ok, Hc|]. intros ? ?. discriminate. }
    assert (Lbs : length c + length (firstn n bs) <= length (b_rbuf s)) by (rewrite firstn_length; lia).
    pose proof (filled_rbuf_length s c (firstn n bs)) as LF. specialize (fun k => LF k Lbs).
    assert (Over : forall k, length (b_rbuf s) < k -> f_loop fs (filled s c (firstn n bs) k) = (o, s', fs') ->
      length (b_rbuf s') = length (b_rbuf s) /\ wbuf_ok (b_wbuf s') /\ b_port s' = b_port s /\
      (exists asked, FdData bs count :: fs = asked ++ fs') /\
      ((o = Panic PIndex /\ overrun s') \/
       (o = Panic POverflow /\ b_dbg s = true /\ Exists (absurd_count (length (b_rbuf s))) (FdData bs count :: fs) /\ rd_ok s') \/
       ((forall p, o <> Panic p) /\ rd_ok s' /\ at_front o s'))).
    { intros k Hk E1. rewrite overrun_loop in E1 by (unfold overrun; rewrite LF; exact Hk).
      injection E1 as <- <- <-. split; [apply LF|]. split; [exact Hw|]. split; [reflexivity|].
      split; [exists [FdData bs count]; reflexivity|]. left. split; [reflexivity|].
      unfold overrun. rewrite LF. exact Hk. }
    assert (In_ : forall k, k <= length (b_rbuf s) -> f_loop fs (filled s c (firstn n bs) k) = (o, s', fs') ->
      length (b_rbuf s') = length (b_rbuf s) /\ wbuf_ok (b_wbuf s') /\ b_port s' = b_port s /\
      (exists asked, FdData bs count :: fs = asked ++ fs') /\
      ((o = Panic PIndex /\ overrun s') \/
       (o = Panic POverflow /\ b_dbg s = true /\ Exists (absurd_count (length (b_rbuf s))) (FdData bs count :: fs) /\ rd_ok s') \/
       ((forall p, o <> Panic p) /\ rd_ok s' /\ at_front o s'))).
    { intros k Hk E1.
      assert (I : inv (filled s c (firstn n bs) k)).
      { split; [|exact Hw]. split; [cbn; lia|]. rewrite LF. exact Hk. }
      destruct (IH _ _ _ _ I ltac:(rewrite LF; exact Hcap) E1) as [A1 [A2 [A3 [[asked A4] A5]]]].
      rewrite LF in A1, A5.
      split; [exact A1|]. split; [exact A2|]. split; [exact A3|].
      split; [exists (FdData bs count :: asked); rewrite A4; reflexivity|].
      destruct A5 as [A5|[[A5 [A6 [A7 A8]]]|A5]]; [left; exact A5| |right; right; exact A5].
      right. left. split; [exact A5|]. split; [exact A6|]. split; [|exact A8]. apply Exists_cons_tl, A7. }
    destruct (usize_max <? N.of_nat (length c) + count)%N eqn:Ov.
    + destruct (b_dbg s) eqn:D.
      * injection E as <- <- <-. split; [apply LF|]. split; [exact Hw|]. split; [reflexivity|].
        split; [exists [FdData bs count]; reflexivity|]. right. left. split; [reflexivity|]. split; [reflexivity|].
        split; [|split; [cbn; lia|rewrite LF; exact Hc]].
        apply Exists_cons_hd. unfold absurd_count. apply N.ltb_lt in Ov. lia.
      * destruct (Nat.le_gt_cases (N.to_nat (N.of_nat (length c) + count - (usize_max + 1))) (length (b_rbuf s))) as [K|K].
        -- apply (In_ _ K E).
        -- apply (Over _ K E).
    + destruct (Nat.le_gt_cases (N.to_nat (N.of_nat (length c) + count)) (length (b_rbuf s))) as [K|K].
      * apply (In_ _ K E).
      * apply (Over _ K E).
Qed.

Lemma L_C80_read : forall s fs o s' fs', orderly s -> f_read_packet fs s = (o, s', fs') ->
  (exists asked, fs = asked ++ fs') /\ length (b_rbuf s') = length (b_rbuf s) /\
  orderly (emptied s') /\
  ((o = Panic PIndex /\ overrun s') \/
   (orderly s' /\ (o = Panic POverflow -> b_dbg s = true /\ Exists (absurd_count (length (b_rbuf s))) fs))).
Proof.
  intros s fs o s' fs' I E. unfold f_read_packet in E.
  assert (Em : forall t, wbuf_ok (b_wbuf t) -> inv (emptied t)).
  { intros t W. split; [split; cbn; lia|exact W]. }
  unfold bts_check, HEADER_SIZE in E.
  destruct (7 + 3 <=? length (b_rbuf s)) eqn:L.
  2:{ injection E as <- <- <-. split; [exists []; reflexivity|]. split; [reflexivity|]. split; [apply Em, I|].
      right. split; [exact I|discriminate]. }
  destruct (f_loop fs s) as [[o1 s1] fs1] eqn:F.
  destruct (f_loop_books _ _ _ _ _ I ltac:(lia) F) as [A1 [A2 [A3 [A4 A5]]]].
  destruct o1 as [[m|e]|p|].
  - destruct A5 as [[A5 _]|[[A5 _]|[_ [R B]]]]; try discriminate.
    destruct (B m eq_refl) as [B1 [B2 [B3 B4]]].
    injection E as E <-.
    pose proof (finish_packet_spec s1 _ m o s' R B1 B2 eq_refl B3 B4 E) as [X1 [X2 [X3 [X4 [X5 [X6 [X7 X8]]]]]]].
    split; [exact A4|]. split; [congruence|]. rewrite <- X7 in A2. split; [apply Em, A2|].
    right. split; [split; [exact X2|exact A2]|].
    intro Ep. rewrite Ep in X1. unfold finish_event in X1.
    destruct (negb _); [discriminate X1|]. destruct (unst _ _); discriminate X1.
  - injection E as <- <- <-. destruct A5 as [[A5 _]|[[A5 _]|[_ [R _]]]]; try discriminate.
    split; [exact A4|]. split; [exact A1|]. split; [apply Em, A2|]. right. split; [split; assumption|discriminate].
  - injection E as <- <- <-. split; [exact A4|]. split; [exact A1|]. split; [apply Em, A2|].
    destruct A5 as [[A5 R]|[[A5 [A6 [A7 R]]]|[A5 _]]].
    + left. split; congruence || assumption.
    + right. split; [split; assumption|]. intros _. split; assumption.
    + destruct (A5 p eq_refl).
  - injection E as <- <- <-. destruct A5 as [[A5 _]|[[A5 _]|[_ [R _]]]]; try discriminate.
    split; [exact A4|]. split; [exact A1|]. split; [apply Em, A2|]. right. split; [split; assumption|discriminate].
Qed.

(** ** Wrong counts within the buffer *)

Definition alike (s t : bus) : Prop := tw (fed s []) (fed t []).

Lemma alike_front : forall s t c, alike s t -> length c <= length (b_rbuf s) -> alike (front s c) (front t c).
Proof.
  intros s t c H L. unfold alike in *.
  change (fed (front s c) []) with (front (fed s []) c). change (fed (front t c) []) with (front (fed t []) c).
  apply tw_front; assumption.
Qed.

(** What is in the buffer, read as the answer of an honest port. *)
Definition shown (s : bus) (c bs : list byte) (count : nat) : list byte :=
  firstn count (bs ++ skipn (length c + length bs) (b_rbuf s)).

Lemma shown_length : forall s c bs k, length c + length bs <= length (b_rbuf s) ->
  length c + k <= length (b_rbuf s) -> length (shown s c bs k) = k.
Proof. intros s c bs k H K. unfold shown. rewrite firstn_length, app_length, skipn_length. lia. Qed.

Lemma shown_shows : forall s c bs n k, n = length (b_rbuf s) - length c -> k <= n ->
  firstn (length bs) (shown s c (firstn n bs) k) = firstn k bs.
Proof.
  intros s c bs n k Hn Hk. unfold shown. rewrite firstn_firstn.
  destruct (Nat.le_gt_cases (length bs) n) as [L|L].
  - rewrite (firstn_all2 bs) by lia. destruct (Nat.le_gt_cases (length bs) k) as [K|K].
    + rewrite Nat.min_l by lia. rewrite firstn_app_le, firstn_all by lia. symmetry. apply firstn_all2. lia.
    + rewrite Nat.min_r by lia. rewrite firstn_app_le by lia. reflexivity.
  - rewrite Nat.min_r by lia. rewrite firstn_app_le by (rewrite firstn_length; lia).
    rewrite firstn_firstn. f_equal. lia.
Qed.

Lemma alike_filled : forall d s t c bs k sc, alike s t ->
  length c + length bs <= length (b_rbuf s) -> length c + k <= length (b_rbuf s) ->
  alike (filled s c bs (length c + k)) (received d (fed t (RdData (shown s c bs k) :: sc)) c (shown s c bs k) sc).
Proof.
  intros d s t c bs k sc [T [I1 I2] [J1 J2]] H K. pose proof (tw_rcap _ _ T) as LL. cbn in LL.
  pose proof (shown_length s c bs k H K) as Ls.
  destruct (received_ok d (fed t (RdData (shown s c bs k) :: sc)) c (shown s c bs k) sc) as [Q1 [Q2 Q3]].
  { cbn. rewrite Ls, <- LL. exact K. }
  assert (U : unread (filled s c bs (length c + k)) = c ++ shown s c bs k).
  { unfold unread, filled. cbn [b_used b_rlen b_rbuf skipn]. rewrite firstn_app_2. reflexivity. }
  pose proof (filled_rbuf_length s c bs (length c + k) H) as LF.
  unfold alike. constructor.
  - unfold unread in U, Q2. destruct T. constructor; try assumption; try reflexivity.
    + change (length (b_rbuf (filled s c bs (length c + k))) = length (b_rbuf (received d (fed t (RdData (shown s c bs k) :: sc)) c (shown s c bs k) sc))).
      rewrite LF, Q3. exact LL.
    + etransitivity; [exact U|symmetry; exact Q2].
  - split; [|exact I2]. split; [cbn; lia|].
    change (length c + k <= length (b_rbuf (filled s c bs (length c + k)))). rewrite LF. exact K.
  - split; [exact Q1|exact J2].
Qed.

Lemma fed_fed : forall s a b, fed (fed s a) b = fed s b.
Proof. reflexivity. Qed.

Lemma alike_logged : forall s t sc e, alike s t -> alike s (logged t sc e).
Proof.
  intros s t sc e [T I J]. constructor; [|exact I|exact J]. destruct T. constructor; assumption || reflexivity.
Qed.

Lemma alike_fed : forall s t sc, alike s t -> alike s (fed t sc).
Proof. intros s t sc H. exact H. Qed.

Lemma f_loop_shown : forall d fs s t o s' fs', alike s t -> 10 <= length (b_rbuf s) ->
  f_loop fs s = (o, s', fs') -> o <> Panic PIndex -> Forall (fun f => ~ absurd_count (length (b_rbuf s)) f) fs ->
  exists asked sc, fs = asked ++ fs' /\ Forall2 shows asked sc /\
  forall fuel, script_size sc < fuel ->
  exists t', read_loop fuel d (fed t sc) = (o, t') /\ alike s' t' /\ p_script (b_port t') = [].
Proof.
  intro d. induction fs as [|f fs IH]; intros s t o s' fs' H Hcap E NP Hab;
    pose proof H as [T [I1 I2] [J1 J2]]; pose proof (tw_rcap _ _ T) as LL; cbn in LL;
    pose proof (tw_unread _ _ T) as UU; change (unread s = unread t) in UU;
    rewrite (f_loop_step _ s I1 Hcap) in E; cbv zeta in E;
    assert (Hc : length (clean (unread s)) <= length (b_rbuf s))
      by (pose proof (clean_length (unread s)); pose proof (unread_fit s I1); cbn in *; lia).
  all: assert (St : forall fuel sc, read_loop (S fuel) d (fed t sc) =
    (let c := clean (unread s) in
    match parse1 (length (b_rbuf s)) c with
    | PMsg m => (Val (Ok m), front (fed t sc) c)
    | PBig e => (Val (Err (RBufferFull e)), front (front (fed t sc) c) (skipn 7 c))
    | PMore =>
      match sc with
      | [] => (Blocked, logged (front (fed t sc) c) [] (LReadWait d (length (b_rbuf s) - length c)))
      | RdErr e :: sc1 => (Val (Err (RIo e)), logged (front (fed t sc) c) sc1 (LRead d (length (b_rbuf s) - length c) (Err e)))
      | RdData bs :: sc1 =>
          read_loop fuel d
            (received d (fed t sc) c (firstn (length (b_rbuf s) - length c) bs)
                      (if length bs <=? length (b_rbuf s) - length c then sc1
                       else RdData (skipn (length (b_rbuf s) - length c) bs) :: sc1))
      end
    end))
    by (intros fuel sc; rewrite (read_loop_step fuel d (fed t sc)); [|exact J1|cbn; lia];
        cbv zeta; change (unread (fed t sc)) with (unread t);
        change (b_rbuf (fed t sc)) with (b_rbuf t); rewrite <- UU, <- LL; reflexivity).
  all: cbv zeta in St; set (c := clean (unread s)) in *; set (n := length (b_rbuf s) - length c) in *.
  all: assert (Done : forall r sx, o = Val r -> s' = sx ->
         (forall sc, exists t', (forall fuel, read_loop (S fuel) d (fed t sc) = (Val r, t')) /\
                     alike sx t' /\ p_script (b_port t') = sc) ->
         exists sc, Forall2 shows [] sc /\
         forall fuel, script_size sc < fuel ->
         exists t', read_loop fuel d (fed t sc) = (o, t') /\ alike s' t' /\ p_script (b_port t') = [])
    by (intros r sx -> -> Hx; destruct (Hx []) as [t' [X1 X2]]; exists []; split; [constructor|];
        intros [|fuel] Hf; [lia|]; exists t'; split; [apply X1|exact X2]).
  - destruct (parse1 (length (b_rbuf s)) c) as [|e|m] eqn:P.
    + injection E as <- <- <-. exists [], []. split; [reflexivity|]. split; [constructor|].
      intros [|fuel] Hf; [lia|]. rewrite St. eexists. split; [reflexivity|]. split; [|reflexivity].
      apply alike_logged. change (alike (front s c) (front (fed t []) c)). apply alike_front; assumption.
    + injection E as <- <- <-.
      destruct (Done (Err (RBufferFull e)) _ eq_refl eq_refl) as [sc D].
      { intro sc. eexists. split; [intro fuel; rewrite St; reflexivity|]. split; [|reflexivity].
        apply alike_front; [apply alike_front; assumption|rewrite front_rbuf_length by exact Hc; rewrite skipn_length; lia]. }
      exists [], sc. split; [reflexivity|exact D].
    + injection E as <- <- <-.
      destruct (Done (Ok m) _ eq_refl eq_refl) as [sc D].
      { intro sc. eexists. split; [intro fuel; rewrite St; reflexivity|]. split; [|reflexivity].
        apply alike_front; assumption. }
      exists [], sc. split; [reflexivity|exact D].
  - destruct (parse1 (length (b_rbuf s)) c) as [|e|m] eqn:P.
    2:{ injection E as <- <- <-.
      destruct (Done (Err (RBufferFull e)) _ eq_refl eq_refl) as [sc D].
      { intro sc. eexists. split; [intro fuel; rewrite St; reflexivity|]. split; [|reflexivity].
        apply alike_front; [apply alike_front; assumption|rewrite front_rbuf_length by exact Hc; rewrite skipn_length; lia]. }
      exists [], sc. split; [reflexivity|exact D]. }
    2:{ injection E as <- <- <-.
      destruct (Done (Ok m) _ eq_refl eq_refl) as [sc D].
      { intro sc. eexists. split; [intro fuel; rewrite St; reflexivity|]. split; [|reflexivity].
        apply alike_front; assumption. }
      exists [], sc. split; [reflexivity|exact D]. }
    inversion Hab as [|? ? Hf Hab']; subst.
    destruct f as [bs count|e].
    2:{ injection E as <- <- <-. exists [FdErr e], [RdErr e]. split; [reflexivity|].
        split; [constructor; [reflexivity|constructor]|].
        intros [|fuel] Hfu; [lia|]. rewrite St. eexists. split; [reflexivity|]. split; [|reflexivity].
        apply alike_logged. change (alike (front s c) (front (fed t [RdErr e]) c)). apply alike_front; assumption. }
    unfold absurd_count in Hf.
    replace (usize_max <? N.of_nat (length c) + count)%N with false in E.
    2:{ symmetry. apply N.ltb_ge. lia. }
    assert (Lbs : length c + length (firstn n bs) <= length (b_rbuf s)) by (rewrite firstn_length; lia).
    pose proof (filled_rbuf_length s c (firstn n bs)) as LF. specialize (fun k => LF k Lbs).
    destruct (Nat.le_gt_cases (N.to_nat (N.of_nat (length c) + count)) (length (b_rbuf s))) as [K|K].
    2:{ rewrite overrun_loop in E by (unfold overrun; rewrite LF; exact K). injection E as <- <- <-. now destruct NP. }
    replace (N.to_nat (N.of_nat (length c) + count)) with (length c + N.to_nat count) in * by lia.
    set (k := N.to_nat count) in *. set (l := shown s c (firstn n bs) k) in *.
    pose proof (shown_length s c (firstn n bs) k Lbs K) as Ll. fold l in Ll.
    assert (Al : forall sc, alike (filled s c (firstn n bs) (length c + k)) (received d (fed t (RdData l :: sc)) c l sc)).
    { intro sc. apply alike_filled; assumption. }
    destruct (IH _ (received d (fed t (RdData l :: [])) c l []) _ _ _ (Al []) ltac:(rewrite LF; exact Hcap) E NP) as [asked [sc [D1 [D2 D3]]]].
    { rewrite LF. exact Hab'. }
    exists (FdData bs count :: asked), (RdData l :: sc). split; [cbn; congruence|].
    split; [constructor; [|exact D2]|].
    { split; [exact Ll|]. apply shown_shows; [reflexivity|lia]. }
    intros [|fuel] Hfu; [lia|]. rewrite St.
    rewrite firstn_all2 by lia. replace (length l <=? n) with true by lia.
    cbn [script_size] in Hfu.
    destruct (D3 fuel ltac:(lia)) as [t' [F1 F2]]. exists t'. split; [|exact F2].
    rewrite <- F1. reflexivity.
Qed.

Lemma L_C80_as_delivered : forall d s fs o s' fs', orderly s ->
  Forall (fun f => ~ absurd_count (length (b_rbuf s)) f) fs ->
  f_read_packet fs s = (o, s', fs') -> ~ overrun s' ->
  exists asked sc t', fs = asked ++ fs' /\ Forall2 shows asked sc /\
  read_packet_deadline d (fed s sc) = (o, t') /\ twins (fed s' []) t'.
Proof.
  intros d s fs o s' fs' I Hab E NO. unfold f_read_packet in E.
  destruct (Nat.le_gt_cases 10 (length (b_rbuf s))) as [L|L].
  2:{ unfold bts_check, HEADER_SIZE in E. replace (7 + 3 <=? length (b_rbuf s)) with false in E by lia.
      injection E as <- <- <-. exists [], [], (fed s []). split; [reflexivity|]. split; [constructor|].
      split; [|constructor; reflexivity].
      rewrite read_packet_small by (cbn; lia). reflexivity. }
  unfold bts_check, HEADER_SIZE in E. replace (7 + 3 <=? length (b_rbuf s)) with true in E by lia.
  destruct (f_loop fs s) as [[o1 s1] fs1] eqn:F.
  destruct (f_loop_books _ _ _ _ _ I L F) as [A1 [A2 [A3 [A4 A5]]]].
  assert (As : alike s s) by (constructor; [constructor; reflexivity|exact I|exact I]).
  assert (NP : o1 <> Panic PIndex).
  { intros ->. destruct A5 as [[_ R]|[[A5 _]|[A5 _]]]; [|discriminate A5|exact (A5 _ eq_refl)].
    injection E as <- <- <-. exact (NO R). }
  destruct (f_loop_shown d fs s s o1 s1 fs1 As L F NP Hab) as [asked [sc [D1 [D2 D3]]]].
  destruct (D3 (S (script_size sc)) ltac:(lia)) as [t1 [D4 [D5 D6]]]. clear D3.
  assert (Hrp : read_packet_deadline d (fed s sc) =
    match o1 with
    | Val (Ok len) => finish_packet len t1
    | Val (Err e) => (Val (Err e), t1)
    | Panic p => (Panic p, t1)
    | Blocked => (Blocked, t1)
    end).
  { unfold read_packet_deadline. unfold bind at 1, get at 1.
    change (b_rbuf (fed s sc)) with (b_rbuf s). change (p_script (b_port (fed s sc))) with sc.
    unfold bts_check, HEADER_SIZE. replace (7 + 3 <=? length (b_rbuf s)) with true by lia. cbn [tryr].
    unfold try_, bind. rewrite D4. destruct o1 as [[m|e]|p|]; reflexivity. }
  assert (Tw : twins (fed s1 []) t1).
  { destruct D5 as [T _ _]. destruct T. constructor; try assumption. rewrite D6. reflexivity. }
  destruct o1 as [[m|e]|p|];
    try (injection E as <- <- <-; exists asked, sc, t1; auto; fail).
  destruct A5 as [[A5 _]|[[A5 _]|[_ [R B]]]]; try discriminate.
  destruct (B m eq_refl) as [B1 [B2 [B3 B4]]].
  injection E as E <-.
  destruct (finish_packet m t1) as [o2 t2] eqn:F2.
  assert (Ut : unread t1 = unread s1) by (symmetry; apply (tw_unread _ _ Tw)).
  pose proof (read_loop_spec (S (script_size sc)) d (fed s sc) _ _ (proj1 I) L ltac:(cbn; lia) D4) as Ls.
  destruct D5 as [_ [_ _] [J1 J2]].
  assert (Bt : b_used t1 = 0 /\ b_rlen t1 = length (unread t1)).
  { destruct Ls as [dat [sc' [_ [_ [_ Ls]]]]]. cbv zeta in Ls. destruct Ls as [_ Ls].
    destruct (parse1 _ _) as [|e|t].
    - destruct Ls as [_ [[_ [X _]]|[e [_ X]]]]; discriminate X.
    - destruct Ls as [X _]. discriminate X.
    - destruct Ls as [_ [_ [X1 [X2 X3]]]]. split; [exact X1|]. rewrite X2, X3. reflexivity. }
  destruct Bt as [C1 C2].
  pose proof (finish_packet_spec s1 _ m o s' R B1 B2 eq_refl B3 B4 E) as [X1 [X2 [X3 [X4 [X5 [X6 [X7 X8]]]]]]].
  pose proof (finish_packet_spec t1 _ m o2 t2 J1 C1 C2 eq_refl B3 ltac:(rewrite Ut; exact B4) F2)
    as [Y1 [Y2 [Y3 [Y4 [Y5 [Y6 [Y7 Y8]]]]]]].
  rewrite Ut in Y1, Y3.
  exists asked, sc, t2. split; [exact D1|]. split; [exact D2|]. split; [congruence|].
  clear - Tw X3 X4 X5 X6 X7 X8 Y3 Y4 Y5 Y6 Y7 Y8. destruct Tw.
  cbn [fed set_port b_port b_baud b_rbuf b_rlen b_used b_wbuf b_dbg p_script p_discards p_writes p_setbauds p_deadlines] in *.
  constructor; cbn [fed set_port b_port b_baud b_rbuf b_rlen b_used b_wbuf b_dbg p_script p_discards p_writes p_setbauds p_deadlines];
    rewrite ?X4, ?X5, ?X6, ?X7, ?X8, ?Y4, ?Y5, ?Y6, ?Y7, ?Y8; try assumption.
  unfold unread in *. congruence.
Qed.

(** Honest counts: there is no other way to read the answers. *)
Lemma L_C80_honest : forall fs sc, Forall honest fs -> Forall2 shows fs sc ->
  sc = map (fun f => match f with FdData bs _ => RdData bs | FdErr e => RdErr e end) fs.
Proof.
  intros fs sc Hh Hs. induction Hs as [|f r fs sc H Hs IH]; [reflexivity|].
  inversion Hh as [|? ? H1 H2]; subst. cbn [map]. rewrite (IH H2). f_equal.
  destruct f as [bs count|e], r as [l|e']; cbn in H, H1; try contradiction.
  - destruct H as [A B]. rewrite H1, Nnat.Nat2N.id in A, B. rewrite (firstn_all bs) in B.
    rewrite firstn_all2 in B by lia. congruence.
  - congruence.
Qed.

(** ** Counts beyond the buffer *)

Lemma L_C80_overrun : forall d s, overrun s -> 10 <= length (b_rbuf s) ->
  (forall fs, f_read_packet fs s = (Panic PIndex, s, fs)) /\ read_packet_deadline d s = (Panic PIndex, s).
Proof.
  intros d s H L. split.
  - intro fs. unfold f_read_packet, bts_check, HEADER_SIZE. replace (7 + 3 <=? length (b_rbuf s)) with true by lia.
    rewrite overrun_loop by exact H. reflexivity.
  - unfold read_packet_deadline. unfold bind at 1, get at 1.
    unfold bts_check, HEADER_SIZE. replace (7 + 3 <=? length (b_rbuf s)) with true by lia. cbn [tryr].
    unfold try_. unfold bind at 1. rewrite read_loop_unfold. unfold bind at 1.
    assert (E : remove_garbage s = (Panic PIndex, s)).
    { unfold remove_garbage. unfold bind at 1, get at 1. unfold bind at 1, lift at 1.
      unfold slice_to, slice, overrun in *. replace (b_rlen s <=? length (b_rbuf s)) with false by lia. reflexivity. }
    rewrite E. reflexivity.
Qed.

(** Sending starts from an empty read buffer, whatever was in it. *)
Definition restarts {A E} (m : M (result A E)) : Prop := forall s o s', m s = (o, s') ->
  m (emptied s) = (o, s') \/
  (m (emptied s) = (o, emptied s') /\ b_port s' = b_port s /\ forall a, o <> Val (Ok a)).

Lemma restarts_write_packet : forall id i n enc, restarts (write_packet id i n enc).
Proof.
  intros id i n enc s o s' E.
  assert (W : forall u, b_dbg u = b_dbg s -> b_wbuf u = b_wbuf s -> write_packet id i n enc u =
    match build_packet (b_dbg s) (b_wbuf s) id i n enc with
    | Val (b, Err e) => (Val (Err (WBufferTooSmall e)), set_wbuf u b)
    | Val (b, Ok ci) =>
        try_ WDiscardBuffer port_discard (fun _ =>
          stuffed_message <- lift (slice_to b (ci + 2)) ;;
          try_ WWrite (port_write_all stuffed_message) (fun _ => ret (Ok tt))) (emptied (set_wbuf u b))
    | Panic p => (Panic p, u)
    | Blocked => (Blocked, u)
    end).
  { intros u D B. unfold write_packet. unfold bind at 1, get at 1. unfold bind at 1, lift at 1. rewrite D, B.
    destruct (build_packet (b_dbg s) (b_wbuf s) id i n enc) as [[b [ci|e]]|p|]; reflexivity. }
  rewrite (W s eq_refl eq_refl) in E. rewrite (W (emptied s) eq_refl eq_refl).
  destruct (build_packet (b_dbg s) (b_wbuf s) id i n enc) as [[b [ci|e]]|p|].
  1:{ left. exact E. }
  all: injection E as <- <-; right; (split; [reflexivity|]; split; [reflexivity|discriminate]).
Qed.

Lemma restarts_try : forall A B E F (f : E -> F) (m : M (result A E)) (k : A -> M (result B F)),
  restarts m -> restarts (try_ f m k).
Proof.
  intros A B E F f m k H s o s' X. unfold try_, bind in *.
  destruct (m s) as [o1 s1] eqn:M1. destruct (H _ _ _ M1) as [Y|[Y [P N]]].
  - left. rewrite Y. exact X.
  - rewrite Y. destruct o1 as [[a|e]|p|].
    + now destruct (N a).
    + cbn in *. injection X as <- <-. right. split; [reflexivity|]. split; [exact P|discriminate].
    + injection X as <- <-. right. split; [reflexivity|]. split; [exact P|discriminate].
    + injection X as <- <-. right. split; [reflexivity|]. split; [exact P|discriminate].
Qed.

Lemma restarts_lift : forall A B E (x : out A) (k : A -> M (result B E)),
  (forall a, restarts (k a)) -> restarts (a <- lift x ;; k a).
Proof.
  intros A B E x k H s o s' X. unfold bind, lift in *. destruct x as [a|p|]; [apply (H a), X| |];
    injection X as <- <-; right; (split; [reflexivity|]; split; [reflexivity|discriminate]).
Qed.

Lemma restarts_status : forall id e n enc, restarts (write_status id e n enc).
Proof.
  intros id e n enc s o s' E. unfold write_status in *.
  destruct (usize_max <? _)%N.
  { injection E as <- <-. right. split; [reflexivity|]. split; [reflexivity|discriminate]. }
  unfold bind at 1, get at 1 in E. unfold bind at 1 2, get at 1 2. change (b_wbuf (emptied s)) with (b_wbuf s).
  destruct (bts_check _ _); cbn [tryr] in *.
  - apply restarts_write_packet, E.
  - injection E as <- <-. right. split; [reflexivity|]. split; [reflexivity|discriminate].
Qed.

Lemma sends_restarts : forall A E (m : M (result A E)), sends m -> restarts m.
Proof.
  intros A E m H.
  destruct H; unfold device_write_status_error, device_write_status_ok, device_write_status,
    ping, scan, read_bytes, read, read_raw, write, write_bytes, reg_write, reg_write_bytes, action, broadcast_action,
    reboot, broadcast_reboot, factory_reset, broadcast_factory_reset, clear_revolution_counter,
    broadcast_clear_revolution_counter, clear_error, broadcast_clear_error, sync_write, sync_write_bytes, bulk_write,
    sync_read_bytes, sync_read, bulk_read_bytes, write_sync_read, write_bulk_read_instruction, instruct,
    transfer_single, write_instruction;
    repeat apply restarts_try; try (apply restarts_lift; intro);
    first [apply restarts_write_packet | apply restarts_status | idtac].
  destruct (bulk_read_dup l); [|apply restarts_write_packet].
  intros s o s' X. injection X as <- <-. right. split; [reflexivity|]. split; [reflexivity|discriminate].
Qed.

Lemma sends_api : forall A E (m : M (result A E)), sends m -> api m.
Proof.
  intros A E m H. destruct H.
  - apply api_write_instruction; assumption.
  - apply api_transfer_single; assumption.
  - apply api_device_write_status; assumption.
  - apply api_device_write_status_error.
  - apply api_device_write_status_ok.
  - apply api_ping.
  - apply api_scan.
  - apply api_read_bytes.
  - apply api_read.
  - apply api_write; assumption.
  - apply api_write_bytes.
  - apply api_reg_write; assumption.
  - apply api_reg_write_bytes.
  - apply api_action.
  - apply api_broadcast_action.
  - apply api_reboot.
  - apply api_broadcast_reboot.
  - apply api_factory_reset.
  - apply api_broadcast_factory_reset.
  - apply api_clear_revolution_counter.
  - apply api_broadcast_clear_revolution_counter.
  - apply api_clear_error.
  - apply api_broadcast_clear_error.
  - apply api_sync_write; assumption.
  - apply api_sync_write_bytes.
  - apply api_bulk_write.
  - apply api_sync_read_bytes.
  - apply api_sync_read.
  - apply api_bulk_read_bytes.
Qed.

Lemma L_C80_recovers : forall A E (m : M (result A E)) s o s', sends m -> orderly (emptied s) ->
  m s = (o, s') ->
  (m (emptied s) = (o, s') /\ orderly s') \/
  (m (emptied s) = (o, emptied s') /\ orderly (emptied s') /\ b_port s' = b_port s /\ forall a, o <> Val (Ok a)).
Proof.
  intros A E m s o s' Hs I X. pose proof (api_keeps _ _ (sends_api _ _ _ Hs)) as K.
  destruct (sends_restarts _ _ _ Hs _ _ _ X) as [Y|[Y [P N]]].
  - left. split; [exact Y|]. apply (K _ _ _ I Y).
  - right. split; [exact Y|]. split; [apply (K _ _ _ I Y)|]. split; assumption.
Qed.

(** ** Examples *)

(** The answer of motor 1, "ok, 2a". *)
Definition ok_2a : list byte := frame x01 [STATUS; x00; x2a].

(** Reported in two pieces although it was filled in as a whole, then again. *)
Definition two_pieces : list fd_event := [FdData ok_2a 8; FdData (skipn 8 ok_2a) 4].

Lemma L_C80_example : exists s', orderly (fresh true [] 64 64) /\
  Forall (fun f => ~ absurd_count 64 f) two_pieces /\ ~ Forall honest two_pieces /\
  f_read_packet two_pieces (fresh true [] 64 64) =
    (Val (Ok (mkPacket (header ++ [x01; x05; x00; x55; x00; x2a]))), s', []) /\ ~ overrun s'.
Proof.
  eexists. split; [split; split; cbn; auto; repeat constructor|].
  split; [|split; [|split]].
  - repeat constructor; unfold absurd_count, usize_max; cbn; discriminate.
  - intro H. inversion H as [|? ? H1 _]. vm_compute in H1. discriminate H1.
  - vm_compute. reflexivity.
  - unfold overrun. vm_compute. lia.
Qed.

(** A count of 200 in a buffer of 64: the call panics, and the next one to
    read, and then a ping is answered as if nothing had happened. *)
Lemma L_C80_overrun_example : exists s1 s2,
  f_read_packet [FdData ok_2a 200] (fresh true [RdData (frame x01 [STATUS; x00; x24; x04; x2a])] 64 64) = (Panic PIndex, s1, []) /\
  overrun s1 /\ orderly (emptied s1) /\ read_packet_deadline now s1 = (Panic PIndex, s1) /\
  ping x01 s1 = (Val (Ok (mkResponse x01 false (mkPing 1060 x2a))), s2).
Proof.
  eexists. eexists. split; [vm_compute; reflexivity|]. split; [unfold overrun; vm_compute; lia|].
  split; [split; split; vm_compute; auto; repeat constructor|]. split; vm_compute; reflexivity.
Qed.
