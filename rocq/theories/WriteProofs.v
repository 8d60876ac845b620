(** * WriteProofs: what [write_packet] puts on the wire *)
From Coq Require Import ZArith ZifyN ZifyNat ZifyBool.
From Verif Require Import Base Endian Error Checksum Bytestuff Packet Time Bus Api Spec Lib
  ChecksumProofs CrcErrorProofs StuffProofs.
Ltac Zify.zify_post_hook ::= Z.div_mod_to_equations.

(** ** Frames as the code builds them *)

Definition covered (id : byte) (body : list byte) : list byte :=
  header ++ [id] ++ le16 (N.of_nat (length (code_stuff body) + 2)) ++ code_stuff body.
Definition code_wire (id : byte) (body : list byte) : list byte :=
  covered id body ++ le16 (calculate_checksum 0 (covered id body)).

Lemma le16_length : forall v, length (le16 v) = 2.
Proof. reflexivity. Qed.

Lemma n2b_mod : forall a b, (a mod 256 = b mod 256)%N -> n2b a = n2b b.
Proof. intros a b H. apply b2n_inj. rewrite !b2n_n2b. exact H. Qed.

Lemma le16_mod : forall a b, (a mod 2 ^ 16 = b mod 2 ^ 16)%N -> le16 a = le16 b.
Proof.
  intros a b H. change (2 ^ 16)%N with 65536%N in H. unfold le16. f_equal; [|f_equal]; apply n2b_mod; lia.
Qed.

Lemma covered_length : forall id body,
  length (covered id body) = 7 + length body + fcount 0 body.
Proof.
  intros id body. unfold covered. rewrite !app_length, code_stuff_length, le16_length. simpl. lia.
Qed.

Lemma code_wire_length : forall id body,
  length (code_wire id body) = 9 + length body + fcount 0 body.
Proof. intros. unfold code_wire. rewrite app_length, covered_length, le16_length. lia. Qed.

Lemma code_wire_wire_of_body : forall id body,
  code_wire id body =
  wire_of_body id (code_stuff body) (calculate_checksum 0 (covered id body)).
Proof. intros. unfold code_wire, wire_of_body, covered. rewrite <- !app_assoc. reflexivity. Qed.

(** ** [build_packet] *)

(** The encoder of a caller that writes [params]. *)
Definition encodes (enc : encoder) (params : list byte) : Prop :=
  forall s, length s = length params -> enc s = Val (params, Ok tt).

Lemma split_at : forall A n (l : list A), n <= length l -> exists a b, l = a ++ b /\ length a = n.
Proof.
  intros A n l H. exists (firstn n l), (skipn n l). split; [symmetry; apply firstn_skipn|].
  rewrite firstn_length. lia.
Qed.

(** The outcome of [build_packet] when the encoder turned the parameter area
    into [params], for a write buffer [header ++ ...] of [w] bytes. *)
Inductive build_outcome := BOk | BTooSmall (e : buffer_too_small) | BPanic (p : panic_reason).

Definition build_result (dbg : bool) (w : nat) (body : list byte) : build_outcome :=
  let k := fcount 0 body in
  let n := length body in
  if w <? 7 + n + k then BTooSmall (mkBTS (n + k) (w - 7))
  else if dbg && (2 ^ 16 <=? N.of_nat (n + k) mod 2 ^ 16 + 2)%N then BPanic POverflow
  else if w <? 9 + n + k then BPanic PIndex
  else BOk.

Lemma write_u16_le_short : forall l v, length l < 2 -> write_u16_le l v = Panic PIndex.
Proof. intros [|a [|b l]] v H; try reflexivity. simpl in H. lia. Qed.

Lemma write_u16_at_short : forall a l v p, p = length a -> length l < 2 ->
  write_u16_at (a ++ l) p v = Panic PIndex.
Proof.
  intros a l v p -> H. unfold write_u16_at, with_slice.
  rewrite slice_val by (rewrite ?app_length; lia).
  rewrite skipn_app_ge, Nat.sub_diag by lia. cbn [skipn].
  rewrite firstn_all2 by (rewrite app_length; lia). cbn [obind].
  rewrite write_u16_le_short by exact H. reflexivity.
Qed.

(** The buffer once the encoder has run. *)
Definition pre_stuff (id instr : byte) (params rest : list byte) : list byte :=
  header ++ [id; x00; x00; instr] ++ params ++ rest.

Lemma usize_max_val : usize_max = 18446744073709551615%N.
Proof. reflexivity. Qed.

Definition build_value (dbg : bool) (w : nat) (id instr : byte) (params rest : list byte)
  : out (list byte * result nat buffer_too_small) :=
  match build_result dbg w (instr :: params) with
  | BOk => Val (code_wire id (instr :: params) ++ skipn (2 + fcount 0 (instr :: params)) rest,
                Ok (8 + length params + fcount 0 (instr :: params)))
  | BTooSmall e => Val (pre_stuff id instr params rest, Err e)
  | BPanic p => Panic p
  end.

(** Everything up to (and excluding) the encoder. *)
Lemma build_packet_head : forall dbg w id instr n enc o4 o5 o6 o7 old rest,
  n = length old -> w = header ++ [o4; o5; o6; o7] ++ old ++ rest ->
  (N.of_nat (n + 10) <= usize_max)%N -> 2 <= length rest ->
  build_packet dbg w id instr n enc =
  (let* '(params, r) := enc old in
   let b := splice (header ++ [id; x00; x00; instr] ++ old ++ rest) 8 params in
   match r with
   | Err e => Val (b, Err e)
   | Ok _ =>
       let* '(b, r) := with_slice b HEADER_SIZE (length b)
                         (fun body => stuff_inplace dbg body (1 + n)) in
       match r with
       | Err e => Val (b, Err e)
       | Ok stuffed_body_len =>
           let trunc := (N.of_nat stuffed_body_len mod 2 ^ 16)%N in
           let* len_field :=
             (if (2 ^ 16 <=? trunc + 2)%N
              then (if dbg then Panic POverflow else Val ((trunc + 2) mod 2 ^ 16)%N)
              else Val (trunc + 2)%N) in
           let* b := write_u16_at b 5 len_field in
           let checksum_index := HEADER_SIZE + stuffed_body_len in
           let* covered := slice_to b checksum_index in
           let checksum := calculate_checksum 0 covered in
           let* b := write_u16_at b checksum_index checksum in
           Val (b, Ok checksum_index)
       end
   end).
Proof.
  intros dbg w id instr n enc o4 o5 o6 o7 old rest Hn Hw Hmax Hrest. subst n w.
  unfold build_packet. unfold in_message_len, HEADER_SIZE.
  replace (usize_max <? N.of_nat (7 + 1 + length old + 2))%N with false by lia.
  unfold bts_check.
  assert (L : length (header ++ [o4; o5; o6; o7] ++ old ++ rest) = 8 + length old + length rest)
    by (rewrite !app_length; cbn [length header]; lia).
  rewrite L. replace (7 + 1 + length old + 2 <=? 8 + length old + length rest) with true by lia.
  cbn [header app]. unfold set at 1 2 3 4.
  cbn [length Nat.ltb Nat.leb list_set obind].
  change (xff :: xff :: xfd :: x00 :: id :: x00 :: x00 :: instr :: old ++ rest)
    with ([xff; xff; xfd; x00; id; x00; x00; instr] ++ old ++ rest).
  rewrite with_slice_app3 by reflexivity.
  destruct (enc old) as [[params r]|p|]; cbn [obind]; [|reflexivity|reflexivity].
  reflexivity.
Qed.

Lemma build_packet_encoded : forall dbg w id instr n enc o4 o5 o6 o7 old params rest,
  n = length old -> w = header ++ [o4; o5; o6; o7] ++ old ++ rest ->
  (N.of_nat (n + 10) <= usize_max)%N -> 2 <= length rest ->
  enc old = Val (params, Ok tt) -> length params = n ->
  build_packet dbg w id instr n enc = build_value dbg (length w) id instr params rest.
Proof.
  intros dbg w id instr n enc o4 o5 o6 o7 old params rest Hn Hw Hmax Hrest Henc Hp.
  rewrite (build_packet_head dbg w id instr n enc o4 o5 o6 o7 old rest Hn Hw Hmax Hrest).
  rewrite Henc. cbn [obind]. cbv zeta. subst n w.
  assert (SP : splice (header ++ [id; x00; x00; instr] ++ old ++ rest) 8 params
               = (header ++ [id; x00; x00; instr]) ++ params ++ rest).
  { change 8 with (length (header ++ [id; x00; x00; instr])).
    rewrite (app_assoc header [id; x00; x00; instr]). apply splice_app. congruence. }
  rewrite SP. clear SP.
  assert (L : length (header ++ [o4; o5; o6; o7] ++ old ++ rest) = 8 + length params + length rest)
    by (rewrite !app_length; cbn [length header]; lia).
  rewrite L. clear L.
  set (body := instr :: params).
  replace ((header ++ [id; x00; x00; instr]) ++ params ++ rest)
    with ([xff; xff; xfd; x00; id; x00; x00] ++ (body ++ rest) ++ [])
    by (rewrite app_nil_r; reflexivity).
  rewrite with_slice_app3; [|reflexivity|rewrite !app_length; cbn [length]; lia].
  rewrite <- Hp. change (1 + length params) with (length body).
  rewrite stuff_inplace_spec. cbn [obind].
  assert (Lb : length body = 1 + length params) by reflexivity.
  unfold build_value, build_result. fold body. rewrite Lb.
  set (k := fcount 0 body) in *.
  destruct (k <=? length rest) eqn:K.
  2:{ replace (8 + length params + length rest <? 7 + (1 + length params) + k) with true by lia.
      cbv beta iota. cbn [obind]. rewrite splice_app by reflexivity.
      rewrite app_nil_r.
      replace (8 + length params + length rest - 7) with (length body + length rest) by lia.
      reflexivity. }
  replace (8 + length params + length rest <? 7 + (1 + length params) + k) with false by lia.
  cbv beta iota. cbn [obind].
  assert (Ls : length (code_stuff body) = length body + k) by apply code_stuff_length.
  rewrite splice_app.
  2:{ rewrite !app_length, Ls, skipn_length. lia. }
  rewrite app_nil_r.
  set (sl := 1 + length params + k) in *.
  set (trunc := (N.of_nat sl mod 2 ^ 16)%N).
  set (lfo := if (2 ^ 16 <=? trunc + 2)%N
              then (if dbg then Panic POverflow else Val ((trunc + 2) mod 2 ^ 16)%N)
              else Val (trunc + 2)%N).
  assert (Hlf : exists lf, le16 lf = le16 (N.of_nat (length (code_stuff body) + 2)) /\
     lfo = (if dbg && (2 ^ 16 <=? trunc + 2)%N then Panic POverflow else Val lf)).
  { exists (if (2 ^ 16 <=? trunc + 2)%N then ((trunc + 2) mod 2 ^ 16)%N else (trunc + 2)%N). split.
    - apply le16_mod. rewrite Ls, Lb. fold sl. unfold trunc. change (2 ^ 16)%N with 65536%N.
      destruct (65536 <=? N.of_nat sl mod 65536 + 2)%N; lia.
    - unfold lfo. destruct (2 ^ 16 <=? trunc + 2)%N, dbg; reflexivity. }
  destruct Hlf as [lf [Hlf ->]]. fold sl.
  destruct (dbg && (2 ^ 16 <=? trunc + 2)%N); [reflexivity|]. cbn [obind].
  change ([xff; xff; xfd; x00; id; x00; x00] ++ code_stuff body ++ skipn k rest)
    with ([xff; xff; xfd; x00; id] ++ x00 :: x00 :: code_stuff body ++ skipn k rest).
  rewrite write_u16_at_val by reflexivity. cbn [obind].
  replace ([xff; xff; xfd; x00; id] ++ n2b lf :: n2b (lf / 256) :: code_stuff body ++ skipn k rest)
    with (covered id body ++ skipn k rest).
  2:{ unfold covered. rewrite <- Hlf. cbn [le16 header]. rewrite <- !app_assoc. reflexivity. }
  assert (Lc : length (covered id body) = 7 + sl) by (rewrite covered_length; lia).
  unfold HEADER_SIZE. rewrite slice_to_val by (rewrite app_length; lia).
  rewrite firstn_app_le by lia. rewrite <- Lc at 1. rewrite firstn_all. cbn [obind].
  destruct (8 + length params + length rest <? 9 + (1 + length params) + k) eqn:F.
  - rewrite write_u16_at_short; [reflexivity|lia|rewrite skipn_length; lia].
  - assert (Lr : 2 <= length (skipn k rest)) by (rewrite skipn_length; lia).
    destruct (skipn k rest) as [|r0 [|r1 rr]] eqn:R; [simpl in Lr; lia|simpl in Lr; lia|].
    rewrite write_u16_at_val by lia. cbn [obind]. f_equal. f_equal.
    + unfold code_wire. rewrite <- app_assoc. f_equal. cbn [le16 app]. f_equal. f_equal.
      replace (2 + k) with (k + 2) by lia. rewrite <- skipn_skipn', R. reflexivity.
Qed.

(** The write buffer of every reachable bus: at least ten bytes, the header
    prefix in front. *)
Definition wbuf_ok (w : list byte) : Prop := 10 <= length w /\ firstn 4 w = header.

Lemma wbuf_split : forall w n, wbuf_ok w -> n + 10 <= length w ->
  exists o4 o5 o6 o7 old rest, w = header ++ [o4; o5; o6; o7] ++ old ++ rest /\
    length old = n /\ length rest = length w - 8 - n /\ 2 <= length rest /\
    skipn (10 + n) w = skipn 2 rest.
Proof.
  intros w n [H1 H2] H.
  pose proof (firstn_skipn 4 w) as E. rewrite H2 in E.
  destruct (split_at _ 4 (skipn 4 w)) as [o [r [E2 L2]]]; [rewrite skipn_length; lia|].
  destruct o as [|o4 [|o5 [|o6 [|o7 [|]]]]]; try discriminate.
  assert (Lr : length r = length w - 8).
  { apply (f_equal (@length byte)) in E2. rewrite skipn_length, app_length, L2 in E2. lia. }
  destruct (split_at _ n r) as [old [rest [E3 L3]]]; [lia|].
  exists o4, o5, o6, o7, old, rest.
  assert (Hw : w = header ++ [o4; o5; o6; o7] ++ old ++ rest) by (rewrite <- E, E2, E3; reflexivity).
  rewrite E3, app_length in Lr.
  repeat split; try lia; [exact Hw|].
  rewrite Hw. replace (10 + n) with (8 + (n + 2)) by lia. rewrite <- skipn_skipn'.
  cbn [skipn header app]. rewrite <- skipn_skipn'. rewrite skipn_app_ge, L3, Nat.sub_diag by lia. reflexivity.
Qed.

Lemma build_packet_too_small : forall dbg w id instr n enc,
  (N.of_nat (n + 10) <= usize_max)%N -> length w < n + 10 ->
  build_packet dbg w id instr n enc = Val (w, Err (mkBTS (n + 10) (length w))).
Proof.
  intros dbg w id instr n enc H1 H2. unfold build_packet, in_message_len, HEADER_SIZE, bts_check.
  replace (usize_max <? N.of_nat (7 + 1 + n + 2))%N with false by lia.
  replace (7 + 1 + n + 2 <=? length w) with false by lia.
  replace (7 + 1 + n + 2) with (n + 10) by lia. reflexivity.
Qed.

(** ** [write_packet] *)

(** The effect of handing the finished message to the port. *)
Definition transmit (msg : list byte) (s : bus) : out (result unit write_error) * bus :=
  let p := b_port s in
  match hd None (p_discards p) with
  | Some e =>
      (Val (Err (WDiscardBuffer e)),
       set_port s (mkPort (p_script p) (tl (p_discards p)) (p_writes p) (p_setbauds p)
                          (p_deadlines p) (p_log p ++ [LDiscard (Some e)])))
  | None =>
      (Val (match hd None (p_writes p) with Some e => Err (WWrite e) | None => Ok tt end),
       set_port s (mkPort (p_script p) (tl (p_discards p)) (tl (p_writes p)) (p_setbauds p)
                          (p_deadlines p)
                          (p_log p ++ [LDiscard None; LWrite msg (hd None (p_writes p))])))
  end.

Definition write_value (s : bus) (id instr : byte) (params : list byte)
  : out (result unit write_error) * bus :=
  let w := b_wbuf s in
  let n := length params in
  if length w <? n + 10 then
    (Val (Err (WBufferTooSmall (mkBTS (n + 10) (length w)))), s)
  else
    match build_result (b_dbg s) (length w) (instr :: params) with
    | BTooSmall e => (Val (Err (WBufferTooSmall e)),
                      set_wbuf s (pre_stuff id instr params (skipn (8 + n) w)))
    | BPanic p => (Panic p, s)
    | BOk => transmit (code_wire id (instr :: params))
               (set_used (set_rlen
                 (set_wbuf s (code_wire id (instr :: params)
                              ++ skipn (10 + n + fcount 0 (instr :: params)) w)) 0) 0)
    end.

Lemma write_packet_value : forall s id instr params enc,
  wbuf_ok (b_wbuf s) -> (N.of_nat (length params + 10) <= usize_max)%N ->
  encodes enc params ->
  write_packet id instr (length params) enc s = write_value s id instr params.
Proof.
  intros s id instr params enc Hw Hmax Henc. unfold write_packet, write_value.
  unfold bind at 1, get. cbv beta iota. unfold bind at 1, lift.
  destruct (length (b_wbuf s) <? length params + 10) eqn:L.
  - rewrite build_packet_too_small by lia. unfold bind, put, tryr, ret. destruct s; reflexivity.
  - destruct (wbuf_split (b_wbuf s) (length params) Hw ltac:(lia))
      as [o4 [o5 [o6 [o7 [old [rest [E [L1 [L2 [L3 L4]]]]]]]]]].
    rewrite (build_packet_encoded _ _ id instr (length params) enc o4 o5 o6 o7 old params rest);
      [|congruence|exact E|exact Hmax|exact L3|apply Henc; exact L1|reflexivity].
    unfold build_value.
    destruct (build_result (b_dbg s) (length (b_wbuf s)) (instr :: params)) eqn:B.
    + (* success *)
      unfold bind at 1, put at 1. unfold tryr.
      unfold bind at 1, get. unfold bind at 1, put.
      replace (skipn (10 + length params + fcount 0 (instr :: params)) (b_wbuf s))
        with (skipn (2 + fcount 0 (instr :: params)) rest).
      2:{ replace (10 + length params + fcount 0 (instr :: params))
            with ((10 + length params) + fcount 0 (instr :: params)) by lia.
          rewrite <- (skipn_skipn' _ (fcount 0 (instr :: params)) (10 + length params)), L4, skipn_skipn'. reflexivity. }
      set (w' := code_wire id (instr :: params) ++ skipn (2 + fcount 0 (instr :: params)) rest).
      unfold transmit. unfold try_ at 1, bind at 1. unfold port_discard at 1.
      cbn [set_port set_used set_rlen set_wbuf b_port b_baud b_rbuf b_rlen b_used b_wbuf b_dbg].
      assert (Hhd : forall l : list (option io_error), match l with [] => None | r :: _ => r end = hd None l)
        by (intros []; reflexivity).
      rewrite Hhd.
      destruct (hd None (p_discards (b_port s))) as [e|] eqn:D; [reflexivity|].
      unfold bind at 1, lift.
      assert (Lw : length (code_wire id (instr :: params)) = 8 + length params + fcount 0 (instr :: params) + 2).
      { rewrite code_wire_length. cbn [length]. lia. }
      assert (SL : slice_to w' (8 + length params + fcount 0 (instr :: params) + 2)
                   = Val (code_wire id (instr :: params))).
      { rewrite slice_to_val by (unfold w'; rewrite app_length; lia).
        unfold w'. rewrite firstn_app_le by lia. rewrite <- Lw, firstn_all. reflexivity. }
      rewrite SL. unfold try_, bind, port_write_all.
      cbn [set_port set_used set_rlen set_wbuf b_port b_baud b_rbuf b_rlen b_used b_wbuf b_dbg
           log_event p_script p_discards p_writes p_setbauds p_deadlines p_log].
      rewrite !Hhd.
      destruct (hd None (p_writes (b_port s))) as [e|]; unfold ret, log_event, set_port;
        cbn [p_log b_port]; rewrite <- app_assoc; reflexivity.
    + (* no room for the stuffing *)
      unfold bind, put, tryr, ret. f_equal. f_equal. f_equal.
      rewrite E. replace (8 + length params) with (8 + length old) by lia.
      rewrite <- skipn_skipn'. cbn [skipn header app].
      rewrite skipn_app_ge, Nat.sub_diag by lia. reflexivity.
    + reflexivity.
Qed.

(** ** Arbitrary encoders *)

Definition write_gen (s : bus) (id instr : byte) (n : nat) (enc : encoder)
  : out (result unit write_error) * bus :=
  let w := b_wbuf s in
  if (usize_max <? N.of_nat (n + 10))%N then (Panic POverflow, s)
  else if length w <? n + 10 then
    (Val (Err (WBufferTooSmall (mkBTS (n + 10) (length w)))), s)
  else
    match enc (firstn n (skipn 8 w)) with
    | Panic p => (Panic p, s)
    | Blocked => (Blocked, s)
    | Val (params, Err e) =>
        (Val (Err (WBufferTooSmall e)), set_wbuf s (pre_stuff id instr params (skipn (8 + n) w)))
    | Val (params, Ok _) => write_value s id instr params
    end.

Lemma wbuf_old : forall w o4 o5 o6 o7 old rest, w = header ++ [o4; o5; o6; o7] ++ old ++ rest ->
  firstn (length old) (skipn 8 w) = old /\ skipn (8 + length old) w = rest.
Proof.
  intros w o4 o5 o6 o7 old rest ->. split.
  - cbn [skipn header app]. rewrite firstn_app_le, firstn_all by lia. reflexivity.
  - rewrite <- skipn_skipn'. cbn [skipn header app].
    rewrite skipn_app_ge, Nat.sub_diag by lia. reflexivity.
Qed.

Lemma write_packet_ext : forall s id instr n1 n2 e1 e2,
  build_packet (b_dbg s) (b_wbuf s) id instr n1 e1 = build_packet (b_dbg s) (b_wbuf s) id instr n2 e2 ->
  write_packet id instr n1 e1 s = write_packet id instr n2 e2 s.
Proof.
  intros s id instr n1 n2 e1 e2 H. unfold write_packet, bind, get, lift. rewrite H. reflexivity.
Qed.

Lemma write_packet_gen : forall s id instr n enc,
  wbuf_ok (b_wbuf s) -> encoder_ok enc ->
  write_packet id instr n enc s = write_gen s id instr n enc.
Proof.
  intros s id instr n enc Hw Henc. unfold write_gen. cbv zeta.
  destruct (usize_max <? N.of_nat (n + 10))%N eqn:Hmax.
  { unfold write_packet, bind, get, lift, build_packet, in_message_len, HEADER_SIZE.
    replace (7 + 1 + n + 2) with (n + 10) by lia. rewrite Hmax. reflexivity. }
  destruct (length (b_wbuf s) <? n + 10) eqn:L.
  { unfold write_packet. unfold bind at 1, get. unfold bind at 1, lift.
    rewrite build_packet_too_small by lia. unfold bind, put, tryr, ret. destruct s; reflexivity. }
  destruct (wbuf_split (b_wbuf s) n Hw ltac:(lia))
    as [o4 [o5 [o6 [o7 [old [rest [E [L1 [L2 [L3 L4]]]]]]]]]].
  destruct (wbuf_old _ _ _ _ _ _ _ E) as [O1 O2]. rewrite L1 in O1, O2. rewrite O1, O2.
  destruct (enc old) as [[params [[]|e]]|p|] eqn:EO.
  - pose proof (Henc _ _ _ EO) as LP.
    assert (N1 : n = length params) by congruence.
    rewrite <- (write_packet_value s id instr params (fun _ => Val (params, Ok tt)));
      [|exact Hw|rewrite <- N1; lia|intros x _; reflexivity].
    apply write_packet_ext. rewrite N1.
    rewrite (build_packet_encoded _ _ id instr (length params) enc o4 o5 o6 o7 old params rest);
      [|congruence|exact E|lia|exact L3|exact EO|reflexivity].
    symmetry. apply (build_packet_encoded _ _ id instr (length params) (fun _ => Val (params, Ok tt)) o4 o5 o6 o7 old params rest);
      [congruence|exact E|lia|exact L3|reflexivity|reflexivity].
  - pose proof (Henc _ _ _ EO) as LP.
    unfold write_packet. unfold bind at 1, get. unfold bind at 1, lift.
    rewrite (build_packet_head _ _ id instr n enc o4 o5 o6 o7 old rest (eq_sym L1) E) by lia.
    rewrite EO. cbn [obind]. cbv zeta. unfold bind, put, tryr, ret.
    f_equal. f_equal. change 8 with (length (header ++ [id; x00; x00; instr])).
    rewrite (app_assoc header [id; x00; x00; instr]), splice_app by congruence.
    unfold pre_stuff. rewrite app_assoc. reflexivity.
  - unfold write_packet. unfold bind at 1, get. unfold bind at 1, lift.
    rewrite (build_packet_head _ _ id instr n enc o4 o5 o6 o7 old rest (eq_sym L1) E) by lia.
    rewrite EO. reflexivity.
  - unfold write_packet. unfold bind at 1, get. unfold bind at 1, lift.
    rewrite (build_packet_head _ _ id instr n enc o4 o5 o6 o7 old rest (eq_sym L1) E) by lia.
    rewrite EO. reflexivity.
Qed.

(** ** [write_status] *)

Definition status_encoder (error : byte) (enc : encoder) : encoder :=
  fun buffer =>
    let* buffer := set buffer 0 error in
    with_slice buffer 1 (length buffer) enc.

Lemma status_encoder_cons : forall error enc x l, encoder_ok enc ->
  status_encoder error enc (x :: l) =
  (let* '(p, r) := enc l in Val (error :: p, r)).
Proof.
  intros error enc x l Henc. unfold status_encoder, set. cbn [length Nat.ltb Nat.leb list_set obind].
  change (error :: l) with ([error] ++ l). 
  replace ([error] ++ l) with ([error] ++ l ++ []) by (rewrite app_nil_r; reflexivity).
  rewrite with_slice_app3 by (rewrite ?app_nil_r; cbn [length]; lia).
  destruct (enc l) as [[p r]|?|] eqn:E; cbn [obind]; try reflexivity.
  rewrite splice_app by (symmetry; apply (Henc _ _ _ E)). rewrite app_nil_r. reflexivity.
Qed.

Lemma status_encoder_ok : forall error enc, encoder_ok enc -> encoder_ok (status_encoder error enc).
Proof.
  intros error enc H s s' r E. destruct s as [|x l]; [discriminate|].
  rewrite status_encoder_cons in E by exact H.
  destruct (enc l) as [[p q]|?|] eqn:EL; try discriminate. cbn [obind] in E.
  injection E as <- <-. cbn [length]. f_equal. apply (H _ _ _ EL).
Qed.

Definition write_status_gen (s : bus) (id error : byte) (n : nat) (enc : encoder)
  : out (result unit write_error) * bus :=
  let w := b_wbuf s in
  if (usize_max <? N.of_nat (n + 11))%N then (Panic POverflow, s)
  else if length w <? n + 11 then
    (Val (Err (WBufferTooSmall (mkBTS (n + 11) (length w)))), s)
  else
    match enc (firstn n (skipn 9 w)) with
    | Panic p => (Panic p, s)
    | Blocked => (Blocked, s)
    | Val (params, Err e) =>
        (Val (Err (WBufferTooSmall e)),
         set_wbuf s (pre_stuff id STATUS (error :: params) (skipn (9 + n) w)))
    | Val (params, Ok _) => write_value s id STATUS (error :: params)
    end.

Lemma write_status_gen_ok : forall s id error n enc,
  wbuf_ok (b_wbuf s) -> encoder_ok enc ->
  write_status id error n enc s = write_status_gen s id error n enc.
Proof.
  intros s id error n enc Hw Henc. unfold write_status_gen, write_status. cbv zeta.
  unfold st_message_len, HEADER_SIZE. replace (7 + 2 + n + 2) with (n + 11) by lia.
  destruct (usize_max <? N.of_nat (n + 11))%N eqn:Hmax; [reflexivity|].
  unfold bind at 1, get. unfold bts_check.
  destruct (length (b_wbuf s) <? n + 11) eqn:L.
  { replace (n + 11 <=? length (b_wbuf s)) with false by lia. reflexivity. }
  replace (n + 11 <=? length (b_wbuf s)) with true by lia. cbn [tryr].
  change (fun buffer => let* buffer := set buffer 0 error in with_slice buffer 1 (length buffer) enc)
    with (status_encoder error enc).
  rewrite write_packet_gen by (try apply status_encoder_ok; assumption).
  unfold write_gen. cbv zeta. replace (n + 1 + 10) with (n + 11) by lia. rewrite Hmax, L.
  assert (S9 : skipn 9 (b_wbuf s) = skipn 1 (skipn 8 (b_wbuf s))) by (rewrite skipn_skipn'; reflexivity).
  destruct (skipn 8 (b_wbuf s)) as [|x l] eqn:S8.
  { apply (f_equal (@length byte)) in S8. rewrite skipn_length in S8. simpl in S8. lia. }
  rewrite S9. replace (n + 1) with (S n) by lia. cbn [firstn skipn].
  rewrite status_encoder_cons by exact Henc.
  replace (8 + S n) with (9 + n) by lia.
  destruct (enc (firstn n l)) as [[p [[]|e]]|?|]; reflexivity.
Qed.

(** ** Invariants of writing *)

Lemma header_app : forall l, firstn 4 (header ++ l) = header.
Proof. reflexivity. Qed.

Lemma pre_stuff_ok : forall id instr params w, wbuf_ok w -> length params + 10 <= length w ->
  let w' := pre_stuff id instr params (skipn (8 + length params) w) in
  wbuf_ok w' /\ length w' = length w.
Proof.
  intros id instr params w [H1 H2] H. cbv zeta.
  assert (L : length (pre_stuff id instr params (skipn (8 + length params) w)) = length w).
  { unfold pre_stuff. rewrite !app_length, skipn_length. cbn [length header]. lia. }
  split; [|exact L]. split; [lia|reflexivity].
Qed.

Lemma build_ok_room : forall dbg w body, build_result dbg w body = BOk ->
  9 + length body + fcount 0 body <= w.
Proof.
  intros dbg w body H. unfold build_result in H. cbv zeta in H.
  destruct (w <? 7 + length body + fcount 0 body); [discriminate|].
  destruct (dbg && _); [discriminate|].
  destruct (w <? 9 + length body + fcount 0 body) eqn:E; [discriminate|]. lia.
Qed.

Lemma code_wire_header : forall id body r, firstn 4 (code_wire id body ++ r) = header.
Proof. intros. reflexivity. Qed.

Lemma wire_buffer_ok : forall id instr params w,
  10 + length params + fcount 0 (instr :: params) <= length w ->
  let w' := code_wire id (instr :: params) ++ skipn (10 + length params + fcount 0 (instr :: params)) w in
  wbuf_ok w' /\ length w' = length w.
Proof.
  intros id instr params w H. cbv zeta.
  assert (L : length (code_wire id (instr :: params)
              ++ skipn (10 + length params + fcount 0 (instr :: params)) w) = length w).
  { rewrite app_length, code_wire_length, skipn_length. cbn [length]. lia. }
  split; [|exact L]. split; [lia|reflexivity].
Qed.
