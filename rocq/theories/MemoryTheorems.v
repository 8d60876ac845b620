(** * MemoryTheorems: proofs of C71 *)
From Coq Require Import ZArith.
From Verif Require Import Base Error Data DataSpec ArrayMemory MemorySpec.

Definition holds {A} (n : nat) (x : initializer A) (vs : list A) : Prop :=
  in_count x = length vs /\ length vs <= n /\ in_data x = map Some vs ++ repeat None (n - length vs).

Lemma assume_map A (vs : list A) : assume_init (map Some vs) = MVal vs.
Proof. induction vs as [|v t IH]; [reflexivity|]. cbn [map assume_init]. rewrite IH. reflexivity. Qed.

Lemma holds_len A n (x : initializer A) vs : holds n x vs -> length (in_data x) = n.
Proof. intros [_ [H E]]. rewrite E, app_length, map_length, repeat_length. lia. Qed.

Lemma holds_drop A n (x : initializer A) vs : holds n x vs -> init_drop x = MVal vs.
Proof.
  intros H. pose proof (holds_len _ _ _ _ H) as L. destruct H as [C [H E]]. unfold init_drop.
  rewrite L, C. destruct (Nat.leb_spec (length vs) n); [|lia]. rewrite E.
  rewrite <- (map_length Some vs) at 1. rewrite firstn_app, Nat.sub_diag, firstn_all. cbn [firstn].
  rewrite app_nil_r. apply assume_map.
Qed.

Lemma slot_write_app A (vs : list A) k v : slot_write (map Some vs ++ repeat None (S k)) (length vs) v = map Some (vs ++ [v]) ++ repeat None k.
Proof. induction vs as [|w t IH]; [reflexivity|]. cbn [map app slot_write length]. rewrite IH. reflexivity. Qed.

Lemma holds_push A dbg n (x : initializer A) vs v : holds n x vs -> length vs < n ->
  exists y, init_push dbg n x v = MVal y /\ holds n y (vs ++ [v]).
Proof.
  intros H Lt. pose proof (holds_len _ _ _ _ H) as L. destruct H as [C [H E]]. unfold init_push.
  rewrite C. destruct (Nat.ltb_spec (length vs) n); [|lia]. rewrite Bool.andb_false_r.
  destruct (nth_error (in_data x) (length vs)) eqn:N; [|apply nth_error_None in N; lia].
  eexists. split; [reflexivity|]. unfold holds. cbn [in_count in_data]. rewrite app_length. cbn [length].
  split; [lia|]. split; [lia|]. rewrite E. replace (n - length vs) with (S (n - (length vs + 1))) by lia.
  apply slot_write_app.
Qed.

Lemma holds_finish A dbg n (x : initializer A) vs : holds n x vs -> length vs = n -> init_finish dbg n x = MVal (vs, vs).
Proof.
  intros H E. unfold init_finish. pose proof (holds_drop _ _ _ _ H) as D. destruct H as [C [_ I]].
  rewrite C, E, Nat.eqb_refl, Bool.andb_false_r, I, E, Nat.sub_diag, app_nil_r, assume_map. cbn [mbind].
  rewrite D. reflexivity.
Qed.

Lemma slice_element A (D : data_impl A) l i : (i + 1) * d_size D <= length l ->
  slice l (i * d_size D) (i * d_size D + d_size D) = Val (element D l i).
Proof.
  intros H. unfold slice, element. rewrite Nat.mul_add_distr_r in H. 
  destruct (Nat.leb_spec (i * d_size D) (i * d_size D + d_size D)); [|lia].
  destruct (Nat.leb_spec (i * d_size D + d_size D) (length l)); [|lia]. cbn [andb]. do 2 f_equal. lia.
Qed.

Lemma slice_short A (D : data_impl A) l i : length l < (i + 1) * d_size D ->
  slice l (i * d_size D) (i * d_size D + d_size D) = Panic PIndex.
Proof.
  intros H. unfold slice. rewrite Nat.mul_add_distr_r in H. 
  destruct (Nat.leb_spec (i * d_size D + d_size D) (length l)); [lia|]. rewrite Bool.andb_false_r. reflexivity.
Qed.

Lemma decode_loop A (D : data_impl A) dbg n l : forall m vs x, m = n - length vs -> holds n x vs ->
  (forall i v, nth_error vs i = Some v -> (i + 1) * d_size D <= length l /\ d_decode D (element D l i) = Val (Ok v)) ->
  exists o ws, mem_decode_loop D dbg n m (length vs) l x = MVal (o, ws) /\ decodable D n l ws /\
    (let* '(r, _) := array_decode_loop D m (length vs) l (mkInit vs) in Val r) = o /\
    (forall arr, o = Val (Ok arr) -> arr = ws /\ length ws = n).
Proof.
  induction m as [|m IH]; intros vs x Em H Hv.
  - assert (E : length vs = n) by (destruct H; lia). exists (Val (Ok vs)), vs. cbn [mem_decode_loop].
    rewrite (holds_finish _ _ _ _ _ H E). cbn [mbind fst snd]. split; [reflexivity|].
    split; [split; [lia|]; split; [exact Hv|lia]|]. split; [reflexivity|]. intros arr Ea. injection Ea as <-. split; [reflexivity|exact E].
  - assert (Lt : length vs < n) by lia. cbn [mem_decode_loop array_decode_loop].
    destruct (Nat.le_gt_cases ((length vs + 1) * d_size D) (length l)) as [Le|Gt].
    + rewrite (slice_element _ _ _ _ Le). cbn [obind].
      destruct (d_decode D (element D l (length vs))) as [[v|e]|p|] eqn:Ed; cbn [obind].
      * destruct (holds_push _ dbg _ _ _ v H Lt) as [y [Ey Hy]]. rewrite Ey. cbn [mbind].
        destruct (IH (vs ++ [v]) y) as [o [ws [E1 [E2 [E3 E4]]]]].
        { rewrite app_length. cbn [length]. lia. }
        { exact Hy. }
        { intros i w N. destruct (Nat.lt_ge_cases i (length vs)) as [L|L].
          - rewrite nth_error_app1 in N by exact L. exact (Hv _ _ N).
          - rewrite nth_error_app2 in N by exact L. destruct (i - length vs) as [|k] eqn:Ek; [|destruct k; discriminate].
            injection N as <-. replace i with (length vs) by lia. split; assumption. }
        replace (length (vs ++ [v])) with (S (length vs)) in E1, E3 by (rewrite app_length; cbn [length]; lia).
        exists o, ws. split; [exact E1|]. split; [exact E2|]. split; [exact E3|exact E4].
      * exists (Val (Err e)), vs. unfold leave. rewrite (holds_drop _ _ _ _ H). split; [reflexivity|].
        split; [split; [lia|]; split; [exact Hv|]; intros _ _ w; rewrite Ed; discriminate|]. split; [reflexivity|]. discriminate.
      * exists (Panic p), vs. unfold leave. rewrite (holds_drop _ _ _ _ H). split; [reflexivity|].
        split; [split; [lia|]; split; [exact Hv|]; intros _ _ w; rewrite Ed; discriminate|]. split; [reflexivity|]. discriminate.
      * exists Blocked, vs. unfold leave. rewrite (holds_drop _ _ _ _ H). split; [reflexivity|].
        split; [split; [lia|]; split; [exact Hv|]; intros _ _ w; rewrite Ed; discriminate|]. split; [reflexivity|]. discriminate.
    + rewrite (slice_short _ _ _ _ Gt). cbn [obind]. exists (Panic PIndex), vs. unfold leave.
      rewrite (holds_drop _ _ _ _ H). split; [reflexivity|].
      split; [split; [lia|]; split; [exact Hv|]; intros; lia|]. split; [reflexivity|]. discriminate.
Qed.

Lemma mem_decode_facts A (D : data_impl A) dbg n l : exists o ws, mem_decode D dbg n l = MVal (o, ws) /\
  decodable D n l ws /\ o = d_decode (data_array D n) l /\ (forall arr, o = Val (Ok arr) -> arr = ws /\ length ws = n).
Proof.
  destruct (decode_loop A D dbg n l n [] (init_new n)) as [o [ws [E1 [E2 [E3 E4]]]]].
  - cbn [length]. lia.
  - unfold holds, init_new. cbn [in_count in_data length map app]. split; [reflexivity|]. split; [lia|]. rewrite Nat.sub_0_r. reflexivity.
  - intros [|i]; discriminate.
  - exists o, ws. split; [exact E1|]. split; [exact E2|]. split; [symmetry; exact E3|exact E4].
Qed.

Lemma L_C71_memory_safe : forall A (D : data_impl A) dbg n l, exists dropped,
  mem_decode D dbg n l = MVal (d_decode (data_array D n) l, dropped).
Proof.
  intros. destruct (mem_decode_facts A D dbg n l) as [o [ws [E [_ [Eo _]]]]]. exists ws. rewrite E, Eo. reflexivity.
Qed.

Lemma L_C71_no_array_no_leak : forall A (D : data_impl A) dbg n l o dropped, mem_decode D dbg n l = MVal (o, dropped) ->
  (forall arr, o <> Val (Ok arr)) -> decodable D n l dropped.
Proof.
  intros A D dbg n l o dropped H _. destruct (mem_decode_facts A D dbg n l) as [o' [ws [E [Hd _]]]].
  rewrite E in H. injection H as <- <-. exact Hd.
Qed.

Lemma L_C71_array_complete : forall A (D : data_impl A) dbg n l arr dropped, mem_decode D dbg n l = MVal (Val (Ok arr), dropped) ->
  decodable D n l arr /\ length arr = n.
Proof.
  intros A D dbg n l arr dropped H. destruct (mem_decode_facts A D dbg n l) as [o' [ws [E [Hd [_ Ha]]]]].
  rewrite E in H. injection H as -> <-. destruct (Ha _ eq_refl) as [-> Hn]. split; assumption.
Qed.

Lemma decodable_unique A (D : data_impl A) n l vs ws : decodable D n l vs -> decodable D n l ws -> vs = ws.
Proof.
  assert (G : forall vs ws : list A, decodable D n l vs -> decodable D n l ws -> length vs < length ws -> False).
  { intros a b [_ [_ Ha3]] [Hb1 [Hb2 _]] L.
    destruct (nth_error b (length a)) as [v|] eqn:N; [|apply nth_error_None in N; lia].
    destruct (Hb2 _ _ N) as [S E]. exact (Ha3 ltac:(lia) S v E). }
  intros Hv Hw. assert (E : length vs = length ws).
  { destruct (Nat.lt_trichotomy (length vs) (length ws)) as [L|[L|L]]; [|exact L|];
    exfalso; [exact (G _ _ Hv Hw L)|exact (G _ _ Hw Hv L)]. }
  destruct Hv as [_ [Hv _]], Hw as [_ [Hw _]]. clear G. 
  assert (P : forall i, nth_error vs i = nth_error ws i).
  { intros i. destruct (nth_error vs i) as [v|] eqn:N1, (nth_error ws i) as [w|] eqn:N2.
    - destruct (Hv _ _ N1) as [_ A1], (Hw _ _ N2) as [_ A2]. congruence.
    - apply nth_error_None in N2. assert (i < length vs) by (apply nth_error_Some; congruence). lia.
    - apply nth_error_None in N1. assert (i < length ws) by (apply nth_error_Some; congruence). lia.
    - reflexivity. }
  clear Hv Hw. revert ws E P. induction vs as [|v t IH]; intros [|w t'] E P; try discriminate; [reflexivity|].
  pose proof (P 0) as P0. injection P0 as <-. f_equal. apply IH; [injection E; trivial|]. intros i. exact (P (S i)).
Qed.

Lemma L_C71_decodable_unique : forall A (D : data_impl A) n l vs ws, decodable D n l vs -> decodable D n l ws -> vs = ws.
Proof. exact decodable_unique. Qed.

(** An element type whose decode panics on zero and fails on one. *)
Definition picky : data_impl Z := mkData Z 1 (fun _ b => Val (b, Ok tt)) (fun b =>
  if beq (hd x00 b) x00 then Panic PExplicit else if beq (hd x00 b) x01 then Val (Err (IMParameterCount 0 (Exact 1))) else Val (Ok (Z.of_N (b2n (hd x00 b))))).

Lemma picky_cases : mem_decode picky true 3 [x05; x06; x00] = MVal (Panic PExplicit, [5%Z; 6%Z]) /\
  mem_decode picky true 3 [x05; x01; x07] = MVal (Val (Err (IMParameterCount 0 (Exact 1))), [5%Z]) /\
  mem_decode picky true 3 [x05; x06] = MVal (Panic PIndex, [5%Z; 6%Z]) /\
  exists dropped, mem_decode picky true 3 [x05; x06; x07] = MVal (Val (Ok [5%Z; 6%Z; 7%Z]), dropped).
Proof. split; [|split; [|split; [|eexists]]]; vm_compute; reflexivity. Qed.
