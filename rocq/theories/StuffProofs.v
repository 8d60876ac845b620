(** * StuffProofs: byte stuffing and unstuffing *)
From Coq Require Import ZArith ZifyN ZifyNat ZifyBool.
From Verif Require Import Base Error Bytestuff Spec Lib.
Ltac Zify.zify_post_hook ::= Z.div_mod_to_equations.

(** ** The true pattern matcher: state = min 2 (number of FF directly before) *)

Definition tnext (s : nat) (b : byte) : nat :=
  if beq b xff then Nat.min 2 (S s) else 0.
Definition thit (s : nat) (b : byte) : bool := (s =? 2) && beq b xfd.

Fixpoint trun (s : nat) (l : list byte) : nat :=
  match l with [] => s | b :: t => trun (tnext s b) t end.
Fixpoint tcount (s : nat) (l : list byte) : nat :=
  match l with [] => 0 | b :: t => (if thit s b then 1 else 0) + tcount (tnext s b) t end.

(** Stuff all patterns but the first [j]. *)
Fixpoint gstuff (s j : nat) (l : list byte) : list byte :=
  match l with
  | [] => []
  | b :: t =>
      if thit s b then
        match j with
        | O => b :: xfd :: gstuff (tnext s b) 0 t
        | S j' => b :: gstuff (tnext s b) j' t
        end
      else b :: gstuff (tnext s b) j t
  end.

Lemma trun_app : forall a b s, trun s (a ++ b) = trun (trun s a) b.
Proof. induction a as [|x a IH]; intros b s; simpl; auto. Qed.

Lemma tcount_app : forall a b s, tcount s (a ++ b) = tcount s a + tcount (trun s a) b.
Proof. induction a as [|x a IH]; intros b s; simpl; [reflexivity|]. rewrite IH. lia. Qed.

Lemma gstuff_app : forall a b s j,
  gstuff s j (a ++ b) = gstuff s j a ++ gstuff (trun s a) (j - tcount s a) b.
Proof.
  induction a as [|x a IH]; intros b s j; simpl; [rewrite Nat.sub_0_r; reflexivity|].
  destruct (thit s x); simpl.
  - destruct j as [|j]; simpl; rewrite IH; reflexivity.
  - rewrite IH. reflexivity.
Qed.

Lemma tnext_le : forall s b, tnext s b <= 2.
Proof. intros s b. unfold tnext. destruct (beq b xff); lia. Qed.

Lemma trun_le : forall l s, s <= 2 -> trun s l <= 2.
Proof. induction l as [|b l IH]; intros s H; simpl; [exact H|]. apply IH, tnext_le. Qed.

Lemma gstuff_length : forall l s j, j <= tcount s l ->
  length (gstuff s j l) = length l + (tcount s l - j).
Proof.
  induction l as [|b l IH]; intros s j H; simpl in *; [lia|].
  destruct (thit s b); simpl in *.
  - destruct j as [|j]; simpl; rewrite IH by lia; lia.
  - rewrite IH by lia. lia.
Qed.

Lemma gstuff_none : forall l s j, tcount s l <= j -> gstuff s j l = l.
Proof.
  induction l as [|b l IH]; intros s j H; simpl in *; [reflexivity|].
  destruct (thit s b); simpl in *.
  - destruct j as [|j]; [lia|]. f_equal. apply IH. lia.
  - f_equal. apply IH. lia.
Qed.

(** A whole pattern, from any state. *)
Lemma tcount_pattern : forall s, s <= 2 -> tcount s [xff; xff; xfd] = 1.
Proof. intros [|[|[|s]]] H; reflexivity. Qed.

Lemma gstuff_pattern : forall s, s <= 2 -> gstuff s 0 [xff; xff; xfd] = [xff; xff; xfd; xfd].
Proof. intros [|[|[|s]]] H; reflexivity. Qed.

(** The state is 2 exactly when the last two bytes are FF. *)
Lemma trun_2 : forall l, trun 0 l = 2 -> exists q, l = q ++ [xff; xff].
Proof.
  intros l. destruct l as [|b l _] using rev_ind; [discriminate|].
  destruct l as [|a l _] using rev_ind; intro H.
  - simpl in H. unfold tnext in H. destruct (beq b xff); discriminate.
  - rewrite !trun_app in H. simpl in H. unfold tnext in H at 1.
    destruct (beq b xff) eqn:B; [|discriminate]. apply beq_true in B. subst b.
    unfold tnext in H. destruct (beq a xff) eqn:A; [|simpl in H; discriminate].
    apply beq_true in A. subst a. exists l. rewrite <- app_assoc. reflexivity.
Qed.

Lemma thit_pattern : forall q b, thit (trun 0 q) b = true ->
  exists q', q ++ [b] = q' ++ [xff; xff; xfd].
Proof.
  intros q b H. unfold thit in H. apply andb_true_iff in H. destruct H as [H1 H2].
  apply Nat.eqb_eq in H1. apply trun_2 in H1. destruct H1 as [q' ->].
  apply beq_true in H2. subst b. exists q'. rewrite <- app_assoc. reflexivity.
Qed.

(** ** The specification is [gstuff] without exceptions *)

Lemma pstuff_gstuff_aux : forall n l, length l <= n -> forall s,
  (s = 0 -> gstuff s 0 l = pstuff l) /\
  (s = 1 -> gstuff s 0 l = match l with
                           | b :: c :: t => if beq b xff && beq c xfd then b :: c :: xfd :: pstuff t else pstuff l
                           | _ => pstuff l end) /\
  (s = 2 -> gstuff s 0 l = match l with
                           | c :: t => if beq c xfd then c :: xfd :: pstuff t else gstuff 1 0 l
                           | [] => [] end).
Proof.
  induction n as [|n IH]; intros l Hl s.
  - destruct l; [|simpl in Hl; lia]. repeat split; reflexivity.
  - destruct l as [|a t]; [repeat split; reflexivity|]. simpl in Hl.
    assert (IHt : forall s,
      (s = 0 -> gstuff s 0 t = pstuff t) /\
      (s = 1 -> gstuff s 0 t = match t with
                           | b :: c :: t => if beq b xff && beq c xfd then b :: c :: xfd :: pstuff t else pstuff (b :: c :: t)
                           | _ => pstuff t end) /\
      (s = 2 -> gstuff s 0 t = match t with
                           | c :: t => if beq c xfd then c :: xfd :: pstuff t else gstuff 1 0 (c :: t)
                           | [] => [] end)).
    { intro s'. destruct (IH t ltac:(lia) s') as [A [B C]].
      split; [exact A|]. split; [|].
      - intro E. rewrite (B E). destruct t as [|b [|c t']]; reflexivity.
      - intro E. rewrite (C E). destruct t; reflexivity. }
    clear IH. repeat split; intros ->.
    + (* s = 0 *)
      cbn [gstuff]. change (thit 0 a) with false. cbv iota.
      unfold tnext. destruct (beq a xff) eqn:A.
      * change (Nat.min 2 1) with 1. rewrite (proj1 (proj2 (IHt 1)) eq_refl).
        destruct t as [|b [|c t']].
        -- reflexivity.
        -- reflexivity.
        -- cbn [pstuff]. rewrite A. cbn [andb].
           destruct (beq b xff) eqn:B; cbn [andb]; [|reflexivity].
           destruct (beq c xfd) eqn:C; reflexivity.
      * rewrite (proj1 (IHt 0) eq_refl).
        destruct t as [|b [|c t']]; cbn [pstuff]; try reflexivity. rewrite A. reflexivity.
    + (* s = 1 *)
      cbn [gstuff]. change (thit 1 a) with false. cbv iota.
      unfold tnext. destruct (beq a xff) eqn:A.
      * change (Nat.min 2 2) with 2. rewrite (proj2 (proj2 (IHt 2)) eq_refl).
        destruct t as [|b t']; [reflexivity|]. cbn [andb].
        destruct (beq b xfd) eqn:B; [reflexivity|].
        rewrite (proj1 (proj2 (IHt 1)) eq_refl).
        destruct t' as [|c t']; cbn [pstuff].
        -- reflexivity.
        -- rewrite A. cbn [andb]. destruct (beq b xff) eqn:B2; cbn [andb]; [|reflexivity].
           destruct (beq c xfd); reflexivity.
      * rewrite (proj1 (IHt 0) eq_refl).
        destruct t as [|b [|c t']]; cbn [pstuff andb]; try reflexivity. rewrite A. reflexivity.
    + (* s = 2 *)
      cbn [gstuff]. unfold thit at 1. change (2 =? 2) with true. cbn [andb].
      destruct (beq a xfd) eqn:D.
      * apply beq_true in D. subst a. change (tnext 2 xfd) with 0.
        rewrite (proj1 (IHt 0) eq_refl). reflexivity.
      * change (thit 1 a) with false. cbv iota. unfold tnext.
        destruct (beq a xff); reflexivity.
Qed.

Lemma pstuff_gstuff : forall l, pstuff l = gstuff 0 0 l.
Proof. intro l. symmetry. apply (pstuff_gstuff_aux (length l) l (le_n _) 0). reflexivity. Qed.

Lemma pstuff_length : forall l, length (pstuff l) = length l + tcount 0 l.
Proof. intro l. rewrite pstuff_gstuff, gstuff_length by lia. lia. Qed.

(** ** The matcher of the code: state 0, 1, 2 *)

Definition fnext (s : nat) (b : byte) : nat :=
  match s with
  | 0 => if beq b xff then 1 else 0
  | 1 => if beq b xff then 2 else 0
  | _ => 0
  end.
Definition fhit (s : nat) (b : byte) : bool := (s =? 2) && beq b xfd.
Fixpoint fcount (s : nat) (l : list byte) : nat :=
  match l with [] => 0 | b :: t => (if fhit s b then 1 else 0) + fcount (fnext s b) t end.

Lemma stuffing_loop_fcount : forall l s c, s <= 2 -> stuffing_loop l s c = Val (c + fcount s l).
Proof.
  induction l as [|b l IH]; intros s c H; cbn [stuffing_loop fcount]; [f_equal; lia|].
  destruct s as [|[|[|s]]]; [| | |lia]; cbn [idx nth_error PATTERN obind]; unfold fhit, fnext.
  - destruct (beq b xff); cbn [Nat.eqb length PATTERN Nat.sub andb]; rewrite IH by lia; reflexivity.
  - destruct (beq b xff); cbn [Nat.eqb length PATTERN Nat.sub andb]; rewrite IH by lia; reflexivity.
  - destruct (beq b xfd); cbn [Nat.eqb length PATTERN Nat.sub andb]; rewrite IH by lia; f_equal; lia.
Qed.

Lemma stuffing_required_val : forall l, stuffing_required l = Val (fcount 0 l).
Proof. intro l. apply (stuffing_loop_fcount l 0 0). lia. Qed.

Lemma fcount_le : forall l f t, f <= t -> t <= 2 -> fcount f l <= tcount t l.
Proof.
  induction l as [|b l IH]; intros f t H1 H2; simpl; [lia|].
  assert (N1 : fnext f b <= tnext t b).
  { unfold fnext, tnext. destruct f as [|[|f]]; destruct (beq b xff); lia. }
  specialize (IH (fnext f b) (tnext t b) N1 (tnext_le t b)).
  unfold fhit, thit. destruct (f =? 2) eqn:E; simpl; [|lia].
  replace (t =? 2) with true by lia. simpl. destruct (beq b xfd); lia.
Qed.

Lemma fcount_le0 : forall l, fcount 0 l <= tcount 0 l.
Proof. intro l. apply fcount_le; lia. Qed.

(** What the code puts on the wire. *)
Definition code_stuff (l : list byte) : list byte := gstuff 0 (tcount 0 l - fcount 0 l) l.

Lemma code_stuff_length : forall l, length (code_stuff l) = length l + fcount 0 l.
Proof.
  intro l. unfold code_stuff. pose proof (fcount_le0 l). rewrite gstuff_length by lia. lia.
Qed.

(** The two matchers after a run of [r] FF bytes. *)
Lemma fnext_run_ff : forall r, fnext (r mod 3) xff = S r mod 3.
Proof.
  intro r. pose proof (Nat.mod_upper_bound r 3 ltac:(lia)).
  destruct (r mod 3) as [|[|[|k]]] eqn:E; cbn [fnext]; change (beq xff xff) with true; cbv iota; lia.
Qed.
Lemma tnext_run_ff : forall r, tnext (Nat.min 2 r) xff = Nat.min 2 (S r).
Proof. intro r. unfold tnext. change (beq xff xff) with true. cbv iota. lia. Qed.
Lemma fnext_other : forall s b, beq b xff = false -> fnext s b = 0.
Proof. intros [|[|s]] b H; unfold fnext; rewrite ?H; reflexivity. Qed.
Lemma tnext_other : forall s b, beq b xff = false -> tnext s b = 0.
Proof. intros s b H. unfold tnext. rewrite H. reflexivity. Qed.

Lemma counts_equal_iff : forall l r,
  fcount (r mod 3) l = tcount (Nat.min 2 r) l <-> ff_runs_ok_from r l.
Proof.
  induction l as [|b l IH]; intro r; cbn [fcount tcount ff_runs_ok_from]; [tauto|].
  destruct (beq b xff) eqn:F.
  - apply beq_true in F. subst b. rewrite fnext_run_ff, tnext_run_ff. unfold fhit, thit.
    change (beq xff xfd) with false. rewrite !andb_false_r. apply IH.
  - rewrite fnext_other, tnext_other by exact F.
    specialize (IH 0). change (0 mod 3) with 0 in IH. change (Nat.min 2 0) with 0 in IH.
    unfold fhit, thit. pose proof (fcount_le0 l) as L.
    destruct (beq b xfd) eqn:D; rewrite ?andb_true_r, ?andb_false_r; [|exact IH].
    rewrite <- IH. destruct (r mod 3 =? 2) eqn:E1, (Nat.min 2 r =? 2) eqn:E2; lia.
Qed.

Lemma runs_ok_counts : forall l, ff_runs_ok l <-> fcount 0 l = tcount 0 l.
Proof. intro l. symmetry. apply (counts_equal_iff l 0). Qed.

Lemma code_stuff_correct_iff : forall l, code_stuff l = pstuff l <-> ff_runs_ok l.
Proof.
  intro l. rewrite runs_ok_counts. split; intro H.
  - apply (f_equal (@length byte)) in H. rewrite code_stuff_length, pstuff_length in H. lia.
  - unfold code_stuff. rewrite pstuff_gstuff, H, Nat.sub_diag. reflexivity.
Qed.

(** ** [stuff_inplace] *)

Lemma list_snoc_cases : forall (l : list byte), l = [] \/ exists q b, l = q ++ [b].
Proof. intro l. destruct l using rev_ind; [left; reflexivity|right; eauto]. Qed.

Lemma bytes_eqb_false : forall a b, a <> b -> bytes_eqb a b = false.
Proof.
  intros a b H. destruct (bytes_eqb a b) eqn:E; [|reflexivity].
  apply bytes_eqb_true in E. contradiction.
Qed.

(** The last three bytes of [p] inside a larger buffer. *)
Lemma last3 : forall (p rest : list byte), 3 <= length p ->
  exists q a b c, p = q ++ [a; b; c] /\
    slice (p ++ rest) (length p - 3) (length p) = Val [a; b; c].
Proof.
  intros p rest H.
  exists (firstn (length p - 3) p).
  pose proof (firstn_skipn (length p - 3) p) as E.
  assert (L : length (skipn (length p - 3) p) = 3) by (rewrite skipn_length; lia).
  destruct (skipn (length p - 3) p) as [|a [|b [|c [|]]]] eqn:S; try discriminate.
  exists a, b, c. split; [symmetry; exact E|].
  rewrite <- E at 1. rewrite <- app_assoc.
  assert (L2 : length p - 3 = length (firstn (length p - 3) p)) by (rewrite firstn_length; lia).
  rewrite L2 at 2. rewrite slice_val.
  - rewrite skipn_app_ge by lia. rewrite Nat.sub_diag. cbn [skipn].
    rewrite firstn_app_ge by (simpl; lia).
    replace (length p - length (firstn (length p - 3) p)) with 3 by lia.
    reflexivity.
  - lia.
  - rewrite !app_length. cbn [length]. lia.
Qed.

Lemma set_app : forall a x b v p, p = length a -> set (a ++ x :: b) p v = Val (a ++ v :: b).
Proof.
  intros a x b v p ->. rewrite set_val by (rewrite app_length; simpl; lia).
  rewrite firstn_app_le, firstn_all by lia. rewrite skipn_app_ge by lia.
  replace (S (length a) - length a) with 1 by lia. reflexivity.
Qed.

Lemma idx_app : forall a x b p, p = length a -> idx (a ++ x :: b) p = Val x.
Proof.
  intros a x b p ->. apply idx_val. rewrite nth_error_app2, Nat.sub_diag by lia. reflexivity.
Qed.

Lemma stuff_loop_spec : forall fuel p gap s tail len required read applied,
  length p <= fuel -> read + length p = len ->
  applied + length gap = required -> length gap <= tcount 0 p ->
  stuff_loop fuel (p ++ gap ++ s ++ tail) len required read applied =
  Val (gstuff 0 (tcount 0 p - length gap) p ++ s ++ tail, required).
Proof.
  induction fuel as [|fuel IH]; intros p gap s tail len required read applied Hf Hr Ha Hc.
  - destruct p; [|simpl in Hf; lia]. simpl in Hc. destruct gap; [|simpl in Hc; lia].
    simpl in *. f_equal. f_equal. lia.
  - cbn [stuff_loop].
    destruct (length gap) as [|k] eqn:Hk.
    + (* nothing left to insert *)
      replace (applied <? required) with false by lia. rewrite andb_false_r.
      destruct gap; [|discriminate]. rewrite gstuff_none by lia.
      cbn [app]. f_equal. f_equal. lia.
    + replace (applied <? required) with true by lia.
      destruct (list_snoc_cases p) as [->|[q [b ->]]]; [simpl in Hc; lia|].
      rewrite app_length in Hr, Hf. cbn [length] in Hr, Hf.
      replace (read <? len) with true by lia. cbn [andb]. cbv zeta.
      replace (len - read - 1) with (length q) by lia.
      replace (required - applied) with (S k) by lia.
      (* is there a pattern at the end? *)
      assert (Hhit : (if 2 <=? length q
                      then let* s0 := slice ((q ++ [b]) ++ gap ++ s ++ tail) (length q - 2) (length q - 2 + 3) in
                           Val (bytes_eqb s0 (firstn 3 PATTERN))
                      else Val false) = Val (thit (trun 0 q) b)).
      { destruct (2 <=? length q) eqn:L2.
        - destruct (last3 (q ++ [b]) (gap ++ s ++ tail)) as [r [x [y [z [E3 S3]]]]].
          { rewrite app_length. simpl. lia. }
          rewrite app_length in S3. cbn [length] in S3.
          replace (length q - 2) with (length q + 1 - 3) by lia.
          replace (length q + 1 - 3 + 3) with (length q + 1) by lia.
          rewrite S3. cbn [obind]. f_equal. cbn [firstn PATTERN].
          change (r ++ [x; y; z]) with (r ++ [x; y] ++ [z]) in E3. rewrite app_assoc in E3.
          apply app_inj_tail in E3. destruct E3 as [Eq Eb]. subst q b.
          destruct (thit (trun 0 (r ++ [x; y])) z) eqn:TH.
          + apply thit_pattern in TH. destruct TH as [q' E]. rewrite <- app_assoc in E.
            change ([x; y] ++ [z]) with [x; y; z] in E.
            apply (f_equal (@rev byte)) in E. rewrite !rev_app_distr in E. simpl in E.
            injection E as E1 E2 E3 _. subst. reflexivity.
          + apply bytes_eqb_false. intro E. injection E as -> -> ->.
            rewrite trun_app in TH. unfold thit in TH. simpl in TH.
            pose proof (trun_le r 0 ltac:(lia)).
            destruct (trun 0 r) as [|[|[|]]]; simpl in TH; try discriminate.
        - destruct (thit (trun 0 q) b) eqn:TH; [|reflexivity].
          apply thit_pattern in TH. destruct TH as [q' E]. apply (f_equal (@length byte)) in E.
          rewrite !app_length in E. simpl in E. lia. }
      rewrite Hhit. clear Hhit. cbn [obind].
      destruct (thit (trun 0 q) b) eqn:TH.
      * (* stuff this pattern *)
        pose proof (thit_pattern q b TH) as [q' E]. rewrite E in *.
        assert (Lq : length q = length q' + 2).
        { apply (f_equal (@length byte)) in E. rewrite !app_length in E. simpl in E. lia. }
        unfold usize_sub. replace (3 <=? length q + S k) with true by lia. cbn [obind].
        set (old := [xff; xff; xfd] ++ gap).
        assert (Lold : length old = 4 + k) by (unfold old; rewrite app_length; simpl; lia).
        replace ((q' ++ [xff; xff; xfd]) ++ gap ++ s ++ tail)
          with ((q' ++ firstn k old) ++ skipn k old ++ s ++ tail).
        2:{ rewrite <- !app_assoc. f_equal. rewrite (app_assoc (firstn k old)), firstn_skipn.
            unfold old. rewrite <- app_assoc. reflexivity. }
        assert (Lf : length (firstn k old) = k) by (rewrite firstn_length; lia).
        rewrite copy_into_val.
        2:{ rewrite app_length, Lf. lia. }
        2:{ rewrite app_length, Lf, skipn_length. lia. }
        2:{ rewrite skipn_length, Lold. change (length PATTERN) with 4. lia. }
        cbn [obind]. rewrite <- app_assoc, (app_assoc PATTERN).
        rewrite tcount_app in Hc |- *.
        rewrite tcount_pattern in Hc |- * by (apply trun_le; lia).
        rewrite IH; [|lia|lia|lia|lia].
        rewrite Lf. f_equal. f_equal. rewrite gstuff_app.
        replace (tcount 0 q' + 1 - S k) with (tcount 0 q' - k) by lia.
        replace (tcount 0 q' - k - tcount 0 q') with 0 by lia.
        rewrite gstuff_pattern by (apply trun_le; lia).
        rewrite <- !app_assoc. reflexivity.
      * (* move this byte *)
        rewrite <- app_assoc. change ([b] ++ gap ++ s ++ tail) with (b :: gap ++ s ++ tail).
        rewrite idx_app by reflexivity. cbn [obind].
        set (old := [b] ++ gap).
        assert (Lold : length old = S (S k)) by (unfold old; simpl; lia).
        replace (q ++ b :: gap ++ s ++ tail)
          with ((q ++ firstn (S k) old) ++ skipn (S k) old ++ s ++ tail).
        2:{ rewrite <- !app_assoc. f_equal. rewrite (app_assoc (firstn (S k) old)), firstn_skipn.
            unfold old. rewrite <- app_assoc. reflexivity. }
        assert (Lf : length (firstn (S k) old) = S k) by (rewrite firstn_length; lia).
        assert (Ls : length (skipn (S k) old) = 1) by (rewrite skipn_length; lia).
        destruct (skipn (S k) old) as [|x [|]]; try discriminate. cbn [app].
        rewrite set_app by (rewrite app_length, Lf; reflexivity). cbn [obind].
        rewrite <- app_assoc. change (b :: s ++ tail) with ((b :: s) ++ tail).
        rewrite tcount_app in Hc |- *. simpl tcount in Hc |- *. rewrite TH in Hc |- *.
        rewrite IH; [|lia|lia|lia|lia].
        rewrite Lf. f_equal. f_equal. rewrite gstuff_app. simpl gstuff at 3. rewrite TH.
        replace (tcount 0 q + (0 + 0)) with (tcount 0 q) by lia.
        rewrite <- !app_assoc. reflexivity.
Qed.

(** [stuff_inplace] on a buffer holding [l] followed by [rest]. *)
Lemma stuff_inplace_spec : forall dbg l rest,
  stuff_inplace dbg (l ++ rest) (length l) =
  Val (if fcount 0 l <=? length rest
       then (code_stuff l ++ skipn (fcount 0 l) rest, Ok (length l + fcount 0 l))
       else (l ++ rest, Err (mkBTS (length l + fcount 0 l) (length l + length rest)))).
Proof.
  intros dbg l rest. unfold stuff_inplace.
  rewrite slice_to_val by (rewrite app_length; lia).
  rewrite firstn_app_le, firstn_all by lia. cbn [obind].
  rewrite stuffing_required_val. cbn [obind].
  destruct (fcount 0 l =? 0) eqn:Z.
  - replace (fcount 0 l) with 0 by lia. cbn [Nat.leb skipn]. rewrite Nat.add_0_r.
    unfold code_stuff. rewrite gstuff_none by lia. reflexivity.
  - unfold bts_check. rewrite app_length.
    destruct (fcount 0 l <=? length rest) eqn:L.
    + replace (length l + fcount 0 l <=? length l + length rest) with true by lia.
      replace (l ++ rest) with (l ++ firstn (fcount 0 l) rest ++ [] ++ skipn (fcount 0 l) rest)
        by (cbn [app]; rewrite firstn_skipn; reflexivity).
      assert (Lg : length (firstn (fcount 0 l) rest) = fcount 0 l) by (rewrite firstn_length; lia).
      pose proof (fcount_le0 l).
      rewrite stuff_loop_spec by lia. cbn [obind]. rewrite Nat.eqb_refl, andb_false_r, Lg.
      reflexivity.
    + replace (length l + fcount 0 l <=? length l + length rest) with false by lia. reflexivity.
Qed.

(** ** [unstuff_inplace] *)

Definition unext (s : nat) (b : byte) : nat :=
  match s with
  | 0 => if beq b xff then 1 else 0
  | 1 => if beq b xff then 2 else 0
  | 2 => if beq b xfd then 3 else 0
  | _ => 0
  end.
Definition udel (s : nat) (b : byte) : bool := (s =? 3) && beq b xfd.
Fixpoint unst (s : nat) (l : list byte) : list byte :=
  match l with
  | [] => []
  | b :: t => if udel s b then unst 0 t else b :: unst (unext s b) t
  end.

Lemma unst_length : forall l s, length (unst s l) <= length l.
Proof.
  induction l as [|b l IH]; intro s; simpl; [lia|].
  destruct (udel s b); simpl; [specialize (IH 0)|specialize (IH (unext s b))]; lia.
Qed.

Lemma unext_le : forall s b, unext s b <= 3.
Proof. intros [|[|[|s]]] b; unfold unext; destruct (beq b xff), (beq b xfd); lia. Qed.

Lemma app_cons_snoc : forall A (a : list A) x b, a ++ x :: b = (a ++ [x]) ++ b.
Proof. intros. rewrite <- app_assoc. reflexivity. Qed.

Lemma unstuff_loop_spec : forall rest d junk st, st <= 3 ->
  exists junk',
    unstuff_loop (length rest) (length d + length junk) (d ++ junk ++ rest) (length junk) st =
    Val (d ++ unst st rest ++ junk', length junk') /\
    length junk' = length junk + (length rest - length (unst st rest)).
Proof.
  induction rest as [|b rest IH]; intros d junk st Hst.
  - exists junk. split; [|simpl; lia]. simpl. rewrite app_nil_r. reflexivity.
  - cbn [length unstuff_loop].
    assert (Hidx : idx (d ++ junk ++ b :: rest) (length d + length junk) = Val b).
    { rewrite app_assoc. apply idx_app. rewrite app_length. reflexivity. }
    rewrite Hidx. cbn [obind].
    assert (Hp : exists p, idx PATTERN st = Val p /\
                 (if beq b p then S st else 0) = (if udel st b then 4 else unext st b)).
    { destruct st as [|[|[|[|st]]]]; [exists xff|exists xff|exists xfd|exists xfd|lia];
        (split; [reflexivity|]); unfold udel, unext; cbn [Nat.eqb andb];
        [destruct (beq b xff)|destruct (beq b xff)|destruct (beq b xfd)|destruct (beq b xfd)]; reflexivity. }
    destruct Hp as [p [-> Hp]]. cbn [obind]. rewrite Hp. cbn [unst].
    destruct (udel st b) eqn:D.
    + cbn [Nat.eqb].
      destruct (IH d (junk ++ [b]) 0 ltac:(lia)) as [junk' [E L]].
      rewrite app_length in E, L. cbn [length] in E, L.
      exists junk'. split.
      * rewrite <- (app_assoc junk) in E. cbn [app] in E.
        replace (S (length d + length junk)) with (length d + (length junk + 1)) by lia.
        replace (S (length junk)) with (length junk + 1) by lia. exact E.
      * pose proof (unst_length rest 0). lia.
    + pose proof (unext_le st b) as U.
      replace (unext st b =? 4) with false by lia.
      destruct junk as [|j0 junk0].
      * cbn [length Nat.ltb Nat.leb app] in *.
        destruct (IH (d ++ [b]) [] (unext st b) ltac:(lia)) as [junk' [E L]].
        rewrite app_length in E. cbn [length app] in E, L. rewrite <- !app_assoc in E. cbn [app] in E.
        exists junk'. split.
        -- rewrite Nat.add_0_r in *. replace (S (length d)) with (length d + 1) by lia. exact E.
        -- pose proof (unst_length rest (unext st b)). cbn [length]. lia.
      * set (junk := j0 :: junk0) in *.
        replace (0 <? length junk) with true by reflexivity.
        unfold usize_sub. replace (length junk <=? length d + length junk) with true by lia.
        cbn [obind]. replace (length d + length junk - length junk) with (length d) by lia.
        unfold junk at 1. cbn [app]. rewrite set_app by reflexivity. cbn [obind].
        destruct (IH (d ++ [b]) (junk0 ++ [b]) (unext st b) ltac:(lia)) as [junk' [E L]].
        rewrite !app_length in E, L. cbn [length app] in E, L. rewrite <- !app_assoc in E. cbn [app] in E.
        exists junk'. split.
        -- replace (length (junk0 ++ [b])) with (length junk) in E
             by (unfold junk; rewrite app_length; cbn [length]; lia).
           replace (length d + 1 + length junk) with (S (length d + length junk)) in E by lia.
           exact E.
        -- pose proof (unst_length rest (unext st b)). unfold junk. cbn [length]. lia.
Qed.

Lemma unstuff_inplace_spec : forall l, exists junk,
  unstuff_inplace l = Val (unst 0 l ++ junk, length (unst 0 l)) /\
  length (unst 0 l ++ junk) = length l.
Proof.
  intro l. destruct (unstuff_loop_spec l [] [] 0 ltac:(lia)) as [junk [E L]].
  cbn [length app Nat.add] in E, L. exists junk. unfold unstuff_inplace. rewrite E. cbn [obind].
  pose proof (unst_length l 0). rewrite app_length. unfold usize_sub.
  replace (length junk <=? length (unst 0 l) + length junk) with true by lia. cbn [obind].
  split; [|lia]. f_equal. f_equal. lia.
Qed.

(** ** Stuffing followed by unstuffing *)

(** The state of [unst] before a byte is that of the code's matcher as long as
    every recognised pattern was stuffed. *)
Lemma unext_fnext : forall f b, f <= 2 -> fhit f b = false -> unext f b = fnext f b /\ udel f b = false.
Proof.
  intros [|[|[|f]]] b H1 H2; try lia; cbn [unext fnext udel Nat.eqb andb]; auto.
  unfold fhit in H2. cbn [Nat.eqb andb] in H2. rewrite H2. auto.
Qed.

Lemma fnext_le : forall f b, fnext f b <= 2.
Proof. intros [|[|f]] b; unfold fnext; destruct (beq b xff); lia. Qed.

(** Unstuffing what a conforming peer sent. *)
Lemma unst_gstuff_length : forall l f t, f <= t -> t <= 2 ->
  length (unst f (gstuff t 0 l)) = length l + (tcount t l - fcount f l).
Proof.
  induction l as [|b l IH]; intros f t H1 H2; cbn [gstuff tcount fcount]; [reflexivity|].
  assert (N1 : fnext f b <= tnext t b).
  { unfold fnext, tnext. destruct f as [|[|f]]; destruct (beq b xff); lia. }
  pose proof (fcount_le l (fnext f b) (tnext t b) N1 (tnext_le t b)) as LE.
  specialize (IH (fnext f b) (tnext t b) N1 (tnext_le t b)).
  destruct (fhit f b) eqn:FH.
  - (* recognised *)
    unfold fhit in FH. apply andb_true_iff in FH. destruct FH as [F D].
    apply Nat.eqb_eq in F. apply beq_true in D. subst f b.
    assert (t = 2) by lia. subst t. change (thit 2 xfd) with true. cbv iota.
    cbn [unst]. change (udel 2 xfd) with false. cbv iota. change (unext 2 xfd) with 3.
    change (udel 3 xfd) with true. cbv iota.
    change (fnext 2 xfd) with 0 in *. change (tnext 2 xfd) with 0 in *.
    cbn [length]. rewrite IH. lia.
  - destruct (unext_fnext f b ltac:(lia) FH) as [U1 U2].
    destruct (thit t b) eqn:TH.
    + unfold thit in TH. apply andb_true_iff in TH. destruct TH as [F D].
      apply Nat.eqb_eq in F. apply beq_true in D. subst t b.
      cbn [unst]. rewrite U2. rewrite U1. cbn [length].
      assert (F0 : fnext f xfd = 0) by (apply fnext_other; reflexivity).
      rewrite F0 in *. change (udel 0 xfd) with false. cbv iota. change (unext 0 xfd) with 0.
      cbn [length]. rewrite IH. lia.
    + cbn [unst]. rewrite U2, U1. cbn [length]. rewrite IH. lia.
Qed.

Lemma runs_ok_misses_first : forall l r, ff_runs_ok_from r l -> misses_first_from r l.
Proof.
  induction l as [|b l IH]; intros r H; cbn [ff_runs_ok_from misses_first_from] in *; [exact I|].
  destruct (beq b xff); [apply IH, H|].
  destruct (beq b xfd); cbn [andb].
  - destruct H as [_ H]. destruct (r mod 3 =? 2); [exact H|apply IH, H].
  - apply IH, H.
Qed.

Lemma unst_gstuff_id : forall l r, misses_first_from r l ->
  unst (r mod 3) (gstuff (Nat.min 2 r) (tcount (Nat.min 2 r) l - fcount (r mod 3) l) l) = l.
Proof.
  induction l as [|b l IH]; intros r H; cbn [misses_first_from gstuff tcount fcount] in *; [reflexivity|].
  destruct (beq b xff) eqn:F.
  - apply beq_true in F. subst b. specialize (IH (S r) H).
    assert (T0 : thit (Nat.min 2 r) xff = false) by apply andb_false_r.
    assert (F0 : fhit (r mod 3) xff = false) by apply andb_false_r.
    rewrite T0, F0. cbn [Nat.add]. rewrite fnext_run_ff, tnext_run_ff. cbn [unst].
    destruct (unext_fnext (r mod 3) xff ltac:(lia) F0) as [U1 U2].
    rewrite U2, U1, fnext_run_ff, IH. reflexivity.
  - pose proof (fcount_le0 l) as LE. specialize (IH 0).
    rewrite fnext_other, tnext_other by exact F.
    change (0 mod 3) with 0 in IH. change (Nat.min 2 0) with 0 in IH.
    destruct (beq b xfd) eqn:D.
    + apply beq_true in D. subst b. cbn [andb] in H. unfold thit, fhit.
      change (beq xfd xfd) with true. rewrite !andb_true_r.
      destruct (r mod 3 =? 2) eqn:R.
      * replace (Nat.min 2 r =? 2) with true by lia.
        pose proof (proj1 (runs_ok_counts l) H) as C.
        specialize (IH (runs_ok_misses_first l 0 H)).
        replace (1 + tcount 0 l - (1 + fcount 0 l)) with 0 by lia.
        replace (tcount 0 l - fcount 0 l) with 0 in IH by lia.
        cbn [unst]. replace (r mod 3) with 2 by lia.
        change (udel 2 xfd) with false. cbv iota. change (unext 2 xfd) with 3.
        change (udel 3 xfd) with true. cbv iota. rewrite IH. reflexivity.
      * specialize (IH H).
        destruct (unext_fnext (r mod 3) xfd ltac:(lia)) as [U1 U2].
        { unfold fhit. rewrite R. reflexivity. }
        rewrite fnext_other in U1 by reflexivity.
        destruct (Nat.min 2 r =? 2) eqn:T2.
        -- cbn [Nat.add]. replace (S (tcount 0 l) - fcount 0 l) with (S (tcount 0 l - fcount 0 l)) by lia.
           cbn [unst]. rewrite U2, U1, IH. reflexivity.
        -- cbn [Nat.add unst]. rewrite U2, U1, IH. reflexivity.
    + cbn [andb] in H. specialize (IH H). unfold thit, fhit. rewrite D, !andb_false_r.
      cbn [Nat.add unst].
      destruct (unext_fnext (r mod 3) b ltac:(lia)) as [U1 U2].
      { unfold fhit. rewrite D. apply andb_false_r. }
      rewrite U2, U1, fnext_other, IH by exact F. reflexivity.
Qed.

Lemma patterns_tcount : forall l r, patterns_from r l = tcount (Nat.min 2 r) l.
Proof.
  induction l as [|b l IH]; intro r; cbn [patterns_from tcount]; [reflexivity|].
  destruct (beq b xff) eqn:F.
  - apply beq_true in F. subst b. unfold thit. change (beq xff xfd) with false.
    rewrite andb_false_r, tnext_run_ff. apply IH.
  - rewrite tnext_other by exact F. rewrite IH. unfold thit.
    replace (Nat.min 2 r =? 2) with (2 <=? r) by lia. rewrite andb_comm. reflexivity.
Qed.

Lemma noticed_fcount : forall l r, noticed_from r l = fcount (r mod 3) l.
Proof.
  induction l as [|b l IH]; intro r; cbn [noticed_from fcount]; [reflexivity|].
  destruct (beq b xff) eqn:F.
  - apply beq_true in F. subst b. unfold fhit. change (beq xff xfd) with false.
    rewrite andb_false_r, fnext_run_ff. apply IH.
  - rewrite fnext_other by exact F. rewrite IH. unfold fhit. rewrite andb_comm. reflexivity.
Qed.

Lemma unst_gstuff_grows : forall l j, unst 0 (gstuff 0 j l) <> xfd :: l.
Proof.
  induction l as [|c l IH]; intros j H; [discriminate|].
  cbn [gstuff] in H. change (thit 0 c) with false in H. cbv iota in H.
  cbn [unst] in H. change (udel 0 c) with false in H. cbv iota in H.
  injection H as -> H. change (tnext 0 xfd) with 0 in H. change (unext 0 xfd) with 0 in H.
  exact (IH j H).
Qed.

Lemma cons_iff : forall A (x : A) a b, x :: a = x :: b <-> a = b.
Proof. intros A x a b. split; [intro H; injection H; auto|intros ->; reflexivity]. Qed.

Lemma unst_gstuff_iff : forall n l j r e, length l <= n -> e <= r ->
  (unst (e mod 3) (gstuff (Nat.min 2 r) j l) = l <-> comes_back_from j r e l).
Proof.
  induction n as [|n IH]; intros l j r e Hn He.
  - destruct l; [|cbn [length] in Hn; lia]. split; [exact (fun _ => I)|reflexivity].
  - destruct l as [|b l]; [split; [exact (fun _ => I)|reflexivity]|].
    cbn [length] in Hn. cbn [gstuff comes_back_from].
    destruct (beq b xff) eqn:F.
    { apply beq_true in F. subst b. unfold thit. change (beq xff xfd) with false. rewrite andb_false_r.
      cbn [unst]. assert (F0 : fhit (e mod 3) xff = false) by apply andb_false_r.
      destruct (unext_fnext (e mod 3) xff ltac:(lia) F0) as [U1 U2].
      rewrite U2, U1, fnext_run_ff, tnext_run_ff, cons_iff. apply IH; lia. }
    rewrite tnext_other by exact F. unfold thit.
    replace (Nat.min 2 r =? 2) with (2 <=? r) by lia. rewrite (andb_comm (2 <=? r)).
    destruct (beq b xfd && (2 <=? r)) eqn:T.
    + apply andb_true_iff in T. destruct T as [D R]. apply beq_true in D. subst b.
      destruct (Nat.eq_dec (e mod 3) 2) as [E2|E2].
      * rewrite E2. change (2 =? 2) with true. cbv iota. destruct j as [|j].
        -- cbn [unst]. change (udel 2 xfd) with false. cbv iota. change (unext 2 xfd) with 3.
           change (udel 3 xfd) with true. cbv iota. rewrite cons_iff.
           rewrite <- (IH l 0 0 0 ltac:(lia) ltac:(lia)). intuition.
        -- cbn [unst]. change (udel 2 xfd) with false. cbv iota. change (unext 2 xfd) with 3.
           rewrite cons_iff. destruct l as [|c l]; [split; [exact (fun _ => I)|reflexivity]|].
           cbn [length] in Hn. cbn [gstuff]. change (thit 0 c) with false. cbv iota. cbn [unst].
           destruct (beq c xfd) eqn:C.
           ++ apply beq_true in C. subst c. change (udel 3 xfd) with true. cbv iota.
              change (tnext 0 xfd) with 0. split; [|intros [K _]; congruence].
              intro H. destruct (unst_gstuff_grows _ _ H).
           ++ assert (c <> xfd) by (intros ->; discriminate).
              assert (udel 3 c = false) as -> by exact C.
              assert (unext 3 c = 0) as -> by (unfold unext; rewrite ?C; reflexivity).
              rewrite cons_iff.
              rewrite <- (IH l j (if beq c xff then 1 else 0) 0 ltac:(lia) ltac:(lia)).
              change (0 mod 3) with 0. unfold tnext.
              replace (if beq c xff then Nat.min 2 1 else 0) with (Nat.min 2 (if beq c xff then 1 else 0))
                by (destruct (beq c xff); reflexivity).
              intuition.
      * assert (F0 : fhit (e mod 3) xfd = false) by (unfold fhit; lia).
        destruct (unext_fnext (e mod 3) xfd ltac:(lia) F0) as [U1 U2].
        rewrite fnext_other in U1 by reflexivity.
        replace (e mod 3 =? 2) with false by lia. destruct j as [|j].
        -- cbn [unst]. rewrite U2, U1. change (udel 0 xfd) with false. cbv iota.
           change (unext 0 xfd) with 0. rewrite cons_iff.
           split; [|intros [K _]; contradiction]. intro H.
           apply (f_equal (@length byte)) in H. cbn [length] in H.
           rewrite unst_gstuff_length in H by lia. lia.
        -- cbn [unst]. rewrite U2, U1, cons_iff. apply (IH l j 0 0); lia.
    + cbn [unst]. assert (F0 : fhit (e mod 3) b = false).
      { unfold fhit. destruct (beq b xfd); [|apply andb_false_r]. cbn [andb] in T. lia. }
      destruct (unext_fnext (e mod 3) b ltac:(lia) F0) as [U1 U2].
      rewrite U2, U1, fnext_other, cons_iff by exact F. apply (IH l j 0 0); lia.
Qed.

Lemma unst_code_stuff_iff : forall l, unst 0 (code_stuff l) = l <-> comes_back l.
Proof.
  intro l. unfold comes_back, code_stuff. rewrite (patterns_tcount l 0), (noticed_fcount l 0).
  apply (unst_gstuff_iff (length l) l _ 0 0); lia.
Qed.

Lemma unst_code_stuff : forall l, comes_back l -> unst 0 (code_stuff l) = l.
Proof. intros l H. apply unst_code_stuff_iff, H. Qed.

Lemma misses_first_comes_back : forall l, misses_first l -> comes_back l.
Proof. intros l H. apply unst_code_stuff_iff. exact (unst_gstuff_id l 0 H). Qed.

Lemma unst_code_stuff_ok : forall l, ff_runs_ok l -> unst 0 (code_stuff l) = l.
Proof. intros l H. apply unst_code_stuff, misses_first_comes_back, runs_ok_misses_first, H. Qed.

Lemma unst_pstuff_iff : forall l, unst 0 (pstuff l) = l <-> ff_runs_ok l.
Proof.
  intro l. split; intro H.
  - apply runs_ok_counts. apply (f_equal (@length byte)) in H.
    rewrite pstuff_gstuff, unst_gstuff_length in H by lia. pose proof (fcount_le0 l). lia.
  - rewrite <- (proj2 (code_stuff_correct_iff l) H). apply unst_code_stuff_ok, H.
Qed.

(** ** The header prefix does not occur in a stuffed body *)

Definition hnext (s : nat) (b : byte) : nat :=
  if beq b xff then (match s with 0 => 1 | 3 => 1 | _ => 2 end)
  else if (s =? 2) && beq b xfd then 3 else 0.

Fixpoint nohdr (s : nat) (l : list byte) : Prop :=
  match l with
  | [] => True
  | b :: t => (s = 3 -> b <> x00) /\ nohdr (hnext s b) t
  end.

Lemma nohdr_contains : forall a b s, s <= 3 -> ~ nohdr s (a ++ [xff; xff; xfd; x00] ++ b).
Proof.
  induction a as [|x a IH]; intros b s Hs H.
  - destruct s as [|[|[|[|]]]]; try lia; cbn [app nohdr] in H;
      destruct H as [_ [_ [_ [H _]]]]; apply H; reflexivity.
  - cbn [app nohdr] in H. destruct H as [_ H]. revert H. apply IH.
    unfold hnext. destruct (beq x xff); [destruct s as [|[|[|[|]]]]; lia|].
    destruct ((s =? 2) && beq x xfd); lia.
Qed.

Lemma nohdr_gstuff : forall l s, s <= 2 -> nohdr s (gstuff s 0 l).
Proof.
  induction l as [|b l IH]; intros s Hs; cbn [gstuff]; [exact I|].
  destruct (thit s b) eqn:H.
  - unfold thit in H. apply andb_true_iff in H. destruct H as [H1 H2].
    apply Nat.eqb_eq in H1. apply beq_true in H2. subst s b.
    cbn [nohdr]. split; [lia|]. change (hnext 2 xfd) with 3. split; [discriminate|].
    change (hnext 3 xfd) with 0. change (tnext 2 xfd) with 0. apply IH. lia.
  - cbn [nohdr]. split; [lia|].
    replace (hnext s b) with (tnext s b); [apply IH, tnext_le|].
    unfold thit in H. unfold tnext, hnext. destruct (beq b xff).
    + destruct s as [|[|[|]]]; lia.
    + rewrite H. reflexivity.
Qed.

Lemma pstuff_no_header : forall l, ~ contains (pstuff l) [xff; xff; xfd; x00].
Proof.
  intros l [a [b E]]. apply (nohdr_contains a b 0); [lia|]. rewrite <- E, pstuff_gstuff.
  apply nohdr_gstuff. lia.
Qed.

(** The header occurs in what the code sends exactly where it was in the data,
    behind a pattern that goes out bare. *)
Lemma hnext_tnext : forall s b, s <= 2 -> thit s b = false -> hnext s b = tnext s b.
Proof.
  intros s b Hs H. unfold thit in H. unfold tnext, hnext. destruct (beq b xff).
  - destruct s as [|[|[|]]]; lia.
  - rewrite H. reflexivity.
Qed.

Lemma nohdr_bare : forall l s j, s <= 2 ->
  (forall a c, l = a ++ xfd :: x00 :: c -> trun s a = 2 -> j <= tcount s a) ->
  nohdr s (gstuff s j l).
Proof.
  induction l as [|b l IH]; intros s j Hs H; cbn [gstuff]; [exact I|].
  assert (H' : forall a c, l = a ++ xfd :: x00 :: c -> trun (tnext s b) a = 2 ->
               j <= (if thit s b then 1 else 0) + tcount (tnext s b) a).
  { intros a c E T. apply (H (b :: a) c); [rewrite E; reflexivity|exact T]. }
  destruct (thit s b) eqn:T.
  - unfold thit in T. apply andb_true_iff in T. destruct T as [T1 T2].
    apply Nat.eqb_eq in T1. apply beq_true in T2. subst s b. change (tnext 2 xfd) with 0 in *.
    destruct j as [|j].
    + cbn [nohdr]. split; [lia|]. change (hnext 2 xfd) with 3. split; [discriminate|].
      change (hnext 3 xfd) with 0. apply nohdr_gstuff. lia.
    + cbn [nohdr]. split; [lia|]. change (hnext 2 xfd) with 3.
      assert (K : nohdr 0 (gstuff 0 j l)).
      { apply IH; [lia|]. intros a c E T. specialize (H' a c E T). lia. }
      destruct l as [|c l]; [exact I|]. cbn [gstuff] in *. change (thit 0 c) with false in *. cbv iota in *.
      cbn [nohdr] in *. destruct K as [_ K]. split.
      * intros _ ->. specialize (H [] l eq_refl eq_refl). cbn [tcount] in H. lia.
      * exact K.
  - cbn [nohdr]. split; [lia|]. rewrite hnext_tnext by assumption. apply IH; [apply tnext_le|exact H'].
Qed.

Lemma code_stuff_header_iff : forall l, contains (code_stuff l) [xff; xff; xfd; x00] <->
  exists a c, l = a ++ [xff; xff; xfd; x00] ++ c /\ patterns_from 0 a < patterns_from 0 l - noticed_from 0 l.
Proof.
  intro l. unfold code_stuff. rewrite (patterns_tcount l 0), (noticed_fcount l 0).
  change (Nat.min 2 0) with 0. change (0 mod 3) with 0.
  set (j := tcount 0 l - fcount 0 l). clearbody j. split.
  - intro C.
    assert (D : (exists a c, l = a ++ [xff; xff; xfd; x00] ++ c /\ patterns_from 0 a < j) \/
                forall a c, l = a ++ xfd :: x00 :: c -> trun 0 a = 2 -> j <= tcount 0 a).
    { clear C. assert (B : forall n, n <= length l ->
        (exists a c, l = a ++ [xff; xff; xfd; x00] ++ c /\ patterns_from 0 a < j) \/
        forall a c, length a < n -> l = a ++ xfd :: x00 :: c -> trun 0 a = 2 -> j <= tcount 0 a).
      { induction n as [|n IHn]; intro Hn; [right; intros; lia|].
        destruct (IHn ltac:(lia)) as [?|K]; [left; assumption|].
        destruct (bytes_eqb (firstn 2 (skipn n l)) [xfd; x00] && (trun 0 (firstn n l) =? 2) &&
                  (tcount 0 (firstn n l) <? j)) eqn:Q.
        - left. apply andb_true_iff in Q. destruct Q as [Q Q3]. apply andb_true_iff in Q. destruct Q as [Q1 Q2].
          apply Nat.eqb_eq in Q2. destruct (trun_2 _ Q2) as [q Eq].
          apply bytes_eqb_true in Q1.
          exists q, (skipn 2 (skipn n l)). split.
          + rewrite <- (firstn_skipn n l) at 1. rewrite Eq, <- app_assoc. f_equal.
            rewrite <- (firstn_skipn 2 (skipn n l)) at 1. rewrite Q1. reflexivity.
          + rewrite patterns_tcount. change (Nat.min 2 0) with 0.
            rewrite Eq, tcount_app in Q3. lia.
        - right. intros a c La El Ta. destruct (Nat.eq_dec (length a) n) as [En|En]; [|apply (K a c); [lia|assumption..]].
          subst n. assert (F1 : firstn (length a) l = a) by (rewrite El, firstn_app_le, firstn_all by lia; reflexivity).
          assert (F2 : firstn 2 (skipn (length a) l) = [xfd; x00]).
          { rewrite El, skipn_app_ge, Nat.sub_diag by lia. reflexivity. }
          rewrite F1, F2, Ta in Q. change (bytes_eqb [xfd; x00] [xfd; x00]) with true in Q.
          change (2 =? 2) with true in Q. cbn [andb] in Q. lia. }
      destruct (B (length l) (le_n _)) as [?|K]; [left; assumption|right].
      intros a c El. apply (K a c); [|exact El]. rewrite El, app_length. cbn [length]. lia. }
    destruct D as [D|D]; [exact D|]. exfalso.
    destruct C as [a [b E]]. apply (nohdr_contains a b 0); [lia|]. rewrite <- E.
    apply nohdr_bare; [lia|exact D].
  - intros [a [c [-> H]]]. rewrite patterns_tcount in H. change (Nat.min 2 0) with 0 in H.
    rewrite gstuff_app. remember (j - tcount 0 a) as k eqn:Ek. destruct k as [|k]; [lia|].
    pose proof (trun_le a 0 ltac:(lia)) as Hs. set (s := trun 0 a) in *. clearbody s.
    exists (gstuff 0 j a). eexists. f_equal.
    destruct s as [|[|[|]]]; [..|lia]; cbn [app gstuff]; reflexivity.
Qed.
