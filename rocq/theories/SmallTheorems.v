(** * SmallTheorems: static buffers and the command line *)
From Coq Require Import ZArith ZifyN ZifyNat ZifyBool.
From Verif Require Import Base Error Packet Time Bus Data Client Instructions Api CallSpec StreamSpec Cli
  StaticBuffer SmallSpec Lib.

(** ** C47 *)

Lemma sb_set_nth : forall l i v j, nth_error (sb_set l i v) j =
  if (i =? j) && (i <? length l) then Some v else nth_error l j.
Proof.
  induction l as [|h t IH]; intros [|i] v [|j]; cbn [sb_set nth_error length]; try reflexivity.
  - destruct (S i =? S j); reflexivity.
  - rewrite IH. change (S i =? S j) with (i =? j). change (S i <? S (length t)) with (i <? length t). reflexivity.
Qed.

Lemma sb_set_length : forall l i v, length (sb_set l i v) = length l.
Proof. induction l as [|h t IH]; intros [|i] v; cbn [sb_set length]; auto. Qed.

(** The evaluations whose swap returned [false]: there is one iff [USED] is set. *)
Definition winner (l : list sb_pc) (i : nat) : Prop :=
  nth_error l i = Some (SBSwapped false) \/ nth_error l i = Some SBGot.
Definition loser (l : list sb_pc) (i : nat) : Prop :=
  nth_error l i = Some (SBSwapped true) \/ nth_error l i = Some SBPanicked.

Definition sb_inv (s : sb_state) : Prop :=
  (sb_used s = false -> forall i, ~ winner (sb_evals s) i /\ ~ loser (sb_evals s) i) /\
  (sb_used s = true -> exists i, winner (sb_evals s) i) /\
  (forall i j, winner (sb_evals s) i -> winner (sb_evals s) j -> i = j).

Lemma nth_snoc : forall (l : list sb_pc) x j, nth_error (l ++ [x]) j =
  if j =? length l then Some x else nth_error l j.
Proof.
  intros l x j. destruct (j =? length l) eqn:E.
  - apply Nat.eqb_eq in E. subst j. rewrite nth_error_app2, Nat.sub_diag by lia. reflexivity.
  - apply Nat.eqb_neq in E. destruct (Nat.lt_ge_cases j (length l)) as [L|L].
    + apply nth_error_app1, L.
    + rewrite (proj2 (nth_error_None (l ++ [x]) j)) by (rewrite app_length; cbn; lia).
      symmetry. apply nth_error_None. exact L.
Qed.

Lemma set_at : forall l i v j, i < length l -> nth_error (sb_set l i v) j = if i =? j then Some v else nth_error l j.
Proof. intros l i v j L. rewrite sb_set_nth. replace (i <? length l) with true by lia. rewrite andb_true_r. reflexivity. Qed.

Ltac at_index l i v L j :=
  let E := fresh "E" in
  pose proof (set_at l i v j L) as E;
  destruct (i =? j) eqn:?;
  [match goal with H : (i =? j) = true |- _ => apply Nat.eqb_eq in H end
  |match goal with H : (i =? j) = false |- _ => apply Nat.eqb_neq in H end].

Lemma sb_inv_reach : forall s, sb_reach s -> sb_inv s.
Proof.
  intros s R. induction R as [|s s' R [I1 [I2 I3]] St].
  - split; [|split].
    + intros _ i. unfold winner, loser. destruct i; cbn; split; intros [K|K]; discriminate.
    + discriminate.
    + intros i j [K|K]; destruct i; discriminate.
  - destruct St as [u l|u l i H|u l i H|u l i H]; unfold sb_inv, winner, loser in *; cbn [sb_used sb_evals] in *.
    + split; [|split].
      * intros U i. rewrite nth_snoc. destruct (i =? length l); [|apply I1, U].
        split; intros [K|K]; discriminate.
      * intro U. destruct (I2 U) as [i Hi]. exists i. rewrite nth_snoc.
        destruct (i =? length l) eqn:E; [|exact Hi]. apply Nat.eqb_eq in E.
        assert (nth_error l i = None) by (apply nth_error_None; lia). destruct Hi; congruence.
      * intros i j Hi Hj. rewrite nth_snoc in Hi, Hj.
        destruct (i =? length l); [destruct Hi; discriminate|]. destruct (j =? length l); [destruct Hj; discriminate|]. auto.
    + assert (L : i < length l) by (apply nth_error_Some; congruence).
      split; [discriminate|]. split.
      * intros _. destruct u.
        -- destruct (I2 eq_refl) as [k Hk]. exists k. at_index l i (SBSwapped true) L k.
           ++ subst k. destruct Hk; congruence.
           ++ rewrite E. exact Hk.
        -- exists i. at_index l i (SBSwapped false) L i; [left; exact E|congruence].
      * intros j k Hj Hk. destruct u.
        -- at_index l i (SBSwapped true) L j.
           { rewrite E in Hj. destruct Hj; discriminate. }
           at_index l i (SBSwapped true) L k.
           { rewrite E0 in Hk. destruct Hk; discriminate. }
           rewrite E in Hj. rewrite E0 in Hk. auto.
        -- at_index l i (SBSwapped false) L j.
           ++ at_index l i (SBSwapped false) L k; [congruence|].
              rewrite E0 in Hk. destruct (proj1 (I1 eq_refl k) Hk).
           ++ rewrite E in Hj. destruct (proj1 (I1 eq_refl j) Hj).
    + assert (L : i < length l) by (apply nth_error_Some; congruence).
      split; [|split].
      * intros U j. destruct (proj2 (I1 U i)). left. exact H.
      * intro U. destruct (I2 U) as [k Hk]. exists k. at_index l i SBPanicked L k.
        -- subst k. destruct Hk; congruence.
        -- rewrite E. exact Hk.
      * intros j k Hj Hk.
        at_index l i SBPanicked L j; [rewrite E in Hj; destruct Hj; discriminate|].
        at_index l i SBPanicked L k; [rewrite E0 in Hk; destruct Hk; discriminate|].
        rewrite E in Hj. rewrite E0 in Hk. auto.
    + assert (L : i < length l) by (apply nth_error_Some; congruence).
      split; [|split].
      * intros U j. destruct (proj1 (I1 U i)). left. exact H.
      * intro U. exists i. at_index l i SBGot L i; [right; exact E|congruence].
      * intros j k Hj Hk.
        assert (Wj : nth_error l j = Some (SBSwapped false) \/ nth_error l j = Some SBGot).
        { at_index l i SBGot L j; [subst j; left; exact H|rewrite E in Hj; exact Hj]. }
        assert (Wk : nth_error l k = Some (SBSwapped false) \/ nth_error l k = Some SBGot).
        { at_index l i SBGot L k; [subst k; left; exact H|rewrite E in Hk; exact Hk]. }
        auto.
Qed.

Lemma L_C47_at_most_once : forall s i j, sb_reach s ->
  nth_error (sb_evals s) i = Some SBGot -> nth_error (sb_evals s) j = Some SBGot -> i = j.
Proof. intros s i j R Hi Hj. apply (sb_inv_reach s R); right; assumption. Qed.

Lemma L_C47_one_gets_it : forall s, sb_reach s -> sb_evals s <> [] -> Forall finished (sb_evals s) ->
  exists i, nth_error (sb_evals s) i = Some SBGot /\
    forall j, j < length (sb_evals s) -> j <> i -> nth_error (sb_evals s) j = Some SBPanicked.
Proof.
  intros s R Ne F. destruct (sb_inv_reach s R) as [I1 [I2 I3]]. rewrite Forall_forall in F.
  assert (U : sb_used s = true).
  { destruct (sb_used s); [reflexivity|]. exfalso. destruct (sb_evals s) as [|e l]; [contradiction|].
    destruct (I1 eq_refl 0) as [K1 K2]. destruct (F e (or_introl eq_refl)) as [-> | ->].
    - apply K1. right. reflexivity.
    - apply K2. right. reflexivity. }
  destruct (I2 U) as [i Hi]. exists i.
  assert (Gi : nth_error (sb_evals s) i = Some SBGot).
  { destruct Hi as [Hi|Hi]; [|exact Hi]. apply nth_error_In in Hi. destruct (F _ Hi); discriminate. }
  split; [exact Gi|]. intros j Lj Nj. destruct (nth_error (sb_evals s) j) as [e|] eqn:Ej.
  - destruct (F e (nth_error_In _ _ Ej)) as [-> | ->]; [|reflexivity].
    exfalso. apply Nj. apply I3; right; assumption.
  - apply nth_error_None in Ej. lia.
Qed.

Lemma L_C47_panic_only_after_another : forall s i, sb_reach s -> nth_error (sb_evals s) i = Some SBPanicked ->
  exists j, j <> i /\ j < length (sb_evals s) /\
    (nth_error (sb_evals s) j = Some SBGot \/ nth_error (sb_evals s) j = Some (SBSwapped false)).
Proof.
  intros s i R H. destruct (sb_inv_reach s R) as [I1 [I2 I3]].
  destruct (sb_used s) eqn:U.
  - destruct (I2 eq_refl) as [j Hj]. exists j. split; [|split].
    + intros ->. destruct Hj; congruence.
    + apply nth_error_Some. destruct Hj; congruence.
    + destruct Hj; auto.
  - destruct (proj2 (I1 eq_refl i)). right. exact H.
Qed.

(** No evaluation ever waits: whatever the others do, it ends with its own next two steps. *)
Lemma L_C47_never_waits : forall s i e, sb_reach s -> nth_error (sb_evals s) i = Some e -> ~ finished e ->
  exists s', sb_step s s' /\ length (sb_evals s') = length (sb_evals s) /\
    (forall j, j <> i -> nth_error (sb_evals s') j = nth_error (sb_evals s) j) /\
    (e = SBStart -> exists b, nth_error (sb_evals s') i = Some (SBSwapped b)) /\
    (e <> SBStart -> exists e', nth_error (sb_evals s') i = Some e' /\ finished e').
Proof.
  intros [u l] i e R H F. cbn [sb_evals] in *.
  assert (L : i < length l) by (apply nth_error_Some; congruence).
  destruct e as [|[|]| |].
  - eexists. split; [apply sb_swap, H|]. cbn [sb_evals]. rewrite sb_set_length. split; [reflexivity|]. split.
    + intros j Nj. rewrite set_at by exact L. destruct (i =? j) eqn:E; [apply Nat.eqb_eq in E; congruence|reflexivity].
    + split; [|congruence]. intros _. exists u. rewrite set_at, Nat.eqb_refl by exact L. reflexivity.
  - eexists. split; [apply sb_panic, H|]. cbn [sb_evals]. rewrite sb_set_length. split; [reflexivity|]. split.
    + intros j Nj. rewrite set_at by exact L. destruct (i =? j) eqn:E; [apply Nat.eqb_eq in E; congruence|reflexivity].
    + split; [discriminate|]. intros _. exists SBPanicked. rewrite set_at, Nat.eqb_refl by exact L. split; [reflexivity|right; reflexivity].
  - eexists. split; [apply sb_take, H|]. cbn [sb_evals]. rewrite sb_set_length. split; [reflexivity|]. split.
    + intros j Nj. rewrite set_at by exact L. destruct (i =? j) eqn:E; [apply Nat.eqb_eq in E; congruence|reflexivity].
    + split; [discriminate|]. intros _. exists SBGot. rewrite set_at, Nat.eqb_refl by exact L. split; [reflexivity|left; reflexivity].
  - destruct F. left. reflexivity.
  - destruct F. right. reflexivity.
Qed.

(** ** C50 *)

Lemma letter_same : forall c w, (97 <= b2n w <= 122)%N ->
  (beq (to_ascii_lowercase c) (to_ascii_lowercase w) = true <-> same_letter c w).
Proof.
  intros c w H. assert (W : to_ascii_lowercase w = w).
  { unfold to_ascii_lowercase. change (b2n x5a) with 90%N. replace (b2n w <=? 90)%N with false by lia.
    rewrite andb_false_r. reflexivity. }
  rewrite W. unfold to_ascii_lowercase, same_letter. change (b2n x41) with 65%N. change (b2n x5a) with 90%N.
  destruct ((65 <=? b2n c)%N && (b2n c <=? 90)%N) eqn:E.
  - split; intro K.
    + apply beq_true in K. right. rewrite <- K. rewrite b2n_n2b. rewrite N.mod_small by lia. reflexivity.
    + destruct K as [->|K]; [lia|]. rewrite K, n2b_b2n. apply beq_refl.
  - split; intro K.
    + left. apply beq_true, K.
    + destruct K as [->|K]; [apply beq_refl|lia].
Qed.

Lemma eq_ignore_iff : forall w, Forall (fun c => (97 <= b2n c <= 122)%N) w -> forall s,
  eq_ignore_ascii_case s w = true <-> Forall2 same_letter s w.
Proof.
  intros w F. induction F as [|x w Hx F IH]; intros [|c s]; cbn [eq_ignore_ascii_case].
  - split; [constructor|reflexivity].
  - split; [discriminate|intro K; inversion K].
  - split; [discriminate|intro K; inversion K].
  - rewrite andb_true_iff, IH, letter_same by exact Hx. split.
    + intros [A B]. constructor; assumption.
    + intro K. inversion K. auto.
Qed.

Lemma digit_iff : forall c d, ascii_digit c = Some d <-> (d < 10)%N /\ b2n c = (48 + d)%N.
Proof.
  intros c d. unfold ascii_digit. change (b2n x30) with 48%N. change (b2n x39) with 57%N.
  destruct ((48 <=? b2n c)%N && (b2n c <=? 57)%N) eqn:E.
  - split; [intro K; injection K as <-; lia|intros [A B]; f_equal; lia].
  - split; [discriminate|intros [A B]; lia].
Qed.

(** The digits after the first ones, whose value is [acc]. *)
Fixpoint digits_from (acc : N) (l : list byte) : option N :=
  match l with
  | [] => Some acc
  | c :: r => match ascii_digit c with None => None | Some d => digits_from (10 * acc + d) r end
  end.

Lemma digits_from_grows : forall l acc n, digits_from acc l = Some n -> (acc <= n)%N.
Proof.
  induction l as [|c l IH]; intros acc n H; cbn [digits_from] in H.
  - injection H as ->. lia.
  - destruct (ascii_digit c) as [d|]; [|discriminate]. apply IH in H. lia.
Qed.

Lemma parse_digits_iff : forall l acc n, (acc <= 255)%N ->
  parse_u8_digits acc l = Some n <-> digits_from acc l = Some n /\ (n <= 255)%N.
Proof.
  induction l as [|c l IH]; intros acc n H; cbn [parse_u8_digits digits_from].
  - split; [intro K; injection K as <-; auto|intros [K _]; exact K].
  - destruct (ascii_digit c) as [d|]; [|split; [discriminate|intros [K _]; discriminate]].
    destruct (255 <? acc * 10)%N eqn:A.
    { split; [discriminate|intros [K L]; apply digits_from_grows in K; lia]. }
    destruct (255 <? acc * 10 + d)%N eqn:B.
    { split; [discriminate|intros [K L]; apply digits_from_grows in K; lia]. }
    rewrite IH by lia. replace (acc * 10 + d)%N with (10 * acc + d)%N by lia. reflexivity.
Qed.

Lemma digits_from_snoc : forall l acc c, digits_from acc (l ++ [c]) =
  match digits_from acc l with
  | None => None
  | Some n => match ascii_digit c with None => None | Some d => Some (10 * n + d)%N end
  end.
Proof.
  induction l as [|x l IH]; intros acc c; cbn [app digits_from].
  - reflexivity.
  - destruct (ascii_digit x); [apply IH|reflexivity].
Qed.

Lemma digits_value_iff : forall l n, digits_value l n <-> l <> [] /\ digits_from 0 l = Some n.
Proof.
  intros l n. split.
  - intro H. induction H as [c d H1 H2|l n c d H IH H1 H2].
    + split; [discriminate|]. cbn [digits_from]. rewrite (proj2 (digit_iff c d) (conj H1 H2)). f_equal; lia.
    + split; [destruct l; discriminate|]. rewrite digits_from_snoc, (proj2 IH), (proj2 (digit_iff c d) (conj H1 H2)). reflexivity.
  - revert n. induction l as [|c l IH] using rev_ind; intros n [Ne H]; [contradiction|].
    rewrite digits_from_snoc in H. destruct (digits_from 0 l) as [m|] eqn:E; [|discriminate].
    destruct (ascii_digit c) as [d|] eqn:D; [|discriminate]. injection H as <-. apply digit_iff in D.
    destruct l as [|x l].
    + injection E as <-. apply dv_one; lia.
    + apply dv_more; [apply IH; split; [discriminate|reflexivity]|lia|lia].
Qed.

Lemma digits_not_plus : forall l n, digits_value (x2b :: l) n -> False.
Proof. intros l n H. apply digits_value_iff in H. destruct H as [_ H]. discriminate. Qed.

Lemma parse_u8_iff : forall s n, parse_u8 s = Some n <-> decimal s n /\ (n <= 255)%N.
Proof.
  intros s n. unfold parse_u8, decimal. destruct s as [|c s].
  - split; [discriminate|]. intros [[H|[t [K _]]] _]; [|discriminate].
    apply digits_value_iff in H. destruct H as [H _]. contradiction.
  - destruct (beq c x2b) eqn:B.
    + apply beq_true in B. subst c. destruct s as [|d s].
      * split; [discriminate|]. intros [[H|[t [K H]]] _]; [destruct (digits_not_plus _ _ H)|].
        injection K as <-. apply digits_value_iff in H. destruct H as [H _]. contradiction.
      * rewrite parse_digits_iff by lia. split.
        -- intros [K L]. split; [|exact L]. right. exists (d :: s). split; [reflexivity|].
           apply digits_value_iff. split; [discriminate|exact K].
        -- intros [[H|[t [K H]]] L]; [destruct (digits_not_plus _ _ H)|]. injection K as <-.
           apply digits_value_iff in H. split; [apply H|exact L].
    + rewrite parse_digits_iff by lia. split.
      * intros [K L]. split; [|exact L]. left. apply digits_value_iff. split; [discriminate|exact K].
      * intros [[H|[t [K H]]] L].
        -- apply digits_value_iff in H. split; [apply H|exact L].
        -- injection K as -> <-. discriminate B.
Qed.

Lemma word_not_number : forall s n, is_word_broadcast s -> decimal s n -> False.
Proof.
  intros s n W D. inversion W as [|c x s' l Hc _]. subst.
  assert (C : (66 <= b2n c)%N). { destruct Hc as [->|Hc]; [vm_compute; discriminate|]. change (b2n x62) with 98%N in Hc. lia. }
  destruct D as [D|[t [K _]]].
  - apply digits_value_iff in D. destruct D as [_ D]. cbn [digits_from] in D.
    destruct (ascii_digit c) as [d|] eqn:E; [|discriminate]. apply digit_iff in E. lia.
  - injection K as -> _. vm_compute in C. apply C. reflexivity.
Qed.

Lemma L_C50_accepted : forall s m, motor_id_from_str s = Ok m <->
  (is_word_broadcast s /\ m = MBroadcast) \/
  (exists n, decimal s n /\ (n <= 255)%N /\ m = if (n =? 254)%N then MBroadcast else MId (n2b n)).
Proof.
  intros s m. unfold motor_id_from_str.
  assert (E : eq_ignore_ascii_case s broadcast_word = true <-> is_word_broadcast s).
  { apply eq_ignore_iff. repeat constructor; vm_compute; discriminate. }
  assert (B : forall n, (n <= 255)%N -> beq (n2b n) BROADCAST = (n =? 254)%N).
  { intros n L. destruct (n =? 254)%N eqn:K.
    - apply N.eqb_eq in K. subst n. reflexivity.
    - destruct (beq (n2b n) BROADCAST) eqn:T; [|reflexivity]. apply beq_true in T.
      apply (f_equal b2n) in T. rewrite b2n_n2b, N.mod_small in T by lia. change (b2n BROADCAST) with 254%N in T. lia. }
  destruct (eq_ignore_ascii_case s broadcast_word) eqn:W.
  - assert (Ws : is_word_broadcast s) by (apply E; reflexivity). split.
    + intro K. injection K as <-. left. auto.
    + intros [[_ ->]|[n [D _]]]; [reflexivity|]. destruct (word_not_number _ _ Ws D).
  - assert (Ws : ~ is_word_broadcast s) by (intro K; apply E in K; discriminate).
    destruct (parse_u8 s) as [n|] eqn:P.
    + pose proof (proj1 (parse_u8_iff s n) P) as [D L]. rewrite B by exact L. split.
      * intro K. right. exists n. split; [exact D|]. split; [exact L|]. destruct (n =? 254)%N; congruence.
      * intros [[K _]|[n' [D' [L' ->]]]]; [contradiction|].
        assert (n' = n) as ->. { pose proof (proj2 (parse_u8_iff s n') (conj D' L')). congruence. }
        destruct (n =? 254)%N; reflexivity.
    + split; [discriminate|]. intros [[K _]|[n' [D' [L' _]]]]; [contradiction|].
      pose proof (proj2 (parse_u8_iff s n') (conj D' L')). congruence.
Qed.

Lemma L_C50_raw_id : forall s m, motor_id_from_str s = Ok m ->
  (m = MBroadcast <-> motor_id_raw m = xfe) /\
  (forall n, decimal s n -> b2n (motor_id_raw m) = n) /\ (is_word_broadcast s -> motor_id_raw m = xfe).
Proof.
  intros s m H. pose proof (proj1 (L_C50_accepted s m) H) as K.
  destruct K as [[W ->]|[n [D [L ->]]]].
  - split; [split; reflexivity|]. split; [|reflexivity]. intros n D. destruct (word_not_number _ _ W D).
  - split; [|split].
    + destruct (n =? 254)%N eqn:E; [split; reflexivity|]. split; [discriminate|]. cbn [motor_id_raw]. intro K.
      apply (f_equal b2n) in K. rewrite b2n_n2b, N.mod_small in K by lia. change (b2n xfe) with 254%N in K. lia.
    + intros n' D'. assert (n' = n) as ->.
      { assert (P : forall a b, decimal s a -> decimal s b -> a = b).
        { intros a b [A|[t [E A]]] [B|[t' [E' B]]]; subst.
          - apply digits_value_iff in A, B. destruct A, B. congruence.
          - destruct (digits_not_plus _ _ A).
          - destruct (digits_not_plus _ _ B).
          - injection E' as <-. apply digits_value_iff in A, B. destruct A, B. congruence. }
        apply P; assumption. }
      destruct (n =? 254)%N eqn:E; cbn [motor_id_raw].
      * apply N.eqb_eq in E. subst n. reflexivity.
      * rewrite b2n_n2b, N.mod_small by lia. reflexivity.
    + intro W. destruct (word_not_number _ _ W D).
Qed.

Lemma L_C50_reads_reject_broadcast : forall fuel s c,
  (exists a, c = CRead8 MBroadcast a \/ c = CRead16 MBroadcast a \/ c = CRead32 MBroadcast a) \/
  (exists a n, c = CRead MBroadcast a n) ->
  cli_command fuel c s = (Val (Err tt), s).
Proof. intros fuel s c [[a [-> |[-> | ->]]]|[a [n ->]]]; reflexivity. Qed.
