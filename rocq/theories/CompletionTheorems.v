(** * CompletionTheorems: proofs of C82 *)
From Coq Require Import Ascii String Lia.
From Verif Require Import Base Lib CliOutput Completion CompletionSpec.
Local Open Scope list_scope.

Lemma same_bytes_eq : forall a b, same_bytes a b = true <-> a = b.
Proof.
  induction a as [|x a IH]; intros [|y b]; cbn [same_bytes]; try (split; congruence).
  rewrite Bool.andb_true_iff, beq_true, IH. split; [intros [-> ->]; reflexivity | intros H; inversion H; auto].
Qed.

Lemma segments_cons : forall p, exists s l, segments p = s :: l.
Proof.
  intros [|c p]; cbn [segments]; [eauto|]. destruct (beq c x2f); [eauto|].
  destruct (segments p); eauto.
Qed.

Lemma segments_app_slash : forall p q, segments (p ++ x2f :: q) = segments p ++ segments q.
Proof.
  induction p as [|c p IH]; intros q; [reflexivity|].
  change ((c :: p) ++ x2f :: q) with (c :: (p ++ x2f :: q)). cbn [segments].
  destruct (beq c x2f) eqn:E; rewrite IH; [reflexivity|].
  destruct (segments_cons p) as (s & l & ->). reflexivity.
Qed.

Fixpoint joined (l : list (list byte)) : list byte :=
  match l with [] => [] | [s] => s | s :: l' => s ++ x2f :: joined l' end.

Lemma joined_segments : forall p, joined (segments p) = p.
Proof.
  induction p as [|c p IH]; [reflexivity|]. cbn [segments].
  destruct (segments_cons p) as (s & l & E). rewrite E in *.
  destruct (beq c x2f) eqn:C.
  - apply beq_true in C. subst c. change (x2f :: joined (s :: l) = x2f :: p). rewrite IH. reflexivity.
  - cbn [joined] in *. destruct l as [|s2 l]; cbn [app]; rewrite <- IH; reflexivity.
Qed.

Lemma plain_app : forall a b, plain_components (a ++ b) = plain_components a ++ plain_components b.
Proof.
  induction a as [|s a IH]; intros b; [reflexivity|]. cbn [app plain_components].
  rewrite IH. destruct (single_component s); reflexivity.
Qed.

Lemma single_none : forall s, single_component s = None -> s = [] \/ s = [x2e].
Proof.
  intros s. unfold single_component.
  destruct (same_bytes s []) eqn:A; [apply same_bytes_eq in A; auto|].
  destruct (same_bytes s [x2e]) eqn:B; [apply same_bytes_eq in B; auto|].
  destruct (same_bytes s [x2e; x2e]); discriminate.
Qed.

Lemma plain_none : forall l, plain_components l = [] -> Forall (fun s => s = [] \/ s = [x2e]) l.
Proof.
  induction l as [|s l IH]; intros H; [constructor|]. cbn [plain_components] in H.
  destruct (single_component s) eqn:E; [discriminate|]. constructor; [apply single_none; exact E|apply IH; exact H].
Qed.

Lemma dash_more : forall l p, dash p -> Forall (fun s => s = [] \/ s = [x2e]) l -> l <> [] ->
  dash (p ++ x2f :: joined l).
Proof.
  induction l as [|s l IH]; intros p D F N; [congruence|].
  inversion F as [|? ? Hs Hl]; subst.
  destruct l as [|s2 l].
  - cbn [joined]. destruct Hs; subst; [apply dash_slash|apply dash_dot]; exact D.
  - assert (X : joined (s :: s2 :: l) = s ++ x2f :: joined (s2 :: l)) by reflexivity.
    rewrite X. replace (p ++ x2f :: s ++ x2f :: joined (s2 :: l)) with ((p ++ x2f :: s) ++ x2f :: joined (s2 :: l))
      by (rewrite <- app_assoc; reflexivity).
    apply IH; [|exact Hl|discriminate].
    destruct Hs; subst; [apply dash_slash|apply dash_dot]; exact D.
Qed.

Lemma first_segment : forall c p s l, beq c x2f = false -> segments (c :: p) = s :: l -> exists s', s = c :: s'.
Proof.
  intros c p s l C H. cbn [segments] in H. rewrite C in H.
  destruct (segments p); injection H as <- <-; eauto.
Qed.

Lemma dash_components : forall p, components p = [Normal [x2d]] -> dash p.
Proof.
  intros p H. rewrite <- (joined_segments p).
  destruct p as [|c p]; [discriminate|]. unfold components in H.
  destruct (beq c x2f) eqn:C; [discriminate|].
  destruct (segments (c :: p)) as [|s l] eqn:G; [discriminate|].
  destruct (first_segment _ _ _ _ C G) as (s' & ->).
  destruct (same_bytes (c :: s') [x2e]) eqn:E; [discriminate|].
  cbn [plain_components] in H. unfold single_component in H. rewrite E in H.
  cbn [same_bytes] in H.
  match type of H with (match (if ?x then _ else _) with _ => _ end) = _ => destruct x end;
    [discriminate|].
  injection H as -> -> Hl.
  destruct l as [|s2 l]; [apply dash_name|].
  change (joined ([x2d] :: s2 :: l)) with ([x2d] ++ x2f :: joined (s2 :: l)).
  apply dash_more; [apply dash_name|apply plain_none; exact Hl|discriminate].
Qed.

Lemma components_dash : forall p, dash p ->
  components p = [Normal [x2d]] /\ exists s, segments p = [x2d] :: s /\ plain_components s = [].
Proof.
  intros p D.
  assert (H : (exists r, p = x2d :: r) /\ exists s, segments p = [x2d] :: s /\ plain_components s = []).
  { induction D as [|p D IH|p D IH].
    - split; [eauto|]. exists []. split; reflexivity.
    - destruct IH as [(r & ->) (s & E & P)]. split; [eexists; reflexivity|].
      exists (s ++ [[]]). rewrite segments_app_slash, E, plain_app, P. split; reflexivity.
    - destruct IH as [(r & ->) (s & E & P)]. split; [eexists; reflexivity|].
      exists (s ++ [[x2e]]). rewrite segments_app_slash, E, plain_app, P. split; reflexivity. }
  destruct H as [(r & ->) (s & E & P)]. split; [|eauto].
  unfold components. change (beq x2d x2f) with false. cbv iota. rewrite E.
  change (same_bytes [x2d] [x2e]) with false. cbv iota. cbn [plain_components].
  change (single_component [x2d]) with (Some (Normal [x2d])). rewrite P. reflexivity.
Qed.

Lemma path_eq_dash : forall p, path_eq p [x2d] = true <-> dash p.
Proof.
  intros p. unfold path_eq. change (components [x2d]) with [Normal [x2d]]. split.
  - intros H. apply dash_components. destruct (components p) as [|c l]; [discriminate|].
    cbn [same_components] in H. apply Bool.andb_true_iff in H. destruct H as [H L].
    destruct l; [|discriminate]. destruct c; try discriminate. cbn [same_component] in H.
    apply same_bytes_eq in H. subst. reflexivity.
  - intros D. destruct (components_dash p D) as [-> _]. reflexivity.
Qed.

(** ** Writing *)

Lemma write_all_to_spec : forall sys buf r sent, write_all_to sys buf = (r, sent) ->
  (r = Ok tt /\ sent = buf /\ takes_all sys (length buf)) \/
  ((exists e, r = Err e) /\ (exists rest, buf = sent ++ rest /\ rest <> []) /\ ~ takes_all sys (length buf)).
Proof.
  induction sys as [|a sys IH]; intros buf r sent H.
  - left. destruct buf; injection H as <- <-; repeat split; constructor.
  - destruct buf as [|b buf]; [injection H as <- <-; left; repeat split; constructor|].
    cbn [write_all_to] in H. destruct a as [n| |e].
    + destruct n as [|n].
      * injection H as <- <-. right. split; [eauto|]. split; [exists (b :: buf); split; [reflexivity|discriminate]|].
        intros T. inversion T; subst; congruence.
      * destruct (write_all_to sys (skipn (S n) (b :: buf))) as [r' sent'] eqn:E.
        injection H as <- <-. apply IH in E. rewrite skipn_length in E.
        destruct E as [(-> & -> & T)|((e & ->) & (rest & R & N) & T)].
        -- left. split; [reflexivity|]. split; [apply (firstn_skipn (S n) (b :: buf))|]. apply ta_some; [discriminate|exact T].
        -- right. split; [eauto|]. split.
           ++ exists rest. split; [|exact N]. cbn [app]. rewrite <- app_assoc, <- R. symmetry; apply (firstn_skipn (S n) (b :: buf)).
           ++ intros X. inversion X; subst. contradiction.
    + apply IH in H. destruct H as [(-> & -> & T)|(E & R & T)].
      * left. repeat split. apply ta_again. exact T.
      * right. split; [exact E|]. split; [exact R|]. intros X. inversion X; subst. contradiction.
    + injection H as <- <-. right. split; [eauto|]. split; [exists (b :: buf); split; [reflexivity|discriminate]|].
      intros T. inversion T.
Qed.

Lemma last_line_ended : forall l, last_line (l ++ [x0a]) = (l ++ [x0a], []).
Proof.
  induction l as [|c l IH]; [reflexivity|].
  change ((c :: l) ++ [x0a]) with (c :: (l ++ [x0a])). cbn [last_line]. rewrite IH.
  destruct l; reflexivity.
Qed.

Lemma ends_spec : forall s, ends_with_newline s = true <-> exists l, s = l ++ [x0a].
Proof.
  intros s. unfold ends_with_newline. split.
  - destruct (rev s) as [|c r] eqn:E; [discriminate|]. intros H. apply beq_true in H. subst c.
    exists (rev r). rewrite <- (rev_involutive s), E. reflexivity.
  - intros (l & ->). rewrite rev_app_distr. reflexivity.
Qed.

Definition buffer_of (s : list byte) : list byte := if ends_with_newline s then s else s ++ [x0a].

Lemma buffer_whole : forall s, whole_lines s (buffer_of s) /\ exists l, buffer_of s = l ++ [x0a].
Proof.
  intros s. unfold buffer_of, whole_lines. destruct (ends_with_newline s) eqn:E.
  - apply ends_spec in E. split; [left; split; [reflexivity|exact E]|exact E].
  - split; [|eauto]. right. split; [reflexivity|]. intros H. apply ends_spec in H. congruence.
Qed.

Lemma stdout_buffer : forall sys s, stdout_write_all sys (buffer_of s) = write_all_to sys (buffer_of s).
Proof.
  intros sys s. destruct (buffer_whole s) as [_ (l & ->)].
  unfold stdout_write_all. rewrite last_line_ended. reflexivity.
Qed.

Definition target (path : option (list byte)) : list byte := match path with Some p => p | None => [x2d] end.

Lemma completion_alt : forall o shell path shown,
  write_shell_completion o shell path shown =
  if path_eq (target path) [x2d] then
    let '(r, sent) := write_all_to (o_sys o) (buffer_of (o_script o)) in
    match r with
    | Ok _ => ([(LvDebug, "Writing shell completion for " ++ shell ++ " to stdout")%string], Ok tt, mkEffects sent None)
    | Err e => ([(LvDebug, "Writing shell completion for " ++ shell ++ " to stdout")%string;
                 (LvError, "Failed to write to stdout: " ++ e)%string], Err tt, mkEffects sent None)
    end
  else
    match o_create o with
    | Err e => ([(LvDebug, "Writing shell completion for " ++ shell ++ " to " ++ shown)%string;
                 (LvError, "Failed to create " ++ shown ++ ": " ++ e)%string], Err tt, mkEffects [] None)
    | Ok _ =>
        let '(r, sent) := write_all_to (o_sys o) (buffer_of (o_script o)) in
        match r with
        | Ok _ => ([(LvDebug, "Writing shell completion for " ++ shell ++ " to " ++ shown)%string], Ok tt,
                   mkEffects [] (Some (target path, sent)))
        | Err e => ([(LvDebug, "Writing shell completion for " ++ shell ++ " to " ++ shown)%string;
                     (LvError, "Failed to write to " ++ shown ++ ": " ++ e)%string], Err tt,
                    mkEffects [] (Some (target path, sent)))
        end
    end.
Proof.
  intros. unfold write_shell_completion. fold (buffer_of (o_script o)). fold (target path).
  rewrite stdout_buffer. reflexivity.
Qed.

(** ** C82 *)

Theorem L_C82_stdout : forall o shell path shown lines r e,
  write_shell_completion o shell path shown = (lines, r, e) ->
  (path = None \/ exists p, path = Some p /\ dash p) ->
  e_file e = None /\
  exists text, whole_lines (o_script o) text /\
    (r = Ok tt <-> takes_all (o_sys o) (length text)) /\
    ((r = Ok tt /\ e_stdout e = text /\
      lines = [(LvDebug, "Writing shell completion for " ++ shell ++ " to stdout")%string]) \/
     (r = Err tt /\ e_stdout e <> text /\ prefix_of (e_stdout e) text /\
      exists d x, lines = [d; x] /\ complaint x "Failed to write to stdout")).
Proof.
  intros o shell path shown lines r e H P. rewrite completion_alt in H.
  assert (D : path_eq (target path) [x2d] = true).
  { apply path_eq_dash. destruct P as [->|(p & -> & D)]; [apply dash_name|exact D]. }
  rewrite D in H. destruct (write_all_to (o_sys o) (buffer_of (o_script o))) as [r' sent] eqn:W.
  apply write_all_to_spec in W. destruct (buffer_whole (o_script o)) as [B _].
  destruct W as [(-> & -> & T)|((x & ->) & (rest & R & N) & T)]; injection H as <- <- <-.
  - split; [reflexivity|]. exists (buffer_of (o_script o)). split; [exact B|]. split; [tauto|]. left. repeat split.
  - split; [reflexivity|]. exists (buffer_of (o_script o)). split; [exact B|]. split; [split; [discriminate|tauto]|].
    right. split; [reflexivity|]. cbn [e_stdout]. split.
    + intros X. rewrite <- X in R. apply N. rewrite <- (app_nil_r sent) in R at 1. apply app_inv_head in R. auto.
    + split; [exists rest; exact R|]. do 2 eexists. split; [reflexivity|]. exists x. reflexivity.
Qed.

Theorem L_C82_file : forall o shell p shown lines r e,
  write_shell_completion o shell (Some p) shown = (lines, r, e) -> ~ dash p ->
  e_stdout e = [] /\
  exists text, whole_lines (o_script o) text /\
    (r = Ok tt <-> o_create o = Ok tt /\ takes_all (o_sys o) (length text)) /\
    ((r = Ok tt /\ e_file e = Some (p, text) /\
      lines = [(LvDebug, "Writing shell completion for " ++ shell ++ " to " ++ shown)%string]) \/
     (r = Err tt /\ exists d x, lines = [d; x] /\
        ((e_file e = None /\ complaint x ("Failed to create " ++ shown)) \/
         (exists part, e_file e = Some (p, part) /\ part <> text /\ prefix_of part text /\
            complaint x ("Failed to write to " ++ shown))))).
Proof.
  intros o shell p shown lines r e H P. rewrite completion_alt in H. cbn [target] in H.
  destruct (path_eq p [x2d]) eqn:D; [apply path_eq_dash in D; contradiction|].
  destruct (buffer_whole (o_script o)) as [B _].
  destruct (o_create o) as [[]|x] eqn:C.
  2:{ injection H as <- <- <-. split; [reflexivity|]. exists (buffer_of (o_script o)). split; [exact B|].
      split; [split; [discriminate|intros [? _]; discriminate]|].
      right. split; [reflexivity|]. do 2 eexists. split; [reflexivity|]. left. split; [reflexivity|].
      exists x. f_equal. }
  destruct (write_all_to (o_sys o) (buffer_of (o_script o))) as [r' sent] eqn:W.
  apply write_all_to_spec in W.
  destruct W as [(-> & -> & T)|((x & ->) & (rest & R & N) & T)]; injection H as <- <- <-.
  - split; [reflexivity|]. exists (buffer_of (o_script o)). split; [exact B|]. split; [tauto|]. left. repeat split.
  - split; [reflexivity|]. exists (buffer_of (o_script o)). split; [exact B|].
    split; [split; [discriminate|tauto]|].
    right. split; [reflexivity|]. do 2 eexists. split; [reflexivity|]. right. exists sent. split; [reflexivity|].
    split; [|split; [exists rest; exact R|exists x; reflexivity]].
    intros X. rewrite <- X in R. apply N. rewrite <- (app_nil_r sent) in R at 1. apply app_inv_head in R. auto.
Qed.

(** ** Examples *)

Example completion_twice :
  write_shell_completion (mkOutside [x61; x62] (Ok tt) [Interrupted; Takes 2]) "bash" None "" =
  ([(LvDebug, "Writing shell completion for bash to stdout")%string], Ok tt, mkEffects [x61; x62; x0a] None).
Proof. reflexivity. Qed.
Example completion_part :
  write_shell_completion (mkOutside [x61; x62; x0a] (Ok tt) [Takes 2; Refuses "disk full"]) "zsh" (Some [x66]) "f" =
  ([(LvDebug, "Writing shell completion for zsh to f")%string; (LvError, "Failed to write to f: disk full")%string],
   Err tt, mkEffects [] (Some ([x66], [x61; x62]))).
Proof. reflexivity. Qed.
Example completion_not_dash : ~ dash [x66] /\ ~ dash [x2e; x2f; x2d] /\ dash [x2d; x2f; x2e; x2f].
Proof.
  split; [|split]; try (rewrite <- path_eq_dash; vm_compute; discriminate).
  apply path_eq_dash. reflexivity.
Qed.
