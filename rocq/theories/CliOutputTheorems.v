(** * CliOutputTheorems: the lines printed by the command line tool *)
From Coq Require Import ZArith ZifyN ZifyNat ZifyBool Ascii String.
From Verif Require Import Base Lib Error Packet Bus Data Client Instructions Cli Text TextSpec TextTheorems DataSpec DataTheorems
  CliOutput CliOutputSpec.
Local Open Scope list_scope.

(** ** The tool does the same *)

Definition erase (x : out (list line * result cli_report unit) * bus) : out (result cli_report unit) * bus :=
  (match fst x with Val (_, r) => Val r | Panic p => Panic p | Blocked => Blocked end, snd x).

Lemma single_erase : forall A io d f (m : M (result (response A) transfer_error)) text rep s,
  erase (single io d f m text rep s) = or_log m rep s.
Proof.
  intros A io d f m text rep s. unfold single, or_log, try_, bind, ret, erase.
  destruct (m s) as [[[r|e]|p|] s']; reflexivity.
Qed.

Lemma unicast_erase : forall d m k k' s, (forall id s, erase (k id s) = k' id s) ->
  erase (unicast d m k s) = tryr (fun e => e) (assume_unicast m) k' s.
Proof. intros d m k k' s H. destruct m; cbn; [apply H|reflexivity]. Qed.

Lemma scan_output_loop : forall io el fuel k acc s,
  (match scan_output io el fuel k acc s with
   | (Val (Some (_, l)), s') => (Val (Some l), s')
   | (Val None, s') => (Val None, s')
   | (Panic p, s') => (Panic p, s')
   | (Blocked, s') => (Blocked, s')
   end) = cli_scan_loop fuel (snd acc) s.
Proof.
  intros io el. induction fuel as [|fuel IH]; intros k acc s; cbn [scan_output cli_scan_loop]; [reflexivity|].
  unfold bind. destruct (scan_next s) as [[[x|]|p|] s1]; [|destruct acc; reflexivity|reflexivity|reflexivity].
  rewrite IH. reflexivity.
Qed.

Lemma L_C65_same : forall io el fuel c s,
  (let '(x, s') := cli_output io el fuel c s in
   (match x with Val (_, r) => Val r | Panic p => Panic p | Blocked => Blocked end, s')) = cli_command fuel c s.
Proof.
  intros io el fuel c s. transitivity (erase (cli_output io el fuel c s)).
  { unfold erase. destruct (cli_output io el fuel c s). reflexivity. }
  destruct c as [[id|]|m|m a|m a|m a|m a n|m a v|m a v|m a v|m a data]; cbn [cli_output cli_command];
    try apply single_erase; try (apply unicast_erase; intros; apply single_erase).
  unfold try_, bind, ret, erase. destruct (scan s) as [[[[]|e]|p|] s1]; [|reflexivity|reflexivity|reflexivity].
  rewrite <- (scan_output_loop io el fuel 0 ([], [])).
  destruct (scan_output io el fuel 0 ([], []) s1) as [[[[lines l]|]|p|] s2]; try reflexivity.
  destruct (scan_drop fuel s2) as [[[|]|p|] s3]; reflexivity.
Qed.

Lemma L_C65_main_same : forall io el path fuel dbg opened baud c,
  (let '(x, s') := main_output io el path fuel dbg opened baud c in
   (match x with Val (_, r) => Val r | Panic p => Panic p | Blocked => Blocked end, s')) = do_main fuel dbg opened baud c.
Proof.
  intros. unfold main_output, do_main. destruct (client_open dbg opened baud) as [[b|e]|p|]; try reflexivity.
  rewrite <- (L_C65_same io el). destruct (cli_output io el fuel c b) as [[[l r]|p|] s']; reflexivity.
Qed.

(** ** The lines *)

Lemma single_cases : forall A io d f (m : M (result (response A) transfer_error)) text rep s,
  match as_report rep m s with
  | (Val (Err e), s') => single io d f m text rep s =
      (Val ([(LvDebug, d); (LvError, f ++ transfer_error_text io e)%string], Err tt), s')
  | (Val (Ok r), s') => exists a, r = rep a /\ m s = (Val (Ok a), s') /\ single io d f m text rep s =
      (Val ((LvDebug, d) :: (if r_alert a then [alert_line] else []) ++ [(LvInfo, text (r_data a))], Ok (rep a)), s')
  | (Panic p, s') => single io d f m text rep s = (Panic p, s')
  | (Blocked, s') => single io d f m text rep s = (Blocked, s')
  end.
Proof.
  intros A io d f m text rep s. unfold as_report, single, bind, ret. destruct (m s) as [[[r|e]|p|] s']; try reflexivity.
  exists r. auto.
Qed.

Ltac command_cases C := destruct C; cbn [cli_output unicast assume_unicast].

Lemma L_C65_outcome : forall io el fuel c call s, client_call c call ->
  match call s with
  | (Val (Err e), s') => exists debug failed,
      cli_output io el fuel c s = (Val ([(LvDebug, debug); (LvError, failed ++ transfer_error_text io e)%string], Err tt), s')
  | (Val (Ok r), s') => exists debug text,
      cli_output io el fuel c s =
        (Val ((LvDebug, debug) :: (if report_alert r then [(LvWarn, "Alert bit set in response from motor!"%string)] else []) ++
              [(LvInfo, text)], Ok r), s')
  | (Panic p, s') => cli_output io el fuel c s = (Panic p, s')
  | (Blocked, s') => cli_output io el fuel c s = (Blocked, s')
  end.
Proof.
  intros io el fuel c call s C. command_cases C;
  match goal with |- context [single io ?d ?f ?m ?t ?r s] => pose proof (single_cases _ io d f m t r s) as K;
    destruct (as_report r m s) as [[[x|e]|p|] s']; try exact K;
    [destruct K as [y [-> [_ K]]]; do 2 eexists; exact K | do 2 eexists; exact K] end.
Qed.

Lemma L_C65_refused : forall io el fuel c s, refused c -> exists debug,
  cli_output io el fuel c s =
    (Val ([(LvDebug, debug); (LvError, "Invalid motor ID: this command can not be broadcasted."%string)], Err tt), s).
Proof. intros io el fuel c s C. command_cases C; eexists; reflexivity. Qed.

(** What a scan prints: the lines of its items, one after the other. *)
Fixpoint items_lines (io : io_error -> string) (el : nat -> string) (k : nat) (l : list (result (response ping_data) read_error))
  : list line :=
  match l with [] => [] | x :: l' => scan_item_lines io (el k) x ++ items_lines io el (S k) l' end.

Lemma scan_output_lines : forall io el fuel k acc s lines l s',
  scan_output io el fuel k acc s = (Val (Some (lines, l)), s') ->
  exists l', l = snd acc ++ l' /\ lines = fst acc ++ items_lines io el k l'.
Proof.
  intros io el. induction fuel as [|fuel IH]; intros k acc s lines l s' H; cbn [scan_output] in H; [discriminate H|].
  unfold bind in H. destruct (scan_next s) as [[[x|]|p|] s1]; [| |discriminate H|discriminate H].
  - apply IH in H. destruct H as [l' [-> ->]]. cbn [fst snd]. exists (x :: l'). cbn [items_lines].
    rewrite <- !app_assoc. auto.
  - unfold ret in H. injection H as -> _. exists []. cbn [fst snd items_lines]. rewrite !app_nil_r. auto.
Qed.

Lemma scan_cases : forall io el fuel s lines r s', cli_output io el fuel (CPing MBroadcast) s = (Val (lines, r), s') ->
  (exists e s1, scan s = (Val (Err e), s1) /\ lines = [(LvError, "Command failed: " ++ write_error_text io e)%string] /\ r = Err tt) \/
  (exists l, lines = items_lines io el 0 l /\ r = Ok (RepScan l)).
Proof.
  intros io el fuel s lines r s' H. cbn [cli_output] in H. unfold bind, ret in H.
  destruct (scan s) as [[[[]|e]|p|] s1] eqn:S; [| |discriminate H|discriminate H].
  - right. destruct (scan_output io el fuel 0 ([], []) s1) as [[[[ls l]|]|p|] s2] eqn:E; try discriminate H.
    destruct (scan_drop fuel s2) as [[[|]|p|] s3]; try discriminate H. injection H as <- <- _.
    apply scan_output_lines in E. destruct E as [l' [-> ->]]. exists l'. auto.
  - left. injection H as <- <- _. eauto.
Qed.

Lemma error_lines_app : forall a b, error_lines (a ++ b) = error_lines a + error_lines b.
Proof. intros. unfold error_lines. rewrite filter_app, app_length. reflexivity. Qed.

Lemma items_errors : forall io el l k, error_lines (items_lines io el k l) = failures (RepScan l).
Proof.
  intros io el. induction l as [|x l IH]; intro k; cbn [items_lines]; [reflexivity|].
  rewrite error_lines_app, IH. destruct x as [r|e]; cbn [scan_item_lines failures filter List.length]; [|reflexivity].
  unfold ping_lines. rewrite !error_lines_app. destruct (r_alert r); reflexivity.
Qed.

Lemma every_command : forall c, (exists call, client_call c call) \/ refused c \/ c = CPing MBroadcast.
Proof.
  intros [[id|]|m|[id|] a|[id|] a|[id|] a|[id|] a n|m a v|m a v|m a v|m a data];
    first [left; eexists; constructor; fail | right; left; constructor; fail | right; right; reflexivity].
Qed.

Lemma L_C65_exit : forall io el fuel c s lines r s', cli_output io el fuel c s = (Val (lines, r), s') ->
  match r with
  | Ok rep => exit_status r = 0%N /\ error_lines lines = failures rep
  | Err _ => exit_status r = 1%N /\ exists before text, lines = before ++ [(LvError, text)] /\ error_lines before = 0
  end.
Proof.
  intros io el fuel c s lines r s' H. destruct (every_command c) as [[call C]|[C| ->]].
  - pose proof (L_C65_outcome io el fuel c call s C) as K.
    destruct (call s) as [[[x|e]|p|] s1] eqn:E; try (rewrite H in K; discriminate K).
    + destruct K as [d [t K]]. rewrite H in K. injection K as -> -> _. split; [reflexivity|].
      assert (F : failures x = 0). { clear - C E. destruct C; unfold as_report, bind, ret in E;
        match type of E with context [match ?m s with _ => _ end] => destruct (m s) as [[[y|z]|p|] s2] end;
        try discriminate E; injection E as <- _; reflexivity. }
      rewrite F. destruct (report_alert x); reflexivity.
    + destruct K as [d [f K]]. rewrite H in K. injection K as -> -> _. split; [reflexivity|].
      exists [(LvDebug, d)]. eexists. split; reflexivity.
  - destruct (L_C65_refused io el fuel c s C) as [d K]. rewrite H in K. injection K as -> -> _.
    split; [reflexivity|]. exists [(LvDebug, d)]. eexists. split; reflexivity.
  - destruct (scan_cases _ _ _ _ _ _ _ H) as [[e [s1 [_ [-> ->]]]]|[l [-> ->]]].
    + split; [reflexivity|]. exists []. eexists. split; reflexivity.
    + split; [reflexivity|]. apply items_errors.
Qed.

Lemma L_C65_open : forall io el path fuel dbg opened baud c,
  match client_open dbg opened baud with
  | Val (Err e) => main_output io el path fuel dbg opened baud c =
      (Val ([(LvError, "Failed to open serial port: " ++ path ++ ": " ++ io e)%string], Err tt), None)
  | Val (Ok s) => exists d, numeral 10 d baud /\ main_output io el path fuel dbg opened baud c =
      (let '(x, s') := cli_output io el fuel c s in
       (match x with
        | Val (lines, r) => Val ((LvDebug, "Using serial port " ++ path ++ " with baud rate " ++ d)%string :: lines, r)
        | Panic p => Panic p
        | Blocked => Blocked
        end, Some s'))
  | Panic p => main_output io el path fuel dbg opened baud c = (Panic p, None)
  | Blocked => main_output io el path fuel dbg opened baud c = (Blocked, None)
  end.
Proof.
  intros. unfold main_output. destruct (client_open dbg opened baud) as [[b|e]|p|]; try reflexivity.
  exists (dec baud). split; [apply digits_numeral; lia|]. reflexivity.
Qed.

(** ** Which lines are shown *)

Lemma filter_all : forall A (f : A -> bool) l, Forall (fun x => f x = true) l -> filter f l = l.
Proof. intros A f l H. induction H as [|x l Hx H IH]; cbn; [reflexivity|]. rewrite Hx, IH. reflexivity. Qed.

Definition no_trace (l : list line) : Prop := Forall (fun x => fst x <> LvTrace) l.

Ltac lines_ok := repeat (apply Forall_cons; [discriminate|]); apply Forall_nil.

Lemma cli_no_trace : forall io el fuel c s lines r s', cli_output io el fuel c s = (Val (lines, r), s') -> no_trace lines.
Proof.
  intros io el fuel c s lines r s' H. unfold no_trace. destruct (every_command c) as [[call C]|[C| ->]].
  - pose proof (L_C65_outcome io el fuel c call s C) as K.
    destruct (call s) as [[[x|e]|p|] s1] eqn:E; try (rewrite H in K; discriminate K); destruct K as [d [t K]];
      rewrite H in K; injection K as -> -> _.
    + destruct (report_alert x); cbn [List.app]; lines_ok.
    + lines_ok.
  - destruct (L_C65_refused io el fuel c s C) as [d K]. rewrite H in K. injection K as -> -> _. lines_ok.
  - destruct (scan_cases _ _ _ _ _ _ _ H) as [[e [s1 [_ [-> ->]]]]|[l [-> ->]]]; [lines_ok|].
    clear H. generalize 0 as k. induction l as [|x l IH]; intro k; cbn [items_lines]; [constructor|]. apply Forall_app. split; [|apply IH].
    destruct x as [y|e]; cbn [scan_item_lines]; [|lines_ok].
    unfold ping_lines. destruct (r_alert y); cbn [List.app]; lines_ok.
Qed.

Lemma log_filter_cases : forall v, (v < 256)%N -> (v = 0 /\ log_filter (as_i8 v) = 3 \/ v = 1 /\ log_filter (as_i8 v) = 4 \/ 1 < v /\ log_filter (as_i8 v) = 5)%N.
Proof.
  intros v H. unfold log_filter, as_i8. destruct (N.ltb_spec v 128).
  - destruct (Z.eqb_spec (Z.of_N v) 0); [left; lia|]. destruct (Z.eqb_spec (Z.of_N v) 1); [right; left; lia|right; right; lia].
  - destruct (Z.eqb_spec (Z.of_N v - 256) 0); [lia|]. destruct (Z.eqb_spec (Z.of_N v - 256) 1); [lia|right; right; lia].
Qed.

Lemma L_C65_shown : forall io el fuel c s lines r s', cli_output io el fuel c s = (Val (lines, r), s') ->
  forall verbose, (verbose < 256)%N ->
  shown verbose lines = (if (verbose =? 0)%N then filter (fun x => match fst x with LvDebug => false | _ => true end) lines else lines).
Proof.
  intros io el fuel c s lines r s' H v Hv. apply cli_no_trace in H. unfold shown.
  destruct (log_filter_cases v Hv) as [[-> E]|[[-> E]|[L E]]]; rewrite E.
  - cbn. apply filter_ext_in. intros [l t] I. unfold no_trace in H. rewrite Forall_forall in H. specialize (H _ I).
    destruct l; cbn in *; congruence.
  - cbn. apply filter_all. eapply Forall_impl; [|exact H]. intros [l t] K. destruct l; cbn in *; congruence.
  - replace (v =? 0)%N with false by lia. apply filter_all. eapply Forall_impl; [|exact H].
    intros [l t] K. destruct l; cbn in *; congruence.
Qed.

(** ** The marks of warnings and errors *)

Definition warning_lines (l : list line) : nat :=
  List.length (filter (fun x => match fst x with LvWarn => true | _ => false end) l).

Lemma marked_printed : forall v lines, (v < 256)%N ->
  marked "Error: " (printed v lines) = error_lines lines /\ marked "Warning: " (printed v lines) = warning_lines lines.
Proof.
  intros v lines Hv. unfold marked, printed, shown, error_lines, warning_lines.
  assert (F : (3 <= log_filter (as_i8 v))%N) by (destruct (log_filter_cases v Hv) as [[_ E]|[[_ E]|[_ E]]]; rewrite E; lia).
  assert (Pe : forall l t, String.prefix "Error: " (prefix l ++ " " ++ t)%string = match l with LvError => true | _ => false end)
    by (intros [] []; reflexivity).
  assert (Pw : forall l t, String.prefix "Warning: " (prefix l ++ " " ++ t)%string = match l with LvWarn => true | _ => false end)
    by (intros [] []; reflexivity).
  induction lines as [|[l t] lines [IH1 IH2]]; [split; reflexivity|]. cbn [filter fst].
  destruct (level_rank l <=? log_filter (as_i8 v))%N eqn:S.
  - cbn [map filter fst snd]. rewrite Pe, Pw. destruct l; cbn [List.length]; rewrite IH1, IH2; split; reflexivity.
  - rewrite IH1, IH2. destruct l; cbn [level_rank] in S; try (exfalso; lia); split; reflexivity.
Qed.

Lemma warnings : forall io el fuel c s lines r s', cli_output io el fuel c s = (Val (lines, r), s') ->
  warning_lines lines = match r with Ok rep => if report_alert rep then 1 else 0 | Err _ => 0 end.
Proof.
  intros io el fuel c s lines r s' H. destruct (every_command c) as [[call C]|[C| ->]].
  - pose proof (L_C65_outcome io el fuel c call s C) as K.
    destruct (call s) as [[[x|e]|p|] s1] eqn:E; try (rewrite H in K; discriminate K); destruct K as [d [t K]];
      rewrite H in K; injection K as -> -> _; [|reflexivity]. destruct (report_alert x); reflexivity.
  - destruct (L_C65_refused io el fuel c s C) as [d K]. rewrite H in K. injection K as -> -> _. reflexivity.
  - destruct (scan_cases _ _ _ _ _ _ _ H) as [[e [s1 [_ [-> ->]]]]|[l [-> ->]]]; [reflexivity|]. cbn [report_alert].
    clear H. enough (K : forall k, warning_lines (items_lines io el k l) = 0) by apply K.
    induction l as [|x l IH]; intro k; [reflexivity|]. cbn [items_lines].
    unfold warning_lines in *. rewrite filter_app, app_length, IH.
    destruct x as [y|e]; cbn [scan_item_lines]; [|reflexivity]. unfold ping_lines. destruct (r_alert y); reflexivity.
Qed.

Lemma L_C65_marked : forall io el fuel c s lines r s' verbose, cli_output io el fuel c s = (Val (lines, r), s') ->
  (verbose < 256)%N ->
  match r with
  | Ok rep => marked "Error: " (printed verbose lines) = failures rep /\
      marked "Warning: " (printed verbose lines) = (if report_alert rep then 1 else 0)
  | Err _ => marked "Error: " (printed verbose lines) = 1 /\ marked "Warning: " (printed verbose lines) = 0 /\
      exists before text, printed verbose lines = before ++ [("Error: " ++ text)%string]
  end.
Proof.
  intros io el fuel c s lines r s' v H Hv. destruct (marked_printed v lines Hv) as [-> ->].
  rewrite (warnings _ _ _ _ _ _ _ _ H). pose proof (L_C65_exit _ _ _ _ _ _ _ _ H) as X.
  destruct r as [rep|u].
  - destruct X as [_ ->]. split; reflexivity.
  - destruct X as [_ [before [text [-> B]]]]. split; [|split; [reflexivity|]].
    + unfold error_lines in *. rewrite filter_app, app_length, B. reflexivity.
    + exists (printed v before), (" " ++ text)%string. unfold printed, shown. rewrite filter_app, map_app. f_equal.
      cbn [filter fst level_rank].
      replace (1 <=? log_filter (as_i8 v))%N with true by (destruct (log_filter_cases v Hv) as [[_ E]|[[_ E]|[_ E]]]; rewrite E; reflexivity).
      reflexivity.
Qed.

(** ** What can be read from the lines *)

Lemma colon_inj : forall a b s t, no_colon a -> no_colon b ->
  (a ++ String ":" s = b ++ String ":" t)%string -> s = t.
Proof.
  induction a as [|x a IH]; intros [|y b] s t A B E; cbn in *.
  - injection E as E. exact E.
  - injection E as E1 E2. subst y. tauto.
  - injection E as E1 E2. subst x. tauto.
  - injection E as -> E. apply (IH b); tauto.
Qed.

Lemma dec_items_cons : forall x y l, dec_items (x :: y :: l) = (dec (b2n x) ++ ", " ++ dec_items (y :: l))%string.
Proof. reflexivity. Qed.

Lemma dec_items_one : forall x, dec_items [x] = dec (b2n x).
Proof. reflexivity. Qed.

Local Open Scope string_scope.

Lemma dec_items_inj : forall a b s t, a <> [] -> b <> [] ->
  dec_items a ++ String "]" s = dec_items b ++ String "]" t -> a = b /\ s = t.
Proof.
  induction a as [|x a IH]; intros b s t Ha Hb E; [congruence|]. destruct b as [|y b]; [congruence|].
  destruct a as [|x2 a], b as [|y2 b]; rewrite ?dec_items_cons, ?dec_items_one, ?append_assoc in E;
    apply dec_inj in E; try reflexivity; destruct E as [K E]; apply b2n_inj in K; subst y.
  - injection E as ->. auto.
  - discriminate E.
  - discriminate E.
  - cbn [append] in E. do 2 apply tail_inj in E. apply IH in E; [|discriminate|discriminate]. destruct E as [-> ->]. auto.
Qed.

Lemma dec_head : forall n s t, dec n ++ s <> String "]" t.
Proof.
  intros n s t E.
  destruct (digits_cons (S (N.size_nat n)) 10 n "" ltac:(lia) ltac:(lia) (size_big n) ltac:(lia)) as [d [r [H1 [H2 _]]]].
  unfold dec in E. rewrite H2 in E. cbn [append] in E. injection E as E _.
  apply (bracket_not_digit d); [lia|exact E].
Qed.

Lemma dec_items_head : forall x l, exists r, dec_items (x :: l) = dec (b2n x) ++ r.
Proof. intros x l. destruct l; [exists ""; symmetry; apply append_nil|eexists; reflexivity]. Qed.

Lemma dec_array_inj : forall a b, dec_array a = dec_array b -> a = b.
Proof.
  intros a b E. unfold dec_array in E. cbn [append] in E. apply tail_inj in E.
  destruct a as [|x a], b as [|y b]; [reflexivity| | |apply dec_items_inj in E; [tauto|discriminate|discriminate]].
  - exfalso. destruct (dec_items_head y b) as [r Hr]. rewrite Hr, append_assoc in E. symmetry in E. cbn [dec_items append] in E. apply dec_head in E. exact E.
  - exfalso. destruct (dec_items_head x a) as [r Hr]. rewrite Hr, append_assoc in E. cbn [dec_items append] in E. apply dec_head in E. exact E.
Qed.

Lemma ping_text_inj : forall a b, ping_text a = ping_text b -> a = b.
Proof.
  intros [m1 f1] [m2 f2] E. unfold ping_text in E. cbn [ping_model ping_firmware] in E. literal E.
  apply dec_inj in E; [|reflexivity|reflexivity]. destruct E as [-> E]. literal E.
  apply dec_inj in E; [|reflexivity|reflexivity]. destruct E as [E _]. apply b2n_inj in E. subst. reflexivity.
Qed.

Definition printed_at (debug : bool) (lines : list line) : list string :=
  map (fun x => prefix (fst x) ++ " " ++ snd x)
    (if debug then lines else filter (fun x => match fst x with LvDebug => false | _ => true end) lines).

Lemma append_cancel : forall a s t : string, a ++ s = a ++ t -> s = t.
Proof. induction a as [|c a IH]; intros s t E; cbn in *; [exact E|]. injection E as E. auto. Qed.

Lemma single_tells : forall A (P : A -> Prop) io d f (m : M (result (response A) transfer_error)) text1 text2 rep dbg
    s1 s2 r1 r2 s1' s2' l1 l2 x1 x2 t1 t2,
  as_report rep m s1 = (Val r1, s1') -> as_report rep m s2 = (Val r2, s2') ->
  single io d f m text1 rep s1 = (Val (l1, x1), t1) -> single io d f m text2 rep s2 = (Val (l2, x2), t2) ->
  printed_at dbg l1 = printed_at dbg l2 ->
  (forall x y, io x = io y -> x = y) ->
  (forall s r s', m s = (Val (Ok r), s') -> P (r_data r)) -> (forall a b, P a -> P b -> text1 a = text2 b -> a = b) ->
  (forall a b, same_response a b -> same_answer (Ok (rep a)) (Ok (rep b))) -> same_answer r1 r2.
Proof.
  intros A P io d f m text1 text2 rep dbg s1 s2 r1 r2 s1' s2' l1 l2 x1 x2 t1 t2 C1 C2 E1 E2 Hp Io HP Ht Hr.
  pose proof (single_cases _ io d f m text1 rep s1) as K1. rewrite C1 in K1.
  pose proof (single_cases _ io d f m text2 rep s2) as K2. rewrite C2 in K2.
  destruct r1 as [r1|e1], r2 as [r2|e2].
  - destruct K1 as [a [-> [M1 K1]]], K2 as [b [-> [M2 K2]]]. rewrite K1 in E1. rewrite K2 in E2.
    injection E1 as <- _ _. injection E2 as <- _ _. apply Hr.
    assert (Q : r_alert a = r_alert b /\ text1 (r_data a) = text2 (r_data b)).
    { destruct dbg, (r_alert a), (r_alert b); cbn in Hp; try discriminate Hp; injection Hp as Hp; auto. }
    split; [apply Q|]. apply Ht; [apply (HP _ _ _ M1)|apply (HP _ _ _ M2)|apply Q].
  - destruct K1 as [a [-> [M1 K1]]]. rewrite K1 in E1. rewrite K2 in E2.
    injection E1 as <- _ _. injection E2 as <- _ _. exfalso.
    destruct dbg, (r_alert a); cbn in Hp; discriminate Hp.
  - destruct K2 as [b [-> [M2 K2]]]. rewrite K1 in E1. rewrite K2 in E2.
    injection E1 as <- _ _. injection E2 as <- _ _. exfalso.
    destruct dbg, (r_alert b); cbn in Hp; discriminate Hp.
  - rewrite K1 in E1. rewrite K2 in E2. injection E1 as <- _ _. injection E2 as <- _ _. cbn [same_answer].
    assert (Q : f ++ transfer_error_text io e1 = f ++ transfer_error_text io e2).
    { destruct dbg; cbn in Hp; injection Hp as Hp; exact Hp. }
    apply append_cancel in Q. apply (L_C62_transfer_error io Io). exact Q.
Qed.

Lemma read_unsigned : forall w id a s r s', read (data_int false w) id a s = (Val (Ok r), s') -> (0 <= r_data r)%Z.
Proof.
  intros w id a s r s' H. unfold read, try_, bind, lift, ret in H.
  destruct (read_raw id a (N.of_nat (d_size (data_int false w))) s) as [[[p|e]|q|] s1]; try discriminate H.
  unfold decode_status_packet in H.
  destruct (st_error p) as [e|q|]; try discriminate H. cbn [obind] in H.
  destruct (motor_error_check e); [|discriminate H].
  destruct (pk_id p) as [i|q|]; try discriminate H. cbn [obind] in H.
  destruct (st_alert p) as [al|q|]; try discriminate H. cbn [obind] in H.
  destruct (st_parameters p) as [ps|q|]; try discriminate H. cbn [obind data_int d_decode] in H.
  destruct (param_count_check (List.length ps) w); [|discriminate H].
  destruct (slice ps 0 w) as [b|q|]; try discriminate H. cbn [obind map_err] in H. injection H as <- _.
  cbn [r_data]. unfold int_value. cbn [andb]. lia.
Qed.

Lemma plain_inj : forall el1 el2 (a b : string), plain el1 -> plain el2 -> el1 O ++ ": " ++ a = el2 O ++ ": " ++ b -> a = b.
Proof. intros el1 el2 a b P1 P2 E. cbn [append] in E. apply colon_inj in E; [|apply P1|apply P2]. injection E as E. exact E. Qed.

Lemma L_C65_unambiguous : forall io el1 el2 fuel1 fuel2 c call s1 s2 r1 r2 s1' s2' l1 l2 x1 x2 t1 t2 verbose,
  (forall x y, io x = io y -> x = y) -> plain el1 -> plain el2 -> (verbose < 256)%N -> client_call c call ->
  call s1 = (Val r1, s1') -> cli_output io el1 fuel1 c s1 = (Val (l1, x1), t1) ->
  call s2 = (Val r2, s2') -> cli_output io el2 fuel2 c s2 = (Val (l2, x2), t2) ->
  printed verbose l1 = printed verbose l2 -> same_answer r1 r2.
Proof.
  intros io el1 el2 fuel1 fuel2 c call s1 s2 r1 r2 s1' s2' l1 l2 x1 x2 t1 t2 v Io P1 P2 Hv C E1 O1 E2 O2 Hp.
  unfold printed in Hp. rewrite (L_C65_shown _ _ _ _ _ _ _ _ O1 v Hv), (L_C65_shown _ _ _ _ _ _ _ _ O2 v Hv) in Hp.
  assert (Q : exists dbg, printed_at dbg l1 = printed_at dbg l2).
  { exists (negb (v =? 0)%N). unfold printed_at. destruct (v =? 0)%N; exact Hp. }
  destruct Q as [dbg Q]. clear Hp Hv v.
  destruct C; cbn [cli_output unicast assume_unicast] in O1, O2.
  - eapply (single_tells _ (fun _ => True)); [exact E1|exact E2|exact O1|exact O2|exact Q|exact Io|intros; exact I| |intros ? ? K; exact K].
    intros a b _ _ E. cbv beta in E. apply plain_inj in E; [|assumption|assumption]. apply ping_text_inj, E.
  - eapply (single_tells _ (fun _ => True)); [exact E1|exact E2|exact O1|exact O2|exact Q|exact Io|intros; exact I| |intros ? ? K; exact K].
    intros [] [] _ _ _. reflexivity.
  - eapply (single_tells _ (fun v => 0 <= v)%Z); [exact E1|exact E2|exact O1|exact O2|exact Q|exact Io|exact (read_unsigned _ _ _)| |intros ? ? K; exact K].
    intros x y X Y E. unfold read8_line in E. apply plain_inj in E; [|assumption|assumption].
    apply dec_inj in E; [|reflexivity|reflexivity]. lia.
  - eapply (single_tells _ (fun v => 0 <= v)%Z); [exact E1|exact E2|exact O1|exact O2|exact Q|exact Io|exact (read_unsigned _ _ _)| |intros ? ? K; exact K].
    intros x y X Y E. unfold read16_line in E. apply plain_inj in E; [|assumption|assumption].
    apply dec_inj in E; [|reflexivity|reflexivity]. lia.
  - eapply (single_tells _ (fun v => 0 <= v)%Z); [exact E1|exact E2|exact O1|exact O2|exact Q|exact Io|exact (read_unsigned _ _ _)| |intros ? ? K; exact K].
    intros x y X Y E. unfold read32_line in E. apply plain_inj in E; [|assumption|assumption].
    apply dec_inj in E; [|reflexivity|reflexivity]. lia.
  - eapply (single_tells _ (fun _ => True)); [exact E1|exact E2|exact O1|exact O2|exact Q|exact Io|intros; exact I| |intros ? ? K; exact K].
    intros x y _ _ E. cbv beta in E. apply plain_inj in E; [|assumption|assumption]. apply dec_array_inj, E.
  - eapply (single_tells _ (fun _ => True)); [exact E1|exact E2|exact O1|exact O2|exact Q|exact Io|intros; exact I| |intros ? ? K; exact K].
    intros [] [] _ _ _. reflexivity.
  - eapply (single_tells _ (fun _ => True)); [exact E1|exact E2|exact O1|exact O2|exact Q|exact Io|intros; exact I| |intros ? ? K; exact K].
    intros [] [] _ _ _. reflexivity.
  - eapply (single_tells _ (fun _ => True)); [exact E1|exact E2|exact O1|exact O2|exact Q|exact Io|intros; exact I| |intros ? ? K; exact K].
    intros [] [] _ _ _. reflexivity.
  - eapply (single_tells _ (fun _ => True)); [exact E1|exact E2|exact O1|exact O2|exact Q|exact Io|intros; exact I| |intros ? ? K; exact K].
    intros [] [] _ _ _. reflexivity.
Qed.

(** *** Scans *)

Definition print_line (x : line) : string := prefix (fst x) ++ " " ++ snd x.

Lemma items_not_debug : forall io el l k,
  filter (fun x : line => match fst x with LvDebug => false | _ => true end) (items_lines io el k l) = items_lines io el k l.
Proof.
  intros io el. induction l as [|x l IH]; intro k; cbn [items_lines]; [reflexivity|]. rewrite filter_app, IH. f_equal.
  destruct x as [r|e]; cbn [scan_item_lines]; [|reflexivity]. unfold ping_lines. destruct (r_alert r); reflexivity.
Qed.

Lemma items_inj_lines : forall io el1 el2, (forall x y, io x = io y -> x = y) -> forall l1 l2 k1 k2,
  map print_line (items_lines io el1 k1 l1) = map print_line (items_lines io el2 k2 l2) -> l1 = l2.
Proof.
  intros io el1 el2 Io. induction l1 as [|x l1 IH]; intros [|y l2] k1 k2 E.
  - reflexivity.
  - exfalso. cbn [items_lines] in E. destruct y as [r|e]; discriminate E.
  - exfalso. cbn [items_lines] in E. destruct x as [r|e]; discriminate E.
  - cbn [items_lines] in E. rewrite !map_app in E.
    destruct x as [[i1 a1 [m1 f1]]|e1], y as [[i2 a2 [m2 f2]]|e2]; cbn [scan_item_lines] in E.
    + unfold ping_lines in E. cbn [r_motor_id r_alert r_data ping_model ping_firmware] in E.
      assert (Q : i1 = i2 /\ a1 = a2 /\ m1 = m2 /\ f1 = f2 /\
                  map print_line (items_lines io el1 (S k1) l1) = map print_line (items_lines io el2 (S k2) l2)).
      { destruct a1, a2; cbn [map List.app] in E; try discriminate E.
        - injection E as E1 _ E2 E3 E4. apply dec_inj_end in E1, E2, E3. apply b2n_inj in E1, E3. subst. auto.
        - injection E as E1 _ E2 E3 E4. apply dec_inj_end in E1, E2, E3. apply b2n_inj in E1, E3. subst. auto. }
      destruct Q as [-> [-> [-> [-> Q]]]]. f_equal. apply (IH _ _ _ Q).
    + exfalso. discriminate E.
    + exfalso. discriminate E.
    + cbn [map List.app] in E. injection E as E1 E2. apply (L_C62_read_error io Io) in E1. subst.
      f_equal. apply (IH _ _ _ E2).
Qed.

Lemma L_C65_scan_unambiguous : forall io el1 el2 fuel1 fuel2 s1 s2 l1 l2 x1 x2 t1 t2 verbose,
  (forall x y, io x = io y -> x = y) -> (verbose < 256)%N ->
  cli_output io el1 fuel1 (CPing MBroadcast) s1 = (Val (l1, x1), t1) ->
  cli_output io el2 fuel2 (CPing MBroadcast) s2 = (Val (l2, x2), t2) ->
  printed verbose l1 = printed verbose l2 ->
  x1 = x2 /\ forall e1 e2, fst (scan s1) = Val (Err e1) -> fst (scan s2) = Val (Err e2) -> e1 = e2.
Proof.
  intros io el1 el2 fuel1 fuel2 s1 s2 l1 l2 x1 x2 t1 t2 v Io Hv O1 O2 Hp.
  unfold printed in Hp. rewrite (L_C65_shown _ _ _ _ _ _ _ _ O1 v Hv), (L_C65_shown _ _ _ _ _ _ _ _ O2 v Hv) in Hp.
  destruct (scan_cases _ _ _ _ _ _ _ O1) as [[e1 [u1 [S1 [-> ->]]]]|[a [-> ->]]],
           (scan_cases _ _ _ _ _ _ _ O2) as [[e2 [u2 [S2 [-> ->]]]]|[b [-> ->]]].
  - split; [reflexivity|]. intros f1 f2 F1 F2. rewrite S1 in F1. rewrite S2 in F2. injection F1 as <-. injection F2 as <-.
    apply (L_C62_write_error io Io). destruct (v =? 0)%N; cbn in Hp; injection Hp as Hp; exact Hp.
  - exfalso. rewrite items_not_debug in Hp. destruct b as [|[y|y] b]; destruct (v =? 0)%N; discriminate Hp.
  - exfalso. rewrite items_not_debug in Hp. destruct a as [|[y|y] a]; destruct (v =? 0)%N; discriminate Hp.
  - rewrite !items_not_debug in Hp. assert (Q : a = b).
    { apply (items_inj_lines io el1 el2 Io a b 0 0). destruct (v =? 0)%N; exact Hp. }
    subst b. split; [reflexivity|]. intros f1 f2 F1 _. exfalso. cbn [cli_output] in O1. unfold bind in O1.
    destruct (scan s1) as [o u]. cbn [fst] in F1. subst o. discriminate O1.
Qed.

(** ** The texts *)

Local Close Scope string_scope.

Lemma dec_numeral : forall n, numeral 10 (dec n) n.
Proof. intro n. apply digits_numeral; lia. Qed.

Lemma place_named : forall what m a, names_place what m a (what ++ place m a)%string.
Proof.
  intros what m a. exists (dec (b2n (motor_id_raw m))), (dec a). split; [reflexivity|].
  split; [|apply dec_numeral]. destruct m; apply dec_numeral.
Qed.

Lemma place_named' : forall what m a text, text = (what ++ place m a)%string -> names_place what m a text.
Proof. intros what m a text ->. apply place_named. Qed.

Lemma value_named : forall w v, (v < 16 ^ N.of_nat w)%N -> 0 < w -> names_value w v (dec v ++ " (0x" ++ hex_padded w v ++ ")").
Proof.
  intros w v H1 H2. exists (dec v), (hex_padded w v). split; [reflexivity|]. split; [apply dec_numeral|].
  apply padded_denotes; assumption.
Qed.

Lemma long_named : forall v x, (v < 2 ^ 32)%N -> x = N.shiftr v 16 ->
  names_long v (dec v ++ " (0x" ++ hex_padded 4 x ++ " " ++ hex_padded 4 (N.land v 0xFFFF) ++ ")").
Proof.
  intros v x H ->. destruct (L_C62_read_lines "" v) as [_ [_ K]]. destruct (K H) as [d [h1 [h2 [E [D1 [D2 [D3 D4]]]]]]].
  unfold read32_line in E. cbn [append] in E. do 2 apply tail_inj in E.
  assert (E2 : N.land (N.shiftr v 16) 0xFFFF = N.shiftr v 16).
  { change 0xFFFF%N with (N.ones 16). rewrite N.land_ones, N.shiftr_div_pow2. change (2 ^ 16)%N with 65536%N.
    change (2 ^ 32)%N with 4294967296%N in H. apply N.mod_small. lia. }
  rewrite E2 in E. exists d, h1, h2. split; [exact E|]. auto.
Qed.

Lemma L_C65_announced : forall io el fuel c s lines r s', typed c -> c <> CPing MBroadcast ->
  cli_output io el fuel c s = (Val (lines, r), s') -> exists text rest, lines = (LvDebug, text) :: rest /\ announces c text.
Proof.
  assert (S : forall A io d f (m : M (result (response A) transfer_error)) text rep s lines r s',
    single io d f m text rep s = (Val (lines, r), s') -> exists rest, lines = (LvDebug, d) :: rest).
  { intros A io d f m text rep s lines r s' H. unfold single, bind, ret in H.
    destruct (m s) as [[[x|e]|p|] s1]; try discriminate H; injection H as <- _ _; eexists; reflexivity. }
  intros io el fuel c s lines r s' T N H.
  assert (U : forall A d m (f : byte -> string) (k : byte -> M (result (response A) transfer_error)) text rep,
    unicast d m (fun id => single io d (f id) (k id) text rep) s = (Val (lines, r), s') -> exists rest, lines = (LvDebug, d) :: rest).
  { intros A d m f k text rep E. destruct m as [id|]; cbn [unicast assume_unicast] in E; [apply S in E; exact E|].
    unfold ret in E. injection E as <- _ _. eexists. reflexivity. }
  destruct c as [[id|]|m|m a|m a|m a|m a n|m a v|m a v|m a v|m a data]; cbn [cli_output] in H; [|congruence|..];
    (first [apply S in H | apply U in H]); destruct H as [rest ->]; eexists; exists rest; (split; [reflexivity|]); cbn [announces typed] in *.
  - eexists. split; [reflexivity|]. apply dec_numeral.
  - eexists. split; [reflexivity|]. destruct m; apply dec_numeral.
  - apply place_named.
  - apply place_named.
  - apply place_named.
  - exists (dec n). split; [|apply dec_numeral]. apply place_named'. rewrite !append_assoc. reflexivity.
  - eexists. split; [|apply (value_named 2 v); [exact T|lia]]. apply place_named'. rewrite !append_assoc. reflexivity.
  - eexists. split; [|apply (value_named 4 v); [exact T|lia]]. apply place_named'. rewrite !append_assoc. reflexivity.
  - eexists. split; [|apply (long_named v _ T eq_refl)]. apply place_named'. rewrite !append_assoc. reflexivity.
  - eexists. split; [|apply dec_numeral]. apply place_named'. rewrite !append_assoc. reflexivity.
Qed.

Lemma read_range : forall w id a s r s', 0 < w -> read (data_int false w) id a s = (Val (Ok r), s') ->
  exists v, r_data r = Z.of_N v /\ (v < 2 ^ (8 * N.of_nat w))%N.
Proof.
  intros w id a s r s' W H. unfold read, try_, bind, lift, ret in H.
  destruct (read_raw id a (N.of_nat (d_size (data_int false w))) s) as [[[p|e]|q|] s1]; try discriminate H.
  unfold decode_status_packet in H.
  destruct (st_error p) as [e|q|]; try discriminate H. cbn [obind] in H.
  destruct (motor_error_check e); [|discriminate H].
  destruct (pk_id p) as [i|q|]; try discriminate H. cbn [obind] in H.
  destruct (st_alert p) as [al|q|]; try discriminate H. cbn [obind] in H.
  destruct (st_parameters p) as [ps|q|]; try discriminate H. cbn [obind data_int d_decode] in H.
  destruct (param_count_check (List.length ps) w); [|discriminate H].
  destruct (slice ps 0 w) as [b|q|] eqn:B; try discriminate H. cbn [obind map_err] in H. injection H as <- _.
  cbn [r_data]. apply slice_inv in B. destruct B as [_ [B1 B2]].
  assert (L : List.length b = w). { rewrite B2, firstn_length, skipn_length. lia. }
  destruct (int_value_bytes false w b W L) as [R _]. unfold int_range in R.
  exists (from_le b). split; [reflexivity|]. unfold int_value in R. cbn [andb] in R.
  assert (Q : Z.of_N (2 ^ (8 * N.of_nat w)) = (2 ^ (8 * Z.of_nat w))%Z).
  { rewrite N2Z.inj_pow, N2Z.inj_mul, nat_N_Z. reflexivity. }
  lia.
Qed.

Lemma bytes_named : forall l, names_bytes l (dec_items l).
Proof.
  induction l as [|x l IH]; [constructor|]. destruct l as [|y l]; [constructor; apply dec_numeral|].
  rewrite dec_items_cons. constructor; [apply dec_numeral|exact IH].
Qed.

Lemma L_C65_told : forall io el fuel c call s r s', client_call c call -> call s = (Val (Ok r), s') ->
  exists before text, cli_output io el fuel c s = (Val (before ++ [(LvInfo, el O ++ ": " ++ text)%string], Ok r), s') /\
    tells c r text.
Proof.
  intros io el fuel c call s r s' C E. command_cases C;
  match goal with |- context [single io ?d ?f ?m ?t ?rp s] => pose proof (single_cases _ io d f m t rp s) as K; rewrite E in K;
    destruct K as [y [-> [K1 K2]]]; rewrite K2; clear K2; exists ((LvDebug, d) :: (if r_alert y then [alert_line] else [])) end;
  cbn [tells].
  - eexists. split; [reflexivity|]. do 2 eexists. split; [reflexivity|]. split; apply dec_numeral.
  - eexists. split; reflexivity.
  - destruct (read_range 1 _ _ _ _ _ ltac:(lia) K1) as [v [V R]]. rewrite V. unfold read8_line. rewrite N2Z.id.
    eexists. split; [reflexivity|]. exists v. split; [reflexivity|]. apply (value_named 2); [exact R|lia].
  - destruct (read_range 2 _ _ _ _ _ ltac:(lia) K1) as [v [V R]]. rewrite V. unfold read16_line. rewrite N2Z.id.
    eexists. split; [reflexivity|]. exists v. split; [reflexivity|]. apply (value_named 4); [exact R|lia].
  - destruct (read_range 4 _ _ _ _ _ ltac:(lia) K1) as [v [V R]]. rewrite V. unfold read32_line. rewrite N2Z.id.
    eexists. split; [reflexivity|]. exists v. split; [reflexivity|]. apply long_named; [exact R|].
    change 0xFFFF%N with (N.ones 16). rewrite N.land_ones, N.shiftr_div_pow2. change (2 ^ 16)%N with 65536%N.
    change (2 ^ (8 * N.of_nat 4))%N with 4294967296%N in R. apply N.mod_small. lia.
  - eexists. split; [reflexivity|]. eexists. split; [reflexivity|]. apply bytes_named.
  - eexists. split; reflexivity.
  - eexists. split; reflexivity.
  - eexists. split; reflexivity.
  - eexists. split; reflexivity.
Qed.

Lemma items_told : forall io el l k, scan_lines io el k l (items_lines io el k l).
Proof.
  intros io el. induction l as [|x l IH]; intro k; cbn [scan_lines items_lines]; [reflexivity|].
  do 2 eexists. split; [reflexivity|]. split; [|apply IH]. destruct x as [r|e]; cbn [item_lines scan_item_lines]; [|reflexivity].
  unfold ping_lines. do 3 eexists. split; [reflexivity|]. split; [apply dec_numeral|]. split; apply dec_numeral.
Qed.

Lemma L_C65_scan_told : forall io el fuel s lines r s', cli_output io el fuel (CPing MBroadcast) s = (Val (lines, r), s') ->
  (exists e s1, scan s = (Val (Err e), s1) /\ r = Err tt /\
     lines = [(LvError, "Command failed: " ++ write_error_text io e)%string]) \/
  (exists s1 l, scan s = (Val (Ok tt), s1) /\ r = Ok (RepScan l) /\ scan_lines io el 0 l lines).
Proof.
  intros io el fuel s lines r s' H. destruct (scan_cases _ _ _ _ _ _ _ H) as [[e [s1 [E [-> ->]]]]|[l [-> ->]]].
  - left. eauto.
  - right. cbn [cli_output] in H. unfold bind in H. destruct (scan s) as [[[[]|e]|p|] s1]; try discriminate H.
    exists s1, l. split; [reflexivity|]. split; [reflexivity|]. apply items_told.
Qed.
