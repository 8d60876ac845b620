(** * VerboseTheorems: what the tool shows of the traffic (C91) *)
From Coq Require Import ZArith ZifyN ZifyNat ZifyBool Ascii String.
From Verif Require Import Base Endian Error Checksum Bytestuff Packet Time Bus Data Client Instructions Device Api Spec CallSpec
  StreamSpec Text Cli LogModel LogSpec CliOutput CliOutputSpec VerboseModel VerboseSpec Lib ReadProofs ApiProofs StreamProofs
  MessageProofs SendTheorems ReadTheorems TextTheorems TwinProofs DataSpec DataTheorems LogTheorems CliOutputTheorems.
Local Open Scope list_scope.
Ltac Zify.zify_post_hook ::= Z.div_mod_to_equations.

(** ** Logging has no effect *)

Lemma same_write : forall id i n enc, same (write_packet_log id i n enc) (write_packet id i n enc).
Proof. intros id i n enc s. apply L_C64_write_unchanged. Qed.
Lemma same_transfer : forall id i n k enc, same (transfer_single_log id i n k enc) (transfer_single id i n k enc).
Proof. intros id i n k enc s. apply L_C64_transfer_unchanged. Qed.
Lemma same_rsr : forall k, same (read_status_response_log k) (read_status_response k).
Proof.
  intros k. unfold read_status_response_log, read_status_response. apply same_bind; [apply same_quiet|]. intro s.
  apply same_bind; [apply same_quiet|]. intro t. apply same_rsrt.
Qed.
Lemma same_instruct : forall id i n enc, same (instruct_log id i n enc) (instruct id i n enc).
Proof.
  intros. unfold instruct_log, instruct. apply same_try; [apply same_write|]. intros _.
  apply same_try; [|intro; apply same_quiet].
  unfold read_response_if_not_broadcast_log, read_response_if_not_broadcast.
  destruct (beq id BROADCAST); [apply same_quiet|]. apply same_try; [apply same_rsr|]. intro. apply same_quiet.
Qed.
Lemma same_ping : forall id, same (ping_log id) (ping id).
Proof. intro. unfold ping_log, ping. apply same_try; [apply same_transfer|]. intro. apply same_quiet. Qed.
Lemma same_read_raw : forall id a n, same (read_raw_log id a n) (read_raw id a n).
Proof. intros. unfold read_raw_log, read_raw. apply same_try; [apply same_transfer|]. intro. apply same_quiet. Qed.
Lemma same_read_bytes : forall id a n, same (read_bytes_log id a n) (read_bytes id a n).
Proof. intros. unfold read_bytes_log, read_bytes. apply same_try; [apply same_read_raw|]. intro. apply same_quiet. Qed.
Lemma same_read : forall A (D : data_impl A) id a, same (read_log D id a) (read D id a).
Proof. intros. unfold read_log, read. apply same_try; [apply same_read_raw|]. intro. apply same_quiet. Qed.
Lemma same_scan_drop : forall fuel, same (scan_drop_log fuel) (scan_drop fuel).
Proof.
  induction fuel as [|fuel IH]; [apply same_quiet|]. cbn [scan_drop_log scan_drop].
  apply same_bind; [intro; apply L_C64_scan_unchanged|]. intros [x|]; [exact IH|apply same_quiet].
Qed.

(** [m] with its own lines is [n]. *)
Definition wsame {A} (m : W A) (n : M (list line * A)) : Prop := forall s,
  n s = (let '(o, s', es) := m s in
         (match o with Val r => Val (own_lines es, r) | Panic p => Panic p | Blocked => Blocked end, s')).

Lemma own_app : forall a b, own_lines (a ++ b) = own_lines a ++ own_lines b.
Proof. intros. apply flat_map_app. Qed.
Lemma own_lib : forall l, own_lines (map Lib l) = [].
Proof. induction l; [reflexivity|exact IHl]. Qed.
Lemma own_own : forall l, own_lines (map Own l) = l.
Proof. induction l as [|x l IH]; [reflexivity|]. cbn. f_equal. exact IH. Qed.
Lemma lib_app : forall a b, lib_records (a ++ b) = lib_records a ++ lib_records b.
Proof. intros. apply flat_map_app. Qed.
Lemma lib_lib : forall l, lib_records (map Lib l) = l.
Proof. induction l as [|x l IH]; [reflexivity|]. cbn. f_equal. exact IH. Qed.
Lemma lib_own : forall l, lib_records (map Own l) = [].
Proof. induction l; [reflexivity|exact IHl]. Qed.

Lemma single_same : forall A io debug failed m n (text : A -> string) rep, same m n ->
  wsame (single_verbose io debug failed m text rep) (single io debug failed n text rep).
Proof.
  intros A io debug failed m n text rep H s. unfold single, single_verbose, wbind, tell, lib, bind, ret, wret.
  rewrite <- H. destruct (m s) as [[[[r|e]|p|] s1] l]; cbn [fst map app]; try reflexivity.
  - f_equal. f_equal. f_equal. destruct (r_alert r); cbn [own_lines flat_map app]; fold (own_lines);
      change (Own (LvDebug, debug) :: ?x) with ([Own (LvDebug, debug)] ++ x);
      rewrite ?own_app, ?own_lib; reflexivity.
  - f_equal. f_equal. f_equal. cbn [own_lines flat_map app]. fold own_lines. rewrite ?own_app, ?own_lib. reflexivity.
Qed.

(** The exact run of a single call. *)
Lemma single_run : forall A io debug failed m (text : A -> string) rep s,
  single_verbose io debug failed m text rep s =
  let '(o, s', l) := m s in
  match o with
  | Val (Ok r) => (Val (Ok (rep r)), s', Own (LvDebug, debug) :: map Lib l ++
                     map Own ((if r_alert r then [alert_line] else []) ++ [(LvInfo, text (r_data r))]))
  | Val (Err e) => (Val (Err tt), s', Own (LvDebug, debug) :: map Lib l ++ map Own [(LvError, failed ++ transfer_error_text io e)%string])
  | Panic p => (Panic p, s', Own (LvDebug, debug) :: map Lib l ++ map Own [])
  | Blocked => (Blocked, s', Own (LvDebug, debug) :: map Lib l ++ map Own [])
  end.
Proof.
  intros. unfold single_verbose, wbind, tell, lib, wret.
  destruct (m s) as [[[[r|e]|p|] s1] l]; cbn [map app]; rewrite ?app_nil_r; try reflexivity.
  destruct (r_alert r); reflexivity.
Qed.

Lemma unicast_same : forall debug m k h, (forall id, wsame (k id) (h id)) ->
  wsame (unicast_verbose debug m k) (unicast debug m h).
Proof.
  intros debug m k h H. unfold unicast_verbose, unicast. destruct (assume_unicast m) as [id|e]; [apply H|].
  intro s. reflexivity.
Qed.

Lemma scan_verbose_same : forall io el fuel k la l s,
  scan_output io el fuel k (la, l) s =
  (let '(o, s', es) := scan_verbose io el fuel k l s in
   (match o with
    | Val (Some l') => Val (Some (la ++ own_lines es, l'))
    | Val None => Val None
    | Panic p => Panic p
    | Blocked => Blocked
    end, s')).
Proof.
  induction fuel as [|fuel IH]; intros k la l s; [reflexivity|].
  cbn [scan_output scan_verbose]. unfold bind at 1, wbind at 1, lib. rewrite <- L_C64_scan_unchanged.
  destruct (scan_next_log s) as [[[[x|]|p|] s1] lg]; cbn [fst snd]; try reflexivity.
  - rewrite IH. unfold wbind, tell. destruct (scan_verbose io el fuel (S k) (l ++ [x]) s1) as [[o s2] es].
    rewrite !own_app, own_lib, own_own. cbn [app]. rewrite <- app_assoc. destruct o as [[l'|]|p|]; reflexivity.
  - unfold ret, wret. rewrite app_nil_r, own_lib, app_nil_r. reflexivity.
Qed.

Lemma cli_wsame : forall io el fuel c, wsame (cli_verbose io el fuel c) (cli_output io el fuel c).
Proof.
  intros io el fuel c.
  destruct c as [[id|]|m|m a|m a|m a|m a n|m a v|m a v|m a v|m a data]; cbn [cli_output cli_verbose].
  { apply single_same, same_ping. }
  2:{ apply single_same. exact (same_instruct _ _ _ _). }
  2-4: apply unicast_same; intro; apply single_same, same_read.
  2:{ apply unicast_same; intro; apply single_same, same_read_bytes. }
  2-5: apply single_same; exact (same_instruct _ _ _ _).
  intro s. unfold bind at 1, wbind at 1, lib at 1, scan_log, scan, write_instruction.
  rewrite <- (same_write BROADCAST PING 0 no_params s).
  destruct (write_packet_log BROADCAST PING 0 no_params s) as [[[[u|e]|p|] s1] l1]; cbn [fst]; try reflexivity.
  - unfold bind at 1. rewrite (scan_verbose_same io el fuel 0 [] [] s1). unfold wbind at 1.
    destruct (scan_verbose io el fuel 0 [] s1) as [[[[l|]|p|] s2] es]; try reflexivity.
    unfold bind at 1, wbind at 1, lib. rewrite <- (same_scan_drop fuel s2).
    destruct (scan_drop_log fuel s2) as [[[[|]|p|] s3] l3]; cbn [fst]; try reflexivity.
    unfold ret, wret. rewrite app_nil_r, !own_app, !own_lib, app_nil_r. reflexivity.
  - unfold wbind, tell, wret, ret. cbn [map app]. rewrite own_app, own_lib. reflexivity.
Qed.

Lemma L_C91_same : forall io el fuel c s o s' es, cli_verbose io el fuel c s = (o, s', es) ->
  cli_output io el fuel c s =
  (match o with Val r => Val (own_lines es, r) | Panic p => Panic p | Blocked => Blocked end, s').
Proof. intros io el fuel c s o s' es E. rewrite (cli_wsame io el fuel c s), E. reflexivity. Qed.

(** ** What was sent *)

(** The log has the packets given to the serial port. *)
Definition told {A} (m : T A) : Prop := forall s o s' logs, inv s -> m s = (o, s', logs) ->
  (exists evs, calls s s' evs /\ sent_in logs = written_in evs) /\ (forall a, o = Val a -> inv s').

Lemma calls_app : forall s s1 s2 a b, calls s s1 a -> calls s1 s2 b -> calls s s2 (a ++ b).
Proof. unfold calls. intros s s1 s2 a b H K. rewrite K, H, app_assoc. reflexivity. Qed.

Lemma told_bind : forall A B (m : T A) (k : A -> T B), told m -> (forall a, told (k a)) -> told (tbind m k).
Proof.
  intros A B m k H K s o s' logs I E. unfold tbind in E. destruct (m s) as [[o1 s1] l1] eqn:E1.
  destruct (H s o1 s1 l1 I E1) as [[evs [C S]] I1].
  destruct o1 as [a|p|]; [|injection E as <- <- <-; split; [eauto|discriminate]..].
  destruct (k a s1) as [[o2 s2] l2] eqn:E2. injection E as <- <- <-.
  destruct (K a s1 o2 s2 l2 (I1 _ eq_refl) E2) as [[evs2 [C2 S2]] I2]. split; [|exact I2].
  exists (evs ++ evs2). split; [eapply calls_app; eassumption|]. rewrite sent_app, written_app. congruence.
Qed.

Lemma told_pure : forall A (m : M A), (forall s, snd (m s) = s) -> told (quiet m).
Proof.
  intros A m H s o s' logs I E. unfold quiet in E. specialize (H s). destruct (m s) as [o1 s1]. cbn in H. subst s1.
  injection E as <- <- <-. split; [exists []; split; [apply calls_refl|reflexivity]|auto].
Qed.
Lemma told_ret : forall A (a : A), told (quiet (ret a)).
Proof. intros. apply told_pure. reflexivity. Qed.
Lemma told_lift : forall A (x : out A), told (quiet (lift x)).
Proof. intros. apply told_pure. reflexivity. Qed.

Lemma told_try : forall A B E F (f : E -> F) (m : T (result A E)) (k : A -> T (result B F)),
  told m -> (forall a, told (k a)) -> told (ttry f m k).
Proof. intros. apply told_bind; [assumption|]. intros [a|e]; [auto|apply told_ret]. Qed.

Lemma told_write : forall id i n enc, encoder_ok enc -> told (write_packet_log id i n enc).
Proof.
  intros id i n enc C s o s' logs I W. destruct (L_C64_write id i n enc s o s' logs W) as [evs [A [B _]]].
  split; [exists evs; auto|]. intros a ->.
  assert (W1 : write_packet id i n enc s = (Val a, s')) by (rewrite <- L_C64_write_unchanged, W; reflexivity).
  apply (keeps_wi id i n enc C s _ s' I W1).
Qed.

Lemma told_read : forall d, told (read_packet_deadline_log d).
Proof.
  intros d s o s' logs I W.
  assert (W1 : read_packet_deadline d s = (o, s')) by (rewrite <- L_C64_read_unchanged, W; reflexivity).
  destruct (read_no_writes d s o s' I W1) as [evs [A B]].
  pose proof (keeps_read_packet d s o s' I W1) as [I1 _]. split; [|auto]. exists evs. split; [exact A|]. rewrite B.
  destruct (Nat.leb_spec 10 (List.length (b_rbuf s))) as [Hc|Hc].
  - destruct (read_log_story d s o s' logs (proj1 I) Hc W) as [g [ws [_ [_ [K _]]]]]. exact K.
  - rewrite read_log_small in W by exact Hc. injection W as _ _ <-. reflexivity.
Qed.

Lemma told_deadline : forall t, told (quiet (port_make_deadline t)).
Proof.
  intros t s o s' logs I E. unfold quiet in E. destruct (port_make_deadline t s) as [o1 s1] eqn:E1.
  injection E as <- <- <-. pose proof (keeps_make_deadline t s o1 s1 I E1) as [I1 _].
  split; [|auto]. injection E1 as <- <-. eexists. split; [reflexivity|]. reflexivity.
Qed.

Ltac pure := apply told_pure; intro; unfold bind, lift, ret, tryr;
  repeat (match goal with |- context [match ?x with _ => _ end] => destruct x end); reflexivity.

Lemma told_rsrt : forall t, told (read_status_response_timeout_log t).
Proof.
  intro t. unfold read_status_response_timeout_log. apply told_bind; [apply told_deadline|]. intro d.
  apply told_try; [apply told_read|]. intro p. pure.
Qed.
Lemma told_rsr : forall k, told (read_status_response_log k).
Proof.
  intro k. unfold read_status_response_log. apply told_bind; [pure|]. intro s. apply told_bind; [apply told_lift|]. intro t.
  apply told_rsrt.
Qed.
Lemma told_transfer : forall id i n k enc, encoder_ok enc -> told (transfer_single_log id i n k enc).
Proof.
  intros id i n k enc C. unfold transfer_single_log. apply told_try; [apply told_write, C|]. intros _.
  apply told_try; [apply told_rsr|]. intro p. apply told_bind; [apply told_lift|]. intro rid. pure.
Qed.
Lemma told_instruct : forall id i n enc, encoder_ok enc -> told (instruct_log id i n enc).
Proof.
  intros id i n enc C. unfold instruct_log. apply told_try; [apply told_write, C|]. intros _.
  apply told_try; [|intro; apply told_ret]. unfold read_response_if_not_broadcast_log.
  destruct (beq id BROADCAST); [apply told_ret|]. apply told_try; [apply told_rsr|]. intro p. pure.
Qed.
Lemma told_read_raw : forall id a n, told (read_raw_log id a n).
Proof. intros. unfold read_raw_log. apply told_try; [apply told_transfer, read_params_ok|]. intro p. pure. Qed.
Lemma told_scan_next : told scan_next_log.
Proof.
  unfold scan_next_log. apply told_bind.
  - unfold scan_next_response_log. apply told_bind; [pure|]. intro s. apply told_bind; [apply told_lift|]. intro t.
    apply told_try; [apply told_rsrt|]. intro p. pure.
  - intros [r|e]; [apply told_ret|]. destruct e as [e|e|e|e]; try apply told_ret.
    destruct (is_timeout_error e); [|apply told_ret]. apply told_bind; [|intros _; apply told_ret].
    intros s o s' logs I E. injection E as <- <- <-. split; [exists []; split; [apply calls_refl|reflexivity]|auto].
Qed.
Lemma told_scan_drop : forall fuel, told (scan_drop_log fuel).
Proof.
  induction fuel as [|fuel IH]; [apply told_ret|]. cbn [scan_drop_log]. apply told_bind; [apply told_scan_next|].
  intros [x|]; [exact IH|apply told_ret].
Qed.

(** The same with the lines of the tool, which are never of level trace. *)
Definition wtold {A} (m : W A) : Prop := forall s o s' es, inv s -> m s = (o, s', es) ->
  (exists evs, calls s s' evs /\ sent_in (lib_records es) = written_in evs) /\
  Forall (fun x : line => fst x <> LvTrace) (own_lines es) /\ (forall a, o = Val a -> inv s').

Lemma wtold_bind : forall A B (m : W A) (k : A -> W B), wtold m -> (forall a, wtold (k a)) -> wtold (wbind m k).
Proof.
  intros A B m k H K s o s' es I E. unfold wbind in E. destruct (m s) as [[o1 s1] l1] eqn:E1.
  destruct (H s o1 s1 l1 I E1) as [[evs [C S]] [N1 I1]].
  destruct o1 as [a|p|]; [|injection E as <- <- <-; split; [eauto|split; [exact N1|discriminate]]..].
  destruct (k a s1) as [[o2 s2] l2] eqn:E2. injection E as <- <- <-.
  destruct (K a s1 o2 s2 l2 (I1 _ eq_refl) E2) as [[evs2 [C2 S2]] [N2 I2]].
  split; [|split; [rewrite own_app; apply Forall_app; auto|exact I2]].
  exists (evs ++ evs2). split; [eapply calls_app; eassumption|]. rewrite lib_app, sent_app, written_app. congruence.
Qed.
Lemma wtold_tell : forall l, Forall (fun x : line => fst x <> LvTrace) l -> wtold (tell l).
Proof.
  intros l H s o s' es I E. injection E as <- <- <-. rewrite lib_own, own_own.
  split; [exists []; split; [apply calls_refl|reflexivity]|auto].
Qed.
Lemma wtold_wret : forall A (a : A), wtold (wret a).
Proof.
  intros A a s o s' es I E. injection E as <- <- <-.
  split; [exists []; split; [apply calls_refl|reflexivity]|split; [constructor|auto]].
Qed.
Lemma wtold_stuck : forall A, wtold (@stuck A).
Proof.
  intros A s o s' es I E. injection E as <- <- <-.
  split; [exists []; split; [apply calls_refl|reflexivity]|split; [constructor|discriminate]].
Qed.
Lemma wtold_lib : forall A (m : T A), told m -> wtold (lib m).
Proof.
  intros A m H s o s' es I E. unfold lib in E. destruct (m s) as [[o1 s1] l1] eqn:E1. injection E as <- <- <-.
  destruct (H s o1 s1 l1 I E1) as [X Y]. rewrite lib_lib, own_lib. split; [exact X|split; [constructor|exact Y]].
Qed.

Ltac line_levels := repeat constructor; cbn; discriminate.

Lemma wtold_single : forall A io debug failed m (text : A -> string) rep, told m ->
  wtold (single_verbose io debug failed m text rep).
Proof.
  intros. unfold single_verbose. apply wtold_bind; [apply wtold_tell; line_levels|]. intros _.
  apply wtold_bind; [apply wtold_lib; assumption|]. intros [r|e].
  - apply wtold_bind; [destruct (r_alert r); [apply wtold_tell; line_levels|apply wtold_wret]|]. intros _.
    apply wtold_bind; [apply wtold_tell; line_levels|]. intros _. apply wtold_wret.
  - apply wtold_bind; [apply wtold_tell; line_levels|]. intros _. apply wtold_wret.
Qed.

Lemma wtold_scan : forall io el fuel k l, wtold (scan_verbose io el fuel k l).
Proof.
  induction fuel as [|fuel IH]; intros k l; [apply wtold_wret|]. cbn [scan_verbose].
  apply wtold_bind; [apply wtold_lib, told_scan_next|]. intros [x|]; [|apply wtold_wret].
  apply wtold_bind; [|intros _; apply IH]. apply wtold_tell.
  destruct x as [r|e]; cbn [scan_item_lines]; [|line_levels]. unfold ping_lines. destruct (r_alert r); line_levels.
Qed.

Lemma int_ok : forall signed w, In w [1; 2; 4; 8; 16] -> data_ok (data_int signed w).
Proof. intros signed w H. exact (crate_data_ok _ _ _ _ (ct_int signed w H)). Qed.

Lemma cli_wtold : forall io el fuel c, wtold (cli_verbose io el fuel c).
Proof.
  intros io el fuel c.
  destruct c as [[id|]|m|m a|m a|m a|m a n|m a v|m a v|m a v|m a data]; cbn [cli_verbose];
    [| | |unfold unicast_verbose; destruct (assume_unicast m) as [id|e];
         [|apply wtold_bind; [apply wtold_tell; line_levels|intros _; apply wtold_wret]]..| | | |];
    [apply wtold_single| |apply wtold_single..].
  2:{ apply wtold_bind; [apply wtold_lib, told_write, no_params_ok|]. intros [u|e].
      - apply wtold_bind; [apply wtold_scan|]. intros [l|]; [|apply wtold_stuck].
        apply wtold_bind; [apply wtold_lib, told_scan_drop|]. intros [|]; [apply wtold_wret|apply wtold_stuck].
      - apply wtold_bind; [apply wtold_tell; line_levels|]. intros _. apply wtold_wret. }
  - unfold ping_log. apply told_try; [apply told_transfer, no_params_ok|]. intro p. pure.
  - apply told_instruct, no_params_ok.
  - unfold read_log. apply told_try; [apply told_read_raw|]. intro p. pure.
  - unfold read_log. apply told_try; [apply told_read_raw|]. intro p. pure.
  - unfold read_log. apply told_try; [apply told_read_raw|]. intro p. pure.
  - unfold read_bytes_log. apply told_try; [apply told_read_raw|]. intro p. pure.
  - apply told_instruct, address_and_value_ok, int_ok; cbn; tauto.
  - apply told_instruct, address_and_value_ok, int_ok; cbn; tauto.
  - apply told_instruct, address_and_value_ok, int_ok; cbn; tauto.
  - apply told_instruct, address_and_bytes_ok.
Qed.

(** ** The screen *)

Lemma prefix_self : forall a b, String.prefix a (a ++ b)%string = true.
Proof.
  induction a as [|x a IH]; intro b; [destruct b; reflexivity|]. cbn [append String.prefix].
  destruct (Ascii.ascii_dec x x); [apply IH|congruence].
Qed.
Lemma substring_all : forall b, substring 0 (String.length b) b = b.
Proof. induction b as [|x b IH]; [reflexivity|]. cbn. f_equal. exact IH. Qed.
Lemma substring_self : forall a b,
  substring (String.length a) (String.length (a ++ b) - String.length a) (a ++ b)%string = b.
Proof. induction a as [|x a IH]; intro b; [cbn; rewrite Nat.sub_0_r; apply substring_all|]. cbn. apply IH. Qed.

Lemma after_cons : forall mark t l, after mark (t :: l) =
  (if String.prefix mark t then [substring (String.length mark) (String.length t - String.length mark) t] else []) ++ after mark l.
Proof. reflexivity. Qed.

(** What a mark selects, when all lines are shown. *)
Lemma after_all : forall mark (f : log_record -> list string) lines,
  (forall l t, l <> LvTrace -> String.prefix mark (prefix l ++ " " ++ t)%string = false) ->
  (forall r, after mark [prefix (fst (entry_line (Lib r))) ++ " " ++ record_text r]%string = f r) ->
  Forall (fun x : line => fst x <> LvTrace) (own_lines lines) ->
  after mark (map (fun x => prefix (fst x) ++ " " ++ snd x)%string (map entry_line lines)) = flat_map f (lib_records lines).
Proof.
  intros mark f lines Ho Hl. induction lines as [|e lines IH]; intro N; [reflexivity|]. cbn [map]. rewrite after_cons.
  destruct e as [[l t]|r].
  - change (own_lines (Own (l, t) :: lines)) with ((l, t) :: own_lines lines) in N. inversion N as [|x y Nx Ny]. subst.
    cbn [entry_line fst snd]. rewrite Ho by exact Nx. cbn [app]. apply IH, Ny.
  - change (own_lines (Lib r :: lines)) with (own_lines lines) in N.
    change (lib_records (Lib r :: lines)) with (r :: lib_records lines). cbn [flat_map]. rewrite <- IH by exact N.
    rewrite <- (Hl r). f_equal. rewrite after_cons. cbn [after flat_map]. rewrite app_nil_r. reflexivity.
Qed.

Lemma mark_text : forall a b, after a [a ++ b]%string = [b].
Proof. intros. rewrite after_cons, prefix_self, substring_self. reflexivity. Qed.

Lemma shown_all : forall v (l : list line), (2 <= v < 256)%N -> shown v l = l.
Proof.
  intros v l H. unfold shown. destruct (log_filter_cases v ltac:(lia)) as [[-> _]|[[-> _]|[_ E]]]; [lia|lia|]. rewrite E.
  apply filter_all. apply Forall_forall. intros [x t] _. destruct x; reflexivity.
Qed.

Definition sending_mark : string := "Trace:  sending packet: ".
Definition read_mark : string := "Trace:  read packet: ".

Lemma not_trace : forall m l t, l <> LvTrace -> String.prefix (String "T" m) (prefix l ++ " " ++ t)%string = false.
Proof. intros m [] t H; try reflexivity. congruence. Qed.

Lemma screen_sending : forall v es, (2 <= v < 256)%N -> Forall (fun x : line => fst x <> LvTrace) (own_lines es) ->
  after sending_mark (screen v es) = map hex2_array (sent_in (lib_records es)).
Proof.
  intros v es Hv N. unfold screen, printed. rewrite shown_all by exact Hv.
  rewrite (after_all sending_mark (fun r => match r with LogSending bs => [hex2_array bs] | _ => [] end)).
  - unfold sent_in. generalize (lib_records es). intro l. induction l as [|r l IH]; [reflexivity|].
    cbn [flat_map]. rewrite map_app, <- IH. destruct r; reflexivity.
  - intros. apply not_trace. assumption.
  - intros [bs|bs|n|bs|]; [apply (mark_text sending_mark)|reflexivity..].
  - exact N.
Qed.

Lemma screen_read : forall v es, (2 <= v < 256)%N -> Forall (fun x : line => fst x <> LvTrace) (own_lines es) ->
  after read_mark (screen v es) = map hex2_array (received_in (lib_records es)).
Proof.
  intros v es Hv N. unfold screen, printed. rewrite shown_all by exact Hv.
  rewrite (after_all read_mark (fun r => match r with LogReadPacket bs => [hex2_array bs] | _ => [] end)).
  - unfold received_in. generalize (lib_records es). intro l. induction l as [|r l IH]; [reflexivity|].
    cbn [flat_map]. rewrite map_app, <- IH. destruct r; reflexivity.
  - intros. apply not_trace. assumption.
  - intros [bs|bs|n|bs|]; [reflexivity|apply (mark_text read_mark)|reflexivity..].
  - exact N.
Qed.

Lemma screen_few : forall m v es, (v < 2)%N -> after (String "T" m) (screen v es) = [].
Proof.
  intros m v es Hv. unfold screen, printed, shown. generalize (map entry_line es). intro l.
  induction l as [|[x t] l IH]; [reflexivity|]. cbn [filter fst].
  destruct (level_rank x <=? log_filter (as_i8 v))%N eqn:S; [|exact IH]. cbn [map fst snd]. rewrite after_cons, IH, not_trace; [reflexivity|].
  intros ->. destruct (log_filter_cases v ltac:(lia)) as [[_ E]|[[_ E]|[L E]]]; rewrite E in S; cbn in S; lia.
Qed.

Lemma L_C91_traffic : forall io el fuel c s o s' es verbose, reach s -> cli_verbose io el fuel c s = (o, s', es) ->
  (verbose < 256)%N ->
  exists evs, calls s s' evs /\
    after "Trace:  sending packet: " (screen verbose es) = if (2 <=? verbose)%N then map hex2_array (written_in evs) else [].
Proof.
  intros io el fuel c s o s' es v R E Hv.
  destruct (cli_wtold io el fuel c s o s' es (reach_inv _ R) E) as [[evs [C S]] [N _]]. exists evs. split; [exact C|].
  destruct (N.leb_spec 2 v) as [L|L].
  - rewrite <- S. apply screen_sending; [lia|exact N].
  - apply screen_few. exact L.
Qed.

(** ** What the user is told anyway *)

Lemma printed_marks : forall v l, (v < 256)%N -> marked "Error: " (printed v l) = error_lines l /\ marked "Warning: " (printed v l) = warning_lines l.
Proof. intros. apply marked_printed. assumption. Qed.

Lemma errors_own : forall es, error_lines (map entry_line es) = error_lines (own_lines es) /\
  warning_lines (map entry_line es) = warning_lines (own_lines es).
Proof.
  induction es as [|e es [IH1 IH2]]; [split; reflexivity|]. unfold error_lines, warning_lines in *. destruct e as [[l t]|r]; cbn [map entry_line].
  - change (own_lines (Own (l, t) :: es)) with ((l, t) :: own_lines es). cbn [filter fst].
    destruct l; cbn [List.length]; rewrite ?IH1, ?IH2; split; reflexivity.
  - change (own_lines (Lib r :: es)) with (own_lines es). cbn [filter fst]. destruct (record_level r); split; assumption.
Qed.

Lemma L_C91_told_anyway : forall io el fuel c s r s' es lines verbose, cli_verbose io el fuel c s = (Val r, s', es) ->
  cli_output io el fuel c s = (Val (lines, r), s') -> (verbose < 256)%N ->
  screen 0 es = printed 0 lines /\
  marked "Error: " (screen verbose es) = marked "Error: " (printed verbose lines) /\
  marked "Warning: " (screen verbose es) = marked "Warning: " (printed verbose lines) /\
  (forall t, In t (printed verbose lines) -> In t (screen verbose es)).
Proof.
  intros io el fuel c s r s' es lines v E O Hv. rewrite (L_C91_same _ _ _ _ _ _ _ _ E) in O. injection O as <-.
  split.
  - clear E. unfold screen, printed, shown. induction es as [|e es IH]; [reflexivity|]. destruct e as [[l t]|x]; cbn [map entry_line].
    + change (own_lines (Own (l, t) :: es)) with ((l, t) :: own_lines es). cbn [filter fst].
      destruct (level_rank l <=? log_filter (as_i8 0))%N; cbn [map]; [f_equal|]; exact IH.
    + change (own_lines (Lib x :: es)) with (own_lines es). cbn [filter fst].
      destruct (record_level x); exact IH.
  - unfold screen. destruct (printed_marks v (map entry_line es) Hv) as [-> ->], (printed_marks v (own_lines es) Hv) as [-> ->].
    destruct (errors_own es) as [-> ->]. split; [reflexivity|]. split; [reflexivity|].
    intros t H. unfold printed, shown in *. apply in_map_iff in H. destruct H as [x [<- H]].
    apply filter_In in H. destruct H as [H K]. apply in_map_iff. exists x. split; [reflexivity|]. apply filter_In. split; [|exact K].
    apply in_map_iff. exists (Own x). split; [reflexivity|]. unfold own_lines in H. apply in_flat_map in H.
    destruct H as [[y|y] [H1 H2]]; cbn in H2; [destruct H2 as [->|[]]; exact H1|destruct H2].
Qed.

(** ** The order *)

Lemma single_shape : forall A io debug failed m (text : A -> string) rep s o s' es,
  single_verbose io debug failed m text rep s = (o, s', es) ->
  exists d ls tail, es = Own (LvDebug, d) :: map Lib ls ++ map Own tail /\ (tail <> [] <-> exists r, o = Val r).
Proof.
  intros A io debug failed m text rep s o s' es E. rewrite single_run in E.
  destruct (m s) as [[[[r|e]|p|] s1] l]; injection E as <- <- <-.
  - exists debug, l, ((if r_alert r then [alert_line] else []) ++ [(LvInfo, text (r_data r))]).
    split; [reflexivity|]. split; [eauto|]. intros _. destruct (r_alert r); discriminate.
  - exists debug, l, [(LvError, failed ++ transfer_error_text io e)%string].
    split; [reflexivity|]. split; [eauto|]. discriminate.
  - exists debug, l, []. split; [reflexivity|]. split; [congruence|]. intros [x X]. discriminate X.
  - exists debug, l, []. split; [reflexivity|]. split; [congruence|]. intros [x X]. discriminate X.
Qed.

Lemma L_C91_order : forall io el fuel c call s o s' es, client_call c call -> cli_verbose io el fuel c s = (o, s', es) ->
  exists d ls tail, es = Own (LvDebug, d) :: map Lib ls ++ map Own tail /\ (tail <> [] <-> exists r, o = Val r).
Proof.
  intros io el fuel c call s o s' es C E. destruct C; cbn [cli_verbose] in E; unfold unicast_verbose in E; cbn [assume_unicast] in E;
    eapply single_shape; exact E.
Qed.

(** ** One message and its answer *)

Lemma write_log_ok : forall id i n enc s s1 l, inv s -> encoder_ok enc -> write_packet_log id i n enc s = (Val (Ok tt), s1, l) ->
  exists w, l = [LogSending w] /\ inv s1 /\ b_used s1 = 0 /\ pending s1 = items (p_script (b_port s)).
Proof.
  intros id i n enc s s1 l I He W.
  assert (W1 : write_packet id i n enc s = (Val (Ok tt), s1)) by (rewrite <- L_C64_write_unchanged, W; reflexivity).
  destruct (write_packet_ok_calls id i n enc s s1 W1) as [w Hw]. exists w.
  destruct (L_C64_write id i n enc s _ s1 l W) as [evs [A [B [D _]]]]. pose proof (calls_inj _ _ _ _ A Hw) as ->.
  cbn in D. split; [exact D|].
  split; [apply (keeps_wi id i n enc He s _ s1 I W1)|]. clear A B D Hw W. revert W1.
  unfold write_packet, bind, get, lift, put.
  destruct (build_packet _ _ _ _ _ _) as [[b r]|p|]; [|discriminate..].
  unfold tryr, ret. destruct r as [ci|e]; [|discriminate].
  unfold try_, bind, port_discard, ret. cbn [b_port set_used set_rlen set_wbuf].
  destruct (match p_discards (b_port s) with [] => None | r :: _ => r end) as [e|]; [discriminate|].
  destruct (slice_to b (ci + 2)) as [x|p|]; [|discriminate..].
  unfold port_write_all. cbn [b_port set_port log_event p_writes].
  destruct (match p_writes (b_port s) with [] => None | r :: _ => r end) as [e|]; [discriminate|].
  intro K. injection K as <-. split; reflexivity.
Qed.

(** The lines about garbage come in pairs: the number of bytes, the bytes. *)
Definition skip_counts (l : list log_record) : list nat :=
  flat_map (fun r => match r with LogSkipping n => [n] | _ => [] end) l.
Definition skip_parts (l : list log_record) : list (list byte) :=
  flat_map (fun r => match r with LogSkipped bs => [bs] | _ => [] end) l.
Definition paired (l : list log_record) : Prop :=
  skip_counts l = map (@List.length byte) (skip_parts l) /\ Forall (fun p => p <> []) (skip_parts l).

Lemma paired_nil : paired [].
Proof. split; [reflexivity|constructor]. Qed.
Lemma paired_app : forall a b, paired a -> paired b -> paired (a ++ b).
Proof.
  intros a b [A1 A2] [B1 B2]. unfold paired, skip_counts, skip_parts in *. rewrite !flat_map_app, map_app. split; [congruence|].
  apply Forall_app. auto.
Qed.
Lemma garbage_parts : forall l, garbage_in l = List.concat (skip_parts l).
Proof.
  induction l as [|r l IH]; [reflexivity|]. unfold garbage_in, skip_parts in *. cbn [flat_map]. rewrite concat_app, <- IH.
  destruct r; cbn [List.concat app]; rewrite ?app_nil_r; reflexivity.
Qed.

Definition pairs {A} (m : T A) : Prop := forall s a s' l, m s = (Val a, s', l) -> paired l.
Lemma pairs_quiet : forall A (m : M A), pairs (quiet m).
Proof. intros A m s a s' l E. unfold quiet in E. injection E as _ <-. apply paired_nil. Qed.
Lemma pairs_bind : forall A B (m : T A) (k : A -> T B), pairs m -> (forall a, pairs (k a)) -> pairs (tbind m k).
Proof.
  intros A B m k H K s b s' l E. unfold tbind in E. destruct (m s) as [[[a|p|] s1] l1] eqn:E1; try discriminate E.
  destruct (k a s1) as [[o2 s2] l2] eqn:E2. injection E as -> <- <-. apply paired_app; [exact (H _ _ _ _ E1)|exact (K _ _ _ _ _ E2)].
Qed.
Lemma pairs_try : forall A B E F (f : E -> F) (m : T (result A E)) (k : A -> T (result B F)),
  pairs m -> (forall a, pairs (k a)) -> pairs (ttry f m k).
Proof. intros. apply pairs_bind; [assumption|]. intros [a|e]; [auto|apply pairs_quiet]. Qed.
Lemma pairs_garbage : pairs remove_garbage_log.
Proof.
  unfold remove_garbage_log. apply pairs_bind; [apply pairs_quiet|]. intro s. apply pairs_bind; [apply pairs_quiet|]. intro v.
  apply pairs_bind; [apply pairs_quiet|]. intro u. cbv zeta. apply pairs_bind.
  - destruct (Nat.ltb_spec 0 (find_header u)) as [L|L]; [|apply pairs_quiet].
    intros t a t' l E. unfold tbind, say, quiet, lift in E. destruct (slice_to_cases (b_rbuf s) (find_header u)) as [[K C]|[[q K] C]]; rewrite K in E; [|discriminate E].
    injection E as _ _ <-. clear K. split.
    + cbn. rewrite firstn_length. f_equal. lia.
    + cbn. constructor; [|constructor]. intro K. apply (f_equal (@List.length byte)) in K. rewrite firstn_length in K. cbn in K. lia.
  - intros _. apply pairs_bind; [apply pairs_quiet|]. intros _. apply pairs_bind; [apply pairs_quiet|]. intro s2.
    destruct (b_dbg s2 && negb (b_used s2 =? 0)); apply pairs_quiet.
Qed.
Lemma pairs_loop : forall fuel d, pairs (read_loop_log fuel d).
Proof.
  induction fuel as [|fuel IH]; intro d; [apply pairs_quiet|]. cbn [read_loop_log].
  apply pairs_bind; [apply pairs_garbage|]. intros _. apply pairs_bind; [apply pairs_quiet|]. intro s.
  apply pairs_bind; [apply pairs_quiet|]. intros [[n|]|e]; try apply pairs_quiet.
  apply pairs_bind; [apply pairs_quiet|]. intro s2. apply pairs_bind; [apply pairs_quiet|]. intro f.
  apply pairs_try; [apply pairs_quiet|]. intro n. apply pairs_bind; [apply pairs_quiet|]. intro s3.
  apply pairs_bind; [apply pairs_quiet|]. intros _. apply IH.
Qed.
Lemma pairs_say : forall r, (match r with LogSkipping _ | LogSkipped _ => False | _ => True end) -> pairs (say r).
Proof. intros r H s a s' l E. injection E as _ _ <-. destruct r; try destruct H; split; constructor. Qed.
Lemma pairs_read : forall d, pairs (read_packet_deadline_log d).
Proof.
  intro d. unfold read_packet_deadline_log. apply pairs_bind; [apply pairs_quiet|]. intro s.
  unfold ttryr. destruct (bts_check _ _); [|apply pairs_quiet]. apply pairs_try; [apply pairs_loop|]. intro n.
  unfold finish_packet_log. apply pairs_bind; [apply pairs_quiet|]. intro s2. apply pairs_bind; [apply pairs_quiet|]. intro e.
  apply pairs_bind; [apply pairs_quiet|]. intro x. apply pairs_bind; [apply pairs_say; exact I|]. intros _. apply pairs_quiet.
Qed.
Lemma pairs_rsr : forall k, pairs (read_status_response_log k).
Proof.
  intro k. unfold read_status_response_log. apply pairs_bind; [apply pairs_quiet|]. intro s. apply pairs_bind; [apply pairs_quiet|].
  intro t. unfold read_status_response_timeout_log. apply pairs_bind; [apply pairs_quiet|]. intro d.
  apply pairs_try; [apply pairs_read|]. intro p. apply pairs_quiet.
Qed.

Lemma rsr_log_ok : forall k s p s' logs, inv s -> b_used s = 0 -> read_status_response_log k s = (Val (Ok p), s', logs) ->
  exists g m c, pending s = map inl (g ++ m ++ c) ++ pending s' /\ garbage_split (g ++ m ++ c) g (m ++ c) /\ List.length c = 2 /\
    sent_in logs = [] /\ received_in logs = [m] /\ garbage_in logs = g.
Proof.
  intros k s1 p s' logs I1 U1 E. unfold read_status_response_log in E.
  rewrite tbind_quiet in E. cbn [get] in E. rewrite tbind_quiet in E. unfold lift at 1 in E.
  destruct (response_timeout (b_dbg s1) (b_baud s1) k) as [tm|x|]; [|discriminate..].
  unfold read_status_response_timeout_log in E. rewrite tbind_quiet in E.
  unfold port_make_deadline in E.
  set (s2 := set_port s1 _) in E. set (d := mkDeadline _ _) in E.
  assert (P2 : pending s2 = pending s1) by reflexivity.
  assert (Ok2 : rd_ok s2) by exact (proj1 I1).
  assert (U2 : b_used s2 = 0) by exact U1.
  clearbody s2. unfold ttry at 1, tbind at 1 in E.
  destruct (read_packet_deadline_log d s2) as [[o3 s3] l3] eqn:Rd.
  destruct (Nat.leb_spec 10 (List.length (b_rbuf s2))) as [Hc|Hc].
  2:{ rewrite read_log_small in Rd by exact Hc. injection Rd as <- <- <-. cbn in E. discriminate E. }
  destruct (read_log_story d s2 o3 s3 l3 Ok2 Hc Rd) as [g [ws [St [L1 [L2 [_ [L3 _]]]]]]].
  destruct o3 as [[q|e]|x|]; [|cbn in E; discriminate E..].
  unfold quiet at 1 in E.
  match type of E with context [bind (lift (as_status q)) ?h s3] => set (kk := bind (lift (as_status q)) h) in E end.
  assert (Sk : forall o4 s4, kk s3 = (o4, s4) -> s4 = s3).
  { intros o4 s4. unfold kk, bind, lift, ret. destruct (as_status q) as [[st|]|x|]; try congruence.
    - destruct (st_error st); try congruence. unfold tryr. destruct (motor_error_check _); unfold ret; congruence.
    - destruct (pk_instruction q); congruence. }
  destruct (kk s3) as [o4 s4] eqn:K. pose proof (Sk _ _ eq_refl) as ->. clear kk Sk K.
  rewrite app_nil_r in E. injection E as _ <- <-.
  inversion St as [p0 g0 m c E1 E2 E3| | | | |]. subst.
  exists g, m, c. rewrite <- P2. auto 10.
Qed.

(** A call that sends one packet and takes one message. *)
Definition exchange {A} (m : T (result A transfer_error)) : Prop := forall s r s' logs, inv s -> m s = (Val (Ok r), s', logs) ->
  exists w g x c, sent_in logs = [w] /\ received_in logs = [x] /\ List.length c = 2 /\
    items (p_script (b_port s)) = map inl (g ++ x ++ c) ++ pending s' /\ garbage_split (g ++ x ++ c) g (x ++ c) /\
    garbage_in logs = g /\ paired logs.

Lemma exchange_write_read : forall A id i n k enc (h : packet -> T (result A transfer_error)), encoder_ok enc ->
  (forall p s o s' l, h p s = (o, s', l) -> s' = s /\ l = []) ->
  exchange (ttry TWriteError (write_packet_log id i n enc) (fun _ => ttry TReadError (read_status_response_log k) h)).
Proof.
  intros A id i n k enc h He Hh s r s' logs I E. unfold ttry at 1, tbind at 1 in E.
  destruct (write_packet_log id i n enc s) as [[[[[]|e]|p|] s1] l1] eqn:W; [|discriminate..].
  destruct (write_log_ok _ _ _ _ _ _ _ I He W) as [w [-> [I1 [U1 P1]]]].
  unfold ttry, tbind in E. destruct (read_status_response_log k s1) as [[[[p|e]|x|] s2] l2] eqn:Rd; [|discriminate..].
  destruct (h p s2) as [[o3 s3] l3] eqn:H3. destruct (Hh _ _ _ _ _ H3) as [-> ->]. injection E as _ <- <-.
  destruct (rsr_log_ok _ _ _ _ _ I1 U1 Rd) as [g [m [c [P [G [L [S1 [S2 S3]]]]]]]].
  pose proof (pairs_rsr _ _ _ _ _ Rd) as Pr.
  exists w, g, m, c. rewrite app_nil_r. change (LogSending w :: l2) with ([LogSending w] ++ l2).
  rewrite sent_app, received_app, garbage_app, S1, S2, S3. rewrite <- P1.
  repeat (split; [auto; fail|]). apply paired_app; [|exact Pr]. split; constructor.
Qed.

Lemma exchange_then : forall A B (m : T (result A transfer_error)) (h : A -> M (result B transfer_error)), exchange m ->
  (forall a s, snd (h a s) = s) -> exchange (ttry (fun e => e) m (fun a => quiet (h a))).
Proof.
  intros A B m h H P s r s' logs I E. unfold ttry, tbind in E. destruct (m s) as [[[[a|e]|p|] s1] l1] eqn:M1; [|discriminate..].
  unfold quiet in E. specialize (P a s1). destruct (h a s1) as [o2 s2]. cbn in P. subst s2. rewrite app_nil_r in E.
  injection E as _ <- <-. exact (H _ _ _ _ I M1).
Qed.

Ltac pure_state := intros; unfold bind, lift, ret, tryr;
  repeat (match goal with |- context [match ?x with _ => _ end] => destruct x end); reflexivity.

Lemma exchange_transfer : forall id i n k enc, encoder_ok enc -> exchange (transfer_single_log id i n k enc).
Proof.
  intros id i n k enc He. apply exchange_write_read; [exact He|]. intros p s o s' l E.
  rewrite tbind_quiet in E. unfold lift in E. destruct (pk_id p) as [rid|x|]; [|injection E as _ <- <-; auto..].
  unfold quiet, tryr in E. destruct (packet_id_check rid id); unfold ret in E; injection E as _ <- <-; auto.
Qed.

Lemma exchange_instruct : forall id i n enc, encoder_ok enc -> id <> BROADCAST -> exchange (instruct_log id i n enc).
Proof.
  intros id i n enc He Hid s r s' logs I E.
  refine (exchange_write_read _ id i n 0 enc (fun p => quiet (r <- lift (response_unit p) ;;
     ret (map_err (fun e => TReadError (RInvalidMessage e)) r))) He _ s r s' logs I _).
  - intros p s0 o s0' l K. unfold quiet, bind, lift, ret in K. destruct (response_unit p); injection K as _ <- <-; auto.
  - rewrite <- E. unfold instruct_log, read_response_if_not_broadcast_log.
    destruct (beq id BROADCAST) eqn:B; [exfalso; apply Hid; apply beq_true; exact B|].
    unfold ttry, tbind. destruct (write_packet_log id i n enc s) as [[[[[]|e]|p|] s1] l1]; try reflexivity.
    destruct (read_status_response_log 0 s1) as [[[[p|e]|x|] s2] l2]; try reflexivity.
    2:{ unfold quiet, ret. rewrite !app_nil_r. reflexivity. }
    unfold quiet, bind, lift, ret. destruct (response_unit p) as [[y|e]|x|]; cbn [map_err]; rewrite ?app_nil_r; reflexivity.
Qed.

Lemma exchange_read_raw : forall id a n, exchange (read_raw_log id a n).
Proof. intros. unfold read_raw_log. apply exchange_then; [apply exchange_transfer, read_params_ok|]. pure_state. Qed.

Lemma single_exchange : forall A io debug failed m (text : A -> string) rep s r s' es, exchange m -> inv s ->
  single_verbose io debug failed m text rep s = (Val (Ok r), s', es) ->
  exists w g x c, sent_in (lib_records es) = [w] /\ received_in (lib_records es) = [x] /\ List.length c = 2 /\
    items (p_script (b_port s)) = map inl (g ++ x ++ c) ++ pending s' /\ garbage_split (g ++ x ++ c) g (x ++ c) /\
    garbage_in (lib_records es) = g /\ paired (lib_records es).
Proof.
  intros A io debug failed m text rep s r s' es H I E. rewrite single_run in E.
  destruct (m s) as [[[[y|e]|p|] s1] l] eqn:M1; try discriminate E. injection E as _ <- <-.
  change (lib_records (Own (LvDebug, debug) :: ?x)) with (lib_records x). rewrite lib_app, lib_lib, lib_own, app_nil_r.
  exact (H _ _ _ _ I M1).
Qed.

Lemma command_exchange : forall io el fuel c call s r s' es, client_call c call -> target c <> BROADCAST -> inv s ->
  cli_verbose io el fuel c s = (Val (Ok r), s', es) ->
  exists w g x e, sent_in (lib_records es) = [w] /\ received_in (lib_records es) = [x] /\ List.length e = 2 /\
    items (p_script (b_port s)) = map inl (g ++ x ++ e) ++ pending s' /\ garbage_split (g ++ x ++ e) g (x ++ e) /\
    garbage_in (lib_records es) = g /\ paired (lib_records es).
Proof.
  intros io el fuel c call s r s' es C B I E. unfold target in B.
  destruct C; cbn [cli_verbose] in E; unfold unicast_verbose in E; cbn [assume_unicast] in E;
    (eapply single_exchange; [|exact I|exact E]).
  - unfold ping_log. apply exchange_then; [apply exchange_transfer, no_params_ok|]. pure_state.
  - apply exchange_instruct; [apply no_params_ok|exact B].
  - unfold read_log. apply exchange_then; [apply exchange_read_raw|]. pure_state.
  - unfold read_log. apply exchange_then; [apply exchange_read_raw|]. pure_state.
  - unfold read_log. apply exchange_then; [apply exchange_read_raw|]. pure_state.
  - unfold read_bytes_log. apply exchange_then; [apply exchange_read_raw|]. pure_state.
  - apply exchange_instruct; [apply address_and_value_ok, int_ok; cbn; tauto|exact B].
  - apply exchange_instruct; [apply address_and_value_ok, int_ok; cbn; tauto|exact B].
  - apply exchange_instruct; [apply address_and_value_ok, int_ok; cbn; tauto|exact B].
  - apply exchange_instruct; [apply address_and_bytes_ok|exact B].
Qed.

Lemma L_C91_answer : forall io el fuel c call s r s' es verbose, reach s -> client_call c call -> target c <> BROADCAST ->
  cli_verbose io el fuel c s = (Val (Ok r), s', es) -> (2 <= verbose < 256)%N ->
  exists evs w g m e, calls s s' evs /\ written_in evs = [w] /\
    items (p_script (b_port s)) = map inl (g ++ m ++ e) ++ pending s' /\
    garbage_split (g ++ m ++ e) g (m ++ e) /\ List.length e = 2 /\
    after "Trace:  sending packet: " (screen verbose es) = [hex2_array w] /\
    after "Trace:  read packet: " (screen verbose es) = [hex2_array m].
Proof.
  intros io el fuel c call s r s' es v R C B E Hv. pose proof (reach_inv _ R) as I.
  destruct (cli_wtold io el fuel c s _ s' es I E) as [[evs [Ca S]] [N _]].
  destruct (command_exchange io el fuel c call s r s' es C B I E) as [w [g [m [e [S1 [S2 [L [P [G _]]]]]]]]].
  exists evs, w, g, m, e. split; [exact Ca|]. split; [congruence|]. split; [exact P|]. split; [exact G|]. split; [exact L|].
  pose proof (screen_sending v es Hv N) as K1. pose proof (screen_read v es Hv N) as K2. rewrite S1 in K1. rewrite S2 in K2. auto.
Qed.

(** ** Garbage on the screen *)

Definition skipped_mark : string := "Trace:  skipped garbage: ".
Lemma screen_skipped : forall v es, (2 <= v < 256)%N -> Forall (fun x : line => fst x <> LvTrace) (own_lines es) ->
  after skipped_mark (screen v es) = map hex2_array (skip_parts (lib_records es)).
Proof.
  intros v es Hv N. unfold screen, printed. rewrite shown_all by exact Hv.
  rewrite (after_all skipped_mark (fun r => match r with LogSkipped bs => [hex2_array bs] | _ => [] end)).
  - unfold skip_parts. generalize (lib_records es). intro l. induction l as [|r l IH]; [reflexivity|].
    cbn [flat_map]. rewrite map_app, <- IH. destruct r; reflexivity.
  - intros. apply not_trace. assumption.
  - intros [bs|bs|n|bs|]; [reflexivity|reflexivity|reflexivity|apply (mark_text skipped_mark)|reflexivity].
  - exact N.
Qed.

Lemma printed_app : forall v a b, printed v (a ++ b) = printed v a ++ printed v b.
Proof. intros. unfold printed, shown. rewrite filter_app, map_app. reflexivity. Qed.

Lemma printed_records : forall l, printed 1 (map entry_line (map Lib l)) =
    map (fun n => " skipping " ++ dec_nat n ++ " bytes of leading garbage.")%string (skip_counts l) /\
  printed 0 (map entry_line (map Lib l)) = [].
Proof.
  induction l as [|r l [IH1 IH2]]; [split; reflexivity|]. cbn [map].
  change (entry_line (Lib r) :: ?x) with ([entry_line (Lib r)] ++ x). rewrite !printed_app, IH1, IH2.
  unfold skip_counts. cbn [flat_map]. rewrite map_app. destruct r; split; reflexivity.
Qed.

Lemma printed_tail : forall l, Forall (fun x : line => (level_rank (fst x) <= 3)%N) l -> printed 1 l = printed 0 l.
Proof.
  induction l as [|[x t] l IH]; [reflexivity|]. intro H. inversion H as [|a b Ha Hb]. subst. change ((x, t) :: l) with ([(x, t)] ++ l).
  rewrite !printed_app, IH by exact Hb. f_equal. destruct x; cbn in Ha; try lia; reflexivity.
Qed.

Lemma own_map : forall l, map entry_line (map Own l) = l.
Proof. induction l as [|x l IH]; [reflexivity|]. cbn [map entry_line]. f_equal. exact IH. Qed.

Lemma single_screen : forall A io debug failed m (text : A -> string) rep s r s' es,
  single_verbose io debug failed m text rep s = (Val (Ok r), s', es) ->
  screen 1 es = (" " ++ debug)%string ::
    map (fun n => " skipping " ++ dec_nat n ++ " bytes of leading garbage.")%string (skip_counts (lib_records es)) ++ screen 0 es.
Proof.
  intros A io debug failed m text rep s r s' es E. rewrite single_run in E.
  destruct (m s) as [[[[y|e]|p|] s1] l]; try discriminate E. injection E as _ _ <-.
  set (tl := (if r_alert y then _ else _) ++ _).
  assert (F : Forall (fun x : line => (level_rank (fst x) <= 3)%N) tl).
  { subst tl. apply Forall_app. split; [destruct (r_alert y)|]; repeat constructor; cbn; lia. }
  clearbody tl. unfold screen. cbn [map]. rewrite map_app, own_map.
  change (lib_records (Own ?z :: ?x)) with (lib_records x). rewrite lib_app, lib_lib, lib_own, app_nil_r.
  change (?z :: ?x) with ([z] ++ x) at 1. change (entry_line (Own ?z) :: ?x) with ([entry_line (Own z)] ++ x).
  rewrite !printed_app. destruct (printed_records l) as [-> ->]. rewrite (printed_tail tl F). reflexivity.
Qed.

Lemma L_C91_garbage : forall io el fuel c call s r s' es, reach s -> client_call c call -> target c <> BROADCAST ->
  cli_verbose io el fuel c s = (Val (Ok r), s', es) ->
  exists d parts m e,
    items (p_script (b_port s)) = map inl (List.concat parts ++ m ++ e) ++ pending s' /\
    garbage_split (List.concat parts ++ m ++ e) (List.concat parts) (m ++ e) /\ List.length e = 2 /\
    Forall (fun p => p <> []) parts /\
    screen 1 es = (" " ++ d)%string ::
      map (fun p => " skipping " ++ dec_nat (List.length p) ++ " bytes of leading garbage.")%string parts ++ screen 0 es /\
    (forall verbose, (verbose < 256)%N -> after "Trace:  skipped garbage: " (screen verbose es) =
      if (2 <=? verbose)%N then map hex2_array parts else []).
Proof.
  intros io el fuel c call s r s' es R C B E. pose proof (reach_inv _ R) as I.
  destruct (cli_wtold io el fuel c s _ s' es I E) as [_ [N _]].
  destruct (command_exchange io el fuel c call s r s' es C B I E) as [w [g [m [e [S1 [S2 [L [P [G [Eg [P1 P2]]]]]]]]]]].
  assert (D : exists d, screen 1 es = (" " ++ d)%string ::
    map (fun n => " skipping " ++ dec_nat n ++ " bytes of leading garbage.")%string (skip_counts (lib_records es)) ++ screen 0 es).
  { destruct C; cbn [cli_verbose] in E; unfold unicast_verbose in E; cbn [assume_unicast] in E;
      eexists; eapply single_screen; exact E. }
  destruct D as [d D]. rewrite garbage_parts in Eg. subst g. rewrite P1, map_map in D.
  exists d, (skip_parts (lib_records es)), m, e. repeat (split; [assumption|]).
  intros v Hv. destruct (N.leb_spec 2 v) as [Lv|Lv]; [apply screen_skipped; [lia|exact N]|apply screen_few; exact Lv].
Qed.

(** ** The messages received during a scan *)

Definition wide (s : bus) : Prop := inv s /\ 10 <= List.length (b_rbuf s).

Definition heard {A} (m : T A) : Prop := forall s a s' logs, wide s -> m s = (Val a, s', logs) ->
  wide s' /\ sent_in logs = [] /\ listened (pending s) (pending s') (received_in logs).

Lemma listened_app : forall p q r a b, listened p q a -> listened q r b -> listened p r (a ++ b).
Proof.
  intros p q r a b H K. induction H as [p|s s1 x g ws q ws' S H IH]; [exact K|].
  rewrite <- app_assoc. eapply listened_read; [exact S|]. apply IH, K.
Qed.

Lemma heard_bind : forall A B (m : T A) (k : A -> T B), heard m -> (forall a, heard (k a)) -> heard (tbind m k).
Proof.
  intros A B m k H K s b s' logs I E. unfold tbind in E. destruct (m s) as [[[a|p|] s1] l1] eqn:E1; try discriminate E.
  destruct (H s a s1 l1 I E1) as [I1 [S1 L1]]. destruct (k a s1) as [[o2 s2] l2] eqn:E2. injection E as -> <- <-.
  destruct (K a s1 b s2 l2 I1 E2) as [I2 [S2 L2]]. split; [exact I2|]. rewrite sent_app, S1, S2, received_app. split; [reflexivity|]. eapply listened_app; eassumption.
Qed.
Lemma heard_pure : forall A (m : M A), (forall s, snd (m s) = s) -> heard (quiet m).
Proof.
  intros A m H s a s' logs I E. unfold quiet in E. specialize (H s). destruct (m s) as [o1 s1]. cbn in H. subst s1.
  injection E as _ <- <-. split; [exact I|split; [reflexivity|constructor]].
Qed.
Lemma heard_ret : forall A (a : A), heard (quiet (ret a)).
Proof. intros. apply heard_pure. reflexivity. Qed.
Lemma heard_lift : forall A (x : out A), heard (quiet (lift x)).
Proof. intros. apply heard_pure. reflexivity. Qed.
Lemma heard_try : forall A B E F (f : E -> F) (m : T (result A E)) (k : A -> T (result B F)),
  heard m -> (forall a, heard (k a)) -> heard (ttry f m k).
Proof. intros. apply heard_bind; [assumption|]. intros [a|e]; [auto|apply heard_ret]. Qed.
Lemma heard_deadline : forall t, heard (quiet (port_make_deadline t)).
Proof.
  intros t s a s' logs [I L] E. unfold quiet in E. destruct (port_make_deadline t s) as [o1 s1] eqn:E1.
  injection E as -> <- <-. pose proof (keeps_make_deadline t s _ s1 I E1) as [I1 L1 _ _ _].
  split; [split; [exact I1|lia]|]. injection E1 as _ <-. split; [reflexivity|constructor].
Qed.
Lemma heard_read : forall d, heard (read_packet_deadline_log d).
Proof.
  intros d s r s' logs [I L] W.
  assert (W1 : read_packet_deadline d s = (Val r, s')) by (rewrite <- L_C64_read_unchanged, W; reflexivity).
  pose proof (keeps_read_packet d s _ s' I W1) as [I1 L1 _ _ _]. split; [split; [exact I1|lia]|].
  destruct (read_log_story d s _ s' logs (proj1 I) L W) as [g [ws [St [<- [Sn _]]]]]. split; [exact Sn|].
  rewrite <- (app_nil_r (received_in logs)). eapply listened_read; [exact St|constructor].
Qed.
Lemma heard_rsrt : forall t, heard (read_status_response_timeout_log t).
Proof.
  intro t. unfold read_status_response_timeout_log. apply heard_bind; [apply heard_deadline|]. intro d.
  apply heard_try; [apply heard_read|]. intro p. apply heard_pure. pure_state.
Qed.
Lemma heard_scan_next : heard scan_next_log.
Proof.
  unfold scan_next_log. apply heard_bind.
  - unfold scan_next_response_log. apply heard_bind; [apply heard_pure; reflexivity|]. intro s.
    apply heard_bind; [apply heard_lift|]. intro t.
    apply heard_try; [apply heard_rsrt|]. intro p. apply heard_pure. pure_state.
  - intros [r|e]; [apply heard_ret|]. destruct e as [e|e|e|e]; try apply heard_ret.
    destruct (is_timeout_error e); [|apply heard_ret]. apply heard_bind; [|intros _; apply heard_ret].
    intros s a s' logs I E. injection E as <- <- <-. split; [exact I|split; [reflexivity|constructor]].
Qed.
Lemma heard_scan_drop : forall fuel, heard (scan_drop_log fuel).
Proof.
  induction fuel as [|fuel IH]; [apply heard_ret|]. cbn [scan_drop_log]. apply heard_bind; [apply heard_scan_next|].
  intros [x|]; [exact IH|apply heard_ret].
Qed.

Lemma scan_heard : forall io el fuel k l s x s' es, wide s -> scan_verbose io el fuel k l s = (Val x, s', es) ->
  wide s' /\ sent_in (lib_records es) = [] /\ listened (pending s) (pending s') (received_in (lib_records es)).
Proof.
  induction fuel as [|fuel IH]; intros k l s x s' es I E.
  { injection E as <- <- <-. split; [exact I|split; [reflexivity|constructor]]. }
  cbn [scan_verbose] in E. unfold wbind at 1, lib in E.
  destruct (scan_next_log s) as [[[y|p|] s1] l1] eqn:E1; try discriminate E.
  destruct (heard_scan_next s y s1 l1 I E1) as [I1 [S1 L1]]. destruct y as [y|].
  - unfold wbind, tell in E. destruct (scan_verbose io el fuel (S k) (l ++ [y]) s1) as [[o2 s2] l2] eqn:E2.
    injection E as -> <- <-. destruct (IH _ _ _ _ _ _ I1 E2) as [I2 [S2 L2]]. split; [exact I2|].
    rewrite !lib_app, lib_lib, lib_own, received_app, sent_app, S1. cbn [app]. split; [exact S2|]. eapply listened_app; eassumption.
  - unfold wret in E. injection E as <- <- <-. rewrite app_nil_r, lib_lib. auto.
Qed.

Lemma L_C91_scan : forall io el fuel s l s' es verbose, reach s -> 10 <= List.length (b_rbuf s) ->
  cli_verbose io el fuel (CPing MBroadcast) s = (Val (Ok (RepScan l)), s', es) -> (2 <= verbose < 256)%N ->
  exists evs w ws, calls s s' evs /\ written_in evs = [w] /\ listened (items (p_script (b_port s))) (pending s') ws /\
    after "Trace:  sending packet: " (screen verbose es) = [hex2_array w] /\
    after "Trace:  read packet: " (screen verbose es) = map hex2_array ws.
Proof.
  intros io el fuel s l s' es v R Hc E Hv. pose proof (reach_inv _ R) as I.
  destruct (cli_wtold io el fuel (CPing MBroadcast) s _ s' es I E) as [[evs [Ca S]] [N _]].
  pose proof (screen_sending v es Hv N) as K1. pose proof (screen_read v es Hv N) as K2.
  cbn [cli_verbose] in E. unfold wbind at 1, lib at 1, scan_log in E.
  destruct (write_packet_log BROADCAST PING 0 no_params s) as [[[[[]|e]|p|] s1] l1] eqn:W; try discriminate E.
  destruct (write_log_ok _ _ _ _ _ _ _ I no_params_ok W) as [w [-> [I1 [_ P1]]]].
  assert (W1 : write_packet BROADCAST PING 0 no_params s = (Val (Ok tt), s1)) by (rewrite <- L_C64_write_unchanged, W; reflexivity).
  assert (I2 : wide s1).
  { split; [exact I1|]. pose proof (keeps_wi BROADCAST PING 0 no_params no_params_ok s _ s1 I W1) as [_ Lr _ _ _]. lia. }
  unfold wbind at 1 in E. destruct (scan_verbose io el fuel 0 [] s1) as [[[[x|]|p|] s2] e2] eqn:E2; try discriminate E.
  destruct (scan_heard _ _ _ _ _ _ _ _ _ I2 E2) as [I3 [S2 L2]].
  unfold wbind, lib in E. destruct (scan_drop_log fuel s2) as [[[[|]|p|] s3] l3] eqn:E3; try discriminate E.
  destruct (heard_scan_drop fuel s2 _ s3 l3 I3 E3) as [_ [S3 L3]]. unfold wret in E. injection E as -> <- <-.
  exists evs, w, (received_in (lib_records e2) ++ received_in l3). rewrite app_nil_r in *.
  change (lib_records (Lib (LogSending w) :: e2 ++ map Lib l3)) with (LogSending w :: lib_records (e2 ++ map Lib l3)) in K1, K2, S.
  change (LogSending w :: lib_records (e2 ++ map Lib l3)) with ([LogSending w] ++ lib_records (e2 ++ map Lib l3)) in K1, K2, S.
  rewrite lib_app, lib_lib, sent_app, sent_app, S2, S3 in K1, S. rewrite lib_app, lib_lib, received_app, received_app in K2.
  split; [exact Ca|]. split; [symmetry; exact S|]. split; [rewrite <- P1; eapply listened_app; eassumption|].
  split; [exact K1|exact K2].
Qed.

(** ** Orders for all motors *)

Lemma broadcast_log : forall i n enc s r s' logs, inv s -> encoder_ok enc ->
  instruct_log BROADCAST i n enc s = (Val (Ok r), s', logs) -> exists w, logs = [LogSending w].
Proof.
  intros i n enc s r s' logs I He E. unfold instruct_log, ttry at 1, tbind at 1 in E.
  destruct (write_packet_log BROADCAST i n enc s) as [[[[[]|e]|p|] s1] l1] eqn:W; try discriminate E.
  destruct (write_log_ok _ _ _ _ _ _ _ I He W) as [w [-> _]]. exists w. injection E as _ _ <-. reflexivity.
Qed.

Lemma L_C91_broadcast : forall io el fuel c s r s' es verbose, reach s -> order_only c -> target c = BROADCAST ->
  cli_verbose io el fuel c s = (Val (Ok r), s', es) -> (2 <= verbose < 256)%N ->
  exists evs w, calls s s' evs /\ written_in evs = [w] /\
    after "Trace:  sending packet: " (screen verbose es) = [hex2_array w] /\
    after "Trace:  read packet: " (screen verbose es) = [].
Proof.
  intros io el fuel c s r s' es v R O B E Hv. pose proof (reach_inv _ R) as I.
  destruct (cli_wtold io el fuel c s _ s' es I E) as [[evs [Ca S]] [N _]].
  pose proof (screen_sending v es Hv N) as K1. pose proof (screen_read v es Hv N) as K2.
  assert (X : exists w, lib_records es = [LogSending w]).
  { clear K1 K2 N S Ca. unfold target in B.
    assert (G : forall i n enc debug failed (text : unit -> string) rep, encoder_ok enc ->
              single_verbose io debug failed (instruct_log BROADCAST i n enc) text rep s = (Val (Ok r), s', es) ->
              exists w, lib_records es = [LogSending w]).
    { intros i n enc debug failed text rep He G. rewrite single_run in G.
      destruct (instruct_log BROADCAST i n enc s) as [[[[y|e]|p|] s1] l] eqn:M1; try discriminate G. injection G as _ _ <-.
      destruct (broadcast_log _ _ _ _ _ _ _ I He M1) as [w ->]. exists w.
      change (lib_records (Own (LvDebug, debug) :: ?x)) with (lib_records x). rewrite lib_app, lib_lib, lib_own. reflexivity. }
    destruct c as [m|m|m a|m a|m a|m a n|m a x|m a x|m a x|m a data]; try destruct O; cbn [cli_verbose] in E;
      unfold reboot_log, write_log, write_bytes_log in E; rewrite B in E; (eapply G; [|exact E]);
      first [apply no_params_ok|apply address_and_bytes_ok|apply address_and_value_ok, int_ok; cbn; tauto]. }
  destruct X as [w X]. rewrite X in *. exists evs, w. split; [exact Ca|]. split; [symmetry; exact S|]. split; [exact K1|exact K2].
Qed.
