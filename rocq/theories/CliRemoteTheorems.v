(** * CliRemoteTheorems: the command line tool and simulated motors *)
From Coq Require Import ZArith ZifyN ZifyNat ZifyBool Ascii String.
From Verif Require Import Base Lib Error Packet Time Bus Data Client Instructions Device MockDevice Cli Text TextSpec TextTheorems
  CliOutput CliOutputSpec CliOutputTheorems Spec Api CallSpec StreamSpec DeviceSpec InstructionSpec DataSpec DataTheorems
  ApiProofs SendTheorems StuffProofs WriteProofs MessageProofs SendProofs TransferTheorems StatusProofs StreamProofs InstructionProofs TypedSpec TypedTheorems RemoteSpec RemoteProofs RemoteTheorems RemoteExtra ShortSpec ShortTheorems CliRemoteSpec Demo DemoProofs.
Local Open Scope list_scope.

(** ** A command does what its operation does *)

Inductive understood (c : command) : reply -> cli_report -> Prop :=
| un_ping : forall r, understood c (RemoteSpec.RepPing (Ok r)) (Cli.RepPing r)
| un_value : forall w id alert data v, reads_width c w -> int_bytes false w v data ->
    understood c (RepData (Ok (mkResponse id alert data))) (RepValue (mkResponse id alert v))
| un_bytes : forall r m a n, c = CRead m a n -> understood c (RepData (Ok r)) (RepBytes r)
| un_done : forall r, understood c (RemoteSpec.RepDone (Ok r)) (Cli.RepDone r).

Definition wide (c : command) (r : reply) : Prop :=
  forall id alert data w, r = RepData (Ok (mkResponse id alert data)) -> reads_width c w -> List.length data = w.

Definition as_call (c : command) (s : bus) (p : out reply * bus) (q : out (result cli_report transfer_error) * bus) : Prop :=
  snd q = snd p /\ forall r, fst p = Val r -> wide c r ->
    (exists e, failure r e /\ fst q = Val (Err e)) \/ (exists rep, fst q = Val (Ok rep) /\ understood c r rep).

Lemma read_as_call : forall c w id a s, In w [1; 2; 4] -> reads_width c w ->
  as_call c s (perform (OpRead id a (N.of_nat w)) s) (as_report RepValue (read (data_int false w) id a) s).
Proof.
  intros c w id a s Hw Rw. cbn [perform]. unfold as_report, bind.
  destruct (read_bytes id a (N.of_nat w) s) as [o s'] eqn:E.
  pose proof (L_C73_read Z (data_int false w) id a s o s') as K. cbn [d_size data_int] in K. rewrite (K E). clear K E.
  assert (Ct : crate_type (data_int false w) (int_range false w) (int_bytes false w)).
  { apply ct_int. cbn in *. intuition subst; tauto. }
  destruct o as [[[i al data]|e]|p|]; cbn [decode_outcome].
  - split; [|intros r E Wd]; unfold decode_response; cbn [r_data r_motor_id r_alert].
    + destruct (d_decode (data_int false w) data) as [[v|e]|p|]; reflexivity.
    + cbn in E. injection E as <-. specialize (Wd i al data w eq_refl Rw).
      destruct (L_C36_decode_encode _ _ _ _ data Ct Wd) as [v [-> [_ Rv]]].
      right. eexists. split; [reflexivity|]. eapply un_value; eassumption.
  - split; [reflexivity|]. intros r E _. cbn in E. injection E as <-. left. exists e. split; [right; left; reflexivity|reflexivity].
  - split; [reflexivity|]. intros r E. discriminate E.
  - split; [reflexivity|]. intros r E. discriminate E.
Qed.

Lemma write_as_call : forall c id a d s,
  as_call c s (perform (OpWrite id a d) s) (as_report Cli.RepDone (write_bytes id a d) s).
Proof.
  intros c id a d s. cbn [perform]. unfold as_report, bind. destruct (write_bytes id a d s) as [[[x|e]|p|] s'];
    (split; [reflexivity|]); intros r E Wd; try discriminate E; cbn in E; injection E as <-.
  - right. eexists. split; [reflexivity|]. constructor.
  - left. exists e. split; [right; right; reflexivity|reflexivity].
Qed.

Lemma typed_write : forall w m a v bytes s, In w [1; 2; 4] -> reach s -> int_bytes false w (Z.of_N v) bytes ->
  write (data_int false w) (motor_id_raw m) a (Z.of_N v) s = write_bytes (whom m) a bytes s.
Proof.
  intros w m a v bytes s Hw R B.
  assert (Ct : crate_type (data_int false w) (int_range false w) (int_bytes false w)).
  { apply ct_int. cbn in *. intuition subst; tauto. }
  destruct (L_C73_crate_types_encode _ _ _ _ _ _ Ct B) as [Dk En].
  rewrite (L_C73_write _ _ _ _ _ _ _ R Dk En). destruct m; reflexivity.
Qed.

Lemma command_call : forall c o s, means c o -> c <> CPing MBroadcast -> reach s ->
  exists call, client_call c call /\ as_call c s (perform o s) (call s).
Proof.
  intros c o s M Nb R. destruct M as [id| |id a|id a|id a|id a n|m a v bytes B|m a v bytes B|m a v bytes B|m a data].
  - eexists. split; [constructor|]. cbn [perform]. unfold as_report, bind. destruct (ping id s) as [[[x|e]|p|] s'];
      (split; [reflexivity|]); intros r E Wd; try discriminate E; cbn in E; injection E as <-.
    + right. eexists. split; [reflexivity|]. constructor.
    + left. exists e. split; [left; reflexivity|reflexivity].
  - congruence.
  - eexists. split; [constructor|]. apply (read_as_call _ 1); [cbn; tauto|constructor].
  - eexists. split; [constructor|]. apply (read_as_call _ 2); [cbn; tauto|constructor].
  - eexists. split; [constructor|]. apply (read_as_call _ 4); [cbn; tauto|constructor].
  - eexists. split; [constructor|]. cbn [perform]. unfold as_report, bind. destruct (read_bytes id a n s) as [[[x|e]|p|] s'];
      (split; [reflexivity|]); intros r E Wd; try discriminate E; cbn in E; injection E as <-.
    + right. eexists. split; [reflexivity|]. eapply un_bytes. reflexivity.
    + left. exists e. split; [right; left; reflexivity|reflexivity].
  - eexists. split; [constructor|]. unfold as_report, bind.
    rewrite (typed_write 1 m a v bytes s ltac:(cbn; tauto) R B). apply write_as_call.
  - eexists. split; [constructor|]. unfold as_report, bind.
    rewrite (typed_write 2 m a v bytes s ltac:(cbn; tauto) R B). apply write_as_call.
  - eexists. split; [constructor|]. unfold as_report, bind.
    rewrite (typed_write 4 m a v bytes s ltac:(cbn; tauto) R B). apply write_as_call.
  - eexists. split; [constructor|]. replace (motor_id_raw m) with (whom m) by (destruct m; reflexivity). apply write_as_call.
Qed.

Lemma means_typed : forall c o, means c o -> typed c.
Proof.
  intros c o M. destruct M; try exact I; cbn [typed]; destruct H as [Ir _]; cbn [int_range] in Ir; lia.
Qed.

Lemma failed_what : forall io el fuel c call s e s', client_call c call -> call s = (Val (Err e), s') ->
  exists debug what, In what ["Command failed: "; "Write failed: "]%string /\
  cli_output io el fuel c s = (Val ([(LvDebug, debug); (LvError, what ++ transfer_error_text io e)%string], Err tt), s').
Proof.
  intros io el fuel c call s e s' C E. command_cases C;
  match goal with |- context [single io ?d ?f ?m ?t ?rp s] => pose proof (single_cases _ io d f m t rp s) as K; rewrite E in K;
    exists d, f end; (split; [cbn [In]; tauto|exact K]).
Qed.

Lemma command_same : forall io el fuel c o s x s', means c o -> c <> CPing MBroadcast -> reach s ->
  cli_output io el fuel c s = (x, s') -> exists y, perform o s = (y, s') /\
  forall r, y = Val r -> wide c r -> exists lines rep, x = Val (lines, rep) /\ told io el c r lines (exit_status rep).
Proof.
  intros io el fuel c o s x s' M Nb R E. destruct (command_call c o s M Nb R) as [call [C [K1 K2]]].
  destruct (perform o s) as [y s2] eqn:P. cbn [fst snd] in *. exists y.
  assert (s2 = s') as ->.
  { pose proof (L_C65_outcome io el fuel c call s C) as K. destruct (call s) as [[[z|e]|p|] s3]; cbn [snd] in K1; subst s3;
      try (match type of K with ex _ => destruct K as [d [t K]] end); rewrite E in K; injection K; auto. }
  split; [reflexivity|]. intros r -> Wd. destruct (K2 r eq_refl Wd) as [[e [F Q]]|[rep [Q U]]]; clear K2.
  - destruct (failed_what io el fuel c call s e s' C) as [d [w [Iw K]]].
    { rewrite <- K1, <- Q. apply surjective_pairing. }
    pose proof K as K'. rewrite E in K. injection K as ->. do 2 eexists. split; [reflexivity|].
    destruct (L_C65_announced io el fuel c s _ _ _ (means_typed _ _ M) Nb K') as [t [rest [L A]]]. injection L as -> _.
    apply (told_failed io el c r e t w F A Iw).
  - assert (Cs : call s = (Val (Ok rep), s')) by (rewrite <- K1, <- Q; apply surjective_pairing).
    pose proof (L_C65_outcome io el fuel c call s C) as K. rewrite Cs in K. destruct K as [d [t K]].
    destruct (L_C65_told io el fuel c call s rep s' C Cs) as [bf [text [K3 T]]].
    pose proof K as K'. rewrite E in K. injection K as ->. rewrite K' in K3. injection K3 as L.
    destruct (L_C65_announced io el fuel c s _ _ _ (means_typed _ _ M) Nb K') as [t' [rest [L' A]]]. injection L' as -> _.
    do 2 eexists. split; [reflexivity|].
    assert (Sl : success_lines el c rep
      ((LvDebug, t') :: (if report_alert rep then [(LvWarn, "Alert bit set in response from motor!"%string)] else []) ++ [(LvInfo, t)])).
    { exists t', text. split; [exact A|]. split; [exact T|].
      rewrite app_comm_cons in L. apply app_inj_tail in L. destruct L as [_ L]. injection L as ->. reflexivity. }
    cbn [exit_status]. destruct U as [z|w id al data v Rw B|z m a n ->|z].
    + apply told_ping, Sl.
    + eapply told_value; eassumption.
    + eapply told_bytes; [reflexivity|exact Sl].
    + apply told_done, Sl.
Qed.

(** ** Scans *)

Lemma scan_items_output : forall io el fuel s l s', scan_items fuel s = (Val l, s') -> forall k acc,
  scan_output io el fuel k acc s = (Val (Some (fst acc ++ items_lines io el k l, snd acc ++ l)), s').
Proof.
  intros io el. induction fuel as [|fuel IH]; intros s l s' E k acc; cbn [scan_items scan_output] in *; [discriminate E|].
  unfold bind in *. destruct (scan_next s) as [[[x|]|p|] s1]; [| |discriminate E|discriminate E].
  - destruct (scan_items fuel s1) as [[l1|p|] s2] eqn:E1; try discriminate E. injection E as <- <-.
    rewrite (IH _ _ _ E1). cbn [fst snd items_lines]. rewrite <- !app_assoc. reflexivity.
  - injection E as <- <-. unfold ret. cbn [items_lines]. rewrite !app_nil_r. destruct acc; reflexivity.
Qed.

Lemma cli_scan_works : forall io el fuel cap ms s e1 e2 rest, 16 <= cap -> hardy cap s -> List.length ms < fuel ->
  incoming s = map inl (concat (map (sent_by OpScan) ms)) ++ inr (IoTimeout e1) :: inr (IoTimeout e2) :: rest ->
  exists s', perform OpScan s = (Val (together OpScan ms), s') /\
    cli_output io el fuel (CPing MBroadcast) s = (Val (items_lines io el 0 (map found ms), Ok (RepScan (map found ms))), s').
Proof.
  intros io el fuel cap ms s e1 e2 rest Hc H Lf Inc.
  assert (Ps : passes comes_back cap [x01]) by (split; [cbn; lia|]; split; [reflexivity|exact I]).
  destruct (sends_works cap _ xfe x01 [] s (sends_instruction xfe x01 [] _ no_params_writes) H Ps) as [s1 [W1 [P1 [I1 _]]]].
  rewrite Inc in P1, I1.
  assert (H1 : hardy cap s1) by apply W1.
  destruct (scan_items_works cap ms s1 e1 _ (S (script_size (p_script (b_port s1)))) Hc H1 P1) as [s2 [W2 P2]].
  { pose proof (items_size (p_script (b_port s1))) as L. unfold incoming in I1. rewrite I1, app_length, map_length in L.
    pose proof (sent_scan_length ms). lia. }
  destruct (scan_items_works cap ms s1 e1 _ fuel Hc H1 P1 Lf) as [s2' [W2' P2']].
  assert (H2 : hardy cap s2) by apply W2.
  destruct (scan_next_silence cap s2 e2 rest Hc H2 P2) as [s3 [W3 _]].
  assert (s2' = s2) as ->.
  { assert (Mono : forall A n m (s : bus) l s' (Q : A), n <= m -> scan_items n s = (Val l, s') -> scan_items m s = (Val l, s')).
    { intros A. induction n as [|n IH]; intros m t l t' Q Hm E; [discriminate E|]. destruct m as [|m]; [lia|].
      cbn [scan_items] in *. unfold bind in *. destruct (scan_next t) as [[[x|]|p|] t1]; try exact E.
      destruct (scan_items n t1) as [[l1|p|] t2] eqn:E1; try discriminate E.
      rewrite (IH m t1 l1 t2 Q ltac:(lia) E1). exact E. }
    destruct (Nat.le_ge_cases fuel (S (script_size (p_script (b_port s1))))) as [L|L].
    - pose proof (Mono unit _ _ _ _ _ tt L (proj1 W2')) as K. rewrite (proj1 W2) in K. injection K as K. congruence.
    - pose proof (Mono unit _ _ _ _ _ tt L (proj1 W2)) as K. rewrite (proj1 W2') in K. injection K as K. congruence. }
  exists s3. split.
  - cbn [perform together]. unfold scan_all, bind, get, ret.
    unfold scan. change BROADCAST with xfe. change PING with x01. change (List.length (@nil byte)) with 0 in W1. rewrite (proj1 W1).
    rewrite (proj1 W2). cbn [scan_drop]. unfold bind. rewrite (proj1 W3). reflexivity.
  - cbn [cli_output]. unfold scan, bind, ret. change BROADCAST with xfe. change PING with x01. change (List.length (@nil byte)) with 0 in W1.
    rewrite (proj1 W1). rewrite (scan_items_output io el _ _ _ _ (proj1 W2')). cbn [fst snd app].
    destruct fuel as [|fuel]; [lia|]. cbn [scan_drop]. unfold bind. rewrite (proj1 W3). reflexivity.
Qed.

Lemma scan_output_mute : forall io el cap n k acc, mute cap (scan_output io el n k acc).
Proof.
  intros io el cap n. induction n as [|n IH]; intros k acc; cbn [scan_output]; [apply mute_ret|].
  apply mute_bind; [apply scan_next_mute|]. intros [x|]; [apply IH|apply mute_ret].
Qed.

Lemma cli_scan_mute : forall io el fuel cap s o s', 16 <= cap -> hardy cap s ->
  cli_output io el fuel (CPing MBroadcast) s = (o, s') ->
  exists evs, calls s s' evs /\ transmitted evs = code_wire xfe [x01].
Proof.
  intros io el fuel cap s o s' Hc H E.
  assert (Ps : passes comes_back cap [x01]) by (split; [cbn; lia|]; split; [reflexivity|exact I]).
  destruct (sends_works cap _ xfe x01 [] s (sends_instruction xfe x01 [] _ no_params_writes) H Ps) as [s1 [W1 _]].
  cbn [cli_output] in E. unfold bind at 1, scan in E. destruct W1 as [W1 [H1 [e1 [C1 T1]]]].
  change BROADCAST with xfe in E. change PING with x01 in E. change (List.length (@nil byte)) with 0 in W1. rewrite W1 in E.
  match type of E with ?m s1 = _ => assert (Mu : mute cap m) end.
  { apply mute_bind; [apply scan_output_mute|]. intros [[lines l]|]; [|apply mute_lift].
    apply mute_bind; [apply scan_drop_mute|]. intros [|]; [apply mute_ret|apply mute_lift]. }
  destruct (Mu s1 o s' H1 E) as [H2 [e2 [C2 T2]]]. exists (e1 ++ e2).
  split; [eapply calls_app; eassumption|]. rewrite transmitted_app, T1, T2. apply app_nil_r.
Qed.

(** ** One run *)

Lemma opened : forall dbg p baud, baud <> 0%N -> (baud < 2 ^ 32)%N -> p_discards p = [] -> p_writes p = [] ->
  exists b, client_open dbg (Ok p) baud = Val (Ok b) /\ b_port b = p /\ reach b /\ forall cap, cap <= 128 -> hardy cap b.
Proof.
  intros dbg p baud B1 B2 D W. eexists. split; [reflexivity|]. split; [reflexivity|].
  match goal with |- reach ?b /\ _ => assert (R : reach b) end.
  { eapply (reach_new dbg p (repeat x00 128) (repeat x00 128) baud). reflexivity. }
  split; [exact R|]. intros cap Hc. constructor; try assumption; try (cbn [b_baud b_port]; assumption).
  apply reach_inv, R.
Qed.

Lemma answers_wide : forall c o ms r, means c o -> answers o ms r -> wide c r.
Proof.
  intros c o ms r M A id al data w -> Rw.
  assert (G : forall id' a n, o = OpRead id' a n -> List.length data = N.to_nat n).
  { intros id' a n ->. unfold answers in A. destruct (target (OpRead id' a n)).
    - destruct A as [[m [_ [_ A]]]|[_ [e A]]]; [|discriminate A]. cbn [answered] in A.
      destruct (load (m_memory m) a n) as [bs|] eqn:L; [|discriminate A]. injection A as _ _ ->. apply (load_length _ _ _ _ L).
    - discriminate A. }
  destruct M; inversion Rw; subst; apply (G _ _ _ eq_refl).
Qed.

Lemma run_ok : forall io el path fuel c ds x ds' cap ms o, cap <= 128 -> 16 <= cap ->
  Forall2 (motor_ok cap) ds ms -> NoDup (map m_id ms) -> means c o -> possible comes_back cap ms o -> List.length ms < fuel ->
  run io el path fuel c ds x ds' ->
  exists r, answers o ms r /\ reports io el path c r x /\ Forall2 (motor_ok cap) ds' (map (touched o) ms).
Proof.
  intros io el path fuel c ds x ds' cap ms o Hc1 Hc F N M P Lf Rn.
  destruct Rn as [ds dbg baud setbauds sc es x b' rs ds1 ds' Es B1 B2 E Re Isc Ov].
  set (p := mkPort (sc ++ silence es) [] [] setbauds 0 []) in *.
  destruct (opened dbg p baud B1 B2 eq_refl eq_refl) as [b [Eo [Ep [Rb Hb]]]].
  specialize (Hb cap Hc1).
  unfold main_output in E. rewrite Eo in E. destruct (cli_output io el fuel c b) as [z b2] eqn:Ec. injection E as Ex ->.
  assert (Cl : calls b b' (p_log (b_port b'))) by (unfold calls; rewrite Ep; reflexivity).
  assert (Sb : set_script b (sc ++ silence es) = b).
  { clear -Ep. destruct b as [q bd rb us rd wb dg]. cbn in Ep. subst q. reflexivity. }
  assert (Wo : world_ok cap b ds ms) by (split; [exact Hc|]; split; [exact Hb|]; split; assumption).
  assert (K : exists y, exchange (perform o) b ds y b' ds' /\
            forall r, y = Val r -> answers o ms r -> exists lines rep, z = Val (lines, rep) /\ told io el c r lines (exit_status rep)).
  { assert (D : c = CPing MBroadcast \/ c <> CPing MBroadcast) by (destruct M; try (right; discriminate); left; reflexivity).
    destruct D as [->|Nb].
    - inversion M; subst o. destruct (cli_scan_mute io el fuel cap b z b' Hc Hb Ec) as [evs [C2 T2]].
      pose proof (calls_inj _ _ _ _ Cl C2) as K. subst evs.
      destruct (exchange_motors cap b ds ms OpScan _ rs ds1 ds' Wo P T2 Re Ov) as [Rs _].
      destruct es as [|e1 [|e2 es]]; [cbn in Es; lia|cbn in Es; lia|].
      destruct (cli_scan_works io el fuel cap ms b e1 e2 (items (silence es)) Hc Hb Lf) as [s' [W1 W2]].
      { unfold incoming. rewrite Ep. cbn [p p_script]. rewrite items_app, Isc, Rs. reflexivity. }
      rewrite W2 in Ec. injection Ec as <- <-.
      eexists. split.
      + eapply (exchange_ 2 _ b ds sc (e1 :: e2 :: es)); [exact Es|rewrite Sb; exact W1|rewrite Sb; exact Cl|exact Re|exact Isc|exact Ov].
      + intros r Er _. injection Er as <-. do 2 eexists. split; [reflexivity|]. apply told_found, items_told.
    - destruct (command_same io el fuel c o b z b' M Nb Rb Ec) as [y [Ey K]]. exists y. split.
      + eapply (exchange_ 2 _ b ds sc es); [exact Es|rewrite Sb; exact Ey|rewrite Sb; exact Cl|exact Re|exact Isc|exact Ov].
      + intros r -> A. apply (K r eq_refl). apply (answers_wide c o ms r M A). }
  destruct K as [y [Exc K]].
  destruct (exchange_op cap b ds ms o y b' ds' Wo P Exc) as [W [r [-> A]]].
  exists r. split; [exact A|]. destruct (K r eq_refl A) as [lines [rep [-> T]]].
  split; [|apply W]. subst x. do 3 eexists. split; [reflexivity|exact T].
Qed.

Lemma waiting_ok : forall cap ds ms, waiting cap ds ms ->
  16 <= cap /\ cap <= 128 /\ Forall2 (motor_ok cap) ds ms /\ NoDup (map m_id ms).
Proof.
  intros cap ds ms [H1 [H2 [H3 [H4 [H5 H6]]]]]. split; [exact H1|]. split; [exact H2|]. split; [|exact H5].
  clear -H3 H4. induction H4 as [|d m ds ms M F IH]; [constructor|]. inversion H3 as [|? ? [R P] H3']; subst.
  constructor; [|apply IH, H3']. split; [exact M|]. split; [apply ready_hardy, R|]. rewrite P. constructor.
Qed.

Lemma runs_ok : forall io el path fuel ds cs xs ds', runs io el path fuel ds cs xs ds' -> forall cap ms os,
  16 <= cap -> cap <= 128 -> Forall2 (motor_ok cap) ds ms -> NoDup (map m_id ms) ->
  Forall2 means cs os -> all_possible comes_back cap ms os -> List.length ms < fuel ->
  exists rs ms', remote ms os rs ms' /\ Forall2 (fun cr x => reports io el path (fst cr) (snd cr) x) (combine cs rs) xs /\
    List.length rs = List.length cs /\ Forall2 (motor_ok cap) ds' ms'.
Proof.
  intros io el path fuel ds cs xs ds' Rn. induction Rn as [ds|c ds x ds1 cs xs ds2 R1 Rn IH]; intros cap ms os C1 C2 F N M Al Lf.
  - inversion M; subst. exists [], ms. repeat split; try constructor. exact F.
  - inversion M as [|? o ? os' M1 M2]; subst. destruct Al as [P Al].
    destruct (run_ok io el path fuel c ds x ds1 cap ms o C2 C1 F N M1 P Lf R1) as [r [A [Rp F1]]].
    destruct (IH cap (map (touched o) ms) os' C1 C2 F1) as [rs [ms' [Re [Fr [Ll F2]]]]]; try assumption.
    { rewrite touched_ids. exact N. } { rewrite map_length. exact Lf. }
    exists (r :: rs), ms'. split; [econstructor; eassumption|]. split; [cbn [combine]; constructor; [exact Rp|exact Fr]|].
    split; [cbn; congruence|exact F2].
Qed.

Lemma L_C83_commands_partial : forall io el path fuel cap ds ms cs os xs ds',
  waiting cap ds ms -> Forall2 means cs os -> all_possible comes_back cap ms os -> List.length ms < fuel ->
  runs io el path fuel ds cs xs ds' ->
  exists rs ms', remote ms os rs ms' /\ List.length rs = List.length cs /\
    Forall2 (fun cr x => reports io el path (fst cr) (snd cr) x) (combine cs rs) xs /\ Forall2 is_motor ds' ms'.
Proof.
  intros io el path fuel cap ds ms cs os xs ds' Wt M Al Lf Rn. apply waiting_ok in Wt. destruct Wt as [C1 [C2 [F N]]].
  destruct (runs_ok io el path fuel ds cs xs ds' Rn cap ms os C1 C2 F N M Al Lf) as [rs [ms' [Re [Fr [Ll F2]]]]].
  exists rs, ms'. split; [exact Re|]. split; [exact Ll|]. split; [exact Fr|].
  clear -F2. induction F2 as [|d m ds ms K F IH]; constructor; [apply K|exact IH].
Qed.

(** ** Runs exist *)

Lemma run_exists : forall io el path fuel c ds cap ms o, cap <= 128 -> 16 <= cap ->
  Forall2 (motor_ok cap) ds ms -> NoDup (map m_id ms) -> means c o -> possible comes_back cap ms o ->
  exists x ds', run io el path fuel c ds x ds'.
Proof.
  intros io el path fuel c ds cap ms o Hc1 Hc F N M P.
  set (w := code_wire (packet_id_for o) (message_of o)).
  destruct (reacts_exists w ds) as [rs [ds1 R]].
  { clear -F. induction F as [|d m ds ms [M _] F IH]; constructor; [|exact IH]. eexists. apply M. }
  { intros d s x s' Hi He E.
    assert (K : exists m, In m ms /\ motor_ok cap d m).
    { clear -F Hi. induction F as [|d' m' ds ms M F IH]; [contradiction|]. destruct Hi as [->|Hi].
      - exists m'. split; [left; reflexivity|exact M].
      - destruct (IH Hi) as [m [H1 H2]]. exists m. split; [right; exact H1|exact H2]. }
    destruct K as [m [Hm [[M1 M2] [Hd Sk]]]]. rewrite M2, M1 in E.
    destruct (iteration_works cap ms o m s Hc (hears_hardy _ _ _ _ He Hd) P Hm) as [s2 [[W1 [W2 [evs2 [W3 W4]]]] Pe]].
    { rewrite (hears_pending _ _ _ He). destruct He as [sc [_ ->]].
      change (List.length (b_rbuf (set_script _ _))) with (List.length (b_rbuf (n_bus d))).
      apply (skips_app _ _ [] _ Sk). }
    change (mkMock (m_memory m) (m_waiting m)) with (state_of m) in E. rewrite W1 in E. injection E as <- <-. eauto. }
  destruct (overhears_exists ds1 rs [] (reacts_length _ _ _ _ R)) as [ds' O].
  set (sc := [RdData (concat rs)]). set (p := mkPort (sc ++ silence [0%N; 0%N]) [] [] [] 0 []).
  destruct (opened true p 57600%N ltac:(lia) ltac:(lia) eq_refl eq_refl) as [b [Eo [Ep [Rb Hb]]]]. specialize (Hb cap Hc1).
  destruct (cli_output io el fuel c b) as [z b'] eqn:Ec.
  assert (T : transmitted (p_log (b_port b')) = w).
  { assert (Cl : calls b b' (p_log (b_port b'))) by (unfold calls; rewrite Ep; reflexivity).
    assert (D : c = CPing MBroadcast \/ c <> CPing MBroadcast) by (destruct M; try (right; discriminate); left; reflexivity).
    destruct D as [->|Nb].
    - inversion M; subst o. destruct (cli_scan_mute io el fuel cap b z b' Hc Hb Ec) as [evs [C2 T2]].
      rewrite (calls_inj _ _ _ _ Cl C2). exact T2.
    - destruct (command_same io el fuel c o b z b' M Nb Rb Ec) as [y [Ey _]].
      destruct (op_works cap ms o b (or_intror Hb) Hc P y b' Ey) as [evs [C2 T2]].
      rewrite (calls_inj _ _ _ _ Cl C2). exact T2. }
  do 2 eexists. eapply (run_ io el path fuel c ds true 57600%N [] sc [0%N; 0%N] _ b' rs ds1 ds');
    [apply le_n|lia|lia| |rewrite T; exact R|unfold sc; cbn [items]; apply app_nil_r|exact O].
  unfold main_output. fold p. rewrite Eo, Ec. reflexivity.
Qed.

Lemma L_C83_runs_exist : forall io el path fuel cap ds ms cs os,
  waiting cap ds ms -> Forall2 means cs os -> all_possible comes_back cap ms os -> List.length ms < fuel ->
  exists xs ds', runs io el path fuel ds cs xs ds'.
Proof.
  intros io el path fuel cap ds ms cs os Wt M. apply waiting_ok in Wt. destruct Wt as [C1 [C2 [F N]]].
  revert ds ms F N. induction M as [|c o cs os M1 M IH]; intros ds ms F N Al Lf; [exists [], ds; constructor|].
  destruct Al as [P Al]. destruct (run_exists io el path fuel c ds cap ms o C2 C1 F N M1 P) as [x [ds1 R1]].
  destruct (run_ok io el path fuel c ds x ds1 cap ms o C2 C1 F N M1 P Lf R1) as [r [A [Rp F1]]].
  destruct (IH ds1 _ F1) as [xs [ds2 Rn]]; [rewrite touched_ids; exact N|exact Al|rewrite map_length; exact Lf|].
  exists (x :: xs), ds2. econstructor; eassumption.
Qed.

(** ** Small messages come through, whatever they contain *)

Lemma int_bytes_length : forall w v l, int_bytes false w v l -> List.length l = w.
Proof. intros w v l H. apply H. Qed.

Lemma small_short : forall c o, small_command c -> means c o -> short_op o.
Proof.
  intros c o Sm M.
  destruct M as [id| |id a|id a|id a|id a n|m a v bytes B|m a v bytes B|m a v bytes B|m a data]; cbn [small_command short_op] in *;
    try exact Sm; try exact I; try (split; [apply Sm|]; split; [apply Sm|lia]);
    try (split; [apply Sm|]; rewrite (int_bytes_length _ _ _ B); lia).
Qed.

Lemma small_all_possible : forall cap cs os, 21 <= cap -> Forall small_command cs -> Forall2 means cs os ->
  forall ms, all_possible comes_back cap ms os.
Proof.
  intros cap cs os Hc Sm M. induction M as [|c o cs os M1 M IH]; intro ms; [exact I|]. inversion Sm; subst.
  split; [apply short_possible; [exact Hc|eapply small_short; eassumption]|]. apply IH. assumption.
Qed.

Lemma L_C83_small_commands : forall io el path fuel cap ds ms cs os xs ds',
  waiting cap ds ms -> 21 <= cap -> Forall small_command cs -> Forall2 means cs os -> List.length ms < fuel ->
  runs io el path fuel ds cs xs ds' ->
  exists rs ms', remote ms os rs ms' /\ List.length rs = List.length cs /\
    Forall2 (fun cr x => reports io el path (fst cr) (snd cr) x) (combine cs rs) xs /\ Forall2 is_motor ds' ms'.
Proof.
  intros io el path fuel cap ds ms cs os xs ds' Wt Hc Sm M Lf Rn.
  apply (L_C83_commands_partial io el path fuel cap ds ms cs os xs ds' Wt M); [|exact Lf|exact Rn].
  eapply small_all_possible; eassumption.
Qed.

(** Every one of them has a meaning. *)
Lemma bytes_of : forall w v, In w [1; 2; 4] -> (v < 2 ^ (8 * N.of_nat w))%N -> exists bytes, int_bytes false w (Z.of_N v) bytes.
Proof.
  intros w v Hw Hv.
  assert (Ct : crate_type (data_int false w) (int_range false w) (int_bytes false w)).
  { apply ct_int. cbn in *. intuition subst; tauto. }
  destruct (L_C36_representation _ _ _ _ Ct (Z.of_N v)) as [l [Hl _]]; [|exists l; exact Hl].
  cbn [int_range]. cbn [In] in Hw. destruct Hw as [<-|[<-|[<-|[]]]]; cbn in *; lia.
Qed.

Lemma L_C83_small_commands_mean : forall c, small_command c -> exists o, means c o.
Proof.
  intros [[id|]|m|[id|] a|[id|] a|[id|] a|[id|] a n|m a v|m a v|m a v|m a data] H; try contradiction; try (eexists; constructor; fail);
    destruct H as [H1 H2].
  - destruct (bytes_of 1 v) as [l B]; [cbn; tauto|exact H2|]. eexists. eapply mn_write8, B.
  - destruct (bytes_of 2 v) as [l B]; [cbn; tauto|exact H2|]. eexists. eapply mn_write16, B.
  - destruct (bytes_of 4 v) as [l B]; [cbn; tauto|exact H2|]. eexists. eapply mn_write32, B.
Qed.

(** ** A number written is the number read *)

Lemma told_ok : forall io el c r lines n, told io el c (RemoteSpec.RepDone (Ok r)) lines n -> n = 0%N.
Proof.
  intros io el c r lines n T. inversion T; [reflexivity|]; subst.
  match goal with F : failure _ _ |- _ => destruct F as [F|[F|F]]; discriminate F end.
Qed.

Lemma bytes_unique : forall w v z l, In w [1; 2; 4] -> int_bytes false w z l -> int_bytes false w (Z.of_N v) l -> z = Z.of_N v.
Proof.
  intros w v z l Hw B1 B2.
  assert (Ct : crate_type (data_int false w) (int_range false w) (int_bytes false w)).
  { apply ct_int. cbn in *. intuition subst; tauto. }
  pose proof (L_C36_round_trip _ _ _ _ _ _ Ct B1) as E1. pose proof (L_C36_round_trip _ _ _ _ _ _ Ct B2) as E2.
  congruence.
Qed.

Lemma L_C83_number_round_trip : forall io el path fuel cap ds ms m a v w c1 c2 xs ds',
  waiting cap ds ms -> 21 <= cap -> List.length ms < fuel -> In m ms -> is_u16 a -> (v < 2 ^ (8 * N.of_nat w))%N ->
  (a + N.of_nat w <= N.of_nat (List.length (m_memory m)))%N ->
  stores_number (m_id m) a v w c1 c2 -> runs io el path fuel ds [c1; c2] xs ds' ->
  exists lines1 x1 before text x2,
    xs = [Val (lines1, x1); Val (before ++ [(LvInfo, el O ++ ": " ++ text)%string], x2)] /\
    exit_status x1 = 0%N /\ exit_status x2 = 0%N /\ shows_number w v text.
Proof.
  intros io el path fuel cap ds ms m a v w c1 c2 xs ds' Wt Hc Lf Hin Ha Hv Hl St Rn.
  assert (Hw : In w [1; 2; 4]) by (destruct St; cbn; tauto).
  destruct (bytes_of w v Hw Hv) as [bytes B]. pose proof (int_bytes_length _ _ _ B) as Lb.
  assert (Na : m_id m <> xfe). { intro K. apply Wt. rewrite <- K. apply in_map, Hin. }
  assert (M : Forall2 means [c1; c2] [OpWrite (m_id m) a bytes; OpRead (m_id m) a (N.of_nat w)]).
  { destruct St; (constructor; [|constructor; [|constructor]]).
    - apply (mn_write8 (MId (m_id m))), B.
    - apply mn_read8.
    - apply (mn_write16 (MId (m_id m))), B.
    - apply mn_read16.
    - apply (mn_write32 (MId (m_id m))), B.
    - apply mn_read32. }
  assert (Sm : Forall small_command [c1; c2]).
  { destruct St; (constructor; [|constructor; [|constructor]]); split; assumption. }
  destruct (L_C83_small_commands io el path fuel cap ds ms _ _ xs ds' Wt Hc Sm M Lf Rn) as [rs [ms' [Re [Ll [Fr _]]]]].
  assert (N : NoDup (map m_id ms)) by apply Wt.
  inversion Re as [|? ? r1 ? rs1 ? A1 Re1]; subst. inversion Re1 as [|? ? r2 ? rs2 ? A2 Re2]; subst. inversion Re2; subst. clear Re Re1 Re2.
  set (o1 := OpWrite (m_id m) a bytes) in *.
  pose proof (answers_target o1 ms r1 m N Hin (target_not _ Na) A1) as ->.
  assert (N2 : NoDup (map m_id (map (touched o1) ms))) by (rewrite touched_ids; exact N).
  assert (T : target (OpRead (m_id m) a (N.of_nat (List.length bytes))) = Some (m_id (touched o1 m))) by (rewrite touched_id; apply (target_not _ Na)).
  pose proof (answers_target _ _ r2 (touched o1 m) N2 (in_map _ _ _ Hin) T A2) as ->.
  assert (Sto : exists mem', store (m_memory m) a bytes = Some mem').
  { unfold store. replace (a + N.of_nat (List.length bytes) <=? N.of_nat (List.length (m_memory m)))%N with true by lia. eexists. reflexivity. }
  destruct Sto as [mem' Sto]. cbn [answered o1 touched] in Fr. rewrite addressed_self in Fr. cbn [m_memory] in Fr. unfold stored in Fr. rewrite Sto in Fr.
  rewrite (load_stored _ _ _ _ Sto) in Fr. cbn [done combine] in Fr.
  inversion Fr as [|? x1 ? xs1 R1 Fr1]; subst. inversion Fr1 as [|? x2 ? xs2 R2 Fr2]; subst. inversion Fr2; subst. clear Fr Fr1 Fr2.
  cbn [fst snd] in R1, R2. destruct R1 as [op1 [l1 [y1 [-> T1]]]]. destruct R2 as [op2 [l2 [y2 [-> T2]]]].
  apply told_ok in T1.
  assert (Q : exists before text, l2 = before ++ [(LvInfo, el O ++ ": " ++ text)%string] /\ exit_status y2 = 0%N /\
                shows_number (List.length bytes) v text).
  { inversion T2 as [|w' id al data z lines Rw Bz Sl| | | |]; subst.
    - destruct Sl as [debug [text [_ [Te ->]]]].
      exists ((LvDebug, debug) :: (if false then [(LvWarn, "Alert bit set in response from motor!"%string)] else [])), text.
      split; [reflexivity|]. split; [reflexivity|]. cbn [tells r_data] in Te. destruct Te as [z' [Ez Te]]. subst z.
      assert (w' = List.length bytes) as -> by (symmetry; apply (int_bytes_length _ _ _ Bz)).
      pose proof (bytes_unique _ _ _ _ Hw Bz B) as Ev. apply N2Z.inj in Ev. subst z'.
      clear -Te St. destruct St; exact Te.
    - inversion St.
    - match goal with F : failure _ _ |- _ => destruct F as [F|[F|F]]; discriminate F end. }
  destruct Q as [bf [text [-> [X2 Sh]]]]. do 2 eexists. eexists (_ :: bf), text, y2.
  split; [reflexivity|]. split; [exact T1|]. split; [exact X2|exact Sh].
Qed.

(** ** Longer writes may be damaged *)

Lemma run_two : forall io el path fuel c b w d1 d2 r1 r2 z b' st1 st2 x1 x2 s1 s2 e1 e2,
  client_open true (Ok (mkPort ([RdData (r1 ++ r2)] ++ silence [0%N; 0%N]) [] [] [] 0 [])) 57600 = Val (Ok b) ->
  cli_output io el fuel c b = (Val z, b') -> transmitted (p_log (b_port b')) = w ->
  n_state d1 = Val st1 -> n_state d2 = Val st2 ->
  let h1 := set_script (n_bus d1) (p_script (b_port (n_bus d1)) ++ [RdData w]) in
  let h2 := set_script (n_bus d2) (p_script (b_port (n_bus d2)) ++ [RdData w]) in
  mock_iteration (n_id d1) st1 h1 = (x1, s1) -> calls h1 s1 e1 -> transmitted e1 = r1 ->
  mock_iteration (n_id d2) st2 h2 = (x2, s2) -> calls h2 s2 e2 -> transmitted e2 = r2 ->
  exists x, run io el path fuel c [d1; d2] x
    [mkNode (n_id d1) (set_script s1 (p_script (b_port s1) ++ [RdData r2])) x1;
     mkNode (n_id d2) (set_script s2 (p_script (b_port s2) ++ [RdData r1])) x2].
Proof.
  intros io el path fuel c b w d1 d2 r1 r2 z b' st1 st2 x1 x2 s1 s2 e1 e2 Eo Ec T S1 S2 h1 h2 I1 C1 T1 I2 C2 T2.
  eexists. eapply (run_ io el path fuel c [d1; d2] true 57600%N [] [RdData (r1 ++ r2)] [0%N; 0%N] _ b' [r1; r2]).
  - apply le_n.
  - discriminate.
  - reflexivity.
  - unfold main_output. rewrite Eo, Ec. reflexivity.
  - rewrite T, <- T1. eapply re_cons; [exact S1|apply hears_all; reflexivity|exact I1|exact C1|].
    rewrite <- T2. eapply re_cons; [exact S2|apply hears_all; reflexivity|exact I2|exact C2|]. apply re_nil.
  - cbn [items concat]. rewrite !app_nil_r. reflexivity.
  - eapply (oh_cons [] (mkNode (n_id d1) s1 x1)); [apply hears_all; cbn [concat app n_bus]; rewrite app_nil_r; reflexivity|].
    eapply (oh_cons _ (mkNode (n_id d2) s2 x2)); [apply hears_all; cbn [concat app n_bus]; rewrite app_nil_r; reflexivity|].
    apply oh_nil.
Qed.

Lemma two_waiting : forall m1 m2, waiting 64 (two_motors m1 m2) [mkMotor x01 m1 None; mkMotor x02 m2 None].
Proof.
  intros m1 m2. destruct (two_connected m1 m2) as [H1 [H2 [H3 [H4 [H5 H6]]]]].
  split; [exact H1|]. split; [lia|]. split; [exact H3|]. split; [exact H4|]. split; [exact H5|exact H6].
Qed.

Lemma L_C83_commands_refuted : ~ (forall io el path fuel cap ds ms cs os xs ds',
  waiting cap ds ms -> Forall2 means cs os -> all_possible (fun _ => True) cap ms os -> List.length ms < fuel ->
  runs io el path fuel ds cs xs ds' ->
  exists rs ms', remote ms os rs ms' /\ List.length rs = List.length cs /\
    Forall2 (fun cr x => reports io el path (fst cr) (snd cr) x) (combine cs rs) xs /\ Forall2 is_motor ds' ms').
Proof.
  intro H. set (m1 := repeat x00 16). set (d := [xff; xff; xfd; x00; xff; xff; xff; xfd]).
  set (ds := two_motors m1 m1).
  set (io := fun _ : io_error => ""%string). set (el := fun _ : nat => ""%string).
  assert (E : exists x ds', run io el "" 3 (CWrite (MId x01) 0 d) ds x ds' /\
            match ds' with
            | n :: _ => match n_state n with Val st => bytes_eqb (mk_table st) (d ++ repeat x00 8) | _ => false end
            | _ => true end = false).
  { assert (E : exists ds', (exists x, run io el "" 3 (CWrite (MId x01) 0 d) ds x ds') /\
            match ds' with
            | n :: _ => match n_state n with Val st => bytes_eqb (mk_table st) (d ++ repeat x00 8) | _ => false end
            | _ => true end = false).
    { eexists. split.
      - eapply (run_two io el "" 3 _ _ _ _ _ (frame x01 [STATUS; x00]) []).
        { vm_compute. reflexivity. }
        { vm_compute. reflexivity. }
        { vm_compute. reflexivity. }
        { vm_compute. reflexivity. }
        { vm_compute. reflexivity. }
        { vm_compute. reflexivity. }
        { vm_compute. reflexivity. }
        { vm_compute. reflexivity. }
        { vm_compute. reflexivity. }
        { vm_compute. reflexivity. }
        vm_compute. reflexivity.
      - vm_compute. reflexivity. }
    destruct E as [ds' [[x E] K]]. exists x, ds'. auto. }
  destruct E as [x [ds' [E K]]].
  destruct (H io el ""%string 3 64 ds [mkMotor x01 m1 None; mkMotor x02 m1 None] [CWrite (MId x01) 0 d] [OpWrite x01 0 d] [x] ds') as [rs [ms' [Re [_ [_ F]]]]].
  - apply two_waiting.
  - constructor; [|constructor]. apply (mn_write (MId x01)).
  - cbn [all_possible possible proper]. split; [|exact I]. split; [reflexivity|].
    split; [|exact I]. vm_compute. repeat split; lia.
  - cbn. lia.
  - econstructor; [exact E|constructor].
  - inversion Re as [|? ? ? ? ? ? _ Re1]; subst. inversion Re1; subst. inversion F as [|n ? ? ? [_ M] _]; subst.
    rewrite M in K. vm_compute in K. discriminate K.
Qed.

(** ** Cases for the examples *)

Definition some_commands : list command :=
  [CPing (MId x01); CWrite32 (MId x01) 2 305419896; CRead32 (MId x01) 2; CRead16 (MId x09) 0; CWrite8 MBroadcast 0 255;
   CPing MBroadcast; CRead8 (MId x02) 0; CRead16 (MId x02) 7;
   CWrite (MId x02) 3 [xff; xff; xff; xfd; xfd]; CRead (MId x02) 1 7].

Lemma some_commands_small : Forall small_command some_commands.
Proof. unfold some_commands. repeat (apply Forall_cons; [try exact I; repeat split; try discriminate; try (cbn; lia)|]). apply Forall_nil. Qed.

Lemma small_commands_run : forall io el path ds ms cs cap, waiting cap ds ms -> 21 <= cap -> Forall small_command cs ->
  exists os, Forall2 means cs os /\ exists xs ds', runs io el path (S (List.length ms)) ds cs xs ds'.
Proof.
  intros io el path ds ms cs cap Wt Hc Sm.
  assert (M : exists os, Forall2 means cs os).
  { clear -Sm. induction Sm as [|c cs H Sm [os IH]]; [exists []; constructor|].
    destruct (L_C83_small_commands_mean c H) as [o M]. exists (o :: os). constructor; assumption. }
  destruct M as [os M]. exists os. split; [exact M|].
  eapply (L_C83_runs_exist io el path _ cap ds ms cs os Wt M); [eapply small_all_possible; eassumption|apply le_n].
Qed.
