(** * DisturbedExample: an exchange on a disturbed line *)
From Coq Require Import ZArith ZifyN ZifyNat ZifyBool Permutation.
From Verif Require Import Base Endian Error Checksum Bytestuff Packet Time Bus Data Client
  Instructions Device MockDevice Api Spec CallSpec StreamSpec DeviceSpec InstructionSpec Demo Lib ChecksumProofs
  CrcErrorProofs StuffProofs WriteProofs ReadProofs ApiProofs StreamProofs MessageProofs SendProofs
  SendTheorems ReadTheorems StatusProofs DeviceTheorems InstructionProofs DemoProofs TransferTheorems
  UnderstoodTheorems IterProofs IterTheorems ScanTheorems RemoteSpec RemoteProofs RemoteTheorems TurnSpec TurnTheorems ConformSpec
  ConformTheorems SurviveSpec SurviveTheorems NoiseSpec NoiseTheorems DisturbedSpec DisturbedTheorems.

(** All messages in a given sequence of bytes. *)
Definition candidate (t : list byte) : option (byte * list byte) :=
  match t with
  | a :: b :: c :: d :: id :: lo :: hi :: r =>
      if beq a xff && beq b xff && beq c xfd && beq d x00 then
        let n := N.to_nat (b2n lo + 256 * b2n hi) in
        let body := firstn (n - 2) r in
        match skipn (n - 2) r with
        | x :: y :: _ =>
            if (b2n x + 256 * b2n y =? calculate_checksum 0 (header ++ [id] ++ [lo; hi] ++ body))%N then Some (id, body) else None
        | _ => None
        end
      else None
  | _ => None
  end.

Lemma framed_candidate : forall id body w z, framed id body w -> candidate (w ++ z) = Some (id, body).
Proof.
  intros id body w z [crc [-> [Hl Hc]]]. pose proof Hc as [Hc' _]. apply (proj1 (checksum_iff_crc16 0 _ eq_refl crc)) in Hc.
  change (message id body crc) with (wire_of_body id body crc). unfold wire_of_body, header in *. rewrite <- !app_assoc.
  pose proof (le16_value (N.of_nat (length body + 2)) Hl) as V. pose proof (le16_value crc Hc') as W.
  unfold le16 in *. cbn [app] in *. unfold candidate. change (beq xff xff && beq xff xff && beq xfd xfd && beq x00 x00) with true. cbv iota zeta.
  rewrite V. rewrite Nat2N.id. replace (length body + 2 - 2) with (length body) by lia.
  rewrite firstn_app, Nat.sub_diag, firstn_all, firstn_O, app_nil_r.
  rewrite skipn_app, Nat.sub_diag, skipn_all. cbn [skipn app]. rewrite W. unfold header. cbn [app].
  replace (_ =? _)%N with true; [reflexivity|]. symmetry. apply N.eqb_eq. exact Hc.
Qed.

Fixpoint tails (u : list byte) : list (list byte) :=
  match u with [] => [[]] | _ :: t => u :: tails t end.

Lemma tails_in : forall a t, In t (tails (a ++ t)).
Proof.
  induction a as [|x a IH]; intro t; cbn [app]; [destruct t; left; reflexivity|]. cbn [tails]. right. apply IH.
Qed.

Definition expected (l : list status) (c : option (byte * list byte)) : Prop :=
  match c with
  | None => True
  | Some (_, []) => False
  | Some (id, i :: t) => i <> x55 \/ exists e ps, In (id, e, ps) l /\ i :: t = pstuff (x55 :: e :: ps)
  end.

Lemma statuses_only_check : forall l u, Forall (fun t => expected l (candidate t)) (tails u) -> statuses_only l u.
Proof.
  intros l u F id body w Fr [a [z ->]]. rewrite Forall_forall in F.
  pose proof (F (w ++ z) (tails_in a (w ++ z))) as K. rewrite (framed_candidate _ _ _ z Fr) in K. cbn [expected] in K.
  destruct body as [|i t]; [contradiction|]. destruct K as [K|[e [ps [K1 K2]]]]; [left; eauto|right].
  exists e, ps. split; [exact K1|]. rewrite K2 in Fr. exact Fr.
Qed.

Lemma framed_length : forall id body w, framed id body w -> length w = length body + 9.
Proof.
  intros id body w [crc [-> _]]. change (message id body crc) with (wire_of_body id body crc). unfold wire_of_body, header, le16.
  rewrite !app_length. cbn [length]. lia.
Qed.

Lemma hears_itself : forall id body w, is_frame id body w -> Forall (fun t => candidate t = None) (tl (tails w)) -> hears_only w w.
Proof.
  intros id0 body0 w Fr0 F id body w' p Fr _ [a [z E]].
  pose proof (framed_candidate _ _ _ z (frame_framed _ _ _ Fr)) as K.
  pose proof (framed_candidate _ _ _ [] (frame_framed _ _ _ Fr0)) as K0. rewrite app_nil_r in K0.
  destruct a as [|x a].
  - cbn [app] in E. rewrite <- E, K0 in K. injection K as _ K.
    pose proof (framed_length _ _ _ (frame_framed _ _ _ Fr)) as L. pose proof (framed_length _ _ _ (frame_framed _ _ _ Fr0)) as L0.
    rewrite K, <- L, E, app_length in L0. destruct z; [rewrite app_nil_r in E; congruence|cbn in L0; lia].
  - exfalso. rewrite E in F. cbn [app tails tl] in F. rewrite Forall_forall in F.
    pose proof (F (w' ++ z) (tails_in a (w' ++ z))) as N. congruence.
Qed.

Lemma hears_nothing : forall w, hears_only w [].
Proof.
  intros w id body w' p Fr _ [a [z E]]. exfalso. pose proof (framed_length _ _ _ (frame_framed _ _ _ Fr)) as L.
  destruct w'; [cbn in L; lia|]. destruct a; discriminate E.
Qed.

(** Three motors are asked for two bytes each.  The first answers, one bit of the answer of
    the second is disturbed, the third has not heard the question. *)
Definition trio : list (servo (list byte)) := [mkServo x01 [x2a; x07]; mkServo x02 [x05; x06]; mkServo x03 [x21; x22]].

Definition answer_1 : list byte := frame x01 [x55; x80; x2a; x07].
Definition answer_2 : list byte := firstn 9 (frame x02 [x55; x80; x05; x06]) ++ x04 :: skipn 10 (frame x02 [x55; x80; x05; x06]).
Definition trio_script : list rd_event := [RdData (xff :: answer_1); RdData answer_2; RdErr (IoTimeout 7%N); RdErr (IoTimeout 8%N); RdErr (IoTimeout 9%N)].
Definition trio_question : list byte := frame xfe (x82 :: le16 132 ++ le16 2 ++ [x01; x02; x03]).

Definition trio_call : control := KSyncRead [x01; x02; x03] 132 2.
Definition trio_start : bus := set_script (fresh true [] 64 64) trio_script.
Definition trio_end : bus := snd (issue trio_call trio_start).

Definition bad_answer (e : read_error) : Prop := match e with RInvalidMessage (IMChecksum _ _) => True | _ => False end.

Lemma trio_outcome : exists e, bad_answer e /\ fst (issue trio_call trio_start) =
  Val (Turns (Ok [Some (Ok (mkResponse x01 true [x2a; x07])); Some (Err e); Some (Err (RIo (IoTimeout 7%N)))])).
Proof.
  exists (match fst (issue trio_call trio_start) with Val (Turns (Ok [_; Some (Err e); _])) => e | _ => RIo (IoTimeout 0%N) end).
  split; [vm_compute; exact I|]. vm_compute. reflexivity.
Qed.

Lemma trio_question_spells : spells xfe (x82 :: le16 132 ++ le16 2 ++ [x01; x02; x03]) (InTurn (map (fun id => (id, CmdRead 132 2)) [x01; x02; x03])).
Proof. apply sp_sync_read; [reflexivity|reflexivity|]. repeat constructor; cbn; intuition discriminate. Qed.

Lemma trio_question_frame : is_frame xfe (x82 :: le16 132 ++ le16 2 ++ [x01; x02; x03]) trio_question.
Proof. apply frame_ok; reflexivity. Qed.

Lemma trio_question_heard : hears_only trio_question trio_question.
Proof. 
  apply (hears_itself _ _ _ trio_question_frame).
  assert (E : map candidate (tl (tails trio_question)) = repeat None 17) by (vm_compute; reflexivity).
  apply (proj1 (Forall_map candidate (fun o => o = None) _)). rewrite E. cbn [repeat].
  repeat (apply Forall_cons; [reflexivity|]). apply Forall_nil.
Qed.

Lemma trio_statuses : statuses_only [(x01, x80, [x2a; x07]); (x02, x80, [x05; x06])] (bytes_in (items trio_script)).
Proof.
  apply statuses_only_check.
  assert (E : map candidate (tails (bytes_in (items trio_script))) =
    None :: Some (x01, [x55; x80; x2a; x07]) :: repeat None 26) by (vm_compute; reflexivity).
  apply (proj1 (Forall_map candidate (expected _) _)). rewrite E. cbn [repeat].
  repeat (apply Forall_cons; [first [exact I|right; exists x80, [x2a; x07]; split; [left; reflexivity|reflexivity]]|]). apply Forall_nil.
Qed.

Definition trio_reactions : list (servo (list byte) * list status) :=
  [(mkServo x01 [x2a; x07], [(x01, x80, [x2a; x07])]); (mkServo x02 [x05; x06], [(x02, x80, [x05; x06])]); (mkServo x03 [x21; x22], [])].

Definition trio_events : list io_event := skipn (length (p_log (b_port trio_start))) (p_log (b_port trio_end)).

Lemma trio_disturbed : exists e, bad_answer e /\ disturbed notebook (KSyncRead [x01; x02; x03] 132 2) (fresh true [] 64 64) trio
  (Val (Turns (Ok [Some (Ok (mkResponse x01 true [x2a; x07])); Some (Err e); Some (Err (RIo (IoTimeout 7%N)))]))) trio_end
  trio [(x01, x80, [x2a; x07]); (x02, x80, [x05; x06])].
Proof.
  destruct trio_outcome as [e [B E]]. exists e. split; [exact B|].
  refine (disturbed_call notebook (KSyncRead [x01; x02; x03] 132 2) (fresh true [] 64 64) trio trio_script _ trio_end trio_events trio_reactions _ _ _ _ _).
  - vm_compute. lia.
  - fold trio_call trio_start. rewrite <- E. unfold trio_end. apply surjective_pairing.
  - unfold calls. fold trio_start. vm_compute. reflexivity.
  - replace (transmitted trio_events) with trio_question by (vm_compute; reflexivity).
    unfold trio, trio_reactions. apply Forall2_cons; [|apply Forall2_cons; [|apply Forall2_cons; [|apply Forall2_nil]]].
    + exists trio_question. split; [exact trio_question_heard|].
      apply (attends_to notebook trio_question (mkServo x01 [x2a; x07]) _ _ _ _ _ trio_question_frame (contains_all _) trio_question_spells).
      intros st Hs. exact Hs.
    + exists trio_question. split; [exact trio_question_heard|].
      apply (attends_to notebook trio_question (mkServo x02 [x05; x06]) _ _ _ _ _ trio_question_frame (contains_all _) trio_question_spells).
      intros st Hs. exact Hs.
    + exists []. split; [apply hears_nothing|]. apply attends_not.
  - exact trio_statuses.
Qed.

Lemma trio_legible : Forall legible [(x01, x80, [x2a; x07]); (x02, x80, [x05; x06])].
Proof. repeat constructor; cbn; repeat split. Qed.

(** A scan: the first motor answers, the port fails, one byte of the answer of the second is
    lost, the third has not heard the question. *)
Definition pong_1 : list byte := frame x01 [x55; x00; x06; x04; x26].
Definition scan_script : list rd_event :=
  [RdData (x17 :: pong_1); RdErr (IoOther 3%N); RdData (skipn 1 (frame x02 [x55; x00; x06; x04; x26])); RdErr (IoTimeout 7%N); RdErr (IoOther 4%N); RdErr (IoTimeout 8%N)].
Definition pinger : behaviour unit := fun s c => match c with CmdPing => (s, Some (x00, [x06; x04; x26])) | _ => (s, None) end.
Definition pingers : list (servo unit) := [mkServo x01 tt; mkServo x02 tt; mkServo x03 tt].
Definition scan_question : list byte := frame xfe [x01].
Definition scan_start : bus := set_script (fresh true [] 64 64) scan_script.
Definition scan_end : bus := snd (issue KScan scan_start).
Definition scan_events : list io_event := skipn (length (p_log (b_port scan_start))) (p_log (b_port scan_end)).

Lemma scan_disturbed : disturbed pinger KScan (fresh true [] 64 64) pingers
  (Val (Told (RepFound (Ok [Ok (mkResponse x01 false (mkPing 1030 x26)); Err (RIo (IoOther 3%N))])))) scan_end
  pingers [(x01, x00, [x06; x04; x26]); (x02, x00, [x06; x04; x26])].
Proof.
  assert (Fq : is_frame xfe [x01] scan_question) by (apply frame_ok; reflexivity).
  assert (Hq : hears_only scan_question scan_question).
  { apply (hears_itself _ _ _ Fq).
    assert (E : map candidate (tl (tails scan_question)) = repeat None 10) by (vm_compute; reflexivity).
    apply (proj1 (Forall_map candidate (fun o => o = None) _)). rewrite E. cbn [repeat].
    repeat (apply Forall_cons; [reflexivity|]). apply Forall_nil. }
  refine (disturbed_call pinger KScan (fresh true [] 64 64) pingers scan_script _ scan_end scan_events
    [(mkServo x01 tt, [(x01, x00, [x06; x04; x26])]); (mkServo x02 tt, [(x02, x00, [x06; x04; x26])]); (mkServo x03 tt, [])] _ _ _ _ _).
  - vm_compute. lia.
  - vm_compute. reflexivity.
  - unfold calls. fold scan_start. vm_compute. reflexivity.
  - replace (transmitted scan_events) with scan_question by (vm_compute; reflexivity).
    apply Forall2_cons; [|apply Forall2_cons; [|apply Forall2_cons; [|apply Forall2_nil]]].
    + exists scan_question. split; [exact Hq|].
      apply (attends_to pinger scan_question (mkServo x01 tt) _ _ _ WhoIsThere _ Fq (contains_all _)); [constructor|intros st Hs; exact Hs].
    + exists scan_question. split; [exact Hq|].
      apply (attends_to pinger scan_question (mkServo x02 tt) _ _ _ WhoIsThere _ Fq (contains_all _)); [constructor|intros st Hs; exact Hs].
    + exists []. split; [apply hears_nothing|]. apply attends_not.
  - apply statuses_only_check.
    assert (E : map candidate (tails (bytes_in (items scan_script))) =
      None :: Some (x01, [x55; x00; x06; x04; x26]) :: repeat None 27) by (vm_compute; reflexivity).
    apply (proj1 (Forall_map candidate (expected _) _)). rewrite E. cbn [repeat].
    repeat (apply Forall_cons; [first [exact I|right; exists x00, [x06; x04; x26]; split; [left; reflexivity|reflexivity]]|]). apply Forall_nil.
Qed.
