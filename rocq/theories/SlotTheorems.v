(** * SlotTheorems: failures of single motors in a sync or bulk read *)
From Coq Require Import ZArith ZifyN ZifyNat ZifyBool.
From Verif Require Import Base Endian Error Checksum Bytestuff Packet Time Bus Data Client
  Instructions Device Api Spec CallSpec StreamSpec DeviceSpec InstructionSpec SlotSpec Demo Lib ChecksumProofs
  CrcErrorProofs StuffProofs WriteProofs ReadProofs ApiProofs StreamProofs MessageProofs SendProofs
  SendTheorems ReadTheorems StatusProofs DeviceTheorems InstructionProofs DemoProofs TransferTheorems
  IterProofs IterTheorems.

(** ** One slot *)

Lemma status_read_fails : forall n s e line, reach s -> (n < 2 ^ 16)%N -> b_baud s <> 0%N ->
  (exists o, ideal (length (b_rbuf s)) (pending s) = (o, line) /\ status_of o = Val (Err e)) ->
  exists s', pending s' = line /\ read_status_response n s = (Val (Err e), s').
Proof.
  intros n s e line R Hn Hb [o [I So]]. destruct (read_status_response n s) as [o' s'] eqn:E. exists s'.
  destruct (read_status_spec n s _ s' (reach_inv _ R) E) as [[p [T _]]|[t [o1 [_ [I1 [-> _]]]]]].
  - destruct (response_timeout_val (b_dbg s) (b_baud s) n Hn Hb) as [t T']. congruence.
  - rewrite I in I1. injection I1 as <- <-. rewrite So. auto.
Qed.

Lemma ideal_silent : forall cap g e line, 10 <= cap -> garbage_split g g [] ->
  ideal cap (map inl g ++ inr e :: line) = (Val (Err (RIo e)), line).
Proof.
  intros cap g e line L G. destruct (split_unique _ _ _ G) as [C _].
  rewrite <- (ideal_clean cap g _ L), <- C. cbn [map app]. unfold ideal. replace (cap <? 10) with false by lia. reflexivity.
Qed.

Lemma slot_read : forall n s sl l rest, reach s -> 10 <= length (b_rbuf s) -> (n < 2 ^ 16)%N -> b_baud s <> 0%N ->
  slots (length (b_rbuf s)) (pending s) (sl :: l) rest ->
  (exists id e ps line, sl = Answered id e ps /\ slots (length (b_rbuf s)) line l rest /\
     statuses (length (b_rbuf s)) (pending s) [(id, e, ps)] line) \/
  (exists e s', (forall X (j : _ -> result X _), verdict j sl = Err e) /\
     slots (length (b_rbuf s)) (pending s') l rest /\ read_status_response n s = (Val (Err e), s')).
Proof.
  intros n s sl l rest R L Hn Hb H. remember (pending s) as pd eqn:Ep. remember (sl :: l) as sll eqn:El.
  destruct H as [rest|g id e ps w line l' rest G F Ff Lw H|g id i ps w line l' rest G F Ff Hi Lw H
    |g id body f c line l' rest G Hf Hl Lw C Ne H|g e line l' rest G H]; [discriminate|..];
    injection El as <- <-.
  - left. exists id, e, ps, line. split; [reflexivity|]. split; [exact H|]. apply sts_cons; try assumption. constructor.
  - right. exists (RInvalidMessage (IMInstruction i STATUS)).
    destruct (status_read_fails n s (RInvalidMessage (IMInstruction i STATUS)) line R Hn Hb) as [s' [P E]].
    + destruct (ideal_frame (length (b_rbuf s)) g id (i :: ps) w line G F ltac:(discriminate) Lw) as [pk [E1 E2]].
      rewrite (proj2 (unst_pstuff_iff _) Ff) in E2. eexists. rewrite <- Ep, E1. split; [reflexivity|]. cbn [status_of].
      eapply status_check_other; [exact E2|exact Hi].
    + exists s'. split; [reflexivity|]. rewrite P. auto.
  - right. exists (RInvalidMessage (IMChecksum f c)).
    destruct (status_read_fails n s (RInvalidMessage (IMChecksum f c)) line R Hn Hb) as [s' [P E]].
    + eexists. rewrite <- Ep, ideal_message by assumption.
      rewrite (message_event_bad _ _ _ c); [split; reflexivity| |exact Ne].
      unfold msg_head. rewrite <- !app_assoc. exact C.
    + exists s'. split; [reflexivity|]. rewrite P. auto.
  - right. exists (RIo e). destruct (status_read_fails n s (RIo e) line R Hn Hb) as [s' [P E]].
    + eexists. rewrite <- Ep, ideal_silent by assumption. split; reflexivity.
    + exists s'. split; [reflexivity|]. rewrite P. auto.
Qed.

(** ** Iterators *)

Definition slot_outcome {Q X} (rd : Q -> M (result X read_error)) (f : Q -> _ -> result X read_error)
    (ok : Q -> Prop) : Prop :=
  forall q s sl l rest, ok q -> reach s -> 10 <= length (b_rbuf s) -> b_baud s <> 0%N ->
  slots (length (b_rbuf s)) (pending s) (sl :: l) rest ->
  exists s', one_read s s' /\ slots (length (b_rbuf s')) (pending s') l rest /\
    rd q s = (Val (verdict (f q) sl), s').

Lemma checked_fails : forall X (rd : M (result X read_error)) n chk s e s', checked rd n chk ->
  read_status_response n s = (Val (Err e), s') -> rd s = (Val (Err e), s').
Proof. intros X rd n chk s e s' [-> _] E. unfold try_, bind. rewrite E. reflexivity. Qed.

Lemma expect_response_slot : forall id n, slot_outcome (fun _ : unit => expect_response id n)
  (fun _ => judge id (N.to_nat n)) (fun _ => is_u16 n).
Proof.
  intros id n [] s sl l rest Hn R L Hb H.
  destruct (slot_read n s sl l rest R L Hn Hb H) as [[i [e [ps [line [-> [H1 H2]]]]]]|[e [s' [V [H1 E]]]]].
  - destruct (expect_response_outcome id n s _ [] line R Hn Hb H2) as [s' [O [S' E]]].
    assert (P : pending s' = line) by (inversion S'; reflexivity).
    exists s'. split; [exact O|]. split; [|exact E]. rewrite P, (or_rcap _ _ O). exact H1.
  - pose proof (read_status_one _ _ _ _ R E) as O.
    exists s'. split; [exact O|]. split; [rewrite (or_rcap _ _ O); exact H1|].
    rewrite V. exact (checked_fails _ _ _ _ _ _ _ (expect_response_checked id n) E).
Qed.

Lemma srb_slot : forall n, slot_outcome (fun id => expect_response id n) (fun id => judge id (N.to_nat n)) (fun _ => is_u16 n).
Proof. intros n id. exact (expect_response_slot id n tt). Qed.

Lemma br_slot : slot_outcome (fun q => expect_response (br_id q) (br_count q))
  (fun q => judge (br_id q) (N.to_nat (br_count q))) (fun q => is_u16 (br_count q)).
Proof. intros q. exact (expect_response_slot (br_id q) (br_count q) tt). Qed.

Lemma sr_slot : forall A (D : data_impl A) decode,
  (forall ps, length ps = d_size D -> d_decode D ps = Val (decode ps)) ->
  slot_outcome (expect_value D) (fun id => judge_value decode id (d_size D)) (fun _ => is_u16 (N.of_nat (d_size D))).
Proof.
  intros A D decode Hd id s sl l rest Hn R L Hb H.
  destruct (slot_read _ s sl l rest R L Hn Hb H) as [[i [e [ps [line [-> [H1 H2]]]]]]|[e [s' [V [H1 E]]]]].
  - destruct (expect_value_outcome A D decode id s _ [] line R Hn Hb Hd H2) as [s' [O [S' E]]].
    assert (P : pending s' = line) by (inversion S'; reflexivity).
    exists s'. split; [exact O|]. split; [|exact E]. rewrite P, (or_rcap _ _ O). exact H1.
  - pose proof (read_status_one _ _ _ _ R E) as O.
    exists s'. split; [exact O|]. split; [rewrite (or_rcap _ _ O); exact H1|].
    rewrite V. exact (checked_fails _ _ _ _ _ _ _ (expect_value_checked A D id) E).
Qed.

(** For dropping, only the effect on the line matters. *)
Definition slot_passes {Q Y} (rd : Q -> M Y) (ok : Q -> Prop) : Prop :=
  forall q s sl l rest, ok q -> reach s -> 10 <= length (b_rbuf s) -> b_baud s <> 0%N ->
  slots (length (b_rbuf s)) (pending s) (sl :: l) rest ->
  exists y s', one_read s s' /\ slots (length (b_rbuf s')) (pending s') l rest /\ rd q s = (Val y, s').

Lemma outcome_passes : forall Q X (rd : Q -> M (result X read_error)) f ok, slot_outcome rd f ok -> slot_passes rd ok.
Proof.
  intros Q X rd f ok H q s sl l rest K R L Hb S. destruct (H q s sl l rest K R L Hb S) as [s' [O [S' E]]]. eauto.
Qed.

Lemma rsr_passes : forall Q (cnt : Q -> N), slot_passes (fun q => read_status_response (cnt q)) (fun q => is_u16 (cnt q)).
Proof.
  intros Q cnt q s sl l rest Hn R L Hb H.
  destruct (slot_read _ s sl l rest R L Hn Hb H) as [[i [e [ps [line [-> [H1 H2]]]]]]|[e [s' [V [H1 E]]]]].
  - destruct (rsr_outcome (cnt q) s _ [] line R (conj Hn Hb) H2) as [r [s' [O [_ [S' E]]]]].
    assert (P : pending s' = line) by (inversion S'; reflexivity).
    exists r, s'. split; [exact O|]. split; [|exact E]. rewrite P, (or_rcap _ _ O). exact H1.
  - pose proof (read_status_one _ _ _ _ R E) as O.
    exists (Err e), s'. split; [exact O|]. split; [rewrite (or_rcap _ _ O); exact H1|exact E].
Qed.

Lemma gnexts_slots : forall Q X (rd : Q -> M (result X read_error)) f ok reqs, slot_outcome rd f ok -> Forall ok reqs ->
  forall k i s sls rest, reach s -> 10 <= length (b_rbuf s) -> b_baud s <> 0%N ->
  i + k <= length reqs -> k <= length sls -> slots (length (b_rbuf s)) (pending s) sls rest ->
  exists s', reach s' /\ length (b_rbuf s') = length (b_rbuf s) /\ b_baud s' = b_baud s /\
    slots (length (b_rbuf s')) (pending s') (skipn k sls) rest /\
    nexts (gnext rd reqs) k i s =
      (Val (map (fun '(q, sl) => Some (verdict (f q) sl)) (firstn k (combine (skipn i reqs) sls)), i + k), s').
Proof.
  intros Q X rd f ok reqs H F k. induction k as [|k IH]; intros i s sls rest R G Hb L1 L2 St.
  - exists s. rewrite Nat.add_0_r. auto.
  - destruct sls as [|sl sls]; [cbn in L2; lia|].
    destruct (nth_error reqs i) as [q|] eqn:Eq; [|apply nth_error_None in Eq; lia].
    assert (Kq : ok q) by (rewrite Forall_forall in F; apply F, (nth_error_In _ _ Eq)).
    destruct (H q s sl sls rest Kq R G Hb St) as [s1 [O [S1 E1]]].
    destruct (IH (S i) s1 sls rest (or_reach _ _ O)) as [s2 [R2 [C2 [B2 [S2 E2]]]]].
    + rewrite (or_rcap _ _ O). exact G.
    + rewrite (or_baud _ _ O). exact Hb.
    + lia.
    + cbn in L2. lia.
    + exact S1.
    + exists s2. split; [exact R2|]. split; [rewrite C2; apply (or_rcap _ _ O)|].
      split; [rewrite B2; apply (or_baud _ _ O)|]. split; [exact S2|].
      cbn [nexts]. unfold bind, gnext at 1. rewrite Eq. unfold bind. rewrite E1. cbn [ret]. rewrite E2.
      rewrite (skipn_nth _ _ _ _ Eq). cbn [combine firstn map]. replace (i + S k) with (S i + k) by lia. reflexivity.
Qed.

Lemma gdrop_slots : forall Q Y (rd : Q -> M Y) ok, slot_passes rd ok ->
  forall reqs s sls rest, Forall ok reqs -> reach s -> 10 <= length (b_rbuf s) -> b_baud s <> 0%N ->
  length reqs = length sls -> slots (length (b_rbuf s)) (pending s) sls rest ->
  exists s', gdrop rd reqs s = (Val tt, s') /\ pending s' = rest.
Proof.
  intros Q Y rd ok H. induction reqs as [|q reqs IH]; intros s [|sl sls] rest F R G Hb L St; try discriminate.
  - exists s. split; [reflexivity|]. inversion St; congruence.
  - destruct (H q s sl sls rest (Forall_inv F) R G Hb St) as [y [s1 [O [S1 E1]]]].
    destruct (IH s1 sls rest (Forall_inv_tail F) (or_reach _ _ O)) as [s2 [E2 P]].
    + rewrite (or_rcap _ _ O). exact G.
    + rewrite (or_baud _ _ O). exact Hb.
    + cbn in L. lia.
    + exact S1.
    + exists s2. split; [|exact P]. cbn [gdrop]. unfold bind. rewrite E1. exact E2.
Qed.

Lemma gtake_slots : forall I Q X Y (next : I -> M (option (result X read_error) * I)) (drop : I -> M unit) (f : nat -> I)
    (rd : Q -> M (result X read_error)) (rd' : Q -> M Y) g ok reqs k s sls rest,
  slot_outcome rd g ok -> slot_passes rd' ok -> Forall ok reqs ->
  (forall i s, next (f i) s = out_map (fun '(x, j) => (x, f j)) (gnext rd reqs i s)) ->
  (forall i s, i <= length reqs -> drop (f i) s = gdrop rd' (skipn i reqs) s) ->
  reach s -> 10 <= length (b_rbuf s) -> b_baud s <> 0%N ->
  k <= length reqs -> length sls = length reqs -> slots (length (b_rbuf s)) (pending s) sls rest ->
  exists s', take_then_drop next drop k (f 0) s =
      (Val (map (fun '(q, sl) => Some (verdict (g q) sl)) (firstn k (combine reqs sls))), s') /\ pending s' = rest.
Proof.
  intros I Q X Y next drop f rd rd' g ok reqs k s sls rest H1 H2 F Hn Hd R G Hb L1 L2 St.
  destruct (gnexts_slots Q X rd g ok reqs H1 F k 0 s sls rest R G Hb ltac:(lia) ltac:(lia) St)
    as [s1 [R1 [C1 [B1 [S1 E1]]]]].
  destruct (gdrop_slots Q Y rd' ok H2 (skipn k reqs) s1 (skipn k sls) rest) as [s2 [E2 P]].
  - rewrite Forall_forall in *. intros q Hq. apply F. rewrite <- (firstn_skipn k reqs). apply in_or_app. auto.
  - exact R1.
  - rewrite C1. exact G.
  - rewrite B1. exact Hb.
  - rewrite !skipn_length. lia.
  - exact S1.
  - exists s2. split; [|exact P]. unfold take_then_drop, bind.
    rewrite (nexts_rep _ _ _ next (gnext rd reqs) f Hn), E1. cbn [out_map skipn Nat.add].
    rewrite Hd by lia. rewrite E2. reflexivity.
Qed.

(** ** C66 *)

Lemma L_C66_sync_read_bytes_partial : forall n ids k s sls rest, reach s -> 10 <= length (b_rbuf s) ->
  is_u16 n -> b_baud s <> 0%N -> k <= length ids -> length sls = length ids ->
  slots (length (b_rbuf s)) (pending s) sls rest ->
  exists s', take_then_drop srb_next srb_drop k (mkSRB n ids 0) s =
      (Val (map (fun '(id, sl) => Some (verdict (judge id (N.to_nat n)) sl)) (firstn k (combine ids sls))), s') /\
    pending s' = rest.
Proof.
  intros n ids k s sls rest R G Hn Hb Hk L H.
  apply (gtake_slots _ _ _ _ srb_next srb_drop (fun i => mkSRB n ids i) _ _ _ _ ids k s sls rest
    (srb_slot n) (rsr_passes byte (fun _ => n))); try assumption.
  - apply Forall_forall. intros; exact Hn.
  - apply srb_rep.
  - intros; apply srb_drop_rep.
Qed.

Lemma L_C66_sync_read_partial : forall A (D : data_impl A) decode ids k s sls rest, reach s -> 10 <= length (b_rbuf s) ->
  is_u16 (N.of_nat (d_size D)) -> b_baud s <> 0%N ->
  (forall ps, length ps = d_size D -> d_decode D ps = Val (decode ps)) ->
  k <= length ids -> length sls = length ids -> slots (length (b_rbuf s)) (pending s) sls rest ->
  exists s', take_then_drop (sr_next D) (sr_drop D) k (mkSR ids 0) s =
      (Val (map (fun '(id, sl) => Some (verdict (judge_value decode id (d_size D)) sl)) (firstn k (combine ids sls))), s') /\
    pending s' = rest.
Proof.
  intros A D decode ids k s sls rest R G Hn Hb Hd Hk L H.
  apply (gtake_slots _ _ _ _ (sr_next D) (sr_drop D) (fun i => mkSR ids i) _ _ _ _ ids k s sls rest
    (sr_slot A D decode Hd) (outcome_passes _ _ _ _ _ (sr_slot A D decode Hd))); try assumption.
  - apply Forall_forall. intros; exact Hn.
  - apply sr_rep.
  - intros; apply sr_drop_rep.
Qed.

Lemma L_C66_bulk_read_partial : forall reqs k s sls rest, reach s -> 10 <= length (b_rbuf s) ->
  Forall (fun q => is_u16 (br_count q)) reqs -> b_baud s <> 0%N -> k <= length reqs -> length sls = length reqs ->
  slots (length (b_rbuf s)) (pending s) sls rest ->
  exists s', take_then_drop br_next br_drop k (mkBR reqs 0) s =
      (Val (map (fun '(q, sl) => Some (verdict (judge (br_id q) (N.to_nat (br_count q))) sl)) (firstn k (combine reqs sls))), s') /\
    pending s' = rest.
Proof.
  intros reqs k s sls rest R G F Hb Hk L H.
  apply (gtake_slots _ _ _ _ br_next br_drop (fun i => mkBR reqs i) _ _ _ _ reqs k s sls rest
    br_slot (rsr_passes _ br_count)); try assumption.
  - apply br_rep.
  - apply br_drop_rep.
Qed.

(** *** A lost answer *)

Lemma statuses_slots : forall cap line sts rest more rest', statuses cap line sts rest -> slots cap rest more rest' ->
  slots cap line (map (fun '(id, e, ps) => Answered id e ps) sts ++ more) rest'.
Proof.
  intros cap line sts rest more rest' H. induction H as [rest|g id e ps w line l rest G F Ff L H IH]; intro K.
  - exact K.
  - cbn [map app]. apply sl_answered; auto.
Qed.

Lemma nothing_split : garbage_split [] [] [].
Proof. split; [reflexivity|]. split; [left; reflexivity|]. intros g1 b g2 E. destruct g1; discriminate. Qed.

Lemma judge_wrong : forall id n id' e ps, id' <> id -> exists er, judge id n (id', e, ps) = Err er.
Proof.
  intros id n id' e ps H. unfold judge. destruct (negb _); [eauto|].
  destruct (beq id' id) eqn:B; [apply beq_true in B; contradiction|]. cbn [negb]. eauto.
Qed.

(** The answers are one behind: each motor gets that of the next. *)
Lemma shifted : forall Q X (key : Q -> byte) (f : Q -> byte * byte * list byte -> result X read_error),
  (forall q id e ps, id <> key q -> exists er, f q (id, e, ps) = Err er) ->
  forall reqs lost sts e, map (fun st => fst (fst st)) sts = map key reqs -> NoDup (key lost :: map key reqs) ->
  Forall failed (map (fun '(q, sl) => Some (verdict (f q) sl))
    (combine (lost :: reqs) (map (fun '(id, e, ps) => Answered id e ps) sts ++ [Silent e]))).
Proof.
  intros Q X key f Hf. induction reqs as [|q reqs IH]; intros lost sts e E N.
  - destruct sts; [|discriminate]. cbn. constructor; [exists (RIo e); reflexivity|constructor].
  - destruct sts as [|[[id er] ps] sts]; [discriminate|]. cbn [map fst] in E. injection E as -> E.
    cbn [map app combine]. constructor.
    + inversion N as [|? ? Hn _]; subst. cbn [verdict].
      destruct (Hf lost (key q) er ps) as [x ->]; [intro K; apply Hn; left; exact K|]. exists x. reflexivity.
    + apply IH; [exact E|]. inversion N; assumption.
Qed.

Lemma combine_app_eq : forall A B (a a' : list A) (b b' : list B), length a = length b ->
  combine (a ++ a') (b ++ b') = combine a b ++ combine a' b'.
Proof.
  intros A B. induction a as [|x a IH]; intros a' [|y b] b' L; try discriminate; [reflexivity|].
  cbn [combine app]. f_equal. apply IH. injection L as L. exact L.
Qed.

(** With one answer missing, the requests before it are judged as they should be and the rest fail. *)
Lemma lost_items : forall Q X (key : Q -> byte) (f : Q -> byte * byte * list byte -> result X read_error),
  (forall q id e ps, id <> key q -> exists er, f q (id, e, ps) = Err er) ->
  forall before lost after sts1 sts2 e, length sts1 = length before ->
  map (fun st => fst (fst st)) sts2 = map key after -> NoDup (map key (before ++ lost :: after)) ->
  exists xs, map (fun '(q, sl) => Some (verdict (f q) sl))
      (combine (before ++ lost :: after) (map (fun '(id, e, ps) => Answered id e ps) (sts1 ++ sts2) ++ [Silent e])) =
    map (fun '(q, st) => Some (f q st)) (combine before sts1) ++ xs /\
    length xs = S (length after) /\ Forall failed xs.
Proof.
  intros Q X key f Hf before lost after sts1 sts2 e L E N.
  rewrite map_app, <- app_assoc, combine_app_eq by (rewrite map_length; auto).
  rewrite map_app. eexists. split; [f_equal|].
  - clear N E. revert sts1 L. induction before as [|q before IH]; intros [|[[id er] ps] sts1] L; try discriminate; [reflexivity|].
    cbn [map combine]. f_equal. apply IH. injection L as L. exact L.
  - assert (L2 : length sts2 = length after) by (rewrite <- (map_length (fun st => fst (fst st))), E; apply map_length).
    split.
    + rewrite map_length, combine_length, app_length, map_length. cbn [length]. lia.
    + apply shifted with (key := key); [exact Hf|exact E|]. rewrite map_app in N. cbn [map] in N.
      clear - N. induction (map key before) as [|x l IH]; [exact N|]. inversion N; auto.
Qed.

Lemma judge_value_wrong : forall A (decode : _ -> result A _) id n id' e ps, id' <> id ->
  exists er, judge_value decode id n (id', e, ps) = Err er.
Proof.
  intros A decode id n id' e ps H. unfold judge_value. destruct (judge_wrong id n id' e ps H) as [er ->]. eauto.
Qed.

Lemma L_C66_lost_sync_read_bytes : forall n before lost after s sts1 sts2 e rest, reach s -> 10 <= length (b_rbuf s) ->
  is_u16 n -> b_baud s <> 0%N -> NoDup (before ++ lost :: after) ->
  length sts1 = length before -> map (fun st => fst (fst st)) sts2 = after ->
  statuses (length (b_rbuf s)) (pending s) (sts1 ++ sts2) (inr e :: rest) ->
  exists xs s', take_then_drop srb_next srb_drop (length before + S (length after)) (mkSRB n (before ++ lost :: after) 0) s =
      (Val (map (fun '(id, st) => Some (judge id (N.to_nat n) st)) (combine before sts1) ++ xs), s') /\
    pending s' = rest /\ length xs = S (length after) /\ Forall failed xs.
Proof.
  intros n before lost after s sts1 sts2 e rest R G Hn Hb N L1 L2 H.
  assert (S1 : slots (length (b_rbuf s)) (inr e :: rest) [Silent e] rest).
  { apply (sl_silent _ [] e rest [] rest); [apply nothing_split|constructor]. }
  assert (L3 : length sts2 = length after) by (rewrite <- L2; symmetry; apply map_length).
  destruct (L_C66_sync_read_bytes_partial n (before ++ lost :: after) (length before + S (length after)) s
    (map (fun '(id, e, ps) => Answered id e ps) (sts1 ++ sts2) ++ [Silent e]) rest R G Hn Hb ltac:(rewrite app_length; cbn; lia)
    ltac:(rewrite app_length, map_length, !app_length, L1, L3; cbn [length]; lia)
    (statuses_slots _ _ _ _ _ _ H S1)) as [s' [E P]].
  destruct (lost_items _ _ (fun id : byte => id) (fun id => judge id (N.to_nat n))
    (fun q id er ps K => judge_wrong q _ id er ps K) before lost after sts1 sts2 e L1)
    as [xs [Ex [Lx Fx]]]; [rewrite map_id; exact L2|rewrite map_id; exact N|].
  exists xs, s'. rewrite E. split; [|auto]. do 2 f_equal. rewrite <- Ex. f_equal. apply firstn_all2.
  rewrite combine_length, app_length. cbn [length]. lia.
Qed.

Lemma L_C66_lost_sync_read : forall A (D : data_impl A) decode before lost after s sts1 sts2 e rest, reach s ->
  10 <= length (b_rbuf s) -> is_u16 (N.of_nat (d_size D)) -> b_baud s <> 0%N ->
  (forall ps, length ps = d_size D -> d_decode D ps = Val (decode ps)) ->
  NoDup (before ++ lost :: after) ->
  length sts1 = length before -> map (fun st => fst (fst st)) sts2 = after ->
  statuses (length (b_rbuf s)) (pending s) (sts1 ++ sts2) (inr e :: rest) ->
  exists xs s', take_then_drop (sr_next D) (sr_drop D) (length before + S (length after)) (mkSR (before ++ lost :: after) 0) s =
      (Val (map (fun '(id, st) => Some (judge_value decode id (d_size D) st)) (combine before sts1) ++ xs), s') /\
    pending s' = rest /\ length xs = S (length after) /\ Forall failed xs.
Proof.
  intros A D decode before lost after s sts1 sts2 e rest R G Hn Hb Hd N L1 L2 H.
  assert (S1 : slots (length (b_rbuf s)) (inr e :: rest) [Silent e] rest).
  { apply (sl_silent _ [] e rest [] rest); [apply nothing_split|constructor]. }
  assert (L3 : length sts2 = length after) by (rewrite <- L2; symmetry; apply map_length).
  destruct (L_C66_sync_read_partial A D decode (before ++ lost :: after) (length before + S (length after)) s
    (map (fun '(id, e, ps) => Answered id e ps) (sts1 ++ sts2) ++ [Silent e]) rest R G Hn Hb Hd ltac:(rewrite app_length; cbn; lia)
    ltac:(rewrite app_length, map_length, !app_length, L1, L3; cbn [length]; lia)
    (statuses_slots _ _ _ _ _ _ H S1)) as [s' [E P]].
  destruct (lost_items _ _ (fun id : byte => id) (fun id => judge_value decode id (d_size D))
    (fun q id er ps K => judge_value_wrong A decode q _ id er ps K) before lost after sts1 sts2 e L1)
    as [xs [Ex [Lx Fx]]]; [rewrite map_id; exact L2|rewrite map_id; exact N|].
  exists xs, s'. rewrite E. split; [|auto]. do 2 f_equal. rewrite <- Ex. f_equal. apply firstn_all2.
  rewrite combine_length, app_length. cbn [length]. lia.
Qed.

Lemma L_C66_lost_bulk_read : forall before lost after s sts1 sts2 e rest, reach s -> 10 <= length (b_rbuf s) ->
  Forall (fun q => is_u16 (br_count q)) (before ++ lost :: after) -> b_baud s <> 0%N ->
  NoDup (map br_id (before ++ lost :: after)) ->
  length sts1 = length before -> map (fun st => fst (fst st)) sts2 = map br_id after ->
  statuses (length (b_rbuf s)) (pending s) (sts1 ++ sts2) (inr e :: rest) ->
  exists xs s', take_then_drop br_next br_drop (length before + S (length after)) (mkBR (before ++ lost :: after) 0) s =
      (Val (map (fun '(q, st) => Some (judge (br_id q) (N.to_nat (br_count q)) st)) (combine before sts1) ++ xs), s') /\
    pending s' = rest /\ length xs = S (length after) /\ Forall failed xs.
Proof.
  intros before lost after s sts1 sts2 e rest R G Hn Hb N L1 L2 H.
  assert (S1 : slots (length (b_rbuf s)) (inr e :: rest) [Silent e] rest).
  { apply (sl_silent _ [] e rest [] rest); [apply nothing_split|constructor]. }
  assert (L3 : length sts2 = length after).
  { rewrite <- (map_length (fun st => fst (fst st))), L2. apply map_length. }
  destruct (L_C66_bulk_read_partial (before ++ lost :: after) (length before + S (length after)) s
    (map (fun '(id, e, ps) => Answered id e ps) (sts1 ++ sts2) ++ [Silent e]) rest R G Hn Hb ltac:(rewrite app_length; cbn; lia)
    ltac:(rewrite app_length, map_length, !app_length, L1, L3; cbn [length]; lia)
    (statuses_slots _ _ _ _ _ _ H S1)) as [s' [E P]].
  destruct (lost_items _ _ br_id (fun q => judge (br_id q) (N.to_nat (br_count q)))
    (fun q id er ps K => judge_wrong (br_id q) _ id er ps K) before lost after sts1 sts2 e L1 L2 N)
    as [xs [Ex [Lx Fx]]].
  exists xs, s'. rewrite E. split; [|auto]. do 2 f_equal. rewrite <- Ex. f_equal. apply firstn_all2.
  rewrite combine_length, app_length. cbn [length]. lia.
Qed.

(** *** The full claim *)

Lemma L_C66_confined_refuted :
  ~ (forall n before lost after s sts1 sts2 e rest, reach s -> 10 <= length (b_rbuf s) ->
     is_u16 n -> b_baud s <> 0%N -> NoDup (before ++ lost :: after) ->
     length sts1 = length before -> map (fun st => fst (fst st)) sts2 = after ->
     statuses (length (b_rbuf s)) (pending s) (sts1 ++ sts2) (inr e :: rest) ->
     exists x s', take_then_drop srb_next srb_drop (length before + S (length after)) (mkSRB n (before ++ lost :: after) 0) s =
         (Val (map (fun '(id, st) => Some (judge id (N.to_nat n) st)) (combine before sts1) ++ x ::
               map (fun '(id, st) => Some (judge id (N.to_nat n) st)) (combine after sts2)), s') /\
       pending s' = rest).
Proof.
  intro H.
  set (s := fresh true [RdData (frame x02 [STATUS; x00; x22]); RdErr (IoTimeout 1)] 64 32).
  destruct (H 1%N [] x01 [x02] s [] [(x02, x00, [x22])] (IoTimeout 1) []) as [x [s' [E _]]].
  - apply fresh_reach; lia.
  - vm_compute. lia.
  - reflexivity.
  - discriminate.
  - constructor; [intros [K|[]]; discriminate|]. constructor; [intros []|constructor].
  - reflexivity.
  - reflexivity.
  - apply (sts_cons 64 [] x02 x00 [x22] (frame x02 [STATUS; x00; x22]) [inr (IoTimeout 1)]); demo. constructor.
  - vm_compute in E. discriminate E.
Qed.
