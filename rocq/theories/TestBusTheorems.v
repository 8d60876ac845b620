(** * TestBusTheorems: the bus of the integration tests *)
From Coq Require Import FinFun ZifyNat ZifyBool Permutation.
From Verif Require Import Base Lib TestBus TestBusSpec.

(** ** Who hears whom *)

Lemma wiring_device : forall ids i id, nth_error ids i = Some id -> NoDup ids ->
  forall t, In t (wiring ids (S i)) <-> t <= length ids /\ t <> S i.
Proof.
  intros ids i id E Nd t. cbn [wiring]. rewrite E. cbn [In]. rewrite in_map_iff. split.
  - intros [<-|[j [<- J]]]; [lia|]. apply filter_In in J. destruct J as [J1 J2]. apply in_seq in J1. split; [lia|].
    intro K. injection K as ->. rewrite E, beq_refl in J2. discriminate J2.
  - intros [L Ne]. destruct t as [|j]; [left; reflexivity|]. right. exists j. split; [reflexivity|].
    apply filter_In. split; [apply in_seq; lia|].
    destruct (nth_error ids j) as [o|] eqn:J; [|apply nth_error_None in J; lia].
    destruct (beq id o) eqn:B; [|reflexivity]. exfalso. apply beq_true in B. subst o.
    apply Ne. f_equal. apply (proj1 (NoDup_nth_error ids) Nd); [lia|congruence].
Qed.

Lemma wiring_in : forall ids e t, NoDup ids -> e <= length ids ->
  (In t (wiring ids e) <-> t <= length ids /\ t <> e).
Proof.
  intros ids [|i] t Nd L.
  - cbn [wiring]. rewrite in_seq. lia.
  - destruct (nth_error ids i) as [id|] eqn:E; [|apply nth_error_None in E; lia].
    exact (wiring_device ids i id E Nd t).
Qed.

Lemma wiring_once : forall ids e, NoDup (wiring ids e).
Proof.
  intros ids [|i]; cbn [wiring]; [apply seq_NoDup|].
  destruct (nth_error ids i); [|constructor]. constructor.
  - rewrite in_map_iff. intros [j [K _]]. discriminate K.
  - apply Injective_map_NoDup; [intros ? ? K; injection K; auto|]. apply NoDup_filter, seq_NoDup.
Qed.

(** ** Traces *)

Lemma heard_snoc : forall e tr ev, heard e (tr ++ [ev]) =
  heard e tr ++ match ev with TRead f _ bs => if f =? e then bs else [] | _ => [] end.
Proof. intros. unfold heard. rewrite flat_map_app. cbn [flat_map]. rewrite app_nil_r. reflexivity. Qed.

Lemma said_snoc : forall tr ev, said (tr ++ [ev]) =
  said tr ++ match ev with TWrite f data => [(f, data)] | _ => [] end.
Proof. intros. unfold said. rewrite flat_map_app. cbn [flat_map]. rewrite app_nil_r. reflexivity. Qed.

Lemma busy_snoc : forall f tr ev, busy f (tr ++ [ev]) =
  match ev with
  | TWrite g _ => if g =? f then true else busy f tr
  | TWritten g => if g =? f then false else busy f tr
  | _ => busy f tr
  end.
Proof. intros. unfold busy. rewrite fold_left_app. reflexivity. Qed.

Lemma of_sender_app : forall f a b, of_sender f (a ++ b) = of_sender f a ++ of_sender f b.
Proof. intros. unfold of_sender. rewrite filter_app, map_app. reflexivity. Qed.

Lemma not_of_app : forall f a b, not_of f (a ++ b) = not_of f a ++ not_of f b.
Proof. intros. unfold not_of. rewrite filter_app, map_app. reflexivity. Qed.

Lemma upd_same : forall A (f : nat -> A) e x, upd f e x e = x.
Proof. intros. unfold upd. rewrite Nat.eqb_refl. reflexivity. Qed.

Lemma upd_other : forall A (f : nat -> A) e x k, k <> e -> upd f e x k = f k.
Proof. intros. unfold upd. apply Nat.eqb_neq in H. rewrite H. reflexivity. Qed.

(** ** Who is writing *)

Definition acts (ids : list byte) (tr : list bus_event) (n : net) : Prop := forall f,
  match net_act n f with
  | AIdle => busy f tr = false
  | AWriting data todo => busy f tr = true /\ f <= length ids /\ exists done, wiring ids f = done ++ todo
  | APanicked => True
  end.

Lemma acts_step : forall ids tr n ev n', acts ids tr n -> bus_step ids n ev n' -> acts ids (tr ++ [ev]) n'.
Proof.
  intros ids tr n ev n' A St f. specialize (A f). rewrite busy_snoc.
  destruct St as [n e data L Ac|n e data t todo Ac P|n e data t todo Ac P|n e data Ac|n e room L Ac P D R|n e room L Ac P R|n e L Ac];
    cbn [net_act].
  - destruct (Nat.eq_dec f e) as [->|Ne].
    + rewrite upd_same, Nat.eqb_refl. split; [reflexivity|]. split; [exact L|]. exists []. reflexivity.
    + rewrite upd_other by exact Ne. replace (e =? f) with false by lia. exact A.
  - destruct (Nat.eq_dec f e) as [->|Ne].
    + rewrite upd_same. rewrite Ac in A. destruct A as [A1 [A2 [d A3]]]. split; [exact A1|]. split; [exact A2|].
      exists (d ++ [t]). rewrite <- app_assoc. exact A3.
    + rewrite upd_other by exact Ne. exact A.
  - destruct (Nat.eq_dec f e) as [->|Ne]; [rewrite upd_same; exact I|]. rewrite upd_other by exact Ne. exact A.
  - destruct (Nat.eq_dec f e) as [->|Ne]; [rewrite upd_same, Nat.eqb_refl; reflexivity|].
    rewrite upd_other by exact Ne. replace (e =? f) with false by lia. exact A.
  - exact A.
  - destruct (Nat.eq_dec f e) as [->|Ne]; [rewrite upd_same; exact I|]. rewrite upd_other by exact Ne. exact A.
  - exact A.
Qed.

Lemma run_acts : forall ids tr n, bus_run ids tr n -> acts ids tr n.
Proof.
  intros ids tr n R. induction R as [|tr n ev n' R IH St]; [intro f; reflexivity|]. exact (acts_step _ _ _ _ _ IH St).
Qed.

(** ** Everything arrives once *)

Definition sees (ids : list byte) (tr : list bus_event) (n : net) (e : nat) (l : list (nat * list byte)) : Prop :=
  heard e tr ++ waiting n e = concat (map snd l) /\
  (forall m, In m l -> fst m <= length ids /\ fst m <> e) /\
  forall f, f <= length ids -> f <> e ->
    exists rest, of_sender f (said tr) = of_sender f l ++ rest /\ length rest <= 1 /\ (busy f tr = false -> rest = []) /\
      forall data todo, net_act n f = AWriting data todo -> rest = if existsb (Nat.eqb e) todo then [data] else [].

Lemma existsb_in : forall e l, existsb (Nat.eqb e) l = true <-> In e l.
Proof.
  intros e l. rewrite existsb_exists. split.
  - intros [x [H E]]. apply Nat.eqb_eq in E. subst. exact H.
  - intro H. exists e. split; [exact H|apply Nat.eqb_refl].
Qed.

Lemma existsb_out : forall e l, ~ In e l -> existsb (Nat.eqb e) l = false.
Proof. intros e l H. destruct (existsb (Nat.eqb e) l) eqn:E; [|reflexivity]. apply existsb_in in E. contradiction. Qed.

Lemma of_sender_one : forall f g d, of_sender f [(g, d)] = if g =? f then [d] else [].
Proof. intros. unfold of_sender. cbn [filter fst]. destruct (g =? f); reflexivity. Qed.

(** Steps that neither say anything nor finish anything. *)
Lemma sees_same : forall ids tr n e l ev n', sees ids tr n e l -> said (tr ++ [ev]) = said tr ->
  (forall f, busy f (tr ++ [ev]) = busy f tr) -> heard e (tr ++ [ev]) ++ waiting n' e = heard e tr ++ waiting n e ->
  (forall f data todo, net_act n' f = AWriting data todo -> net_act n f = AWriting data todo) ->
  sees ids (tr ++ [ev]) n' e l.
Proof.
  intros ids tr n e l ev n' [S1 [S2 S3]] Hs Hb Hh Ha. split; [rewrite Hh; exact S1|]. split; [exact S2|].
  intros f Lf Ne. destruct (S3 f Lf Ne) as [rest [R1 [R2 [R3 R4]]]]. exists rest. rewrite Hs, Hb.
  split; [exact R1|]. split; [exact R2|]. split; [exact R3|]. intros data todo E. exact (R4 data todo (Ha f data todo E)).
Qed.

Lemma sees_step : forall ids tr n ev n' e l, NoDup ids -> e <= length ids -> acts ids tr n -> sees ids tr n e l ->
  bus_step ids n ev n' -> exists l', sees ids (tr ++ [ev]) n' e l'.
Proof.
  intros ids tr n ev n' e l Nd Le A Se St. pose proof Se as [S1 [S2 S3]].
  destruct St as [n g data L Ac|n g data t todo Ac P|n g data t todo Ac P|n g data Ac|n g room L Ac P D R|n g room L Ac P R|n g L Ac].
  - exists l. split; [rewrite heard_snoc, app_nil_r; exact S1|]. split; [exact S2|].
    intros f Lf Ne. destruct (S3 f Lf Ne) as [rest [R1 [R2 [R3 R4]]]]. rewrite said_snoc, of_sender_app, of_sender_one.
    specialize (A g). rewrite Ac in A. cbn [net_act].
    destruct (Nat.eq_dec f g) as [->|Nf].
    + exists [data]. rewrite Nat.eqb_refl, R1, (R3 A), app_nil_r. split; [reflexivity|]. split; [reflexivity|].
      split; [rewrite busy_snoc, Nat.eqb_refl; discriminate|]. intros d todo E. rewrite upd_same in E. injection E as <- <-.
      rewrite (proj2 (existsb_in e _)); [reflexivity|]. apply wiring_in; auto.
    + exists rest. replace (g =? f) with false by lia. rewrite app_nil_r. split; [exact R1|]. split; [exact R2|].
      rewrite busy_snoc. replace (g =? f) with false by lia. split; [exact R3|].
      intros d todo E. rewrite upd_other in E by exact Nf. exact (R4 d todo E).
  - pose proof (A g) as Ag. rewrite Ac in Ag. destruct Ag as [Ag1 [Ag2 [dn Ag3]]].
    assert (Nt : ~ In t todo).
    { pose proof (wiring_once ids g) as N. rewrite Ag3 in N. apply NoDup_remove_2 in N. intro K. apply N, in_or_app. auto. }
    assert (Gt : t <= length ids /\ t <> g).
    { apply (wiring_in ids g t Nd Ag2). rewrite Ag3. apply in_or_app. right. left. reflexivity. }
    destruct (Nat.eq_dec t e) as [->|Nte].
    + exists (l ++ [(g, data)]). split.
      { rewrite heard_snoc, app_nil_r. unfold waiting in *. cbn [net_shared]. rewrite upd_same. cbn [sh_data].
        rewrite map_app, concat_app, app_assoc, S1. cbn [map concat snd]. rewrite app_nil_r. reflexivity. }
      split. { intros m M. apply in_app_or in M. destruct M as [M|[<-|[]]]; [exact (S2 m M)|]. cbn [fst]. lia. }
      intros f Lf Ne. destruct (S3 f Lf Ne) as [rest [R1 [R2 [R3 R4]]]]. rewrite said_snoc, app_nil_r, busy_snoc.
      rewrite of_sender_app, of_sender_one. destruct (Nat.eq_dec f g) as [->|Nf].
      * exists []. pose proof (R4 data (e :: todo) Ac) as E. cbn [existsb] in E. rewrite Nat.eqb_refl in E. cbn [orb] in E.
        rewrite R1, E, Nat.eqb_refl, app_nil_r. split; [reflexivity|]. split; [cbn; lia|]. split; [reflexivity|].
        intros d todo' E'. cbn [net_act] in E'. rewrite upd_same in E'. injection E' as <- <-.
        rewrite (existsb_out e todo Nt). reflexivity.
      * exists rest. replace (g =? f) with false by lia. rewrite app_nil_r. split; [exact R1|]. split; [exact R2|].
        split; [exact R3|]. intros d todo' E'. cbn [net_act] in E'. rewrite upd_other in E' by exact Nf. exact (R4 d todo' E').
    + exists l. split.
      { rewrite heard_snoc, app_nil_r. unfold waiting in *. cbn [net_shared]. rewrite upd_other by lia. exact S1. }
      split; [exact S2|]. intros f Lf Ne. destruct (S3 f Lf Ne) as [rest [R1 [R2 [R3 R4]]]].
      exists rest. rewrite said_snoc, app_nil_r, busy_snoc. split; [exact R1|]. split; [exact R2|]. split; [exact R3|].
      intros d todo' E'. cbn [net_act] in E'. destruct (Nat.eq_dec f g) as [->|Nf].
      * rewrite upd_same in E'. injection E' as <- <-. rewrite (R4 data (t :: todo) Ac). cbn [existsb].
        replace (e =? t) with false by lia. reflexivity.
      * rewrite upd_other in E' by exact Nf. exact (R4 d todo' E').
  - exists l. apply (sees_same ids tr n); [exact Se|rewrite said_snoc; apply app_nil_r|intro; apply busy_snoc| |].
    + rewrite heard_snoc, app_nil_r. reflexivity.
    + intros f d todo' E. cbn [net_act] in E. destruct (Nat.eq_dec f g) as [->|Nf]; [rewrite upd_same in E; discriminate E|].
      rewrite upd_other in E by exact Nf. exact E.
  - exists l. split; [rewrite heard_snoc, app_nil_r; exact S1|]. split; [exact S2|].
    intros f Lf Ne. destruct (S3 f Lf Ne) as [rest [R1 [R2 [R3 R4]]]]. exists rest.
    rewrite said_snoc, app_nil_r, busy_snoc. split; [exact R1|]. split; [exact R2|].
    destruct (Nat.eq_dec f g) as [->|Nf].
    + rewrite (R4 data [] Ac). split; [reflexivity|]. cbn [net_act]. rewrite upd_same. discriminate.
    + replace (g =? f) with false by lia. split; [exact R3|]. cbn [net_act]. rewrite upd_other by exact Nf. exact R4.
  - exists l. apply (sees_same ids tr n); [exact Se|rewrite said_snoc; apply app_nil_r|intro; apply busy_snoc| |auto].
    rewrite heard_snoc. unfold waiting. cbn [net_shared]. destruct (Nat.eq_dec g e) as [->|Ng].
    + rewrite Nat.eqb_refl, upd_same. cbn [sh_data]. rewrite app_nil_r. reflexivity.
    + replace (g =? e) with false by lia. rewrite upd_other by lia. rewrite app_nil_r. reflexivity.
  - exists l. apply (sees_same ids tr n); [exact Se|rewrite said_snoc; apply app_nil_r|intro; apply busy_snoc| |].
    + rewrite heard_snoc, app_nil_r. unfold waiting. cbn [net_shared]. destruct (Nat.eq_dec e g) as [->|Ng];
        [rewrite upd_same|rewrite upd_other by lia]; reflexivity.
    + intros f d todo' E. cbn [net_act] in E. destruct (Nat.eq_dec f g) as [->|Nf]; [rewrite upd_same in E; discriminate E|].
      rewrite upd_other in E by exact Nf. exact E.
  - exists l. apply (sees_same ids tr n); [exact Se|rewrite said_snoc; apply app_nil_r|intro; apply busy_snoc| |auto].
    rewrite heard_snoc, app_nil_r. reflexivity.
Qed.

Lemma run_sees : forall ids tr n e, NoDup ids -> e <= length ids -> bus_run ids tr n -> exists l, sees ids tr n e l.
Proof.
  intros ids tr n e Nd Le R. induction R as [|tr n ev n' R [l IH] St].
  - exists []. split; [reflexivity|]. split; [intros m []|]. intros f _ _. exists [].
    split; [reflexivity|]. split; [cbn; lia|]. split; [reflexivity|]. intros d todo E. discriminate E.
  - exact (sees_step ids tr n ev n' e l Nd Le (run_acts _ _ _ R) IH St).
Qed.

Lemma L_C77_delivery : forall ids tr n e, NoDup ids -> bus_run ids tr n -> e <= length ids ->
  exists l, heard e tr ++ waiting n e = concat (map snd l) /\
    (forall m, In m l -> fst m <= length ids /\ fst m <> e) /\
    forall f, f <= length ids -> f <> e ->
      exists rest, of_sender f (said tr) = of_sender f l ++ rest /\ length rest <= 1 /\ (busy f tr = false -> rest = []).
Proof.
  intros ids tr n e Nd R Le. destruct (run_sees ids tr n e Nd Le R) as [l [S1 [S2 S3]]]. exists l.
  split; [exact S1|]. split; [exact S2|]. intros f Lf Ne. destruct (S3 f Lf Ne) as [rest [R1 [R2 [R3 _]]]].
  exists rest. auto.
Qed.

(** ** One write at a time *)

Lemma one_prefix : forall tr ev, one_at_a_time (tr ++ [ev]) -> one_at_a_time tr.
Proof.
  intros tr ev H before f data after E g. apply (H before f data (after ++ [ev])). rewrite E, <- app_assoc. reflexivity.
Qed.

Lemma one_last : forall tr f data, one_at_a_time (tr ++ [TWrite f data]) -> forall g, busy g tr = false.
Proof. intros tr f data H. exact (H tr f data [] eq_refl). Qed.

Definition in_turn (ids : list byte) (tr : list bus_event) (n : net) : Prop :=
  (forall g h, busy g tr = true -> busy h tr = true -> g = h) /\
  ((forall g, busy g tr = false) -> forall e, e <= length ids -> heard e tr ++ waiting n e = concat (not_of e (said tr))) /\
  (forall g data todo, net_act n g = AWriting data todo -> exists past, said tr = past ++ [(g, data)] /\
     forall e, e <= length ids ->
       heard e tr ++ waiting n e = concat (not_of e past) ++ if existsb (Nat.eqb e) (g :: todo) then [] else data).

Lemma in_turn_same : forall ids tr n ev n', in_turn ids tr n -> said (tr ++ [ev]) = said tr ->
  (forall f, busy f (tr ++ [ev]) = busy f tr) ->
  (forall e, heard e (tr ++ [ev]) ++ waiting n' e = heard e tr ++ waiting n e) ->
  (forall f data todo, net_act n' f = AWriting data todo -> net_act n f = AWriting data todo) ->
  in_turn ids (tr ++ [ev]) n'.
Proof.
  intros ids tr n ev n' [T1 [T2 T3]] Hs Hb Hh Ha. split; [intros g h; rewrite !Hb; apply T1|]. split.
  - intros Q e Le. rewrite Hh, Hs. apply T2; [|exact Le]. intro g. rewrite <- Hb. apply Q.
  - intros g data todo E. destruct (T3 g data todo (Ha _ _ _ E)) as [past [P1 P2]]. exists past. rewrite Hs.
    split; [exact P1|]. intros e Le. rewrite Hh. exact (P2 e Le).
Qed.

Lemma not_of_one : forall e g d, not_of e [(g, d)] = if e =? g then [] else [d].
Proof. intros. unfold not_of. cbn [filter fst]. rewrite (Nat.eqb_sym g e). destruct (e =? g); reflexivity. Qed.

Lemma in_turn_step : forall ids tr n ev n', NoDup ids -> acts ids tr n -> in_turn ids tr n -> bus_step ids n ev n' ->
  one_at_a_time (tr ++ [ev]) -> in_turn ids (tr ++ [ev]) n'.
Proof.
  intros ids tr n ev n' Nd A T St O. pose proof T as [T1 [T2 T3]].
  destruct St as [n g data L Ac|n g data t todo Ac P|n g data t todo Ac P|n g data Ac|n g room L Ac P D R|n g room L Ac P R|n g L Ac].
  - pose proof (one_last _ _ _ O) as Q. split; [|split].
    + intros f h. rewrite !busy_snoc. destruct (g =? f) eqn:F; destruct (g =? h) eqn:H; rewrite ?Q; try discriminate. lia.
    + intro K. specialize (K g). rewrite busy_snoc, Nat.eqb_refl in K. discriminate K.
    + intros f d todo E. cbn [net_act] in E. destruct (Nat.eq_dec f g) as [->|Nf].
      * rewrite upd_same in E. injection E as <- <-. exists (said tr). split; [apply said_snoc|].
        intros e Le. rewrite heard_snoc, app_nil_r. pose proof (T2 Q e Le) as H2. unfold waiting in *. cbn [net_shared].
        rewrite H2. cbn [existsb].
        destruct (e =? g) eqn:Eg; [rewrite app_nil_r; reflexivity|]. cbn [orb].
        rewrite (proj2 (existsb_in e _)); [rewrite app_nil_r; reflexivity|].
        apply wiring_in; [exact Nd|exact L|]. split; [exact Le|lia].
      * rewrite upd_other in E by exact Nf. pose proof (A f) as Af. rewrite E in Af. destruct Af as [Af _].
        rewrite (Q f) in Af. discriminate Af.
  - pose proof (A g) as Ag. rewrite Ac in Ag. destruct Ag as [Ag1 [Ag2 [dn Ag3]]].
    assert (Nt : ~ In t todo).
    { pose proof (wiring_once ids g) as N. rewrite Ag3 in N. apply NoDup_remove_2 in N. intro K. apply N, in_or_app. auto. }
    assert (Gt : t <= length ids /\ t <> g).
    { apply (wiring_in ids g t Nd Ag2). rewrite Ag3. apply in_or_app. right. left. reflexivity. }
    split; [intros f h; rewrite !busy_snoc; apply T1|]. split.
    + intro K. specialize (K g). rewrite busy_snoc, Ag1 in K. discriminate K.
    + intros f d todo' E. cbn [net_act] in E. destruct (Nat.eq_dec f g) as [->|Nf].
      * rewrite upd_same in E. injection E as <- <-. destruct (T3 g data _ Ac) as [past [P1 P2]]. exists past.
        rewrite said_snoc, app_nil_r. split; [exact P1|]. intros e Le. specialize (P2 e Le).
        rewrite heard_snoc, app_nil_r. unfold waiting in *. cbn [net_shared]. cbn [existsb] in *.
        destruct (Nat.eq_dec e t) as [->|Ne].
        -- rewrite upd_same. cbn [sh_data]. rewrite app_assoc, P2. replace (t =? g) with false by lia.
           rewrite Nat.eqb_refl, (existsb_out _ _ Nt). cbn [orb]. rewrite app_nil_r. reflexivity.
        -- rewrite upd_other by exact Ne. rewrite P2. replace (e =? t) with false by lia. reflexivity.
      * rewrite upd_other in E by exact Nf. pose proof (A f) as Af. rewrite E in Af. destruct Af as [Af _].
        exfalso. apply Nf. exact (T1 f g Af Ag1).
  - apply (in_turn_same ids tr n); [exact T|rewrite said_snoc; apply app_nil_r|intro; apply busy_snoc| |].
    + intro e. rewrite heard_snoc, app_nil_r. reflexivity.
    + intros f d todo' E. cbn [net_act] in E. destruct (Nat.eq_dec f g) as [->|Nf]; [rewrite upd_same in E; discriminate E|].
      rewrite upd_other in E by exact Nf. exact E.
  - pose proof (A g) as Ag. rewrite Ac in Ag. destruct Ag as [Ag1 _]. split; [|split].
    + intros f h. rewrite !busy_snoc. destruct (g =? f); [discriminate|]. destruct (g =? h); [discriminate|]. apply T1.
    + intros _ e Le. destruct (T3 g data _ Ac) as [past [P1 P2]]. rewrite heard_snoc, said_snoc, !app_nil_r.
      unfold waiting in *. cbn [net_shared]. rewrite (P2 e Le), P1, not_of_app, not_of_one, concat_app. cbn [existsb orb].
      rewrite orb_false_r. destruct (e =? g); cbn [concat]; rewrite ?app_nil_r; reflexivity.
    + intros f d todo' E. cbn [net_act] in E. destruct (Nat.eq_dec f g) as [->|Nf]; [rewrite upd_same in E; discriminate E|].
      rewrite upd_other in E by exact Nf. pose proof (A f) as Af. rewrite E in Af. destruct Af as [Af _].
      exfalso. apply Nf. exact (T1 f g Af Ag1).
  - apply (in_turn_same ids tr n); [exact T|rewrite said_snoc; apply app_nil_r|intro; apply busy_snoc| |auto].
    intro e. rewrite heard_snoc. unfold waiting. cbn [net_shared]. destruct (Nat.eq_dec g e) as [->|Ng].
    + rewrite Nat.eqb_refl, upd_same. cbn [sh_data]. rewrite app_nil_r. reflexivity.
    + replace (g =? e) with false by lia. rewrite upd_other by lia. rewrite app_nil_r. reflexivity.
  - apply (in_turn_same ids tr n); [exact T|rewrite said_snoc; apply app_nil_r|intro; apply busy_snoc| |].
    + intro e. rewrite heard_snoc, app_nil_r. unfold waiting. cbn [net_shared]. destruct (Nat.eq_dec e g) as [->|Ng];
        [rewrite upd_same|rewrite upd_other by lia]; reflexivity.
    + intros f d todo' E. cbn [net_act] in E. destruct (Nat.eq_dec f g) as [->|Nf]; [rewrite upd_same in E; discriminate E|].
      rewrite upd_other in E by exact Nf. exact E.
  - apply (in_turn_same ids tr n); [exact T|rewrite said_snoc; apply app_nil_r|intro; apply busy_snoc| |auto].
    intro e. rewrite heard_snoc, app_nil_r. reflexivity.
Qed.

Lemma L_C77_same_order_partial : forall ids tr n, NoDup ids -> bus_run ids tr n -> one_at_a_time tr ->
  (forall g, busy g tr = false) ->
  forall e, e <= length ids -> heard e tr ++ waiting n e = concat (not_of e (said tr)).
Proof.
  intros ids tr n Nd R O. assert (T : in_turn ids tr n); [|exact (proj1 (proj2 T))]. revert O.
  induction R as [|tr n ev n' R IH St]; intro O.
  - split; [discriminate|]. split; [reflexivity|]. intros g data todo E. discriminate E.
  - exact (in_turn_step _ _ _ _ _ Nd (run_acts _ _ _ R) (IH (one_prefix _ _ O)) St O).
Qed.

(** ** Panics *)

Inductive bus_from (ids : list byte) : net -> list bus_event -> net -> Prop :=
| from_here : forall n, bus_from ids n [] n
| from_step : forall n tr m ev m', bus_from ids n tr m -> bus_step ids m ev m' -> bus_from ids n (tr ++ [ev]) m'.

Lemma run_split : forall ids b a n, bus_run ids (a ++ b) n -> exists m, bus_run ids a m /\ bus_from ids m b n.
Proof.
  intros ids b. induction b as [|ev b IH] using rev_ind; intros a n R.
  - rewrite app_nil_r in R. exists n. split; [exact R|constructor].
  - rewrite app_assoc in R. remember (( a ++ b) ++ [ev]) as tr eqn:E. destruct R as [|tr m ev' m' R St].
    + destruct (a ++ b); discriminate E.
    + apply app_inj_tail in E. destruct E as [-> ->]. destruct (IH a m R) as [m0 [R0 F0]].
      exists m0. split; [exact R0|]. exact (from_step _ _ _ _ _ _ F0 St).
Qed.

Lemma poisoned_stays : forall ids n ev n' e, bus_step ids n ev n' -> sh_poisoned (net_shared n e) = true ->
  sh_poisoned (net_shared n' e) = true.
Proof.
  intros ids n ev n' e St H.
  destruct St as [n g data L Ac|n g data t todo Ac P|n g data t todo Ac P|n g data Ac|n g room L Ac P D R|n g room L Ac P R|n g L Ac];
    cbn [net_shared]; try exact H.
  - rewrite upd_other; [exact H|]. intros ->. congruence.
  - rewrite upd_other; [exact H|]. intros ->. congruence.
  - unfold upd. destruct (e =? g); [reflexivity|exact H].
Qed.

Lemma from_poisoned : forall ids n tr n' e, bus_from ids n tr n' -> sh_poisoned (net_shared n e) = true ->
  sh_poisoned (net_shared n' e) = true /\ forall f, ~ In (TDeliver f e) tr.
Proof.
  intros ids n tr n' e F H. induction F as [|n tr m ev m' F IH St]; [split; [exact H|intros f []]|].
  destruct (IH H) as [P N]. split; [exact (poisoned_stays _ _ _ _ e St P)|].
  intros f K. apply in_app_or in K. destruct K as [K|[K|[]]]; [exact (N f K)|]. subst ev. inversion St; subst. congruence.
Qed.

(** A writer that still has to write to the poisoned buffer. *)
Lemma from_stuck : forall ids n tr n' e f, bus_from ids n tr n' -> sh_poisoned (net_shared n e) = true ->
  match net_act n f with AWriting _ todo => In e todo | APanicked => True | AIdle => False end ->
  ~ In (TWritten f) tr /\ match net_act n' f with AWriting _ todo => In e todo | APanicked => True | AIdle => False end.
Proof.
  intros ids n tr n' e f F H A. induction F as [|n tr m ev m' F IH St]; [split; [intros []|exact A]|].
  destruct (IH H A) as [N A']. destruct (from_poisoned _ _ _ _ e F H) as [P _]. split.
  - intro K. apply in_app_or in K. destruct K as [K|[K|[]]]; [exact (N K)|]. subst ev. inversion St; subst.
    match goal with X : net_act m f = _ |- _ => rewrite X in A' end. destruct A'.
  - destruct St as [m g data L Ac|m g data t todo Ac P'|m g data t todo Ac P'|m g data Ac|m g room L Ac P' D R|m g room L Ac P' R|m g L Ac];
      cbn [net_act]; try exact A'; unfold upd; destruct (f =? g) eqn:E; try exact A'; try exact I;
      apply Nat.eqb_eq in E; subst g; rewrite Ac in A'; try contradiction.
    destruct A' as [->|A']; [congruence|exact A'].
Qed.

Lemma L_C77_panic_spreads : forall ids t1 e t2 n, NoDup ids -> bus_run ids (t1 ++ TReadPanics e :: t2) n ->
  (forall f, ~ In (TDeliver f e) t2) /\
  forall f data a b, t2 = a ++ TWrite f data :: b -> f <> e -> ~ In (TWritten f) b.
Proof.
  intros ids t1 e t2 n Nd R.
  replace (t1 ++ TReadPanics e :: t2) with ((t1 ++ [TReadPanics e]) ++ t2) in R by (rewrite <- app_assoc; reflexivity).
  destruct (run_split _ _ _ _ R) as [m [R1 F2]].
  assert (P : e <= length ids /\ sh_poisoned (net_shared m e) = true).
  { remember (t1 ++ [TReadPanics e]) as tr eqn:E. destruct R1 as [|tr m0 ev m R1 St]; [destruct t1; discriminate E|].
    apply app_inj_tail in E. destruct E as [-> ->]. inversion St; subst. cbn [net_shared]. rewrite upd_same.
    split; [assumption|reflexivity]. }
  destruct P as [Le P]. split; [apply (from_poisoned _ _ _ _ e F2 P)|].
  intros f data a b -> Ne.
  replace ((t1 ++ [TReadPanics e]) ++ a ++ TWrite f data :: b) with (((t1 ++ [TReadPanics e]) ++ a ++ [TWrite f data]) ++ b) in R
    by (rewrite <- !app_assoc; reflexivity).
  destruct (run_split _ _ _ _ R) as [k [R3 F3]].
  rewrite app_assoc in R3. remember (((t1 ++ [TReadPanics e]) ++ a) ++ [TWrite f data]) as tr eqn:E.
  destruct R3 as [|tr m0 ev k R3 St]; [destruct ((t1 ++ [TReadPanics e]) ++ a); discriminate E|].
  apply app_inj_tail in E. destruct E as [-> ->].
  destruct (run_split _ _ _ _ R3) as [m1 [R4 F4]].
  assert (P1 : sh_poisoned (net_shared m1 e) = true).
  { clear - R4. remember (t1 ++ [TReadPanics e]) as tr eqn:E. destruct R4 as [|tr m0 ev m R1 St]; [destruct t1; discriminate E|].
    apply app_inj_tail in E. destruct E as [-> ->]. inversion St; subst. cbn [net_shared]. rewrite upd_same. reflexivity. }
  destruct (from_poisoned _ _ _ _ e F4 P1) as [P0 _].
  pose proof (poisoned_stays _ _ _ _ e St P0) as Pk.
  apply (from_stuck _ _ _ _ e f F3 Pk). inversion St; subst. cbn [net_act]. rewrite upd_same.
  apply wiring_in; auto.
Qed.

Lemma run_clean : forall ids tr n, bus_run ids tr n -> forall e, sh_poisoned (net_shared n e) = true -> In (TReadPanics e) tr.
Proof.
  intros ids tr n R. induction R as [|tr n ev n' R IH St]; intros e H; [discriminate H|]. apply in_or_app.
  destruct St as [n g data L Ac|n g data t todo Ac P|n g data t todo Ac P|n g data Ac|n g room L Ac P D R'|n g room L Ac P R'|n g L Ac];
    cbn [net_shared] in H; try (left; exact (IH e H)); unfold upd in H.
  - destruct (e =? t); [discriminate H|left; exact (IH e H)].
  - destruct (e =? g); [discriminate H|left; exact (IH e H)].
  - destruct (e =? g) eqn:E; [right; left; apply Nat.eqb_eq in E; congruence|left; exact (IH e H)].
Qed.

Lemma L_C77_panic_cause : forall ids a f b n, bus_run ids (a ++ TWritePanics f :: b) n ->
  exists e, e <> f /\ In (TReadPanics e) a.
Proof.
  intros ids a f b n R. replace (a ++ TWritePanics f :: b) with ((a ++ [TWritePanics f]) ++ b) in R by (rewrite <- app_assoc; reflexivity).
  destruct (run_split _ _ _ _ R) as [m [R1 _]].
  remember (a ++ [TWritePanics f]) as tr eqn:E. destruct R1 as [|tr m0 ev m R1 St]; [destruct a; discriminate E|].
  apply app_inj_tail in E. destruct E as [-> ->]. inversion St as [| |? ? ? t ? Ac P| | | |]; subst.
  exists t. split; [|exact (run_clean _ _ _ R1 t P)].
  intros ->. pose proof (run_acts _ _ _ R1 f) as A. rewrite Ac in A. destruct A as [_ [_ [d A]]].
  assert (K : In f (wiring ids f)) by (rewrite A; apply in_or_app; right; left; reflexivity).
  clear - K. destruct f as [|i]; cbn [wiring] in K; [apply in_seq in K; lia|].
  destruct (nth_error ids i) as [id|] eqn:E; [|destruct K]. destruct K as [K|K]; [discriminate K|].
  apply in_map_iff in K. destruct K as [j [J K]]. injection J as ->. apply filter_In in K. destruct K as [_ K].
  rewrite E, beq_refl in K. discriminate K.
Qed.

Lemma L_C77_never_stuck : forall ids tr n f, bus_run ids tr n -> busy f tr = true ->
  (exists a b, tr = a ++ TWritePanics f :: b) \/
  exists ev n', bus_step ids n ev n' /\ (ev = TWritten f \/ ev = TWritePanics f \/ exists t, ev = TDeliver f t).
Proof.
  intros ids tr n f R B.
  assert (K : busy f tr = true -> net_act n f = APanicked -> In (TWritePanics f) tr).
  { clear B. induction R as [|tr n ev n' R IH St]; [discriminate|]. rewrite busy_snoc. intros B Ac'. apply in_or_app.
    pose proof (run_acts _ _ _ R f) as A.
    destruct St as [n g data L Ac|n g data t todo Ac P|n g data t todo Ac P|n g data Ac|n g room L Ac P D R'|n g room L Ac P R'|n g L Ac];
      cbn [net_act] in Ac'; try (left; exact (IH B Ac')); unfold upd in Ac'; destruct (f =? g) eqn:E; try discriminate Ac';
      try (rewrite Nat.eqb_sym in B; rewrite ?E in B); try (left; exact (IH B Ac')).
    - right. left. apply Nat.eqb_eq in E. congruence.
    - exfalso. apply Nat.eqb_eq in E. subst g. rewrite Ac in A. congruence. }
  destruct (net_act n f) as [|data todo|] eqn:Ac.
  - pose proof (run_acts _ _ _ R f) as A. rewrite Ac in A. congruence.
  - right. destruct todo as [|t todo].
    + do 2 eexists. split; [exact (step_written ids n f data Ac)|auto].
    + destruct (sh_poisoned (net_shared n t)) eqn:P.
      * do 2 eexists. split; [exact (step_write_panics ids n f data t todo Ac P)|auto].
      * do 2 eexists. split; [exact (step_deliver ids n f data t todo Ac P)|eauto].
  - left. apply in_split, K; auto.
Qed.

Lemma L_C77_same_id : forall ids i j id, nth_error ids i = Some id -> nth_error ids j = Some id -> 
  forall tr n, bus_run ids tr n -> ~ In (TDeliver (S i) (S j)) tr.
Proof.
  intros ids i j id Ei Ej tr n R. induction R as [|tr n ev n' R IH St]; [intros []|].
  intro K. apply in_app_or in K. destruct K as [K|[K|[]]]; [exact (IH K)|]. subst ev.
  inversion St as [|? ? data t todo Ac P| | | | |]; subst.
  pose proof (run_acts _ _ _ R (S i)) as A. rewrite Ac in A. destruct A as [_ [_ [d A]]].
  assert (K : In (S j) (wiring ids (S i))) by (rewrite A; apply in_or_app; right; left; reflexivity).
  cbn [wiring] in K. rewrite Ei in K. destruct K as [K|K]; [discriminate K|].
  apply in_map_iff in K. destruct K as [k [J K]]. injection J as ->. apply filter_In in K. destruct K as [_ K].
  rewrite Ej, beq_refl in K. discriminate K.
Qed.

(** ** Concrete runs *)

(** What happens next, if it can; [TRead] is given without its bytes. *)
Definition bus_exec (ids : list byte) (n : net) (ev : bus_event) : option (bus_event * net) :=
  match ev with
  | TWrite e data =>
      match e <=? length ids, net_act n e with
      | true, AIdle => Some (ev, mkNet (net_shared n) (upd (net_act n) e (AWriting data (wiring ids e))))
      | _, _ => None
      end
  | TDeliver e t =>
      match net_act n e with
      | AWriting data (t' :: todo) =>
          if (t =? t') && negb (sh_poisoned (net_shared n t')) then
            Some (TDeliver e t', mkNet (upd (net_shared n) t' (mkShared (sh_data (net_shared n t') ++ data) false))
                         (upd (net_act n) e (AWriting data todo)))
          else None
      | _ => None
      end
  | TWritten e =>
      match net_act n e with
      | AWriting data [] => Some (ev, mkNet (net_shared n) (upd (net_act n) e AIdle))
      | _ => None
      end
  | TWritePanics e =>
      match net_act n e with
      | AWriting data (t :: todo) =>
          if sh_poisoned (net_shared n t) then Some (ev, mkNet (net_shared n) (upd (net_act n) e APanicked)) else None
      | _ => None
      end
  | TRead e room _ =>
      match (e <=? length ids) && negb (sh_poisoned (net_shared n e)) && negb (length (sh_data (net_shared n e)) =? 0)
              && (length (sh_data (net_shared n e)) <=? room), net_act n e with
      | true, AIdle => Some (TRead e room (sh_data (net_shared n e)),
                             mkNet (upd (net_shared n) e (mkShared [] false)) (net_act n))
      | _, _ => None
      end
  | TReadPanics e =>
      match (e <=? length ids) && negb (sh_poisoned (net_shared n e)) && negb (length (sh_data (net_shared n e)) =? 0), net_act n e with
      | true, AIdle => Some (ev, mkNet (upd (net_shared n) e (mkShared (sh_data (net_shared n e)) true))
                                       (upd (net_act n) e APanicked))
      | _, _ => None
      end
  | TTimedOut e =>
      match e <=? length ids, net_act n e with
      | true, AIdle => Some (ev, n)
      | _, _ => None
      end
  end.

Lemma bus_exec_sound : forall ids n ev ev' n', bus_exec ids n ev = Some (ev', n') -> bus_step ids n ev' n'.
Proof.
  intros ids n ev ev' n' E. destruct ev as [e data|e t|e|e room bs|e|e|e]; cbn [bus_exec] in E.
  - destruct (e <=? length ids) eqn:L; [|discriminate E]. destruct (net_act n e) eqn:A; try discriminate E.
    injection E as <- <-. apply step_write; [lia|exact A].
  - destruct (net_act n e) as [|data [|t' todo]|] eqn:A; try discriminate E.
    destruct ((t =? t') && negb (sh_poisoned (net_shared n t'))) eqn:P; [|discriminate E].
    injection E as <- <-. apply step_deliver; [exact A|]. destruct (sh_poisoned (net_shared n t')); [lia|reflexivity].
  - destruct (net_act n e) as [|data [|t' todo]|] eqn:A; try discriminate E. injection E as <- <-.
    apply (step_written ids n e data A).
  - destruct ((e <=? length ids) && negb (sh_poisoned (net_shared n e)) && negb (length (sh_data (net_shared n e)) =? 0)
              && (length (sh_data (net_shared n e)) <=? room)) eqn:L; [|discriminate E].
    destruct (net_act n e) eqn:A; try discriminate E. injection E as <- <-.
    apply step_read; [lia|exact A|destruct (sh_poisoned (net_shared n e)); [lia|reflexivity]| |lia].
    intro K. rewrite K in L. cbn [length] in L. lia.
  - destruct (e <=? length ids) eqn:L; [|discriminate E]. destruct (net_act n e) eqn:A; try discriminate E.
    injection E as <- <-. apply step_timed_out; [lia|exact A].
  - destruct ((e <=? length ids) && negb (sh_poisoned (net_shared n e)) && negb (length (sh_data (net_shared n e)) =? 0)) eqn:L;
      [|discriminate E].
    destruct (net_act n e) eqn:A; try discriminate E. injection E as <- <-.
    apply (step_read_panics ids n e 0); [lia|exact A|destruct (sh_poisoned (net_shared n e)); [lia|reflexivity]|lia].
  - destruct (net_act n e) as [|data [|t' todo]|] eqn:A; try discriminate E.
    destruct (sh_poisoned (net_shared n t')) eqn:P; [|discriminate E].
    injection E as <- <-. exact (step_write_panics ids n e data t' todo A P).
Qed.

Fixpoint bus_execs (ids : list byte) (n : net) (evs : list bus_event) : option (list bus_event * net) :=
  match evs with
  | [] => Some ([], n)
  | ev :: t =>
      match bus_exec ids n ev with
      | None => None
      | Some (ev', n') =>
          match bus_execs ids n' t with
          | None => None
          | Some (tr, m) => Some (ev' :: tr, m)
          end
      end
  end.

Lemma bus_execs_run : forall ids evs a n tr m, bus_run ids a n -> bus_execs ids n evs = Some (tr, m) -> bus_run ids (a ++ tr) m.
Proof.
  intros ids evs. induction evs as [|ev evs IH]; intros a n tr m R E; cbn [bus_execs] in E.
  - injection E as <- <-. rewrite app_nil_r. exact R.
  - destruct (bus_exec ids n ev) as [[ev' n']|] eqn:X; [|discriminate E].
    destruct (bus_execs ids n' evs) as [[tr' m']|] eqn:Y; [|discriminate E]. injection E as <- <-.
    replace (a ++ ev' :: tr') with ((a ++ [ev']) ++ tr') by (rewrite <- app_assoc; reflexivity).
    apply (IH _ n' _ _); [|exact Y]. exact (run_step _ _ _ _ _ R (bus_exec_sound _ _ _ _ _ X)).
Qed.

(** Devices 1 and 2 talk at the same time. *)
Definition crossing : list bus_event :=
  [TWrite 1 [x0a]; TWrite 2 [x0b]; TDeliver 1 0; TDeliver 2 0; TDeliver 2 1; TDeliver 2 3; TWritten 2;
   TDeliver 1 2; TDeliver 1 3; TWritten 1; TRead 3 8 [x0b; x0a]; TRead 0 8 [x0a; x0b]].

Lemma crossing_run : exists n, bus_run [x01; x02; x03] crossing n /\ waiting n 0 = [] /\ waiting n 3 = [].
Proof.
  destruct (bus_execs [x01; x02; x03] net_init crossing) as [[tr m]|] eqn:E; [|vm_compute in E; discriminate E].
  exists m. pose proof (bus_execs_run _ _ [] _ _ _ (run_init _) E) as R. cbn [app] in R.
  assert (tr = crossing /\ waiting m 0 = [] /\ waiting m 3 = []) as [<- W].
  { vm_compute in E. injection E as <- <-. vm_compute. auto. }
  split; [exact R|exact W].
Qed.

Lemma ids_distinct : NoDup [x01; x02; x03].
Proof. repeat constructor; cbn; intuition discriminate. Qed.

Lemma L_C77_same_order_refuted :
  ~ forall ids tr n, NoDup ids -> bus_run ids tr n -> (forall g, busy g tr = false) ->
      exists l, Permutation l (said tr) /\
        forall e, e <= length ids -> heard e tr ++ waiting n e = concat (not_of e l).
Proof.
  intro K. destruct crossing_run as [n [R [W0 W3]]].
  destruct (K _ _ _ ids_distinct R) as [l [P E]].
  { intro g. do 4 (destruct g as [|g]; [reflexivity|]). reflexivity. }
  pose proof (E 0 ltac:(cbn; lia)) as E0. pose proof (E 3 ltac:(cbn; lia)) as E3. rewrite W0 in E0. rewrite W3 in E3.
  change (said crossing) with [(1, [x0a]); (2, [x0b])] in P.
  apply Permutation_sym, Permutation_length_2_inv in P.
  destruct P as [-> | ->]; vm_compute in E0, E3; congruence.
Qed.

Lemma run_of : forall ids tr n, bus_execs ids net_init tr = Some (tr, n) -> bus_run ids tr n.
Proof. intros ids tr n E. exact (bus_execs_run ids tr [] net_init tr n (run_init ids) E). Qed.
