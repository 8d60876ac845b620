(** * ShortTheorems: short messages come through, whatever they contain *)
From Coq Require Import ZArith ZifyN ZifyNat ZifyBool.
From Verif Require Import Base Lib Endian Error Packet Bus Data Client Instructions Spec InstructionSpec DataSpec DataTheorems
  RemoteSpec RemoteProofs RemoteTheorems RemoteExtra GenericTheorems ShortSpec.
Ltac Zify.zify_post_hook ::= Z.div_mod_to_equations.

(** ** Only FF and FD matter *)

Definition kind (b : byte) : byte := if beq b xff then xff else if beq b xfd then xfd else x00.

Lemma kind_ff : forall b, beq (kind b) xff = beq b xff.
Proof. intro b. unfold kind. destruct (beq b xff) eqn:E; [reflexivity|]. destruct (beq b xfd); reflexivity. Qed.

Lemma kind_fd : forall b, beq (kind b) xfd = beq b xfd.
Proof.
  intro b. unfold kind. destruct (beq b xff) eqn:E; [apply beq_true in E; subst b; reflexivity|].
  destruct (beq b xfd); reflexivity.
Qed.

Lemma patterns_kind : forall l r, patterns_from r (map kind l) = patterns_from r l.
Proof.
  induction l as [|b l IH]; intro r; cbn [map patterns_from]; [reflexivity|]. rewrite kind_ff, kind_fd, !IH. reflexivity.
Qed.

Lemma noticed_kind : forall l r, noticed_from r (map kind l) = noticed_from r l.
Proof.
  induction l as [|b l IH]; intro r; cbn [map noticed_from]; [reflexivity|]. rewrite kind_ff, kind_fd, !IH. reflexivity.
Qed.

Lemma comes_back_kind : forall n l, length l <= n -> forall bare r s,
  comes_back_from bare r s (map kind l) -> comes_back_from bare r s l.
Proof.
  induction n as [|n IH]; intros l L bare r s; (destruct l as [|b l]; [trivial|]); [cbn in L; lia|]. cbn [length] in L.
  cbn [map comes_back_from]. rewrite kind_ff, kind_fd.
  destruct (beq b xff); [apply IH; lia|]. destruct (beq b xfd && (2 <=? r)); [|apply IH; lia].
  destruct bare as [|bare].
  - intros [H1 H2]. split; [exact H1|]. revert H2. apply IH. lia.
  - destruct (s mod 3 =? 2); [|apply IH; lia]. destruct l as [|c l]; [trivial|]. cbn [map length] in *. rewrite kind_ff.
    intros [H1 H2]. split; [|revert H2; apply IH; lia]. intro K. apply H1. subst c. reflexivity.
Qed.

(** ** All short messages *)

Fixpoint back (bare run seen : nat) (l : list byte) : bool :=
  match l with
  | [] => true
  | b :: t =>
      if beq b xff then back bare (S run) (S seen) t
      else if beq b xfd && (2 <=? run) then
        match bare with
        | O => (seen mod 3 =? 2) && back 0 0 0 t
        | S bare' =>
            if seen mod 3 =? 2 then
              match t with
              | [] => true
              | c :: t' => negb (beq c xfd) && back bare' (if beq c xff then 1 else 0) 0 t'
              end
            else back bare' 0 0 t
        end
      else back bare 0 0 t
  end.

Lemma back_comes : forall n l, length l <= n -> forall bare r s, back bare r s l = true -> comes_back_from bare r s l.
Proof.
  induction n as [|n IH]; intros l L bare r s; (destruct l as [|b l]; [intro; exact I|]); [cbn in L; lia|]. cbn [length] in L.
  cbn [back comes_back_from].
  destruct (beq b xff); [apply IH; lia|]. destruct (beq b xfd && (2 <=? r)); [|apply IH; lia].
  destruct bare as [|bare].
  - intro H. apply andb_prop in H. destruct H as [H1 H2]. split; [apply Nat.eqb_eq, H1|]. revert H2. apply IH. lia.
  - destruct (s mod 3 =? 2); [|apply IH; lia]. destruct l as [|c l]; [intro; exact I|]. cbn [length] in L.
    intro H. apply andb_prop in H. destruct H as [H1 H2]. split; [|revert H2; apply IH; lia].
    intros ->. discriminate H1.
Qed.

(** [f] holds of all lists of [n] bytes FF, FD, 00. *)
Fixpoint every (n : nat) (f : list byte -> bool) : bool :=
  match n with
  | O => f []
  | S n' => every n' (fun l => f (xff :: l)) && every n' (fun l => f (xfd :: l)) && every n' (fun l => f (x00 :: l))
  end.

Lemma every_list : forall n f, every n f = true -> forall l, length l = n -> f (map kind l) = true.
Proof.
  induction n as [|n IH]; intros f H l L; (destruct l as [|b l]; try discriminate L); [exact H|].
  cbn [every] in H. apply andb_prop in H. destruct H as [H H3]. apply andb_prop in H. destruct H as [H1 H2].
  injection L as L. cbn [map]. unfold kind at 1. destruct (beq b xff); [apply (IH _ H1 l L)|].
  destruct (beq b xfd); [apply (IH _ H2 l L)|apply (IH _ H3 l L)].
Qed.

Definition fine (l : list byte) : bool := back (patterns_from 0 l - noticed_from 0 l) 0 0 l.

Lemma every_short : every 0 fine && every 1 fine && every 2 fine && every 3 fine && every 4 fine && every 5 fine &&
  every 6 fine && every 7 fine = true.
Proof. vm_compute. reflexivity. Qed.

Lemma L_C06_short_suffices : forall l, length l <= 7 -> comes_back l.
Proof.
  intros l L. assert (F : fine (map kind l) = true).
  { pose proof every_short as H. repeat (apply andb_prop in H; destruct H as [H ?]).
    assert (D : length l = 0 \/ length l = 1 \/ length l = 2 \/ length l = 3 \/ length l = 4 \/ length l = 5 \/ length l = 6 \/ length l = 7) by lia.
    repeat (destruct D as [D|D]); (eapply every_list; [|exact D]; assumption). }
  unfold fine in F. rewrite patterns_kind, noticed_kind in F. unfold comes_back.
  apply (comes_back_kind _ _ (le_n _)). apply (back_comes _ _ (le_n _)). exact F.
Qed.

Lemma L_C06_short_sharp : ~ comes_back [xff; xff; xfd; x00; xff; xff; xff; xfd].
Proof. vm_compute. intuition discriminate. Qed.

(** A byte that is not FF at the start does not matter. *)
Lemma comes_back_cons : forall b l, b <> xff -> comes_back l -> comes_back (b :: l).
Proof.
  intros b l Hb. unfold comes_back. cbn [patterns_from noticed_from comes_back_from].
  destruct (beq b xff) eqn:B; [apply beq_true in B; contradiction|].
  change (2 <=? 0) with false. change (0 mod 3 =? 2) with false. rewrite !andb_false_r. cbn [Nat.add]. trivial.
Qed.

Lemma short_comes_back : forall b l, b <> xff -> length l <= 7 -> comes_back (b :: l).
Proof. intros b l Hb L. apply comes_back_cons; [exact Hb|]. apply L_C06_short_suffices, L. Qed.

(** Instruction and parameters; status, error and data. *)
Lemma short_passes : forall cap b l, 9 + (1 + length l) + (1 + length l) / 3 <= cap -> b <> xff -> length l <= 7 ->
  passes comes_back cap (b :: l).
Proof.
  intros cap b l Hc Hb L. split; [exact Hc|].
  split; [cbn [length]; change (2 ^ 16)%N with 65536%N; lia|]. apply short_comes_back; assumption.
Qed.

Lemma short_status_passes : forall cap l, 9 + (2 + length l) + (2 + length l) / 3 <= cap -> length l <= 7 ->
  passes comes_back cap (x55 :: x00 :: l).
Proof.
  intros cap l Hc L. split; [exact Hc|].
  split; [cbn [length]; change (2 ^ 16)%N with 65536%N; lia|].
  apply comes_back_cons; [discriminate|]. apply short_comes_back; [discriminate|exact L].
Qed.

(** ** Short operations *)

Lemma short_possible : forall cap ms o, 21 <= cap -> short_op o -> possible comes_back cap ms o.
Proof.
  intros cap ms o Hc S.
  assert (W : forall b l, b <> xff -> length l <= 7 -> passes comes_back cap (b :: l)).
  { intros b l Hb L. apply short_passes; [lia|exact Hb|exact L]. }
  destruct o as [id|id a n|id a d|id a d|id|a n l|]; cbn [short_op] in S.
  - split; [exact S|]. split; [apply W; [discriminate|cbn; lia]|exact I].
  - destruct S as [S1 [S2 S3]].
    split; [split; [exact S1|]; split; [exact S2|]; unfold is_u16; change (2 ^ 16)%N with 65536%N; lia|].
    split; [apply W; [discriminate|cbn; lia]|].
    intros m bs _ _ L. apply load_length in L. apply short_status_passes; lia.
  - destruct S as [S1 S2]. split; [exact S1|]. split; [|exact I]. apply W; [discriminate|]. rewrite app_length. cbn [length le16]. lia.
  - destruct S as [S1 S2]. split; [exact S1|]. split; [|exact I]. apply W; [discriminate|]. rewrite app_length. cbn [length le16]. lia.
  - split; [exact I|]. split; [apply W; [discriminate|cbn; lia]|exact I].
  - destruct S.
  - split; [exact I|]. split; [apply W; [discriminate|cbn; lia]|exact I].
Qed.

Lemma short_all_possible : forall cap os ms, 21 <= cap -> Forall short_op os -> all_possible comes_back cap ms os.
Proof.
  intros cap os ms Hc F. revert ms. induction F as [|o os S F IH]; intro ms; [exact I|].
  split; [apply short_possible; assumption|apply IH].
Qed.

Lemma L_C54_short_operations : forall cap c ds ms os xs c' ds',
  connected cap c ds ms -> 21 <= cap -> Forall short_op os -> session c ds os xs c' ds' ->
  exists rs ms', xs = map Val rs /\ remote ms os rs ms' /\ Forall2 is_motor ds' ms'.
Proof.
  intros cap c ds ms os xs c' ds' Co Hc S Se. eapply L_C54_remote_memory_partial; [exact Co| |exact Se].
  apply short_all_possible; assumption.
Qed.

Lemma L_C56_short_values : forall A (D : data_impl A) V R v bytes cap c ds ms m a mem' x y c1 ds1 c2 ds2,
  crate_type D V R -> R v bytes -> d_size D <= 5 -> connected cap c ds ms -> 21 <= cap -> In m ms -> is_u16 a ->
  store (m_memory m) a bytes = Some mem' ->
  exchange (write D (m_id m) a v) c ds x c1 ds1 -> exchange (read D (m_id m) a) c1 ds1 y c2 ds2 ->
  x = Val (Ok (mkResponse (m_id m) false tt)) /\ y = Val (Ok (mkResponse (m_id m) false v)).
Proof.
  intros A D V R v bytes cap c ds ms m a mem' x y c1 ds1 c2 ds2 Ct Rv Sz Co Hc Hin Ha St E1 E2.
  eapply (L_C56_value_round_trip_partial A D V R v bytes); try eassumption.
  destruct (crate_encodes_as _ _ _ _ _ _ Ct Rv) as [L _].
  pose proof (connected_not_all _ _ _ _ _ Co Hin) as Na.
  apply short_all_possible; [exact Hc|]. constructor; [split; [exact Ha|lia]|].
  constructor; [split; [exact Na|]; split; [exact Ha|lia]|constructor].
Qed.
