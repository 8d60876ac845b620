(** * StreamProofs: reads depend only on the pending bytes and errors *)
From Coq Require Import ZArith ZifyN ZifyNat ZifyBool.
From Verif Require Import Base Endian Error Checksum Bytestuff Packet Time Bus Data Client
  Instructions Device Api Spec StreamSpec Lib ChecksumProofs StuffProofs WriteProofs ReadProofs ApiProofs.
Ltac Zify.zify_post_hook ::= Z.div_mod_to_equations.

(** ** Items *)

(** The bytes before the first error, and the rest. *)
Fixpoint upto (p : list item) : list byte :=
  match p with inl b :: t => b :: upto t | _ => [] end.
Fixpoint from_err (p : list item) : list item :=
  match p with inl b :: t => from_err t | _ => p end.

Lemma upto_app : forall u p, upto (map inl u ++ p) = u ++ upto p.
Proof. induction u as [|b u IH]; intro p; cbn [map app upto]; [reflexivity|]. f_equal. apply IH. Qed.
Lemma from_err_app : forall u p, from_err (map inl u ++ p) = from_err p.
Proof. induction u as [|b u IH]; intro p; cbn [map app from_err]; [reflexivity|]. apply IH. Qed.
Lemma upto_split : forall p, p = map inl (upto p) ++ from_err p.
Proof. induction p as [|[b|e] p IH]; cbn [upto from_err map app]; [reflexivity| |reflexivity]. f_equal. exact IH. Qed.
Lemma from_err_nf : forall p, from_err p = [] \/ exists e q, from_err p = inr e :: q.
Proof. induction p as [|[b|e] p IH]; cbn [from_err]; eauto. Qed.
Lemma from_err_idem : forall p, from_err (from_err p) = from_err p.
Proof. induction p as [|[b|e] p IH]; cbn [from_err]; auto. Qed.
Lemma upto_from_err : forall p, upto (from_err p) = [].
Proof. induction p as [|[b|e] p IH]; cbn [from_err upto]; auto. Qed.

Lemma feeds_items : forall sc d sc', feeds sc d sc' -> items sc = map inl d ++ items sc'.
Proof.
  intros sc d sc' H. induction H as [sc|bs sc d sc' H IH|a b sc d sc' H IH]; cbn [items map app].
  - reflexivity.
  - rewrite IH, map_app, app_assoc. reflexivity.
  - cbn [items] in IH. rewrite !map_app, <- !app_assoc. f_equal. exact IH.
Qed.

Lemma pending_unread : forall s, pending s = map inl (unread s) ++ items (p_script (b_port s)).
Proof. reflexivity. Qed.

(** ** The ideal reader *)

Definition ideal (cap : nat) (p : list item) : out (result packet read_error) * list item :=
  if cap <? 10 then (Val (Err (RBufferFull (mkBTS 10 cap))), p) else
  match next_event cap (upto p) with
  | Some (ev, r) => (ev_out ev, map inl r ++ from_err p)
  | None =>
      match from_err p with
      | inr e :: q => (Val (Err (RIo e)), map inl (clean (upto p)) ++ q)
      | _ => (Blocked, map inl (clean (upto p)))
      end
  end.

Theorem read_ideal : forall dl s o s', rd_ok s -> read_packet_deadline dl s = (o, s') ->
  (o, pending s') = ideal (length (b_rbuf s)) (pending s).
Proof.
  intros dl s o s' Hok E. unfold ideal.
  destruct (length (b_rbuf s) <? 10) eqn:L.
  { rewrite read_packet_small in E by lia. injection E as <- <-. reflexivity. }
  destruct (read_packet_spec dl s o s' Hok ltac:(lia) E) as [dat [sc' [F K1 K2 K3 K4]]].
  pose proof (feeds_items _ _ _ F) as FI.
  rewrite (pending_unread s), FI, app_assoc, <- map_app, upto_app, from_err_app.
  destruct (next_event (length (b_rbuf s)) (unread s ++ dat)) as [[ev r]|] eqn:N.
  - destruct K3 as [-> [S U]].
    rewrite (next_event_app _ _ (upto (items sc')) _ _ N).
    rewrite map_app, <- app_assoc, <- upto_split, pending_unread, S, U. reflexivity.
  - destruct K3 as [U [[-> [-> S]]|[e [-> ->]]]].
    + cbn [items upto from_err]. rewrite app_nil_r, N. rewrite pending_unread, S, U. cbn [items].
      rewrite app_nil_r. reflexivity.
    + cbn [items upto from_err]. rewrite app_nil_r, N, pending_unread, U. reflexivity.
Qed.

Lemma read_cap : forall dl s o s', inv s -> read_packet_deadline dl s = (o, s') ->
  inv s' /\ length (b_rbuf s') = length (b_rbuf s).
Proof. intros dl s o s' H E. apply (keeps_read_packet dl) in E; [|exact H]. split; apply E. Qed.

(** ** Sequences of reads *)

Fixpoint ideal_reads (cap n : nat) (p : list item) : out (list (result packet read_error)) * list item :=
  match n with
  | O => (Val [], p)
  | S n' =>
      match ideal cap p with
      | (Val r, p') =>
          match ideal_reads cap n' p' with
          | (Val rs, p'') => (Val (r :: rs), p'')
          | (Panic x, p'') => (Panic x, p'')
          | (Blocked, p'') => (Blocked, p'')
          end
      | (Panic x, p') => (Panic x, p')
      | (Blocked, p') => (Blocked, p')
      end
  end.

Theorem reads_ideal : forall ds s o s', inv s -> reads ds s = (o, s') ->
  (o, pending s') = ideal_reads (length (b_rbuf s)) (length ds) (pending s) /\
  inv s' /\ length (b_rbuf s') = length (b_rbuf s).
Proof.
  induction ds as [|d ds IH]; intros s o s' Hi E; cbn [reads length ideal_reads] in *.
  - unfold ret in E. injection E as <- <-. auto.
  - unfold bind in E. destruct (read_packet_deadline d s) as [o1 s1] eqn:R.
    pose proof (read_cap _ _ _ _ Hi R) as [I1 C1].
    rewrite <- (read_ideal _ _ _ _ (proj1 Hi) R).
    destruct o1 as [r|x|]; [|injection E as <- <-; auto|injection E as <- <-; auto].
    destruct (reads ds s1) as [o2 s2] eqn:R2.
    pose proof (IH _ _ _ I1 R2) as [I2 [I3 C2]]. rewrite C1 in I2. rewrite <- I2.
    destruct o2 as [rs|x|]; [|injection E as <- <-; split; [reflexivity|split; [assumption|congruence]]
      |injection E as <- <-; split; [reflexivity|split; [assumption|congruence]]].
    unfold ret in E. injection E as <- <-. split; [reflexivity|split; [assumption|congruence]].
Qed.

(** Dropping garbage early makes no difference. *)
Lemma ideal_clean : forall cap u q, 10 <= cap ->
  ideal cap (map inl (clean u) ++ q) = ideal cap (map inl u ++ q).
Proof.
  intros cap u q H. unfold ideal. replace (cap <? 10) with false by lia.
  rewrite !upto_app, !from_err_app, next_event_clean.
  rewrite <- (clean_app u (upto q)). reflexivity.
Qed.
