(** * BorrowTheorems: the references of [Device::read] *)
From Coq Require Import ZArith ZifyN ZifyNat ZifyBool.
From Verif Require Import Base Endian Error Checksum Bytestuff Packet Time Bus Device Demo DemoProofs BorrowModel BorrowSpec Lib.

(** ** Accesses *)

Lemma read_shared : forall t sh rest, In t sh -> read_access t (map Shared sh ++ rest) = Some (map Shared sh ++ rest).
Proof.
  intros t sh rest. induction sh as [|x sh IH]; intros H; [contradiction|]. cbn [map app read_access tag_of].
  destruct (x =? t) eqn:E; [reflexivity|]. destruct H as [H|H]; [apply Nat.eqb_neq in E; contradiction|].
  rewrite (IH H). reflexivity.
Qed.

Lemma write_later : forall t later earlier, ~ In t (map tag_of later) ->
  write_access t (later ++ Unique t :: earlier) = Some (Unique t :: earlier).
Proof.
  intros t later earlier. induction later as [|p l IH]; intro H; cbn [app write_access tag_of].
  - rewrite Nat.eqb_refl. reflexivity.
  - cbn [map] in H. destruct (tag_of p =? t) eqn:E; [exfalso; apply H; left; apply Nat.eqb_eq; exact E|].
    apply IH. intro K. apply H. right. exact K.
Qed.

Lemma read_later : forall t later earlier, ~ In t (map tag_of later) ->
  exists later', read_access t (later ++ Unique t :: earlier) = Some (later' ++ Unique t :: earlier) /\ incl later' later.
Proof.
  intros t later earlier. induction later as [|p l IH]; intro H; cbn [app read_access tag_of].
  - rewrite Nat.eqb_refl. exists []. split; [reflexivity|]. intros ? K. exact K.
  - cbn [map] in H. destruct (tag_of p =? t) eqn:E; [exfalso; apply H; left; apply Nat.eqb_eq; exact E|].
    destruct IH as [l' [K I]]. { intro K. apply H. right. exact K. }
    rewrite K. destruct (is_unique p).
    + exists l'. split; [reflexivity|]. intros q Hq. right. apply I. exact Hq.
    + exists (p :: l'). split; [reflexivity|]. intros q [<-|Hq]; [left; reflexivity|right; apply I; exact Hq].
Qed.

(** ** What users see *)

Definition visible (m : machine) (sh : list nat) (v : view) (d : list byte) : Prop :=
  In (v_tag v) sh /\ d = firstn (v_len v) (skipn (v_start v) (b_rbuf (ms_bus m))) /\ length d = v_len v.

Lemma see_visible : forall m sh rest v d, ms_stack m = map Shared sh ++ rest -> visible m sh v d -> see v m = (BVal d, m).
Proof.
  intros [s st n] sh rest v d E [Hi [-> _]]. cbn [ms_stack ms_bus] in *. unfold see, bbind, reads_through. cbn [ms_stack ms_bus ms_next].
  rewrite E, (read_shared _ _ _ Hi). reflexivity.
Qed.

Lemma skipn_add : forall A (l : list A) a k, skipn k (skipn a l) = skipn (a + k) l.
Proof.
  intros A l a. revert l. induction a as [|a IH]; intros l k; [reflexivity|]. destruct l; [apply skipn_nil|]. apply IH.
Qed.

Lemma Forall2_nth : forall A C (P : A -> C -> Prop) l r i, Forall2 P l r ->
  match nth_error l i, nth_error r i with Some a, Some c => P a c | None, None => True | _, _ => False end.
Proof.
  intros A C P l r i F. revert i. induction F as [|a c l r H F IH]; intro i; destruct i; cbn [nth_error]; auto. apply IH.
Qed.

Lemma uses_seen_after : forall us vs ds m sh rest, ms_stack m = map Shared sh ++ rest -> Forall2 (visible m sh) vs ds ->
  exists sh' n, uses vs us m = (BVal (seen ds us), mkMachine (ms_bus m) (map Shared sh' ++ ms_stack m) n) /\
    ms_next m <= n /\ Forall (fun t => ms_next m <= t < n) sh'.
Proof.
  induction us as [|[i|i k] us IH]; intros vs ds m sh rest E F; cbn [uses seen].
  - exists [], (ms_next m). destruct m as [b st n]. split; [reflexivity|]. split; [apply le_n|constructor].
  - pose proof (Forall2_nth _ _ _ _ _ i F) as Q; destruct (nth_error vs i) as [v|], (nth_error ds i) as [d|]; try contradiction;
      [|apply (IH vs ds m sh rest E F)].
    unfold bbind. rewrite (see_visible m sh rest v d E Q). destruct (IH vs ds m sh rest E F) as [sh' [n [U R]]].
    exists sh', n. rewrite U. split; [reflexivity|exact R].
  - pose proof (Forall2_nth _ _ _ _ _ i F) as Q; destruct (nth_error vs i) as [v|], (nth_error ds i) as [d|]; try contradiction;
      [|apply (IH vs ds m sh rest E F)].
    pose proof Q as [Hi [Hd Hl]]. rewrite Hl. destruct (k <=? v_len v) eqn:Ek; [|apply (IH vs ds m sh rest E F)].
    apply Nat.leb_le in Ek. unfold borrow_shared, bbind, reads_through, push. rewrite E, (read_shared _ _ _ Hi). cbn [ms_stack ms_next ms_bus].
    destruct (IH (vs ++ [mkView (ms_next m) (v_start v + k) (v_len v - k)]) (ds ++ [skipn k d])
      (mkMachine (ms_bus m) (Shared (ms_next m) :: map Shared sh ++ rest) (S (ms_next m))) (ms_next m :: sh) rest) as [sh' [n [U [L Fr]]]].
    + reflexivity.
    + apply Forall2_app.
      * clear - F. induction F as [|v d vs ds [A1 A2] F IHF]; constructor; [|exact IHF]. split; [right; exact A1|exact A2].
      * constructor; [|constructor]. split; [left; reflexivity|]. cbn [v_len v_start ms_bus].
        rewrite <- skipn_add. split; [|rewrite skipn_length; lia]. rewrite Hd at 1. apply skipn_firstn_comm.
    + cbn [ms_bus ms_stack ms_next] in *. exists (sh' ++ [ms_next m]), n. rewrite U. split.
      * rewrite map_app, <- app_assoc. reflexivity.
      * split; [lia|]. apply Forall_app. split; [revert Fr; apply Forall_impl; intros; lia|]. constructor; [lia|constructor].
Qed.

Lemma uses_seen : forall us vs ds m sh rest, ms_stack m = map Shared sh ++ rest -> Forall2 (visible m sh) vs ds ->
  fst (uses vs us m) = BVal (seen ds us).
Proof.
  intros us vs ds m sh rest E F. destruct (uses_seen_after us vs ds m sh rest E F) as [sh' [n [U _]]]. rewrite U. reflexivity.
Qed.

(** ** Reading a packet *)

Definition read_rest (len : nat) : M (result packet read_error) :=
  s <- get ;;
  data <- lift (slice_to (b_rbuf s) len) ;;
  instruction <- lift (idx data 7) ;;
  if beq instruction STATUS && (len - HEADER_SIZE <? 1) then
    ret (Err (RInvalidMessage (IMParameterCount 0 (Min 1))))
  else ret (Ok (mkPacket data)).

Lemma read_in_two : forall d s, read_packet_deadline d s = try_ (fun e => e) (read_front d) read_rest s.
Proof.
  intros d s. unfold read_packet_deadline, read_front, try_, tryr, bind, get. destruct (bts_check _ _); [|reflexivity].
  destruct (read_loop _ d s) as [[[len|e]|p|] s1]; try reflexivity.
  unfold finish_packet, finish_front, bind, get, lift, put, ret. destruct (usize_sub len 2) as [pe|p|]; try reflexivity.
  destruct (slice_from (b_rbuf s1) pe) as [crc|p|]; try reflexivity. destruct (read_u16_le crc) as [cm|p|]; try reflexivity.
  destruct (slice_to (b_rbuf s1) pe) as [cov|p|]; try reflexivity.
  destruct (negb _).
  - destruct (consume_read_bytes len s1) as [[u|p|] s2]; reflexivity.
  - destruct (with_slice (b_rbuf s1) HEADER_SIZE pe unstuff_inplace) as [[rbuf pc]|p|]; try reflexivity.
    unfold read_rest, bind, get, lift, ret. cbn [set_rbuf b_rbuf]. destruct (slice_to rbuf (HEADER_SIZE + pc)) as [data|p|]; try reflexivity.
    unfold pk_instruction. cbn [pk_data]. destruct (idx data 7) as [i|p|]; try reflexivity.
    replace (HEADER_SIZE + pc - HEADER_SIZE) with pc by lia. destruct (beq i STATUS && (pc <? 1)); reflexivity.
Qed.

(** The stack is that of a packet: the device, then the references on the way, then shared ones. *)
Definition borrowed (device : nat) (earlier : list permission) (m : machine) : Prop :=
  exists later, ms_stack m = later ++ Unique device :: earlier /\ ~ In device (map tag_of later) /\
    Forall (fun p => tag_of p < ms_next m) (ms_stack m).

Lemma borrowed_usable : forall device earlier m, borrowed device earlier m -> usable device m.
Proof. intros device earlier m [later [E [N F]]]. split; [exists later, earlier; auto|exact F]. Qed.

Lemma slice_to_firstn : forall l n d, slice_to l n = Val d -> d = firstn n l /\ length d = n.
Proof.
  intros l n d H. unfold slice_to, slice in H. destruct (_ && _) eqn:E in H; [|discriminate H]. injection H as <-.
  apply andb_prop in E. destruct E as [_ E]. apply Nat.leb_le in E. rewrite Nat.sub_0_r. cbn [skipn].
  split; [reflexivity|]. apply firstn_length_le. exact E.
Qed.

Lemma write_top : forall t st, write_access t (Unique t :: st) = Some (Unique t :: st).
Proof. intros t st. cbn [write_access tag_of]. rewrite Nat.eqb_refl. reflexivity. Qed.
Lemma write_top_raw : forall t st, write_access t (Raw t :: st) = Some (Raw t :: st).
Proof. intros t st. cbn [write_access tag_of]. rewrite Nat.eqb_refl. reflexivity. Qed.

Definition around (device : nat) (d : deadline) : B (result view read_error) :=
  field <~ borrow_mut device ;;
  raw <~ cast_raw field ;;
  bus_ref <~ borrow_mut raw ;;
  read_packet_view bus_ref d.

Lemma around_same : forall device earlier d m o s x m', borrowed device earlier m ->
  read_packet_deadline d (ms_bus m) = (o, s) -> around device d m = (x, m') ->
  ms_bus m' = s /\ borrowed device earlier m' /\ ms_next m <= ms_next m' /\
  match o with
  | Panic p => x = BPanic p
  | Blocked => x = BBlocked
  | Val (Err e) => x = BVal (Err e)
  | Val (Ok p) => exists v t rest, x = BVal (Ok v) /\ ms_stack m' = map Shared [t] ++ rest /\ visible m' [t] v (pk_data p) /\ ms_next m <= t
  end.
Proof.
  intros device earlier d [b st n] o s x m' [later [E [N F]]] R A. cbn [ms_bus ms_stack ms_next] in *. subst st.
  rewrite Forall_app in F. destruct F as [_ F].
  assert (Dn : device < n) by (inversion F; assumption).
  unfold around, read_packet_view, borrow_mut, cast_raw, bbind, writes_through, push in A. cbn [ms_bus ms_stack ms_next] in A.
  rewrite (write_later _ _ _ N) in A. cbn [ms_bus ms_stack ms_next] in A.
  rewrite write_top in A. cbn [ms_bus ms_stack ms_next] in A. rewrite write_top_raw in A. cbn [ms_bus ms_stack ms_next] in A.
  rewrite !write_top in A. cbn [ms_bus ms_stack ms_next] in A. rewrite !write_top in A. cbn [ms_bus ms_stack ms_next] in A.
  rewrite !write_top in A. cbn [ms_bus ms_stack ms_next] in A.
  rewrite read_in_two in R. unfold try_, bind in R. unfold run at 1 in A. cbn [ms_bus ms_stack ms_next] in A.
  set (W := Unique (S (S (S n))) :: Unique (S (S n)) :: Raw (S n) :: Unique n :: Unique device :: earlier) in *.
  assert (K : forall l k s', Forall (fun p => n < tag_of p < k) l -> S (S (S n)) < k -> borrowed device earlier (mkMachine s' (l ++ W) k)).
  { intros l k s' Fl Hk. exists (l ++ [Unique (S (S (S n))); Unique (S (S n)); Raw (S n); Unique n]). cbn [ms_stack ms_next].
    split; [unfold W; rewrite <- app_assoc; reflexivity|]. split.
    - rewrite map_app, in_app_iff. cbn [map tag_of In]. rewrite Forall_forall in Fl.
      intros [H|H]; [apply in_map_iff in H; destruct H as [p [<- Hp]]; specialize (Fl p Hp); lia|lia].
    - apply Forall_app. split; [revert Fl; apply Forall_impl; intros p Hp; lia|]. unfold W. repeat (constructor; [cbn [tag_of]; lia|]).
      inversion F as [|? ? ? F']. revert F'. apply Forall_impl. intros p Hp. lia. }
  assert (K0 : forall s', borrowed device earlier (mkMachine s' (Unique (S (S (S (S n)))) :: W) (S (S (S (S (S n))))))).
  { intro s'. apply (K [Unique (S (S (S (S n))))]); [|lia]. repeat constructor; cbn [tag_of]; lia. }
  assert (K1 : forall s', borrowed device earlier (mkMachine s' (Shared (S (S (S (S (S n))))) :: W) (S (S (S (S (S (S n)))))))).
  { intro s'. apply (K [Shared (S (S (S (S (S n)))))]); [|lia]. repeat constructor; cbn [tag_of]; lia. }
  destruct (read_front d b) as [[[len|e]|p|] s1].
  - unfold borrow_shared, bbind, reads_through, push in A. cbn [ms_bus ms_stack ms_next] in A.
    assert (Ra : read_access (S (S (S n))) (Unique (S (S (S (S n)))) :: W) = Some W).
    { unfold W. cbn [read_access tag_of is_unique]. rewrite (proj2 (Nat.eqb_neq (S (S (S (S n)))) (S (S (S n))))) by lia.
      rewrite Nat.eqb_refl. reflexivity. }
    rewrite Ra in A. cbn [ms_bus ms_stack ms_next] in A.
    unfold read_rest, bind, get, lift in R. unfold run at 1, bind, get, lift in A. cbn [ms_bus ms_stack ms_next] in A.
    destruct (slice_to (b_rbuf s1) len) as [data|p|] eqn:Sl; cbn [ms_bus ms_stack ms_next] in A.
    + destruct (slice_to_firstn _ _ _ Sl) as [Ed Ld].
      rewrite (see_visible _ [S (S (S (S (S n))))] W _ data) in A; [|reflexivity|split; [left; reflexivity|split; [exact Ed|exact Ld]]].
      unfold run, lift in A. cbn [ms_bus ms_stack ms_next] in A.
      destruct (idx data 7) as [i|p|] eqn:Ei.
      * destruct (beq i STATUS && (len - HEADER_SIZE <? 1)); injection R as <- <-; injection A as <- <-; cbn [ms_bus].
        -- split; [reflexivity|]. split; [apply K1|]. split; [cbn [ms_next]; lia|reflexivity].
        -- split; [reflexivity|]. split; [apply K1|]. split; [cbn [ms_next]; lia|]. exists (mkView (S (S (S (S (S n))))) 0 len), (S (S (S (S (S n))))), W.
           split; [reflexivity|]. split; [reflexivity|]. split; [|cbn [ms_next]; lia]. split; [left; reflexivity|]. split; [exact Ed|exact Ld].
      * injection R as <- <-; injection A as <- <-. split; [reflexivity|]. split; [apply K1|]. split; [cbn [ms_next]; lia|reflexivity].
      * injection R as <- <-; injection A as <- <-. split; [reflexivity|]. split; [apply K1|]. split; [cbn [ms_next]; lia|reflexivity].
    + injection R as <- <-; injection A as <- <-. split; [reflexivity|]. split; [apply K1|]. split; [cbn [ms_next]; lia|reflexivity].
    + injection R as <- <-; injection A as <- <-. split; [reflexivity|]. split; [apply K1|]. split; [cbn [ms_next]; lia|reflexivity].
  - unfold ret in R. unfold bret in A. injection R as <- <-; injection A as <- <-. split; [reflexivity|]. split; [apply K0|]. split; [cbn [ms_next]; lia|reflexivity].
  - injection R as <- <-; injection A as <- <-. split; [reflexivity|]. split; [apply K0|]. split; [cbn [ms_next]; lia|reflexivity].
  - injection R as <- <-; injection A as <- <-. split; [reflexivity|]. split; [apply K0|]. split; [cbn [ms_next]; lia|reflexivity].
Qed.

Lemma device_loop_around : forall fuel device d m, device_loop_view (S fuel) device d m =
  (r <~ around device d ;;
   match r with
   | Err e => bret (Err e)
   | Ok packet => i <~ as_instruction_view packet ;;
       match i with Some i => bret (Ok i) | None => device_loop_view fuel device d end
   end) m.
Proof.
  intros fuel device d m. cbn [device_loop_view]. unfold around, bbind.
  destruct (borrow_mut device m) as [[t1|p| |] m1]; try reflexivity. destruct (cast_raw t1 m1) as [[t2|p| |] m2]; try reflexivity.
  destruct (borrow_mut t2 m2) as [[t3|p| |] m3]; try reflexivity.
Qed.

Definition outcome_in (n : nat) (x : bout (result view read_error)) (m : machine) (o : out (result packet read_error)) : Prop :=
  match o with
  | Panic p => x = BPanic p
  | Blocked => x = BBlocked
  | Val (Err e) => x = BVal (Err e)
  | Val (Ok p) => exists v t rest, x = BVal (Ok v) /\ ms_stack m = map Shared [t] ++ rest /\ visible m [t] v (pk_data p) /\ n <= t
  end.

Lemma loop_same : forall fuel device earlier d m o s x m', borrowed device earlier m ->
  device_loop fuel d (ms_bus m) = (o, s) -> device_loop_view fuel device d m = (x, m') ->
  ms_bus m' = s /\ borrowed device earlier m' /\ ms_next m <= ms_next m' /\ outcome_in (ms_next m) x m' o.
Proof.
  induction fuel as [|fuel IH]; intros device earlier d m o s x m' Bo E A.
  - injection E as <- <-. injection A as <- <-. repeat split; [exact Bo|apply le_n].
  - rewrite device_loop_around in A. unfold bbind at 1 in A. cbn [device_loop] in E. unfold try_, bind in E.
    destruct (around device d m) as [x1 m1] eqn:Ar. destruct (read_packet_deadline d (ms_bus m)) as [o1 s1] eqn:Re.
    destruct (around_same device earlier d m o1 s1 x1 m1 Bo Re Ar) as [Eb [Bo1 [Nx Q]]].
    destruct o1 as [[p|e]|p|]; try (subst x1; injection E as <- <-; injection A as <- <-; repeat split; assumption).
    destruct Q as [v [t [rest [-> [Es [Vi Fr]]]]]]. unfold as_instruction_view, bbind in A.
    rewrite (see_visible m1 [t] rest v (pk_data p) Es Vi) in A. unfold as_instruction, pk_instruction, lift in E. unfold run, lift in A.
    assert (Em : mkMachine (ms_bus m1) (ms_stack m1) (ms_next m1) = m1) by (destruct m1; reflexivity). rewrite Em in A.
    destruct (idx (pk_data p) 7) as [i|q|]; cbn [obind] in E;
      try (injection E as <- <-; injection A as <- <-; repeat split; assumption).
    destruct (negb (beq i STATUS)); cbn [bret ret] in A, E.
    + injection E as <- <-. injection A as <- <-. split; [exact Eb|]. split; [exact Bo1|]. split; [exact Nx|].
      exists v, t, rest. auto.
    + rewrite <- Eb in E. destruct (IH device earlier d m1 o s x m' Bo1 E A) as [K1 [K2 [K3 K4]]].
      split; [exact K1|]. split; [exact K2|]. split; [lia|]. unfold outcome_in in *. destruct o as [[p'|e]|q|]; try exact K4.
      destruct K4 as [v' [t' [rest' [L1 [L2 [L3 L4]]]]]]. exists v', t', rest'. repeat split; try assumption; try apply L3. lia.
Qed.

Lemma read_same : forall device timeout m o s x m', usable device m ->
  read_raw_instruction_timeout timeout (ms_bus m) = (o, s) -> read_raw_instruction_view device timeout m = (x, m') ->
  ms_bus m' = s /\ ms_next m <= ms_next m' /\ outcome_in (ms_next m) x m' o /\
  exists later earlier, ms_stack m' = later ++ Unique device :: earlier /\ ~ In device (map tag_of later) /\
    Forall (fun p => tag_of p < ms_next m') (ms_stack m') /\ device < ms_next m /\ Forall (fun p => tag_of p < ms_next m) earlier.
Proof.
  intros device timeout [b st n] o s x m' [[later [earlier [E N]]] F] R A. cbn [ms_stack ms_next] in *. subst st.
  unfold read_raw_instruction_view, borrow_shared, bbind, reads_through, push in A. cbn [ms_bus ms_stack ms_next] in A.
  destruct (read_later device later earlier N) as [later' [Er Hi]]. rewrite Er in A. cbn [ms_bus ms_stack ms_next] in A.
  cbn [read_access tag_of] in A. rewrite Nat.eqb_refl in A. cbn [ms_bus ms_stack ms_next] in A.
  unfold read_raw_instruction_timeout, bind, get in R. unfold run in A. cbn [ms_bus ms_stack ms_next] in A, R.
  destruct (port_make_deadline timeout b) as [[d|p|] s1] eqn:Ed; try discriminate Ed.
  cbn [ms_bus ms_stack ms_next bind get ret] in A. unfold bind, get, ret in A. cbn [ms_bus ms_stack ms_next] in A.
  rewrite Forall_app in F. destruct F as [F1 F2]. pose proof F2 as F3. inversion F3 as [|? ? Dn F4]; subst. cbn [tag_of] in Dn.
  assert (Bo : borrowed device earlier (mkMachine s1 (Shared n :: later' ++ Unique device :: earlier) (S n))).
  { exists (Shared n :: later'). cbn [ms_stack ms_next]. split; [reflexivity|]. split.
    - cbn [map In tag_of]. intros [H|H]; [lia|]. apply N. apply in_map_iff in H. destruct H as [p [<- Hp]].
      apply in_map. apply Hi. exact Hp.
    - constructor; [cbn [tag_of]; lia|]. apply Forall_app. split.
      + rewrite Forall_forall in *. intros p Hp. specialize (F1 p (Hi p Hp)). lia.
      + revert F2. apply Forall_impl. intros p Hp. lia. }
  destruct (loop_same (device_fuel s1) device earlier d _ o s x m' Bo R A) as [K1 [[l [L1 [L2 L3]]] [K3 K4]]]. cbn [ms_next] in K3, K4.
  split; [exact K1|]. split; [lia|]. split.
  - unfold outcome_in in *. destruct o as [[p'|e]|q|]; try exact K4.
    destruct K4 as [v' [t' [rest' [M1 [M2 [M3 M4]]]]]]. exists v', t', rest'. repeat split; try assumption; try apply M3. lia.
  - exists l, earlier. auto.
Qed.

Lemma L_C87_read : forall device timeout m o s x m', usable device m ->
  read_raw_instruction_timeout timeout (ms_bus m) = (o, s) -> read_raw_instruction_view device timeout m = (x, m') ->
  same_outcome x m' o s /\ usable device m'.
Proof.
  intros device timeout m o s x m' U R A.
  destruct (read_same device timeout m o s x m' U R A) as [K1 [_ [K3 [l [e [L1 [L2 [L3 _]]]]]]]]. split.
  - split; [exact K1|]. unfold outcome_in in K3. destruct o as [[p|er]|q|]; try exact K3.
    destruct K3 as [v [t [rest [-> [Es [Vi _]]]]]]. exists v. split; [reflexivity|]. intro us.
    apply (uses_seen us [v] [pk_data p] m' [t] rest Es). constructor; [exact Vi|constructor].
  - split; [exists l, e; auto|exact L3].
Qed.

(** ** A packet ends when the device is used again *)
Lemma read_access_none : forall t st, ~ In t (map tag_of st) -> read_access t st = None.
Proof.
  intros t st. induction st as [|p st IH]; intro H; [reflexivity|]. cbn [map] in H. cbn [read_access].
  destruct (tag_of p =? t) eqn:E; [exfalso; apply H; left; apply Nat.eqb_eq; exact E|]. rewrite IH; [reflexivity|].
  intro K. apply H. right. exact K.
Qed.

Lemma L_C87_until_next_use : forall device timeout m v m', usable device m ->
  read_raw_instruction_view device timeout m = (BVal (Ok v), m') ->
  exists t m2, borrow_mut device m' = (BVal t, m2) /\ fst (see v m2) = BUB.
Proof.
  intros device timeout m v m' U A.
  destruct (read_raw_instruction_timeout timeout (ms_bus m)) as [o s] eqn:R.
  destruct (read_same device timeout m o s _ m' U R A) as [_ [Nx [K3 [l [e [L1 [L2 [L3 [L4 L5]]]]]]]]].
  unfold outcome_in in K3. destruct o as [[p|er]|q|]; try discriminate K3.
  destruct K3 as [v' [t [rest [E [Es [[[Ht|[]] _] Fr]]]]]]. injection E as Ev. subst v'.
  unfold borrow_mut, bbind, writes_through. rewrite L1, (write_later _ _ _ L2). unfold push. cbn [ms_bus ms_stack ms_next].
  do 2 eexists. split; [reflexivity|]. unfold see, bbind, reads_through. cbn [ms_stack ms_next]. rewrite <- Ht.
  rewrite read_access_none; [reflexivity|]. cbn [map tag_of]. rewrite Es in L3. inversion L3 as [|? ? Lt _]. cbn [tag_of] in Lt.
  intros [G|[G|G]]; [lia|lia|]. apply in_map_iff in G. destruct G as [q [Hq Hi]]. rewrite Forall_forall in L5. specialize (L5 q Hi). lia.
Qed.

(** ** Reading again and again *)
Lemma L_C87_session : forall device l m o s x m', usable device m ->
  values l (ms_bus m) = (o, s) -> references device l m = (x, m') ->
  ms_bus m' = s /\ match o with Val a => x = BVal a | Panic p => x = BPanic p | Blocked => x = BBlocked end.
Proof.
  intros device l. induction l as [|[timeout us] l IH]; intros m o s x m' U V R.
  - injection V as <- <-. injection R as <- <-. split; reflexivity.
  - cbn [values references] in V, R. unfold bind in V. unfold bbind in R.
    destruct (read_raw_instruction_timeout timeout (ms_bus m)) as [o1 s1] eqn:E1.
    destruct (read_raw_instruction_view device timeout m) as [x1 m1] eqn:A1.
    destruct (read_same device timeout m o1 s1 x1 m1 U E1 A1) as [K1 [Nx [K3 [la [ea [L1 [L2 [L3 [L4 L5]]]]]]]]].
    assert (U1 : usable device m1) by (split; [exists la, ea; auto|exact L3]).
    unfold outcome_in in K3. destruct o1 as [[p|e]|q|].
    + destruct K3 as [v [t [rest [-> [Es [Vi Fr]]]]]].
      destruct (uses_seen_after us [v] [pk_data p] m1 [t] rest Es) as [sh' [n [Us [Ln Fs]]]]; [constructor; [exact Vi|constructor]|].
      rewrite Us in R.
      assert (U2 : usable device (mkMachine (ms_bus m1) (map Shared sh' ++ ms_stack m1) n)).
      { split; cbn [ms_stack ms_next].
        - exists (map Shared sh' ++ la), ea. split; [rewrite L1, app_assoc; reflexivity|]. rewrite map_app, map_map, in_app_iff.
          intros [H|H]; [|exact (L2 H)]. apply in_map_iff in H. destruct H as [z [Hz Hi]]. cbn [tag_of] in Hz. rewrite Forall_forall in Fs.
          specialize (Fs z Hi). lia.
        - apply Forall_app. split; [|revert L3; apply Forall_impl; intros; lia].
          apply Forall_map. revert Fs. apply Forall_impl. intros z Hz. cbn [tag_of]. lia. }
      destruct (values l s1) as [o2 s2] eqn:E2. destruct (references device l _) as [x2 m2] eqn:A2 in R.
      rewrite <- K1 in E2. specialize (IH _ o2 s2 x2 m2 U2 E2 A2). destruct IH as [I1 I2].
      destruct o2 as [a|q|]; subst x2; injection V as <- <-; injection R as <- <-; split; first [exact I1|reflexivity].
    + subst x1. destruct (values l s1) as [o2 s2] eqn:E2. destruct (references device l m1) as [x2 m2] eqn:A2.
      rewrite <- K1 in E2. specialize (IH _ o2 s2 x2 m2 U1 E2 A2). destruct IH as [I1 I2].
      destruct o2 as [a|q|]; subst x2; injection V as <- <-; injection R as <- <-; split; first [exact I1|reflexivity].
    + subst x1. injection V as <- <-; injection R as <- <-. split; [exact K1|reflexivity].
    + subst x1. injection V as <- <-; injection R as <- <-. split; [exact K1|reflexivity].
Qed.

(** A device that is about to receive a status packet and then an instruction: write 05 06 to address 64. *)
Definition demo_machine : machine :=
  mkMachine (fresh true [RdData (frame x02 [x55; x00]); RdData (frame x01 (x03 :: [x40; x00; x05; x06]))] 64 64) [Unique 0] 1.
