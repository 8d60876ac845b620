(** * ConcurrentSpec: client and simulated motors in threads of their own, on the bus of the tests

    A thread is a program that depends on what it has read.  It takes part in an
    interleaving when at every moment its calls so far are what the program does
    with what it has read so far, except perhaps for writes that it has yet to begin. *)
From Verif Require Import Base Error Packet Time Bus Data Client Instructions Device MockDevice
  Spec CallSpec StreamSpec RemoteSpec TestBus TestBusSpec.

(** What endpoint [e] has got from [read]; timeouts carry no further information. *)
Definition reads (e : nat) (tr : list bus_event) : list rd_event :=
  flat_map (fun ev => match ev with
                      | TRead f _ bs => if f =? e then [RdData bs] else []
                      | TTimedOut f => if f =? e then [RdErr (IoTimeout 0)] else []
                      | _ => []
                      end) tr.

(** Its calls, as the bus sees them. *)
Definition moves (e : nat) (tr : list bus_event) : list bus_event :=
  filter (fun ev => match ev with TWrite f _ | TRead f _ _ | TTimedOut f => f =? e | _ => false end) tr.

(** The same of the calls that a program makes. *)
Definition visible (e : nat) (ev : io_event) : list bus_event :=
  match ev with
  | LWrite w None => [TWrite e w]
  | LRead _ room (Ok bs) => [TRead e room bs]
  | LRead _ _ (Err _) => [TTimedOut e]
  | _ => []
  end.

(** [program input evs]: reading [input], the program makes the calls [evs], after
    which it has finished or waits for more. *)
Definition plays (e : nat) (program : list rd_event -> list io_event -> Prop) (tr : list bus_event) : Prop :=
  forall past future, tr = past ++ future -> exists evs ahead,
    program (reads e past) evs /\ flat_map (visible e) evs = moves e past ++ map (TWrite e) ahead.

(** The client makes calls one after the other: the results so far, and whether it
    has finished ([Val]), waits ([Blocked]) or has panicked. *)
Fixpoint perform_all (os : list op) (s : bus) : list reply * out unit * bus :=
  match os with
  | [] => ([], Val tt, s)
  | o :: os' =>
      match perform o s with
      | (Val r, s1) => let '(rs, x, s2) := perform_all os' s1 in (r :: rs, x, s2)
      | (Panic p, s1) => ([], Panic p, s1)
      | (Blocked, s1) => ([], Blocked, s1)
      end
  end.

Definition client_program (c : bus) (os : list op) (input : list rd_event) (evs : list io_event) : Prop :=
  calls (set_script c input) (snd (perform_all os (set_script c input))) evs.

(** The loop of a simulated motor, until it waits or panics: what it calls and the
    state with which it began the last pass. *)
Inductive mock_run (id : byte) : mock_state -> bus -> list io_event -> mock_state -> out mock_state -> Prop :=
| run_stops : forall st s o s' evs, mock_iteration id st s = (o, s') -> (forall st', o <> Val st') -> calls s s' evs ->
    mock_run id st s evs st o
| run_goes : forall st s st1 s1 evs1 evs2 st2 o, mock_iteration id st s = (Val st1, s1) -> calls s s1 evs1 ->
    mock_run id st1 s1 evs2 st2 o -> mock_run id st s (evs1 ++ evs2) st2 o.

Definition device_program (d : node) (input : list rd_event) (evs : list io_event) : Prop :=
  exists st st' o, n_state d = Val st /\ mock_run (n_id d) st (set_script (n_bus d) input) evs st' o.

(** Everybody takes part. *)
Definition test_run (c : bus) (ds : list node) (os : list op) (tr : list bus_event) : Prop :=
  plays 0 (client_program c os) tr /\
  forall i d, nth_error ds i = Some d -> plays (S i) (device_program d) tr.

(** A call for one motor, or one that is not answered by any. *)
Definition directed (o : op) : Prop := target o <> None \/ exists a n l, o = OpSyncWrite a n l.

(** A motor after some calls. *)
Definition after_ops (os : list op) (m : motor) : motor := fold_left (fun m o => touched o m) os m.

(** The program has done all that it does with what it has read. *)
Definition rests (e : nat) (program : list rd_event -> list io_event -> Prop) (tr : list bus_event) : Prop :=
  exists evs, program (reads e tr) evs /\ flat_map (visible e) evs = moves e tr.

(** Nothing goes on: no write is under way, nothing waits to be read, and all are at rest. *)
Definition stuck (c : bus) (ds : list node) (os : list op) (tr : list bus_event) (n : net) : Prop :=
  (forall e, e <= length ds -> busy e tr = false /\ waiting n e = []) /\
  rests 0 (client_program c os) tr /\ forall i d, nth_error ds i = Some d -> rests (S i) (device_program d) tr.

(** With this input the last call of the program is a [read] into [room] bytes, which
    has not returned. *)
Definition awaits (program : list rd_event -> list io_event -> Prop) (input : list rd_event) (room : nat) : Prop :=
  exists evs dl, program input (evs ++ [LReadWait dl room]).

(** Like [remote], but the client may give up waiting. *)
Inductive excused : list motor -> list op -> list reply -> list motor -> Prop :=
| excused_nil : forall ms, excused ms [] [] ms
| excused_cons : forall ms o r os rs ms',
    (answers o ms r \/ exists e, r = unanswered o e) -> excused (map (touched o) ms) os rs ms' ->
    excused ms (o :: os) (r :: rs) ms'.
