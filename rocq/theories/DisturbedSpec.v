(** * DisturbedSpec: a line on which anything may happen except the forgery of status packets *)
From Verif Require Import Base Error Packet Time Bus Data Client Instructions Device Spec Api CallSpec
  StreamSpec DeviceSpec InstructionSpec RemoteSpec TurnSpec ConformSpec SurviveSpec.

(** ** Motors *)

(** What the message [p] says to the motor [id]. *)
Definition commands_for (p : plan) (id : byte) : list command :=
  match p with
  | ToOne i c => if beq i id then [c] else []
  | ToAll c => [c]
  | ToEach l | InTurn l => map snd (filter (fun q => beq (fst q) id) l)
  | WhoIsThere => [CmdPing]
  end.

Definition asks_answers (p : plan) : bool := match p with ToAll _ | ToEach _ => false | _ => true end.

(** A motor carries out commands: its new state and what it has to say. *)
Fixpoint performs {St} (b : behaviour St) (cs : list command) (v : servo St) : servo St * list status :=
  match cs with
  | [] => (v, [])
  | c :: cs' => let '(v', l) := performs b cs' (obeys b c v) in (v', answers_with b c v ++ l)
  end.

Definition performed {St} (b : behaviour St) (p : plan) (v : servo St) : servo St :=
  fst (performs b (commands_for p (v_id v)) v).
Definition may_say {St} (b : behaviour St) (p : plan) (v : servo St) : list status :=
  if asks_answers p then snd (performs b (commands_for p (v_id v)) v) else [].

(** A motor hears the bytes [u].  If there is a message for it in them it may carry it
    out once and send answers (or not); it may also miss it. *)
Inductive attends {St} (b : behaviour St) (u : list byte) (v : servo St) : servo St * list status -> Prop :=
| attends_not : attends b u v (v, [])
| attends_to : forall id body w p l, is_frame id body w -> contains u w -> spells id body p ->
    incl l (may_say b p v) -> attends b u v (performed b p v, l).

(** ** The line *)

(** Among the bytes [u] that reach a motor there is no instruction with a correct
    checksum except [w]. *)
Definition hears_only (w u : list byte) : Prop :=
  forall id body w' p, is_frame id body w' -> spells id body p -> contains u w' -> w' = w.

(** Among the bytes [u] that reach the client there is no status packet with a correct
    checksum except those of [l], and no message without contents. *)
Definition statuses_only (l : list status) (u : list byte) : Prop :=
  forall id body w, framed id body w -> contains u w ->
    (exists i t, body = i :: t /\ i <> x55) \/ exists e ps, In (id, e, ps) l /\ is_frame id (x55 :: e :: ps) w.

Definition errors_in (line : list item) : nat :=
  length (filter (fun i : item => match i with inl _ => false | inr _ => true end) line).

Definition timeouts_in (line : list item) : nat :=
  length (filter (fun i : item => match i with inl _ => false | inr e => is_timeout_error e end) line).

(** Reading fails often enough for the call to end: a scan goes on until a read has timed
    out, and dropping it until a second one has; the other calls give up on any error. *)
Definition enough (k : control) (line : list item) : Prop :=
  match k with KScan => 2 <= timeouts_in line | _ => patience k <= errors_in line end.

(** The client makes the call [k] while the line is disturbed: each motor hears something
    of its own, and what happens on the line while the client waits is arbitrary, including
    errors of the serial port (timeouts, among others, enough to end the call).  [l] are
    the status packets the motors send. *)
Inductive disturbed {St} (b : behaviour St) (k : control) :
    bus -> list (servo St) -> out outcome -> bus -> list (servo St) -> list status -> Prop :=
| disturbed_call : forall c vs sc o c' evs rs,
    enough k (items sc) ->
    issue k (set_script c sc) = (o, c') ->
    calls (set_script c sc) c' evs ->
    Forall2 (fun v r => exists u, hears_only (transmitted evs) u /\ attends b u v r) vs rs ->
    statuses_only (flat_map snd rs) (bytes_in (items sc)) ->
    disturbed b k c vs o c' (map fst rs) (flat_map snd rs).

(** ** What is still true *)

(** Each motor has carried out its part of the message once, or not at all; [l] are answers
    of motors that have. *)
Definition partly {St} (b : behaviour St) (p : plan) (vs vs' : list (servo St)) (l : list status) : Prop :=
  exists rs, vs' = map fst rs /\ l = flat_map snd rs /\
    Forall2 (fun v r => r = (v, []) \/ (fst r = performed b p v /\ incl (snd r) (may_say b p v))) vs rs.

(** What is told is what a motor has answered (as in C69), or an error that does not
    come from a motor. *)
Definition vouched {X} (understand : status -> result X read_error) (l : list status) (r : result X read_error) : Prop :=
  (exists st, In st l /\ r = understand st) \/ (exists e, r = Err e /\ forall m, e <> RMotorError m).

Definition truthful (k : control) (l : list status) (x : outcome) : Prop :=
  match k with
  | KPing id => exists r, x = Told (RepPing (map_err TReadError r)) /\ vouched judge_ping l r
  | KScan => exists rs, x = Told (RepFound (Ok rs)) /\ Forall (vouched judge_ping l) rs
  | KRead id a n => exists r, x = Told (RepData (map_err TReadError r)) /\ vouched (judge id (N.to_nat n)) l r
  | KWrite id _ _ | KRegWrite id _ _ | KAction id | KReset id _ | KReboot id | KClearTurns id | KClearError id =>
      if beq id xfe then x = Told (RepDone (Ok (mkResponse xfe false tt)))
      else exists r, x = Told (RepDone (map_err TReadError r)) /\ vouched (judge_value (fun _ => Ok tt) id 0) l r
  | KActionAll | KResetAll _ | KRebootAll | KClearTurnsAll | KSyncWrite _ _ _ | KBulkWrite _ =>
      x = Told (RepSent (Ok tt))
  | KSyncRead ids a n => exists xs, x = Turns (Ok xs) /\
      Forall2 (fun id y => exists r, y = Some r /\ vouched (judge id (N.to_nat n)) l r) ids xs
  | KBulkRead qs => exists xs, x = Turns (Ok xs) /\
      Forall2 (fun q y => exists r, y = Some r /\ vouched (judge (br_id q) (N.to_nat (br_count q))) l r) qs xs
  end.

(** What the client reads of a status packet is what the motor sent (see C84). *)
Definition legible (st : status) : Prop := let '(_, e, ps) := st in ff_runs_ok (x55 :: e :: ps).

(** ** Sequences of calls *)

Inductive stormy {St} (b : behaviour St) : bus -> list (servo St) -> list control -> list (out outcome) -> list (list status) ->
    bus -> list (servo St) -> Prop :=
| stormy_nil : forall c vs, stormy b c vs [] [] [] c vs
| stormy_cons : forall c vs k o c1 vs1 l ks os ls c2 vs2,
    disturbed b k c vs o c1 vs1 l -> stormy b c1 vs1 ks os ls c2 vs2 ->
    stormy b c vs (k :: ks) (o :: os) (l :: ls) c2 vs2.

Inductive weathered {St} (b : behaviour St) : list (servo St) -> list control -> list (out outcome) -> list (servo St) -> Prop :=
| weathered_nil : forall vs, weathered b vs [] [] vs
| weathered_cons : forall vs k l x vs1 ks os vs2, partly b (meaning k) vs vs1 l -> truthful k l x ->
    weathered b vs1 ks os vs2 -> weathered b vs (k :: ks) (Val x :: os) vs2.
