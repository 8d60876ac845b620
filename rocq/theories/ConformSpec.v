(** * ConformSpec: a line of motors that follow the protocol

    Nothing here refers to the code of motors: a motor is anything with an id that
    understands the messages of the protocol and does with them whatever it likes.
    Only the calls of the client ([issue]) are those of the library. *)
From Coq Require Import Permutation.
From Verif Require Import Base Error Packet Time Bus Data Client Instructions Device Spec Api CallSpec
  StreamSpec DeviceSpec InstructionSpec RemoteSpec TurnSpec.

(** ** Motors *)

(** What one motor can be told. *)
Inductive command :=
| CmdPing
| CmdRead (address count : N)
| CmdWrite (address : N) (data : list byte)
| CmdRegWrite (address : N) (data : list byte)
| CmdAction
| CmdReset (kind : byte)
| CmdReboot
| CmdClearTurns
| CmdClearError.

Definition status : Type := byte * byte * list byte.

(** What a motor does with a command: its new state, and the error byte and the
    parameters of its answer, if it answers. *)
Definition behaviour (St : Type) : Type := St -> command -> St * option (byte * list byte).

Record servo (St : Type) := mkServo { v_id : byte; v_state : St }.
Arguments mkServo {St}.
Arguments v_id {St}.
Arguments v_state {St}.

Definition obeys {St} (b : behaviour St) (c : command) (v : servo St) : servo St :=
  mkServo (v_id v) (fst (b (v_state v) c)).

Definition answers_with {St} (b : behaviour St) (c : command) (v : servo St) : list status :=
  match snd (b (v_state v) c) with Some (e, ps) => [(v_id v, e, ps)] | None => [] end.

(** Only the motor [id] is told, or answers. *)
Definition obey {St} (b : behaviour St) (id : byte) (c : command) (vs : list (servo St)) : list (servo St) :=
  map (fun v => if beq (v_id v) id then obeys b c v else v) vs.
Definition answers_of {St} (b : behaviour St) (id : byte) (c : command) (vs : list (servo St)) : list status :=
  flat_map (fun v => if beq (v_id v) id then answers_with b c v else []) vs.

(** ** Messages *)

(** What a message tells the motors on the line. *)
Inductive plan :=
| ToOne (id : byte) (c : command)              (* one motor, which may answer *)
| ToAll (c : command)                          (* all motors, none answers *)
| ToEach (l : list (byte * command))           (* several motors, none answers *)
| InTurn (l : list (byte * command))           (* several motors answer one after the other *)
| WhoIsThere.                                  (* all motors answer a ping, in any order *)

(** What the motors do and which status packets they send.  When they answer in
    turn, each waits for the answer of the one before: after one that is missing
    or does not answer, the others remain silent. *)
Inductive runs {St} (b : behaviour St) : plan -> list (servo St) -> list (servo St) -> list status -> Prop :=
| runs_one : forall id c vs, runs b (ToOne id c) vs (obey b id c vs) (answers_of b id c vs)
| runs_all : forall c vs, runs b (ToAll c) vs (map (obeys b c) vs) []
| runs_each_nil : forall vs, runs b (ToEach []) vs vs []
| runs_each_cons : forall id c l vs vs',
    runs b (ToEach l) (obey b id c vs) vs' [] -> runs b (ToEach ((id, c) :: l)) vs vs' []
| runs_turn_nil : forall vs, runs b (InTurn []) vs vs []
| runs_turn_silent : forall id c l vs, answers_of b id c vs = [] ->
    runs b (InTurn ((id, c) :: l)) vs (obey b id c vs) []
| runs_turn_cons : forall id c l vs vs' st sts, answers_of b id c vs = [st] ->
    runs b (InTurn l) (obey b id c vs) vs' sts -> runs b (InTurn ((id, c) :: l)) vs vs' (st :: sts)
| runs_scan : forall vs sts, Permutation sts (flat_map (answers_with b CmdPing) vs) ->
    runs b WhoIsThere vs (map (obeys b CmdPing) vs) sts.

(** To one motor, or to all of them. *)
Definition direct (id : byte) (c : command) : plan := if beq id xfe then ToAll c else ToOne id c.

(** The messages of the protocol: packet id, instruction and parameters (before
    stuffing), meaning.  What a motor does that is named twice in one message is
    not defined. *)
Inductive spells : byte -> list byte -> plan -> Prop :=
| sp_ping : forall id, id <> xfe -> spells id [x01] (ToOne id CmdPing)
| sp_scan : spells xfe [x01] WhoIsThere
| sp_read : forall id a n, id <> xfe -> is_u16 a -> is_u16 n ->
    spells id (x02 :: le16 a ++ le16 n) (ToOne id (CmdRead a n))
| sp_write : forall id a d, is_u16 a -> spells id (x03 :: le16 a ++ d) (direct id (CmdWrite a d))
| sp_reg_write : forall id a d, is_u16 a -> spells id (x04 :: le16 a ++ d) (direct id (CmdRegWrite a d))
| sp_action : forall id, spells id [x05] (direct id CmdAction)
| sp_reset : forall id k, spells id [x06; k] (direct id (CmdReset k))
| sp_reboot : forall id, spells id [x08] (direct id CmdReboot)
| sp_clear_turns : forall id, spells id [x10; x01; x44; x58; x4c; x22] (direct id CmdClearTurns)
| sp_clear_error : forall id, spells id [x10; x02; x45; x52; x43; x4c] (direct id CmdClearError)
| sp_sync_read : forall a n ids, is_u16 a -> is_u16 n -> NoDup ids ->
    spells xfe (x82 :: le16 a ++ le16 n ++ ids) (InTurn (map (fun id => (id, CmdRead a n)) ids))
| sp_sync_write : forall a n l, is_u16 a -> is_u16 n ->
    Forall (fun c => length (sw_data c) = N.to_nat n) l -> NoDup (map sw_id l) ->
    spells xfe (x83 :: le16 a ++ le16 n ++ sync_entries l)
      (ToEach (map (fun c => (sw_id c, CmdWrite a (sw_data c))) l))
| sp_bulk_read : forall l, Forall (fun q => is_u16 (br_address q) /\ is_u16 (br_count q)) l -> NoDup (map br_id l) ->
    spells xfe (x92 :: bulk_read_entries l)
      (InTurn (map (fun q => (br_id q, CmdRead (br_address q) (br_count q))) l))
| sp_bulk_write : forall l,
    Forall (fun c => is_u16 (bw_address c) /\ is_u16 (N.of_nat (length (bw_data c)))) l -> NoDup (map bw_id l) ->
    spells xfe (x93 :: bulk_write_entries l)
      (ToEach (map (fun c => (bw_id c, CmdWrite (bw_address c) (bw_data c))) l)).

(** ** Calls *)

Inductive control :=
| KPing (id : byte)
| KScan
| KRead (id : byte) (address count : N)
| KWrite (id : byte) (address : N) (data : list byte)
| KRegWrite (id : byte) (address : N) (data : list byte)
| KAction (id : byte)
| KActionAll
| KReset (id : byte) (k : factory_reset_kind)
| KResetAll (k : factory_reset_kind)
| KReboot (id : byte)
| KRebootAll
| KClearTurns (id : byte)
| KClearTurnsAll
| KClearError (id : byte)
| KSyncRead (ids : list byte) (address count : N)
| KSyncWrite (address count : N) (l : list (sync_write_data (list byte)))
| KBulkRead (l : list bulk_read_data)
| KBulkWrite (l : list bulk_write_data).

Inductive outcome :=
| Told (r : reply)
| Turns (r : result (list (option (result (response (list byte)) read_error))) write_error).

Definition issue (k : control) : M outcome :=
  match k with
  | KPing id => r <- ping id ;; ret (Told (RepPing r))
  | KScan => r <- scan_all ;; ret (Told r)
  | KRead id a n => r <- read_bytes id a n ;; ret (Told (RepData r))
  | KWrite id a d => r <- write_bytes id a d ;; ret (Told (RepDone r))
  | KRegWrite id a d => r <- reg_write_bytes id a d ;; ret (Told (RepDone r))
  | KAction id => r <- action id ;; ret (Told (RepDone r))
  | KActionAll => r <- broadcast_action ;; ret (Told (RepSent r))
  | KReset id k => r <- factory_reset id k ;; ret (Told (RepDone r))
  | KResetAll k => r <- broadcast_factory_reset k ;; ret (Told (RepSent r))
  | KReboot id => r <- reboot id ;; ret (Told (RepDone r))
  | KRebootAll => r <- broadcast_reboot ;; ret (Told (RepSent r))
  | KClearTurns id => r <- clear_revolution_counter id ;; ret (Told (RepDone r))
  | KClearTurnsAll => r <- broadcast_clear_revolution_counter ;; ret (Told (RepSent r))
  | KClearError id => r <- clear_error id ;; ret (Told (RepDone r))
  | KSyncRead ids a n => r <- sync_read_all ids a n ;; ret (Turns r)
  | KSyncWrite a n l => r <- sync_write_bytes a n l ;; ret (Told (RepSent r))
  | KBulkRead l => r <- bulk_read_all l ;; ret (Turns r)
  | KBulkWrite l => r <- bulk_write l ;; ret (Told (RepSent r))
  end.

(** What the user means by it. *)
Definition meaning (k : control) : plan :=
  match k with
  | KPing id => ToOne id CmdPing
  | KScan => WhoIsThere
  | KRead id a n => ToOne id (CmdRead a n)
  | KWrite id a d => direct id (CmdWrite a d)
  | KRegWrite id a d => direct id (CmdRegWrite a d)
  | KAction id => direct id CmdAction
  | KActionAll => ToAll CmdAction
  | KReset id k => direct id (CmdReset (reset_code k))
  | KResetAll k => ToAll (CmdReset (reset_code k))
  | KReboot id => direct id CmdReboot
  | KRebootAll => ToAll CmdReboot
  | KClearTurns id => direct id CmdClearTurns
  | KClearTurnsAll => ToAll CmdClearTurns
  | KClearError id => direct id CmdClearError
  | KSyncRead ids a n => InTurn (map (fun id => (id, CmdRead a n)) ids)
  | KSyncWrite a n l => ToEach (map (fun c => (sw_id c, CmdWrite a (sw_data c))) l)
  | KBulkRead l => InTurn (map (fun q => (br_id q, CmdRead (br_address q) (br_count q))) l)
  | KBulkWrite l => ToEach (map (fun c => (bw_id c, CmdWrite (bw_address c) (bw_data c))) l)
  end.

(** From one motor: its answer, or a timeout. *)
Definition told_one {X} (understand : status -> result X read_error) (l : list status) (r : result X transfer_error) : Prop :=
  match l with
  | [] => exists e, r = Err (TReadError (RIo (IoTimeout e)))
  | st :: _ => r = map_err TReadError (understand st)
  end.

(** An acknowledgement has no parameters.  Nobody acknowledges what is sent to all. *)
Definition told_done (id : byte) (l : list status) (o : outcome) : Prop :=
  exists r, o = Told (RepDone r) /\
    if beq id xfe then r = Ok (mkResponse xfe false tt)
    else told_one (judge_value (fun _ => Ok tt) id 0) l r.

(** From several motors: the answers, then as many timeouts as answers are missing. *)
Definition told_turns {Q} (understand : Q -> status -> result (response (list byte)) read_error) (qs : list Q)
    (l : list status) (o : outcome) : Prop :=
  exists missing, o = Turns (Ok (map (fun '(q, st) => Some (understand q st)) (combine qs l) ++ missing)) /\
    length l + length missing = length qs /\ Forall timed_out missing.

(** What the user should be told, given the status packets. *)
Definition told (k : control) (l : list status) (o : outcome) : Prop :=
  match k with
  | KPing id => exists r, o = Told (RepPing r) /\ told_one judge_ping l r
  | KScan => o = Told (RepFound (Ok (map judge_ping l)))
  | KRead id a n => exists r, o = Told (RepData r) /\ told_one (judge id (N.to_nat n)) l r
  | KWrite id _ _ | KRegWrite id _ _ | KAction id | KReset id _ | KReboot id | KClearTurns id | KClearError id =>
      told_done id l o
  | KActionAll | KResetAll _ | KRebootAll | KClearTurnsAll | KSyncWrite _ _ _ | KBulkWrite _ =>
      o = Told (RepSent (Ok tt))
  | KSyncRead ids a n => told_turns (fun id => judge id (N.to_nat n)) ids l o
  | KBulkRead qs => told_turns (fun q => judge (br_id q) (N.to_nat (br_count q))) qs l o
  end.

(** ** The line *)

(** How many times the client may run into a timeout. *)
Definition patience (k : control) : nat :=
  match k with
  | KSyncRead ids _ _ => length ids
  | KBulkRead qs => length qs
  | _ => 2
  end.

(** The client makes the call [k].  If what it transmits is a message of the
    protocol, the motors do what the message says and what they send arrives,
    perhaps with garbage in between; if not, they do nothing and send nothing.
    After that the line is silent. *)
Inductive controls {St} (b : behaviour St) (k : control) :
    bus -> list (servo St) -> out outcome -> bus -> list (servo St) -> Prop :=
| controls_obeyed : forall c vs sc es o c' evs id body p l vs',
    patience k <= length es ->
    issue k (set_script c (sc ++ silence es)) = (o, c') ->
    calls (set_script c (sc ++ silence es)) c' evs ->
    is_frame id body (transmitted evs) -> spells id body p -> runs b p vs vs' l ->
    statuses (length (b_rbuf c)) (items sc) l [] ->
    controls b k c vs o c' vs'
| controls_ignored : forall c vs es o c' evs,
    patience k <= length es ->
    issue k (set_script c (silence es)) = (o, c') ->
    calls (set_script c (silence es)) c' evs ->
    (forall id body p, is_frame id body (transmitted evs) -> ~ spells id body p) ->
    controls b k c vs o c' vs.

(** A sequence of calls. *)
Inductive steers {St} (b : behaviour St) : bus -> list (servo St) -> list control -> list (out outcome) ->
    bus -> list (servo St) -> Prop :=
| steers_nil : forall c vs, steers b c vs [] [] c vs
| steers_cons : forall c vs k o c1 vs1 ks os c2 vs2,
    controls b k c vs o c1 vs1 -> steers b c1 vs1 ks os c2 vs2 ->
    steers b c vs (k :: ks) (o :: os) c2 vs2.

(** What it should amount to. *)
Inductive commands {St} (b : behaviour St) : list (servo St) -> list control -> list (out outcome) -> list (servo St) -> Prop :=
| commands_nil : forall vs, commands b vs [] [] vs
| commands_cons : forall vs k l o vs1 ks os vs2,
    runs b (meaning k) vs vs1 l -> told k l o -> commands b vs1 ks os vs2 ->
    commands b vs (k :: ks) (Val o :: os) vs2.

(** ** The circumstances *)

(** The message of a call. *)
Definition text (k : control) : list byte :=
  match k with
  | KPing _ | KScan => [x01]
  | KRead _ a n => x02 :: le16 a ++ le16 n
  | KWrite _ a d => x03 :: le16 a ++ d
  | KRegWrite _ a d => x04 :: le16 a ++ d
  | KAction _ | KActionAll => [x05]
  | KReset _ k | KResetAll k => [x06; reset_code k]
  | KReboot _ | KRebootAll => [x08]
  | KClearTurns _ | KClearTurnsAll => [x10; x01; x44; x58; x4c; x22]
  | KClearError _ => [x10; x02; x45; x52; x43; x4c]
  | KSyncRead ids a n => x82 :: le16 a ++ le16 n ++ ids
  | KSyncWrite a n l => x83 :: le16 a ++ le16 n ++ sync_entries l
  | KBulkRead l => x92 :: bulk_read_entries l
  | KBulkWrite l => x93 :: bulk_write_entries l
  end.

(** The arguments are of the right type and make sense together. *)
Definition sensible (k : control) : Prop :=
  match k with
  | KPing id => id <> xfe
  | KRead id a n => id <> xfe /\ is_u16 a /\ is_u16 n
  | KWrite _ a _ | KRegWrite _ a _ => is_u16 a
  | KSyncRead ids a n => is_u16 a /\ is_u16 n /\ NoDup ids
  | KSyncWrite a n l => is_u16 a /\ is_u16 n /\ Forall (fun c => length (sw_data c) = N.to_nat n) l /\ NoDup (map sw_id l)
  | KBulkRead l => Forall (fun q => is_u16 (br_address q) /\ is_u16 (br_count q)) l /\ NoDup (map br_id l)
  | KBulkWrite l => Forall (fun c => is_u16 (bw_address c) /\ is_u16 (N.of_nat (length (bw_data c)))) l /\ NoDup (map bw_id l)
  | _ => True
  end.

(** Clearing errors does not work at all (C29). *)
Definition clears_error (k : control) : Prop := match k with KClearError _ => True | _ => False end.

(** An answer the client can receive. *)
Definition receivable (cap : nat) (st : status) : Prop :=
  let '(_, e, ps) := st in passes ff_runs_ok cap (x55 :: e :: ps).
