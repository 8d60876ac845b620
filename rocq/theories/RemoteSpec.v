(** * RemoteSpec: client and simulated motors connected to each other

    First how they are connected (one wire, everybody hears what the others
    send), then, independently of any of the code, what the motors are supposed
    to be: memories that can be read and written from a distance. *)
From Verif Require Import Base Error Packet Time Bus Data Client Instructions Device MockDevice
  Spec Api CallSpec StreamSpec DeviceSpec InstructionSpec.

(** ** The wire *)

Definition set_script (s : bus) (sc : list rd_event) : bus :=
  let p := b_port s in
  set_port s (mkPort sc (p_discards p) (p_writes p) (p_setbauds p) (p_deadlines p) (p_log p)).

(** The bytes [bs] arrive, cut into reads in any way, after what arrived before. *)
Definition hears (s : bus) (bs : list byte) (s' : bus) : Prop :=
  exists sc, items sc = map inl bs /\ s' = set_script s (p_script (b_port s) ++ sc).

(** What the others hear of these calls. *)
Definition transmitted (evs : list io_event) : list byte :=
  flat_map (fun e => match e with LWrite w None => w | _ => [] end) evs.

(** A simulated motor; [n_state] is [Val] while its thread is alive. *)
Record node := mkNode { n_id : byte; n_bus : bus; n_state : out mock_state }.

(** The motors receive [w]; each goes through its loop once and sends something
    (perhaps nothing). *)
Inductive reacts (w : list byte) : list node -> list (list byte) -> list node -> Prop :=
| re_nil : reacts w [] [] []
| re_cons : forall d st s o s' evs ds rs ds',
    n_state d = Val st -> hears (n_bus d) w s ->
    mock_iteration (n_id d) st s = (o, s') -> calls s s' evs ->
    reacts w ds rs ds' ->
    reacts w (d :: ds) (transmitted evs :: rs) (mkNode (n_id d) s' o :: ds').

(** Every motor then hears what the other motors sent ([before]: the motors
    earlier in the list). *)
Inductive overhears : list byte -> list node -> list (list byte) -> list node -> Prop :=
| oh_nil : forall before, overhears before [] [] []
| oh_cons : forall before d s ds r rs ds',
    hears (n_bus d) (before ++ concat rs) s -> overhears (before ++ r) ds rs ds' ->
    overhears before (d :: ds) (r :: rs) (mkNode (n_id d) s (n_state d) :: ds').

(** A silent line: reads that go on waiting report timeouts. *)
Definition silence (es : list N) : list rd_event := map (fun e => RdErr (IoTimeout e)) es.

(** The client makes the call [m].  What it transmits is what the motors receive;
    what they send is what it receives, and after that the line is silent (for at
    least [k] reads). *)
Inductive exchange_for {R} (k : nat) (m : M R) : bus -> list node -> out R -> bus -> list node -> Prop :=
| exchange_ : forall c ds sc es o c' evs rs ds1 ds',
    k <= length es ->
    m (set_script c (sc ++ silence es)) = (o, c') ->
    calls (set_script c (sc ++ silence es)) c' evs ->
    reacts (transmitted evs) ds rs ds1 ->
    items sc = map inl (concat rs) ->
    overhears [] ds1 rs ds' ->
    exchange_for k m c ds o c' ds'.

Definition exchange {R} (m : M R) := exchange_for 2 m.

(** The calls under consideration. *)
Inductive op :=
| OpPing (id : byte)
| OpRead (id : byte) (address count : N)
| OpWrite (id : byte) (address : N) (data : list byte)
| OpRegWrite (id : byte) (address : N) (data : list byte)
| OpAction (id : byte)
| OpSyncWrite (address count : N) (l : list (sync_write_data (list byte)))
| OpScan.

Inductive reply :=
| RepPing (r : result (response ping_data) transfer_error)
| RepData (r : result (response (list byte)) transfer_error)
| RepDone (r : result (response unit) transfer_error)
| RepSent (r : result unit write_error)
| RepFound (r : result (list (result (response ping_data) read_error)) write_error).

(** [for item in client.scan()? { ... }]: the items up to the end of the iteration,
    after which the iterator is dropped. *)
Fixpoint scan_items (fuel : nat) : M (list (result (response ping_data) read_error)) :=
  match fuel with
  | O => lift Blocked
  | S fuel' =>
      r <- scan_next ;;
      match r with
      | None => ret []
      | Some x => l <- scan_items fuel' ;; ret (x :: l)
      end
  end.

Definition scan_all : M reply :=
  r <- scan ;;
  match r with
  | Err e => ret (RepFound (Err e))
  | Ok _ =>
      s <- get ;;
      l <- scan_items (S (script_size (p_script (b_port s)))) ;;
      s' <- get ;;
      b <- scan_drop (S (b_rlen s' + script_size (p_script (b_port s')))) ;;
      if b : bool then ret (RepFound (Ok l)) else lift Blocked
  end.

Definition perform (o : op) : M reply :=
  match o with
  | OpPing id => r <- ping id ;; ret (RepPing r)
  | OpRead id a n => r <- read_bytes id a n ;; ret (RepData r)
  | OpWrite id a d => r <- write_bytes id a d ;; ret (RepDone r)
  | OpRegWrite id a d => r <- reg_write_bytes id a d ;; ret (RepDone r)
  | OpAction id => r <- action id ;; ret (RepDone r)
  | OpSyncWrite a n l => r <- sync_write_bytes a n l ;; ret (RepSent r)
  | OpScan => scan_all
  end.

(** A sequence of calls. *)
Inductive session : bus -> list node -> list op -> list (out reply) -> bus -> list node -> Prop :=
| session_nil : forall c ds, session c ds [] [] c ds
| session_cons : forall c ds o r c1 ds1 os rs c2 ds2,
    exchange (perform o) c ds r c1 ds1 -> session c1 ds1 os rs c2 ds2 ->
    session c ds (o :: os) (r :: rs) c2 ds2.

(** ** What a motor is supposed to be *)

Record motor := mkMotor {
  m_id : byte;
  m_memory : list byte;
  m_waiting : option (N * list byte);   (* registered, not yet carried out *)
}.

Definition load (mem : list byte) (a n : N) : option (list byte) :=
  if (a + n <=? N.of_nat (length mem))%N then Some (firstn (N.to_nat n) (skipn (N.to_nat a) mem)) else None.

Definition store (mem : list byte) (a : N) (d : list byte) : option (list byte) :=
  if (a + N.of_nat (length d) <=? N.of_nat (length mem))%N
  then Some (firstn (N.to_nat a) mem ++ d ++ skipn (N.to_nat a + length d) mem) else None.

Definition stored (mem : list byte) (a : N) (d : list byte) : list byte :=
  match store mem a d with Some mem' => mem' | None => mem end.

(** By its own id or by that of everybody. *)
Definition addressed (id : byte) (m : motor) : bool := beq id (m_id m) || beq id xfe.

(** What an operation does to a motor. *)
Definition touched (o : op) (m : motor) : motor :=
  match o with
  | OpPing _ | OpRead _ _ _ | OpScan => m
  | OpWrite id a d =>
      if addressed id m then mkMotor (m_id m) (stored (m_memory m) a d) (m_waiting m) else m
  | OpRegWrite id a d =>
      if addressed id m then mkMotor (m_id m) (m_memory m) (Some (a, d)) else m
  | OpAction id =>
      if addressed id m then
        match m_waiting m with
        | Some (a, d) => mkMotor (m_id m) (stored (m_memory m) a d) None
        | None => m
        end
      else m
  | OpSyncWrite a n l =>
      match find (fun c => beq (sw_id c) (m_id m)) l with
      | Some c => mkMotor (m_id m) (stored (m_memory m) a (sw_data c)) (m_waiting m)
      | None => m
      end
  end.

(** The answer of the motor the operation is addressed to: 7 is "data limit
    error"; the simulated motors report model number 0x140A, firmware version 46. *)
Definition done (id : byte) (ok : bool) : result (response unit) transfer_error :=
  if ok then Ok (mkResponse id false tt) else Err (TReadError (RMotorError x07)).

Definition found (m : motor) : result (response ping_data) read_error :=
  Ok (mkResponse (m_id m) false (mkPing 5130 x2e)).

Definition answered (o : op) (m : motor) : reply :=
  match o with
  | OpPing id => RepPing (Ok (mkResponse id false (mkPing 5130 x2e)))
  | OpRead id a n =>
      RepData (match load (m_memory m) a n with
               | Some bs => Ok (mkResponse id false bs)
               | None => Err (TReadError (RMotorError x07))
               end)
  | OpWrite id a d => RepDone (done id (if store (m_memory m) a d then true else false))
  | OpRegWrite id a d => RepDone (done id true)
  | OpAction id =>
      RepDone (done id (match m_waiting m with
                        | Some (a, d) => if store (m_memory m) a d then true else false
                        | None => false
                        end))
  | OpSyncWrite _ _ _ => RepSent (Ok tt)
  | OpScan => RepFound (Ok [found m])
  end.

(** The motor an operation is addressed to, if it is a single one. *)
Definition target (o : op) : option byte :=
  match o with
  | OpPing id | OpRead id _ _ | OpWrite id _ _ | OpRegWrite id _ _ | OpAction id =>
      if beq id xfe then None else Some id
  | OpSyncWrite _ _ _ | OpScan => None
  end.

(** Without an answer the call reports the timeout of the port. *)
Definition unanswered (o : op) (e : N) : reply :=
  match o with
  | OpPing _ => RepPing (Err (TReadError (RIo (IoTimeout e))))
  | OpRead _ _ _ => RepData (Err (TReadError (RIo (IoTimeout e))))
  | OpSyncWrite _ _ _ => RepSent (Ok tt)
  | OpScan => RepFound (Ok [])
  | _ => RepDone (Err (TReadError (RIo (IoTimeout e))))
  end.

(** To an operation for all motors: a scan finds every motor; for the others the
    client waits for no answers. *)
Definition together (o : op) (ms : list motor) : reply :=
  match o with
  | OpScan => RepFound (Ok (map found ms))
  | OpSyncWrite _ _ _ => RepSent (Ok tt)
  | _ => RepDone (Ok (mkResponse xfe false tt))
  end.

(** What the client may be told. *)
Definition answers (o : op) (ms : list motor) (r : reply) : Prop :=
  match target o with
  | None => r = together o ms
  | Some id =>
      (exists m, In m ms /\ m_id m = id /\ r = answered o m) \/
      (~ In id (map m_id ms) /\ exists e, r = unanswered o e)
  end.

(** A sequence of operations on a set of motors. *)
Inductive remote : list motor -> list op -> list reply -> list motor -> Prop :=
| remote_nil : forall ms, remote ms [] [] ms
| remote_cons : forall ms o r os rs ms',
    answers o ms r -> remote (map (touched o) ms) os rs ms' ->
    remote ms (o :: os) (r :: rs) ms'.

(** The operation writes nothing to the motor [id]. *)
Definition elsewhere (id : byte) (o : op) : Prop :=
  match o with
  | OpPing _ | OpRead _ _ _ | OpScan => True
  | OpSyncWrite _ _ l => ~ In id (map sw_id l)
  | OpWrite i _ _ | OpRegWrite i _ _ | OpAction i => i <> id /\ i <> xfe
  end.

(** ** The circumstances *)

(** All buffers have [cap] bytes or more, the ports never fail. *)
Definition ready (cap : nat) (s : bus) : Prop :=
  reach s /\ p_discards (b_port s) = [] /\ p_writes (b_port s) = [] /\ b_baud s <> 0%N /\ (b_baud s < 2 ^ 32)%N /\
  cap <= length (b_rbuf s) /\ cap <= length (b_wbuf s).

Definition is_motor (d : node) (m : motor) : Prop :=
  n_id d = m_id m /\ n_state d = Val (mkMock (m_memory m) (m_waiting m)).

(** Motors with different ids (none the broadcast id) that have nothing left to read. *)
Definition connected (cap : nat) (c : bus) (ds : list node) (ms : list motor) : Prop :=
  16 <= cap /\ ready cap c /\ Forall (fun d => ready cap (n_bus d) /\ pending (n_bus d) = []) ds /\
  Forall2 is_motor ds ms /\ NoDup (map m_id ms) /\ ~ In xfe (map m_id ms).

(** A message that fits everywhere and has the property [ok]. *)
Definition passes (ok : list byte -> Prop) (cap : nat) (body : list byte) : Prop :=
  9 + length body + length body / 3 <= cap /\ (N.of_nat (length body + length body / 3 + 2) < 2 ^ 16)%N /\
  ok body.

(** The message of an operation. *)
Definition message_of (o : op) : list byte :=
  match o with
  | OpPing _ => [x01]
  | OpRead _ a n => x02 :: le16 a ++ le16 n
  | OpWrite _ a d => x03 :: le16 a ++ d
  | OpRegWrite _ a d => x04 :: le16 a ++ d
  | OpAction _ => [x05]
  | OpSyncWrite a n l => x83 :: le16 a ++ le16 n ++ sync_entries l
  | OpScan => [x01]
  end.

(** The arguments are of the right type; a ping or a read is for one motor (all
    motors would answer at the same time).  In a synchronous write, entries have the
    announced length, no motor has two entries, and no data byte equals the id of a
    motor (the simulated motor looks for its id among all the bytes). *)
Definition proper (ms : list motor) (o : op) : Prop :=
  match o with
  | OpPing id => id <> xfe
  | OpRead id a n => id <> xfe /\ is_u16 a /\ is_u16 n
  | OpWrite _ a _ | OpRegWrite _ a _ => is_u16 a
  | OpAction _ | OpScan => True
  | OpSyncWrite a n l =>
      is_u16 a /\ is_u16 n /\ Forall (fun c => length (sw_data c) = N.to_nat n) l /\
      NoDup (map sw_id l) /\
      (forall m c, In m ms -> In c l -> ~ In (m_id m) (sw_data c))
  end.

(** The operation, its message and the answer fit; [ok] holds of both messages. *)
Definition possible (ok : list byte -> Prop) (cap : nat) (ms : list motor) (o : op) : Prop :=
  proper ms o /\ passes ok cap (message_of o) /\
  match o with
  | OpRead id a n => forall m bs, In m ms -> m_id m = id -> load (m_memory m) a n = Some bs ->
      passes ok cap (x55 :: x00 :: bs)
  | _ => True
  end.

Fixpoint all_possible (ok : list byte -> Prop) (cap : nat) (ms : list motor) (os : list op) : Prop :=
  match os with
  | [] => True
  | o :: os' => possible ok cap ms o /\ all_possible ok cap (map (touched o) ms) os'
  end.
