(** * LateSpec: answers that come too late *)
From Coq Require Import ZArith.
From Verif Require Import Base Endian Error Packet Bus Data Client Instructions Spec CallSpec StreamSpec
  InstructionSpec RemoteSpec.

(** One call on a port.  [arrived] came in since the last call, [during] comes
    in while the call lasts.  Discarding the input removes what has arrived, unless
    that is a no-op (serial_port/mod.rs:24: "Maybe a no-op on some platforms"). *)
Definition call_on {A} (discards : bool) (m : M A) (arrived during : list rd_event) (s : bus) : out A * bus :=
  m (set_script s ((if discards then [] else p_script (b_port s) ++ arrived) ++ during)).

(** What is asked of which motor. *)
Record query := mkQuery { q_id : byte; q_address : N; q_count : N }.

(** A sequence of reads, each with what arrives before and during it. *)
Fixpoint poll (discards : bool) (l : list (query * (list rd_event * list rd_event))) (s : bus)
  : list (out (result (response (list byte)) transfer_error)) :=
  match l with
  | [] => []
  | (q, (arrived, during)) :: t =>
      let (o, s') := call_on discards (read_bytes (q_id q) (q_address q) (q_count q)) arrived during s in
      o :: poll discards t s'
  end.

(** [w] is a status packet of a conforming device. *)
Definition answer_is (cap : nat) (w : list byte) (status : byte * byte * list byte) : Prop :=
  let '(id, e, ps) := status in
  is_frame id (x55 :: e :: ps) w /\ ff_runs_ok (x55 :: e :: ps) /\ length w <= cap.

(** What the caller is told if [status] is taken for the answer. *)
Definition reported (q : query) (status : byte * byte * list byte) : out (result (response (list byte)) transfer_error) :=
  Val (match judge (q_id q) (N.to_nat (q_count q)) status with
       | Ok r => Ok r
       | Err e => Err (TReadError e)
       end).

(** Nothing comes in until the client gives up. *)
Definition gives_up (c : N) : list rd_event := [RdErr (IoTimeout c)].
Definition gave_up (c : N) : out (result (response (list byte)) transfer_error) :=
  Val (Err (TReadError (RIo (IoTimeout c)))).

(** The answers to these queries come in time. *)
Definition in_time (qs : list query) (ws : list (list byte)) : list (query * (list rd_event * list rd_event)) :=
  map (fun '(q, w) => (q, ([], [RdData w]))) (combine qs ws).

(** What a call reports that finds this after discarding its input: the first
    status packet, or that nothing came. *)
Inductive gets (cap : nat) : query * (list rd_event * list rd_event) ->
    out (result (response (list byte)) transfer_error) -> Prop :=
| gets_status : forall q arrived w extra more status, is_u16 (q_count q) -> answer_is cap w status ->
    length (w ++ extra) <= cap -> gets cap (q, (arrived, RdData (w ++ extra) :: more)) (reported q status)
| gets_nothing : forall q arrived c more, is_u16 (q_count q) ->
    gets cap (q, (arrived, RdErr (IoTimeout c) :: more)) (gave_up c).

(** The first answer comes only when the client has given up; the others come in time. *)
Definition one_late (q0 : query) (c : N) (w0 : list byte) (qs : list query) (ws : list (list byte))
  : list (query * (list rd_event * list rd_event)) :=
  (q0, ([], gives_up c)) ::
  match in_time qs ws with
  | [] => []
  | (q, (_, during)) :: t => (q, ([RdData w0], during)) :: t
  end.

Definition reports (qs : list query) (sts : list (byte * byte * list byte)) :=
  map (fun '(q, st) => reported q st) (combine qs sts).
