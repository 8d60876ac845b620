(** * NoiseSpec: a line on which messages are damaged or lost *)
From Verif Require Import Base Error Packet Time Bus Data Client Instructions Device Spec Api CallSpec
  StreamSpec DeviceSpec InstructionSpec RemoteSpec TurnSpec ConformSpec CrcSpec.

(** No part of [u] is a message with a correct checksum. *)
Definition noise (u : list byte) : Prop := forall id body w, framed id body w -> ~ contains u w.

(** [w'] is the message [w] with errors after the header and not in the length, such that
    the difference is not a multiple of the generator of the checksum (exactly the errors
    the checksum shows, C22). *)
Definition damaged (w w' : list byte) : Prop :=
  exists id body, corruption_of id body w w' /\
    ~ exists q, N.lxor (poly_of (in_crc_order w)) (poly_of (in_crc_order w')) = clmul q crc_poly.

(** What the motors hear when the client sends [w]. *)
Inductive arrives_as : list byte -> list byte -> Prop :=
| arrives_whole : forall w, arrives_as w w
| arrives_damaged : forall w w', damaged w w' -> arrives_as w w'
| arrives_lost : forall w u, noise u -> arrives_as w u.

(** What the motors do when they hear [w]. *)
Inductive react {St} (b : behaviour St) (w : list byte) : list (servo St) -> list (servo St) -> list status -> Prop :=
| react_obey : forall id body p vs vs' l, is_frame id body w -> spells id body p -> runs b p vs vs' l ->
    react b w vs vs' l
| react_ignore : forall vs, (forall id body p, is_frame id body w -> ~ spells id body p) -> react b w vs vs [].

(** What the client hears when the motors send the status packets [l]: all of them, or
    the first one damaged, or no message at all. *)
Inductive delivered (cap : nat) : list status -> list item -> Prop :=
| delivered_whole : forall l line, statuses cap line l [] -> delivered cap l line
| delivered_damaged : forall g id e ps w w' l more, ~ contains g header -> is_frame id (x55 :: e :: ps) w ->
    damaged w w' -> length w <= cap -> delivered cap ((id, e, ps) :: l) (map inl (g ++ w' ++ more))
| delivered_lost : forall l u, noise u -> delivered cap l (map inl u).

(** The client makes the call [k] over such a line.  As in [controls], answers do not
    arrive after the call has ended (see C76), so the script is that of this call. *)
Inductive suffers {St} (b : behaviour St) (k : control) :
    bus -> list (servo St) -> out outcome -> bus -> list (servo St) -> Prop :=
| suffers_call : forall c vs sc es o c' evs heard l vs',
    patience k <= length es ->
    issue k (set_script c (sc ++ silence es)) = (o, c') ->
    calls (set_script c (sc ++ silence es)) c' evs ->
    arrives_as (transmitted evs) heard -> react b heard vs vs' l ->
    delivered (length (b_rbuf c)) l (items sc) ->
    suffers b k c vs o c' vs'.

Inductive endures {St} (b : behaviour St) : bus -> list (servo St) -> list control -> list (out outcome) ->
    bus -> list (servo St) -> Prop :=
| endures_nil : forall c vs, endures b c vs [] [] c vs
| endures_cons : forall c vs k o c1 vs1 ks os c2 vs2,
    suffers b k c vs o c1 vs1 -> endures b c1 vs1 ks os c2 vs2 ->
    endures b c vs (k :: ks) (o :: os) c2 vs2.

(** The call waits for the answer of one motor. *)
Definition single (k : control) : Prop :=
  match k with
  | KPing _ | KRead _ _ _ => True
  | KWrite id _ _ | KRegWrite id _ _ | KAction id | KReset id _ | KReboot id | KClearTurns id => id <> xfe
  | _ => False
  end.

(** The user is told that it failed, while waiting for the answer. *)
Definition fails (x : outcome) : Prop :=
  exists e, x = Told (RepPing (Err (TReadError e))) \/ x = Told (RepData (Err (TReadError e))) \/
            x = Told (RepDone (Err (TReadError e))).

Definition succeeds (x : outcome) : Prop :=
  (exists r, x = Told (RepPing (Ok r))) \/ (exists r, x = Told (RepData (Ok r))) \/ (exists r, x = Told (RepDone (Ok r))).

(** What a sequence of calls amounts to: every call that does not fail has been carried
    out once and tells the answer; a call that fails has been carried out once or not at
    all. *)
Inductive attempts {St} (b : behaviour St) : list (servo St) -> list control -> list (out outcome) -> list (servo St) -> Prop :=
| attempts_nil : forall vs, attempts b vs [] [] vs
| attempts_done : forall vs k l x vs1 ks os vs2, runs b (meaning k) vs vs1 l -> told k l x ->
    attempts b vs1 ks os vs2 -> attempts b vs (k :: ks) (Val x :: os) vs2
| attempts_unknown : forall vs k l x vs1 ks os vs2, runs b (meaning k) vs vs1 l -> fails x ->
    attempts b vs1 ks os vs2 -> attempts b vs (k :: ks) (Val x :: os) vs2
| attempts_unheard : forall vs k x ks os vs2, fails x ->
    attempts b vs ks os vs2 -> attempts b vs (k :: ks) (Val x :: os) vs2.

(** To do it twice is to do it once. *)
Definition idempotent {St} (b : behaviour St) (c : command) : Prop :=
  forall st, fst (b (fst (b st c)) c) = fst (b st c).
