(** * TimeSpec: transfer times, independently of the code *)
From Verif Require Import Base Time Bus Api CallSpec.
Local Open Scope N_scope.

(** The length of a [Duration] in nanoseconds. *)
Definition nanoseconds (t : duration) : N := d_secs t * 1000000000 + d_nanos t.

(** A valid [Duration]. *)
Definition valid_duration (t : duration) : Prop := d_secs t < 2 ^ 64 /\ d_nanos t < 1000000000.

(** Within [ns] nanoseconds, [bytes] bytes of 10 bits (start bit, 8 data bits,
    stop bit) can pass a line that carries [baud] bits per second. *)
Definition enough_time (bytes baud ns : N) : Prop := bytes * 10 * 1000000000 <= ns * baud.

(** Between [s] and [s'] the port was asked for one deadline, [t] away, and every
    read was bounded by that deadline. *)
Definition waits_at_most (s s' : bus) (t : duration) : Prop :=
  exists d evs, dl_timeout d = t /\ calls s s' (LDeadline d :: evs) /\ Forall (reads_with d) evs.

(** The baud rate after these calls on the port, when it was [b] before: the last
    one the port accepted. *)
Fixpoint rate_after (b : N) (evs : list io_event) : N :=
  match evs with
  | [] => b
  | LSetBaud r None :: rest => rate_after r rest
  | _ :: rest => rate_after b rest
  end.

(** The shortest time, in nanoseconds, in which [bytes] bytes can pass. *)
Definition shortest_time (bytes baud ns : N) : Prop :=
  enough_time bytes baud ns /\ forall y, enough_time bytes baud y -> ns <= y.

(** Calls of the API, one after the other, all returning, lead from [s] to [s'],
    with these calls on the port. *)
Inductive later : bus -> list io_event -> bus -> Prop :=
| later_now : forall s, later s [] s
| later_call : forall A (m : M A) s evs s1 a s2 evs', later s evs s1 -> api m -> m s1 = (Val a, s2) ->
    calls s1 s2 evs' -> later s (evs ++ evs') s2.
