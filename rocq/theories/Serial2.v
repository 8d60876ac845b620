(** * Serial2: model of /repo/src/serial_port/serial2.rs, the implementation of
    the [SerialPort] trait for real serial ports, in time.

    Time is counted in nanoseconds.  The crate [serial2] itself and the operating
    system below it are not in /repo; [os_read timeout t1 answer t2] stands for a
    call of [serial2::SerialPort::read] that starts at [t1] with the read timeout
    [timeout] and returns [answer] at [t2]. *)
From Verif Require Import Base Error Time Bus.
Local Open Scope N_scope.

(** std::time::Instant::checked_duration_since, used in serial2.rs:25-26 *)
Definition checked_duration_since (deadline now : N) : option N :=
  if now <=? deadline then Some (deadline - now) else None.

(** serial2.rs:36-38 [make_deadline] for a deadline that an [Instant] can represent. *)
Definition serial2_deadline (now : N) (timeout : duration) : N :=
  now + (d_secs timeout * 1000000000 + d_nanos timeout).

(** serial2.rs:36-38 [make_deadline].  [Instant + Duration] panics if the sum is later than the last representable moment
    [limit], which depends on the platform. *)
Definition serial2_make_deadline (limit now : N) (timeout : duration) : out N :=
  if limit <? serial2_deadline now timeout then Panic POverflow else Val (serial2_deadline now timeout).

(** The standard library on Linux counts the seconds of an [Instant] in an [i64]. *)
Definition linux_limit : N := (2 ^ 63 - 1) * 1000000000 + 999999999.

(** serial2.rs:24-30 [read], called at [t1], returns at [t2]. *)
Inductive serial2_read (os_read : N -> N -> result (list byte) io_error -> N -> Prop) (deadline t1 : N)
  : result (list byte) io_error -> N -> Prop :=
| s2_late : forall kind,                         (* ok_or(ErrorKind::TimedOut)? *)
    checked_duration_since deadline t1 = None ->
    serial2_read os_read deadline t1 (Err (IoTimeout kind)) t1
| s2_set_read_timeout : forall timeout e,        (* set_read_timeout(timeout)? *)
    checked_duration_since deadline t1 = Some timeout ->
    serial2_read os_read deadline t1 (Err e) t1
| s2_read : forall timeout answer t2,
    checked_duration_since deadline t1 = Some timeout ->
    os_read timeout t1 answer t2 ->
    serial2_read os_read deadline t1 answer t2.
