(** * ClockSpec: calls on a serial port, in time *)
From Verif Require Import Base Error Packet Time Bus Data Client Instructions Api CallSpec InstructionSpec TimeSpec Serial2.
Local Open Scope N_scope.

(** How fast things are (nanoseconds): computation before a call on the port, calls
    that do not read, by how much the operating system may exceed a read timeout,
    and the time a successful read takes at least. *)
Record pace := mkPace { pc_compute : N; pc_call : N; pc_slack : N; pc_read : N }.

(** What is expected of the operating system. *)
Definition punctual (pc : pace) (os_read : N -> N -> result (list byte) io_error -> N -> Prop) : Prop :=
  forall timeout t1 answer t2, os_read timeout t1 answer t2 ->
    t1 <= t2 <= t1 + timeout + pc_slack pc /\
    match answer with Ok _ => t1 + pc_read pc <= t2 | Err _ => True end.

(** The calls [evs] on a port of serial2.rs take place from [t] to [t'];
    [due n] is the [n]-th deadline. *)
Inductive clocked (pc : pace) (os_read : N -> N -> result (list byte) io_error -> N -> Prop) (due : nat -> N)
  : N -> list io_event -> N -> Prop :=
| ck_nil : forall t, clocked pc os_read due t [] t
| ck_discard : forall t t1 t2 r evs t', t <= t1 <= t + pc_compute pc -> t1 <= t2 <= t1 + pc_call pc ->
    clocked pc os_read due t2 evs t' -> clocked pc os_read due t (LDiscard r :: evs) t'
| ck_write : forall t t1 t2 w r evs t', t <= t1 <= t + pc_compute pc -> t1 <= t2 <= t1 + pc_call pc ->
    clocked pc os_read due t2 evs t' -> clocked pc os_read due t (LWrite w r :: evs) t'
| ck_set_baud : forall t t1 t2 b r evs t', t <= t1 <= t + pc_compute pc -> t1 <= t2 <= t1 + pc_call pc ->
    clocked pc os_read due t2 evs t' -> clocked pc os_read due t (LSetBaud b r :: evs) t'
| ck_deadline : forall t t1 d evs t', t <= t1 <= t + pc_compute pc ->
    due (dl_seq d) = serial2_deadline t1 (dl_timeout d) ->
    clocked pc os_read due t1 evs t' -> clocked pc os_read due t (LDeadline d :: evs) t'
| ck_read : forall t t1 t2 d cap answer evs t', t <= t1 <= t + pc_compute pc ->
    serial2_read os_read (due (dl_seq d)) t1 answer t2 ->
    clocked pc os_read due t2 evs t' -> clocked pc os_read due t (LRead d cap answer :: evs) t'
(* still waiting at t', with any answer to come *)
| ck_wait : forall t t1 t2 d cap answer t', t <= t1 <= t + pc_compute pc ->
    serial2_read os_read (due (dl_seq d)) t1 answer t2 -> t1 <= t' <= t2 ->
    clocked pc os_read due t [LReadWait d cap] t'.

(** What the calls may cost: reads are paid for with their deadline. *)
Fixpoint cost (pc : pace) (evs : list io_event) : N :=
  match evs with
  | [] => 0
  | LDeadline d :: rest => nanoseconds (dl_timeout d) + pc_slack pc + 2 * pc_compute pc + cost pc rest
  | LRead _ _ _ :: rest | LReadWait _ _ :: rest => cost pc rest
  | _ :: rest => pc_compute pc + pc_call pc + cost pc rest
  end.

(** The time allowed for reading, and the number of reads that returned something. *)
Fixpoint reading_time (pc : pace) (evs : list io_event) : N :=
  match evs with
  | [] => 0
  | LDeadline d :: rest => nanoseconds (dl_timeout d) + pc_slack pc + reading_time pc rest
  | _ :: rest => reading_time pc rest
  end.
Fixpoint successful_reads (evs : list io_event) : N :=
  match evs with
  | [] => 0
  | LRead _ _ (Ok _) :: rest => 1 + successful_reads rest
  | _ :: rest => successful_reads rest
  end.

(** The calls that talk to one motor, and the number of parameters they expect in the
    answer. *)
Inductive awaits : forall A, M A -> N -> Prop :=
| aw_transfer_single : forall id i n k enc, encoder_ok enc -> awaits _ (transfer_single id i n k enc) k
| aw_ping : forall id, awaits _ (ping id) 3
| aw_read_bytes : forall id a n, awaits _ (read_bytes id a n) n
| aw_read : forall A (D : data_impl A) id a, awaits _ (read D id a) (N.of_nat (d_size D))
| aw_acknowledged : forall f id, acknowledged f -> awaits _ (f id) 0.
Arguments awaits {A}.

(** Asking many motors, taking [k] of the answers, and dropping the iterator. *)
Definition ask_sync_bytes (ids : list byte) (a n : N) (k : nat) :=
  try_ (fun e => e) (sync_read_bytes ids a n) (fun it =>
  xs <- take_then_drop srb_next srb_drop k it ;; ret (Ok xs)).
Definition ask_sync {A} (D : data_impl A) (ids : list byte) (a : N) (k : nat) :=
  try_ (fun e => e) (sync_read D ids a) (fun it =>
  xs <- take_then_drop (sr_next D) (sr_drop D) k it ;; ret (Ok xs)).
Definition ask_bulk (reads : list bulk_read_data) (k : nat) :=
  try_ (fun e => e) (bulk_read_bytes reads) (fun it =>
  xs <- take_then_drop br_next br_drop k it ;; ret (Ok xs)).

Definition total (l : list N) : N := fold_right N.add 0 l.
