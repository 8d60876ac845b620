(** * TestBus: model of the shared bus of the integration tests
    (/repo/tests/common/mock/mock_serial_port.rs and mod.rs)

    Endpoint 0 is the client, endpoint [S i] the device of the [i]-th id.  Every
    endpoint runs in a thread of its own; whatever happens while a mutex is held is
    one step.  No thread holds two of them.  A failing [try_lock] only makes
    [read] go round again and is no step.  Clocks are not modelled: a read may time
    out at any moment (mock_serial_port.rs:76 looks at the clock before the data). *)
From Verif Require Import Base.

(** mock_serial_port.rs:7-9 [SharedBuffer]: the bytes, and whether the mutex is poisoned. *)
Record shared := mkShared { sh_data : list byte; sh_poisoned : bool }.

(** What a thread is doing with its port: nothing, or in [write_all] with some
    buffers still to be extended, or it has panicked. *)
Inductive activity :=
| AIdle
| AWriting (data : list byte) (todo : list nat)
| APanicked.

Record net := mkNet { net_shared : nat -> shared; net_act : nat -> activity }.

(** mod.rs:11-39 [new_client_device], the [other_device_buffers] of each port:
    the client has those of all devices (17); a device has that of the client (18)
    and those of the devices with another id (26-33). *)
Definition wiring (ids : list byte) (e : nat) : list nat :=
  match e with
  | O => seq 1 (length ids)
  | S i =>
      match nth_error ids i with
      | None => []
      | Some id =>
          0 :: map S (filter (fun j => match nth_error ids j with Some other => negb (beq id other) | None => false end)
                             (seq 0 (length ids)))
      end
  end.

(** mock_serial_port.rs:18-22, 43-50: all buffers are empty. *)
Definition net_init : net := mkNet (fun _ => mkShared [] false) (fun _ => AIdle).

Definition upd {A} (f : nat -> A) (e : nat) (x : A) : nat -> A := fun k => if k =? e then x else f k.

(** What threads do with the bus. *)
Inductive bus_event :=
| TWrite (e : nat) (data : list byte)            (* calls [write_all] *)
| TDeliver (e t : nat)                           (* the buffer of [t] is extended *)
| TWritten (e : nat)                             (* [write_all] returns *)
| TRead (e room : nat) (bs : list byte)          (* [read] into [room] bytes returns [bs] *)
| TTimedOut (e : nat)                            (* [read] returns a timeout *)
| TReadPanics (e : nat)                          (* [read] panics *)
| TWritePanics (e : nat).                        (* [write_all] panics *)

Inductive bus_step (ids : list byte) : net -> bus_event -> net -> Prop :=
(** mock_serial_port.rs:97-102 [write_all] *)
| step_write : forall n e data, e <= length ids -> net_act n e = AIdle ->
    bus_step ids n (TWrite e data) (mkNet (net_shared n) (upd (net_act n) e (AWriting data (wiring ids e))))
(** mock_serial_port.rs:28-31 [SharedBuffer::write] *)
| step_deliver : forall n e data t todo, net_act n e = AWriting data (t :: todo) -> sh_poisoned (net_shared n t) = false ->
    bus_step ids n (TDeliver e t)
      (mkNet (upd (net_shared n) t (mkShared (sh_data (net_shared n t) ++ data) false))
             (upd (net_act n) e (AWriting data todo)))
(** mock_serial_port.rs:29, [lock] fails on a poisoned mutex, [unwrap] panics *)
| step_write_panics : forall n e data t todo, net_act n e = AWriting data (t :: todo) ->
    sh_poisoned (net_shared n t) = true ->
    bus_step ids n (TWritePanics e) (mkNet (net_shared n) (upd (net_act n) e APanicked))
| step_written : forall n e data, net_act n e = AWriting data [] ->
    bus_step ids n (TWritten e) (mkNet (net_shared n) (upd (net_act n) e AIdle))
(** mock_serial_port.rs:79-92, there is data and it fits *)
| step_read : forall n e room, e <= length ids -> net_act n e = AIdle -> sh_poisoned (net_shared n e) = false ->
    sh_data (net_shared n e) <> [] -> length (sh_data (net_shared n e)) <= room ->
    bus_step ids n (TRead e room (sh_data (net_shared n e)))
      (mkNet (upd (net_shared n) e (mkShared [] false)) (net_act n))
(** mock_serial_port.rs:84-86, it does not fit: the panic happens with the mutex
    locked, which poisons it *)
| step_read_panics : forall n e room, e <= length ids -> net_act n e = AIdle -> sh_poisoned (net_shared n e) = false ->
    room < length (sh_data (net_shared n e)) ->
    bus_step ids n (TReadPanics e)
      (mkNet (upd (net_shared n) e (mkShared (sh_data (net_shared n e)) true)) (upd (net_act n) e APanicked))
(** mock_serial_port.rs:76-78 *)
| step_timed_out : forall n e, e <= length ids -> net_act n e = AIdle -> bus_step ids n (TTimedOut e) n.

(** Everything that can happen, in any interleaving. *)
Inductive bus_run (ids : list byte) : list bus_event -> net -> Prop :=
| run_init : bus_run ids [] net_init
| run_step : forall tr n ev n', bus_run ids tr n -> bus_step ids n ev n' -> bus_run ids (tr ++ [ev]) n'.
