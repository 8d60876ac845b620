(** * MockDevice: model of /repo/tests/common/mock/mock_device.rs

    The simulated motor of the integration tests: a program that uses the
    crate's [Device].  It is test code, modelled because it closes the loop:
    with it, client, wire and device can be run against each other.  [trace!],
    [warn!] and [error!] are not modelled. *)
From Verif Require Import Base Endian Error Packet Time Bus Device.

(** mock_device.rs:21-29 [ControlTable::read] *)
Definition control_read (data : list byte) (address length_ : N) : option (list byte) :=
  let start := N.to_nat address in
  let end_ := start + N.to_nat length_ in
  if length data <? end_ then None else Some (firstn (end_ - start) (skipn start data)).

(** mock_device.rs:31-40 [ControlTable::write]; [None] is [false], [Some] the new
    contents. *)
Definition control_write (data : list byte) (address : N) (new : list byte) : option (list byte) :=
  let start := N.to_nat address in
  let end_ := start + length new in
  if length data <? end_ then None else Some (splice data start new).

(** mock_device.rs:43-48 [MockDevice]; the [Device] itself is the bus the
    functions below run on. *)
Record mock_state := mkMock {
  mk_table : list byte;
  mk_action : option (N * list byte);
}.

(** [let_assert!(Ok(_) = m)] *)
Definition must {A E} (m : M (result A E)) : M A :=
  r <- m ;;
  match r with Ok a => ret a | Err _ => lift (Panic PAssert) end.

(** [Duration::from_millis(10)] (mock_device.rs:63,194) *)
Definition dur_10ms : duration := mkDur 0 10000000.

(** mock_device.rs:77-82, the closure for the answer to a ping *)
Definition mock_ping_params : list byte -> out (list byte * result unit buffer_too_small) := fun b =>
  let* b := set b 0 x0a in
  let* b := set b 1 x14 in
  let* b := set b 2 x2e in
  Val (b, Ok tt).

(** mock_device.rs:88-91, 180-183, [buffer.copy_from_slice(data)] *)
Definition mock_copy (data : list byte) : list byte -> out (list byte * result unit buffer_too_small) := fun b =>
  let* b := copy_from_slice b data in Val (b, Ok tt).

(** mock_device.rs:86-95 and 178-188: answer with a part of the table *)
Definition mock_reply_table (my_id : byte) (table : list byte) (address length_ : N) : M unit :=
  match control_read table address length_ with
  | Some data => must (device_write_status my_id x00 (N.to_nat length_) (mock_copy data))
  | None => must (device_write_status_error my_id x07)
  end.

(** mock_device.rs:98-102 and 157-161: the result of a write decides the answer *)
Definition mock_reply_written (my_id : byte) (st : mock_state) (written : option (list byte))
    (action : option (N * list byte)) : M mock_state :=
  match written with
  | Some table => must (device_write_status_ok my_id) ;;; ret (mkMock table action)
  | None => must (device_write_status_error my_id x07) ;;; ret (mkMock (mk_table st) action)
  end.

(** mock_device.rs:191-213, the [loop] that waits for the status of [next_id];
    [true] is [break], [false] is [return].  Every iteration but the last uses up
    a timeout answer of the port; [fuel] bounds them. *)
Fixpoint mock_await (fuel : nat) (next_id : byte) : M bool :=
  match fuel with
  | O => lift Blocked
  | S fuel' =>
      r <- device_read dur_10ms ;;
      match r with
      | Ok p =>
          match i_instruction p with
          | IUnknown ins _ => ret (beq ins STATUS && beq (i_id p) next_id)
          | _ => ret false
          end
      | Err (RIo e) => if is_timeout_error e then mock_await fuel' next_id else ret false
      | Err _ => ret false
      end
  end.

(** mock_device.rs:175-217 [handle_sync_bulk_read] *)
Fixpoint mock_sync_bulk_read (my_id : byte) (table : list byte) (address length_ : N) (ids : list byte) : M unit :=
  match ids with
  | [] => ret tt
  | next_id :: ids' =>
      if beq next_id my_id then mock_reply_table my_id table address length_
      else
        s <- get ;;
        b <- mock_await (S (script_size (p_script (b_port s)))) next_id ;;
        if b : bool then mock_sync_bulk_read my_id table address length_ ids' else ret tt
  end.

(** [iter().position(|id| id == &self.id)] (mock_device.rs:116, 124) *)
Fixpoint position (x : byte) (l : list byte) : option nat :=
  match l with
  | [] => None
  | y :: l' => if beq y x then Some 0 else option_map S (position x l')
  end.

(** [parameters.iter().step_by(5)] (mock_device.rs:123) *)
Fixpoint every_fifth (fuel : nat) (l : list byte) : list byte :=
  match fuel, l with
  | S fuel', x :: _ => x :: every_fifth fuel' (skipn 5 l)
  | _, _ => []
  end.

(** mock_device.rs:133-143, the [loop] that looks for the own id.  With a length
    of 0 it never ends ([Blocked]); otherwise the index grows. *)
Fixpoint mock_bulk_find (fuel : nat) (my_id : byte) (parameters : list byte) (id_index : nat) : out nat :=
  match fuel with
  | O => Blocked
  | S fuel' =>
      let* id := idx parameters id_index in
      if beq id my_id then Val id_index
      else
        let* s := slice parameters (id_index + 3) (id_index + 5) in
        let* n := read_u16_le s in
        mock_bulk_find fuel' my_id parameters (id_index + N.to_nat n)
  end.

(** mock_device.rs:73-170, the [match packet.instruction] *)
Definition mock_handle (my_id : byte) (st : mock_state) (ins : instructions) : M mock_state :=
  let table := mk_table st in
  match ins with
  | IPing => must (device_write_status my_id x00 3 mock_ping_params) ;;; ret st
  | IRead address length_ => mock_reply_table my_id table address length_ ;;; ret st
  | IWrite address parameters =>
      mock_reply_written my_id st (control_write table address parameters) (mk_action st)
  | ISyncRead address length_ ids =>
      if existsb (beq my_id) ids then mock_sync_bulk_read my_id table address length_ ids ;;; ret st
      else ret st
  | ISyncWrite address length_ parameters =>
      match position my_id parameters with
      | None => ret st
      | Some id_index =>
          p <- lift (slice parameters (id_index + 1) (id_index + 1 + N.to_nat length_)) ;;
          ret (mkMock (match control_write table address p with Some t => t | None => table end) (mk_action st))
      end
  | IBulkRead parameters =>
      let ids := every_fifth (length parameters) parameters in
      match position my_id ids with
      | None => ret st
      | Some k =>
          let id_index := k * 5 in
          address <- lift (u16_param parameters (id_index + 1) (id_index + 3)) ;;
          length_ <- lift (u16_param parameters (id_index + 3) (id_index + 5)) ;;
          mock_sync_bulk_read my_id table address length_ ids ;;; ret st
      end
  | IBulkWrite parameters =>
      id_index <- lift (mock_bulk_find (S (length parameters)) my_id parameters 0) ;;
      address <- lift (u16_param parameters (id_index + 1) (id_index + 3)) ;;
      length_ <- lift (u16_param parameters (id_index + 3) (id_index + 5)) ;;
      p <- lift (slice parameters (id_index + 5) (id_index + 5 + N.to_nat length_)) ;;
      ret (mkMock (match control_write table address p with Some t => t | None => table end) (mk_action st))
  | IRegWrite address parameters =>
      must (device_write_status_ok my_id) ;;; ret (mkMock table (Some (address, parameters)))
  | IAction =>
      match mk_action st with
      | Some (address, parameters) =>
          mock_reply_written my_id st (control_write table address parameters) None
      | None => must (device_write_status_error my_id x07) ;;; ret st
      end
  | IFactoryReset _ | IReboot | IClear _ => lift (Panic PExplicit)
  | IUnknown _ _ => ret st
  end.

(** mock_device.rs:62-171, one pass through the [while] loop *)
Definition mock_iteration (my_id : byte) (st : mock_state) : M mock_state :=
  r <- device_read dur_10ms ;;
  match r with
  | Err (RIo e) => if is_timeout_error e then ret st else lift (Panic PAssert)
  | Err _ => lift (Panic PAssert)
  | Ok packet =>
      if negb (beq (i_id packet) my_id) && negb (beq (i_id packet) xfe) then ret st
      else mock_handle my_id st (i_instruction packet)
  end.
