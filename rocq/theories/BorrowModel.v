(** * BorrowModel: references into the read buffer (/repo/src/device.rs:182-199)

    Device.v models packets as values.  In the code a packet is a reference into the
    read buffer, and the loop that waits for an instruction makes the reference
    through a raw pointer, in unsafe code (device.rs:188-193).  Here is the same code
    with its references.  Which references may still be used is described by a stack
    of permissions, as in Stacked Borrows (the rules used by Miri), for the memory of
    the bus as one piece: the worst case, in which the buffer lies inside the bus.
    Using a reference whose permission is gone is [BUB]: undefined behaviour. *)
From Verif Require Import Base Endian Error Checksum Bytestuff Packet Time Bus Device.

(** ** Permissions *)

(** [&mut], [*mut] and [&]; the number is the tag of the reference. *)
Inductive permission := Unique (t : nat) | Raw (t : nat) | Shared (t : nat).
Definition tag_of (p : permission) : nat := match p with Unique t | Raw t | Shared t => t end.
Definition is_unique (p : permission) : bool := match p with Unique _ => true | _ => false end.

(** Reading through [t] ends all unique references made later. *)
Fixpoint read_access (t : nat) (st : list permission) : option (list permission) :=
  match st with
  | [] => None
  | p :: st' =>
      if tag_of p =? t then Some st
      else match read_access t st' with
           | None => None
           | Some r => Some (if is_unique p then r else p :: r)
           end
  end.

(** Writing through [t] ends all references made later.  It is not allowed through a
    shared reference. *)
Fixpoint write_access (t : nat) (st : list permission) : option (list permission) :=
  match st with
  | [] => None
  | p :: st' =>
      if tag_of p =? t then match p with Shared _ => None | _ => Some st end
      else write_access t st'
  end.

(** ** Computations *)

Inductive bout (A : Type) := BVal (a : A) | BPanic (p : panic_reason) | BBlocked | BUB.
Arguments BVal {A} a.
Arguments BPanic {A} p.
Arguments BBlocked {A}.
Arguments BUB {A}.

Record machine := mkMachine { ms_bus : bus; ms_stack : list permission; ms_next : nat }.

Definition B (A : Type) : Type := machine -> bout A * machine.
Definition bret {A} (a : A) : B A := fun m => (BVal a, m).
Definition bbind {A C} (c : B A) (k : A -> B C) : B C := fun m =>
  match c m with
  | (BVal a, m') => k a m'
  | (BPanic p, m') => (BPanic p, m')
  | (BBlocked, m') => (BBlocked, m')
  | (BUB, m') => (BUB, m')
  end.
Notation "x <~ c ;; k" := (bbind c (fun x => k)) (at level 100, c at next level, right associativity).

(** A computation that uses the bus and no reference that was made before. *)
Definition run {A} (c : M A) : B A := fun m =>
  let '(o, s) := c (ms_bus m) in
  (match o with Val a => BVal a | Panic p => BPanic p | Blocked => BBlocked end,
   mkMachine s (ms_stack m) (ms_next m)).

Definition reads_through (t : nat) : B unit := fun m =>
  match read_access t (ms_stack m) with
  | None => (BUB, m)
  | Some st => (BVal tt, mkMachine (ms_bus m) st (ms_next m))
  end.
Definition writes_through (t : nat) : B unit := fun m =>
  match write_access t (ms_stack m) with
  | None => (BUB, m)
  | Some st => (BVal tt, mkMachine (ms_bus m) st (ms_next m))
  end.
Definition push (p : nat -> permission) : B nat := fun m =>
  (BVal (ms_next m), mkMachine (ms_bus m) (p (ms_next m) :: ms_stack m) (S (ms_next m))).

(** [&mut *r], [r as *mut _], [&*r]: a new reference made from the reference [r]. *)
Definition borrow_mut (r : nat) : B nat := _ <~ writes_through r ;; push Unique.
Definition cast_raw (r : nat) : B nat := _ <~ writes_through r ;; push Raw.
Definition borrow_shared (r : nat) : B nat := _ <~ reads_through r ;; push Shared.

(** ** Packets *)

(** A [&\[u8\]] into the read buffer. *)
Record view := mkView { v_tag : nat; v_start : nat; v_len : nat }.

Definition see (v : view) : B (list byte) :=
  _ <~ reads_through (v_tag v) ;;
  run (fun s => (Val (firstn (v_len v) (skipn (v_start v) (b_rbuf s))), s)).

(** bus/mod.rs:232-282, [read_packet_deadline] up to and including the unstuffing: the
    length of the data. *)
Definition finish_front (stuffed_message_len : nat) : M (result nat read_error) :=
  s <- get ;;
  parameters_end <- lift (usize_sub stuffed_message_len 2) ;;
  crc_field <- lift (slice_from (b_rbuf s) parameters_end) ;;
  checksum_message <- lift (read_u16_le crc_field) ;;
  covered <- lift (slice_to (b_rbuf s) parameters_end) ;;
  let checksum_computed := calculate_checksum 0 covered in
  if negb (checksum_message =? checksum_computed)%N then
    consume_read_bytes stuffed_message_len ;;;
    ret (Err (RInvalidMessage (IMChecksum checksum_message checksum_computed)))
  else
  put (set_used s (b_used s + stuffed_message_len)) ;;;
  '(rbuf, parameter_count) <-
    lift (with_slice (b_rbuf s) HEADER_SIZE parameters_end unstuff_inplace) ;;
  s <- get ;;
  put (set_rbuf s rbuf) ;;;
  ret (Ok (HEADER_SIZE + parameter_count)).
Definition read_front (d : deadline) : M (result nat read_error) :=
  s <- get ;;
  tryr RBufferFull (bts_check (HEADER_SIZE + 3) (length (b_rbuf s))) (fun _ =>
  try_ (fun e => e) (read_loop (S (script_size (p_script (b_port s)))) d) (fun len =>
  finish_front len)).

(** bus/mod.rs:232-299 [read_packet_deadline].  [self.read_buffer.as_mut()] is one
    reference here, in the code there are several, one after the other. *)
Definition read_packet_view (bus_ref : nat) (d : deadline) : B (result view read_error) :=
  self <~ borrow_mut bus_ref ;;
  buffer <~ borrow_mut self ;;
  _ <~ writes_through buffer ;;
  r <~ run (read_front d) ;;
  match r with
  | Err e => bret (Err e)
  | Ok len =>
      data <~ borrow_shared self ;;                                                             (* 285 *)
      _ <~ run (s <- get ;; lift (slice_to (b_rbuf s) len)) ;;
      bytes <~ see (mkView data 0 len) ;;                                                       (* 289 *)
      instruction <~ run (lift (idx bytes 7)) ;;
      if beq instruction STATUS && (len - HEADER_SIZE <? 1) then
        bret (Err (RInvalidMessage (IMParameterCount 0 (Min 1))))
      else bret (Ok (mkView data 0 len))
  end.

(** bus/packet.rs:31-38 [as_instruction] *)
Definition as_instruction_view (v : view) : B (option view) :=
  bytes <~ see v ;;
  instruction <~ run (lift (idx bytes 7)) ;;
  bret (if negb (beq instruction STATUS) then Some v else None).

(** device.rs:187-198: every time around the loop there is a new reference to the bus,
    made from [&mut self.bus] by way of a raw pointer. *)
Fixpoint device_loop_view (fuel : nat) (device : nat) (d : deadline) : B (result view read_error) :=
  match fuel with
  | O => fun m => (BBlocked, m)
  | S fuel' =>
      field <~ borrow_mut device ;;
      raw <~ cast_raw field ;;
      bus_ref <~ borrow_mut raw ;;
      r <~ read_packet_view bus_ref d ;;
      match r with
      | Err e => bret (Err e)
      | Ok packet =>
          i <~ as_instruction_view packet ;;
          match i with
          | Some i => bret (Ok i)
          | None => device_loop_view fuel' device d
          end
      end
  end.

(** device.rs:182-199 [read_raw_instruction_timeout]; [device] is the tag of [&mut self]. *)
Definition read_raw_instruction_view (device : nat) (timeout : duration) : B (result view read_error) :=
  port <~ borrow_shared device ;;
  _ <~ reads_through port ;;
  d <~ run (port_make_deadline timeout) ;;
  fuel <~ run (s <- get ;; ret (device_fuel s)) ;;
  device_loop_view fuel device d.
