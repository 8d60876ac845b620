(** * Bus: model of /repo/src/bus/mod.rs (struct [Bus]) and of the
    [SerialPort] trait it talks to (/repo/src/serial_port/mod.rs). *)
From Verif Require Import Base Endian Error Checksum Bytestuff Packet Time.

(** ** The serial port

    [SerialPort] is a trait, so the model must cover every implementation.  The
    crate only observes a port through the answers to its calls; a port is
    therefore modelled by the (arbitrary) list of answers it is going to give,
    plus a log of the calls made.  Quantifying over all answer lists covers
    every implementation and every timing that honours the contract of
    serial_port/mod.rs:27-28 ("returns available bytes", at most as many as the
    buffer holds).  When the list of read answers is used up, the next [read]
    has not returned yet ([Blocked]). *)

(** One answer of [SerialPort::read]: some bytes ([RdData \[\]] is [Ok(0)]) or
    an error. *)
Inductive rd_event :=
| RdData (bs : list byte)
| RdErr (e : io_error).

(** [SerialPort::Instant] (serial_port/mod.rs:16): the result of the
    [dl_seq]-th call of [make_deadline], which got the timeout [dl_timeout]. *)
Record deadline := mkDeadline { dl_seq : nat; dl_timeout : duration }.

(** The calls made on the port, with their answers. *)
Inductive io_event :=
| LDiscard (r : option io_error)
| LWrite (bs : list byte) (r : option io_error)
| LDeadline (d : deadline)
| LRead (d : deadline) (cap : nat) (answer : result (list byte) io_error)
| LReadWait (d : deadline) (cap : nat)   (* has not returned *)
| LSetBaud (baud : N) (r : option io_error).

(** [p_discards], [p_writes], [p_setbauds]: the answers of the coming calls of
    [discard_input_buffer], [write_all], [set_baud_rate]; [None] is [Ok(())],
    and so is everything after the end of the list. *)
Record port := mkPort {
  p_script : list rd_event;
  p_discards : list (option io_error);
  p_writes : list (option io_error);
  p_setbauds : list (option io_error);
  p_deadlines : nat;
  p_log : list io_event;     (* oldest first *)
}.

(** bus/mod.rs:81-103 [Bus].  [b_dbg] is the build profile: debug assertions
    and overflow checks enabled. *)
Record bus := mkBus {
  b_port : port;
  b_baud : N;
  b_rbuf : list byte;
  b_rlen : nat;
  b_used : nat;
  b_wbuf : list byte;
  b_dbg : bool;
}.

(** ** Computations that use a bus ([&mut self]) *)

Definition M (A : Type) : Type := bus -> out A * bus.

Definition ret {A} (a : A) : M A := fun s => (Val a, s).
Definition lift {A} (o : out A) : M A := fun s => (o, s).
Definition bind {A B} (m : M A) (k : A -> M B) : M B := fun s =>
  match m s with
  | (Val a, s') => k a s'
  | (Panic p, s') => (Panic p, s')
  | (Blocked, s') => (Blocked, s')
  end.
Definition get : M bus := fun s => (Val s, s).
Definition put (s' : bus) : M unit := fun _ => (Val tt, s').

Notation "x <- m ;; k" := (bind m (fun x => k))
  (at level 100, m at next level, right associativity).
Notation "' p <- m ;; k" := (bind m (fun x => match x with p => k end))
  (at level 100, p pattern, m at next level, right associativity).
Notation "m ;;; k" := (bind m (fun _ => k)) (at level 100, right associativity).

(** [m?] where the error is converted by [f] ([From::from]). *)
Definition try_ {A B E F} (f : E -> F) (m : M (result A E)) (k : A -> M (result B F))
  : M (result B F) :=
  bind m (fun r => match r with Ok a => k a | Err e => ret (Err (f e)) end).

(** [r?] for an already computed result. *)
Definition tryr {A B E F} (f : E -> F) (r : result A E) (k : A -> M (result B F))
  : M (result B F) :=
  match r with Ok a => k a | Err e => ret (Err (f e)) end.

Definition set_port (s : bus) (p : port) : bus :=
  mkBus p (b_baud s) (b_rbuf s) (b_rlen s) (b_used s) (b_wbuf s) (b_dbg s).
Definition set_rbuf (s : bus) (l : list byte) : bus :=
  mkBus (b_port s) (b_baud s) l (b_rlen s) (b_used s) (b_wbuf s) (b_dbg s).
Definition set_rlen (s : bus) (n : nat) : bus :=
  mkBus (b_port s) (b_baud s) (b_rbuf s) n (b_used s) (b_wbuf s) (b_dbg s).
Definition set_used (s : bus) (n : nat) : bus :=
  mkBus (b_port s) (b_baud s) (b_rbuf s) (b_rlen s) n (b_wbuf s) (b_dbg s).
Definition set_wbuf (s : bus) (l : list byte) : bus :=
  mkBus (b_port s) (b_baud s) (b_rbuf s) (b_rlen s) (b_used s) l (b_dbg s).
Definition set_baud (s : bus) (n : N) : bus :=
  mkBus (b_port s) n (b_rbuf s) (b_rlen s) (b_used s) (b_wbuf s) (b_dbg s).

Definition log_event (p : port) (e : io_event) : port :=
  mkPort (p_script p) (p_discards p) (p_writes p) (p_setbauds p) (p_deadlines p)
         (p_log p ++ [e]).

(** ** SerialPort methods (serial_port/mod.rs:18-37) *)

(** [discard_input_buffer] (serial_port/mod.rs:24-25).  What the operating
    system discards is part of the environment: it is whatever does not appear
    in [p_script] afterwards. *)
Definition port_discard : M (result unit io_error) := fun s =>
  let p := b_port s in
  let r := match p_discards p with [] => None | r :: _ => r end in
  let p' := log_event (mkPort (p_script p) (tl (p_discards p)) (p_writes p)
                              (p_setbauds p) (p_deadlines p) (p_log p))
                      (LDiscard r) in
  (Val (match r with None => Ok tt | Some e => Err e end), set_port s p').

(** [write_all] (serial_port/mod.rs:30-31) *)
Definition port_write_all (bs : list byte) : M (result unit io_error) := fun s =>
  let p := b_port s in
  let r := match p_writes p with [] => None | r :: _ => r end in
  let p' := log_event (mkPort (p_script p) (p_discards p) (tl (p_writes p))
                              (p_setbauds p) (p_deadlines p) (p_log p))
                      (LWrite bs r) in
  (Val (match r with None => Ok tt | Some e => Err e end), set_port s p').

(** [set_baud_rate] (serial_port/mod.rs:21-22) *)
Definition port_set_baud (baud : N) : M (result unit io_error) := fun s =>
  let p := b_port s in
  let r := match p_setbauds p with [] => None | r :: _ => r end in
  let p' := log_event (mkPort (p_script p) (p_discards p) (p_writes p)
                              (tl (p_setbauds p)) (p_deadlines p) (p_log p))
                      (LSetBaud baud r) in
  (Val (match r with None => Ok tt | Some e => Err e end), set_port s p').

(** [make_deadline] (serial_port/mod.rs:33-34) *)
Definition port_make_deadline (timeout : duration) : M deadline := fun s =>
  let p := b_port s in
  let d := mkDeadline (p_deadlines p) timeout in
  let p' := log_event (mkPort (p_script p) (p_discards p) (p_writes p)
                              (p_setbauds p) (S (p_deadlines p)) (p_log p))
                      (LDeadline d) in
  (Val d, set_port s p').

(** [read] (serial_port/mod.rs:27-28) into a buffer of [cap] bytes.  An answer
    with more than [cap] bytes is delivered in pieces: the port hands out the
    first [cap] bytes and keeps the rest for the next call. *)
Definition port_read (cap : nat) (d : deadline) : M (result (list byte) io_error) := fun s =>
  let p := b_port s in
  match p_script p with
  | [] => (Blocked, set_port s (log_event p (LReadWait d cap)))
  | RdErr e :: rest =>
      let p' := mkPort rest (p_discards p) (p_writes p) (p_setbauds p)
                       (p_deadlines p) (p_log p) in
      (Val (Err e), set_port s (log_event p' (LRead d cap (Err e))))
  | RdData bs :: rest =>
      let rest' := if length bs <=? cap then rest else RdData (skipn cap bs) :: rest in
      let p' := mkPort rest' (p_discards p) (p_writes p) (p_setbauds p)
                       (p_deadlines p) (p_log p) in
      (Val (Ok (firstn cap bs)), set_port s (log_event p' (LRead d cap (Ok (firstn cap bs)))))
  end.

(** An upper bound on the number of [read] calls the remaining answers can
    serve; used as fuel for the loops that read. *)
Fixpoint script_size (l : list rd_event) : nat :=
  match l with
  | [] => 0
  | RdData bs :: t => S (length bs + script_size t)
  | RdErr _ :: t => S (script_size t)
  end.

(** ** Construction *)

(** bus/mod.rs:120-136 [with_buffers_and_baud_rate].  The [assert!] panics. *)
Definition with_buffers_and_baud_rate (dbg : bool) (p : port)
    (read_buffer write_buffer : list byte) (baud_rate : N) : out bus :=
  if HEADER_SIZE + 3 <=? length write_buffer then
    let* w := copy_into write_buffer 0 4 HEADER_PREFIX in
    Val (mkBus p baud_rate read_buffer 0 0 w dbg)
  else Panic PAssert.

(** bus/mod.rs:114-117 [with_buffers]; [baud_answer] is what
    [SerialPort::baud_rate] returns. *)
Definition with_buffers (dbg : bool) (p : port) (baud_answer : result N io_error)
    (read_buffer write_buffer : list byte) : out (result bus io_error) :=
  match baud_answer with
  | Err e => Val (Err e)
  | Ok baud_rate =>
      let* b := with_buffers_and_baud_rate dbg p read_buffer write_buffer baud_rate in
      Val (Ok b)
  end.

(** bus/mod.rs:139-143 [set_baud_rate] *)
Definition set_baud_rate (baud : N) : M (result unit io_error) :=
  try_ (fun e => e) (port_set_baud baud) (fun _ =>
  s <- get ;;
  put (set_baud s baud) ;;;
  ret (Ok tt)).

(** ** Writing *)

(** The [encode_parameters] closure ([FnOnce(&mut \[u8\]) -> Result<(), _>]):
    new contents of the slice and the result. *)
Definition encoder : Type := list byte -> out (list byte * result unit buffer_too_small).

(** bus/mod.rs:193-215, the part of [write_packet] that prepares the message
    in the write buffer.  Returns the new buffer, and the length of the stuffed
    message (excluding the CRC, i.e. [checksum_index]).

    bus/mod.rs:196: [in_message_len] can overflow [usize] for an absurd
    [parameter_count]; with overflow checks that panics, without them the
    wrapped check passes and the slice [buffer\[8..\]\[..parameter_count\]]
    panics, so both profiles panic.
    bus/mod.rs:210: [stuffed_body_len as u16] truncates, and [+ 2] panics or
    wraps depending on the profile. *)
Definition build_packet (dbg : bool) (buffer : list byte) (packet_id instruction_id : byte)
    (parameter_count : nat) (encode_parameters : encoder)
  : out (list byte * result nat buffer_too_small) :=
  if (usize_max <? N.of_nat (in_message_len parameter_count))%N then Panic POverflow
  else
  match bts_check (in_message_len parameter_count) (length buffer) with
  | Err e => Val (buffer, Err e)
  | Ok _ =>
      let* b := set buffer 4 packet_id in
      let* b := set b 5 x00 in
      let* b := set b 6 x00 in
      let* b := set b 7 instruction_id in
      let* '(b, r) := with_slice b 8 (8 + parameter_count) encode_parameters in
      match r with
      | Err e => Val (b, Err e)
      | Ok _ =>
          let* '(b, r) := with_slice b HEADER_SIZE (length b)
                            (fun body => stuff_inplace dbg body (1 + parameter_count)) in
          match r with
          | Err e => Val (b, Err e)
          | Ok stuffed_body_len =>
              let trunc := (N.of_nat stuffed_body_len mod 2 ^ 16)%N in
              let* len_field :=
                (if (2 ^ 16 <=? trunc + 2)%N
                 then (if dbg then Panic POverflow else Val ((trunc + 2) mod 2 ^ 16)%N)
                 else Val (trunc + 2)%N) in
              let* b := write_u16_at b 5 len_field in
              let checksum_index := HEADER_SIZE + stuffed_body_len in
              let* covered := slice_to b checksum_index in
              let checksum := calculate_checksum 0 covered in
              let* b := write_u16_at b checksum_index checksum in
              Val (b, Ok checksum_index)
          end
      end
  end.

(** bus/mod.rs:183-229 [write_packet] *)
Definition write_packet (packet_id instruction_id : byte) (parameter_count : nat)
    (encode_parameters : encoder) : M (result unit write_error) :=
  s <- get ;;
  '(b, r) <- lift (build_packet (b_dbg s) (b_wbuf s) packet_id instruction_id
                                parameter_count encode_parameters) ;;
  put (set_wbuf s b) ;;;
  tryr WBufferTooSmall r (fun checksum_index =>
  s <- get ;;
  put (set_used (set_rlen s 0) 0) ;;;
  try_ WDiscardBuffer port_discard (fun _ =>
  stuffed_message <- lift (slice_to b (checksum_index + 2)) ;;
  try_ WWrite (port_write_all stuffed_message) (fun _ =>
  ret (Ok tt)))).

(** bus/mod.rs:146-166 [write_status].  As in [build_packet], an overflowing
    [message_len] (or [parameter_count + 1]) ends in a panic in both profiles. *)
Definition write_status (packet_id error : byte) (parameter_count : nat)
    (encode_parameters : encoder) : M (result unit write_error) :=
  if (usize_max <? N.of_nat (st_message_len parameter_count))%N then lift (Panic POverflow)
  else
  s <- get ;;
  tryr WBufferTooSmall (bts_check (st_message_len parameter_count) (length (b_wbuf s))) (fun _ =>
  write_packet packet_id STATUS (parameter_count + 1)
    (fun buffer =>
       let* buffer := set buffer 0 error in
       with_slice buffer 1 (length buffer) encode_parameters)).

(** bus/mod.rs:169-180 [write_instruction] *)
Definition write_instruction (packet_id instruction_id : byte) (parameter_count : nat)
    (encode_parameters : encoder) : M (result unit write_error) :=
  write_packet packet_id instruction_id parameter_count encode_parameters.

(** ** Reading *)

(** bus/mod.rs:329-338 [find_header].  The index loop is written as a recursion
    over the suffixes [buffer\[i..\]]. *)
Fixpoint find_header (buffer : list byte) : nat :=
  match buffer with
  | [] => 0
  | _ :: rest =>
      let possible_prefix := Nat.min (length HEADER_PREFIX) (length buffer) in
      if starts_with buffer (firstn possible_prefix HEADER_PREFIX) then 0
      else S (find_header rest)
  end.

(** bus/mod.rs:313-321 [consume_read_bytes].  [copy_within] panics on a bad
    range. *)
Definition consume_read_bytes (len : nat) : M unit :=
  s <- get ;;
  if b_dbg s && negb (len <=? b_rlen s) then lift (Panic PDebugAssert)
  else
  moved <- lift (slice (b_rbuf s) len (b_rlen s)) ;;
  put (mkBus (b_port s) (b_baud s) (splice (b_rbuf s) 0 moved)
             (b_rlen s - len) (b_used s - len) (b_wbuf s) (b_dbg s)).

(** bus/mod.rs:302-311 [remove_garbage] (log output not modelled) *)
Definition remove_garbage : M unit :=
  s <- get ;;
  valid <- lift (slice_to (b_rbuf s) (b_rlen s)) ;;
  unread <- lift (slice_from valid (b_used s)) ;;
  let garbage_len := find_header unread in
  consume_read_bytes (b_used s + garbage_len) ;;;
  s <- get ;;
  if b_dbg s && negb (b_used s =? 0) then lift (Panic PDebugAssert)
  else ret tt.

(** bus/mod.rs:236-262, the loop of [read_packet_deadline]: returns the length
    of the complete stuffed message at the front of the read buffer.  [fuel]
    bounds the number of iterations; [read_packet_deadline] passes enough for
    every answer of the port (lemma [read_loop_fuel_irrelevant]). *)
Fixpoint read_loop (fuel : nat) (d : deadline) : M (result nat read_error) :=
  match fuel with
  | O => lift Blocked
  | S fuel' =>
      remove_garbage ;;;
      s <- get ;;
      found <-
        (if HEADER_SIZE <? b_rlen s then
           read_buffer <- lift (slice_to (b_rbuf s) (b_rlen s)) ;;
           len_field <- lift (slice_from read_buffer 5) ;;
           body_len <- lift (read_u16_le len_field) ;;
           let total := HEADER_SIZE + N.to_nat body_len in
           match bts_check total (length (b_rbuf s)) with
           | Err e => consume_read_bytes HEADER_SIZE ;;; ret (Err (RBufferFull e))
           | Ok _ =>
               if total <=? b_rlen s then ret (Ok (Some total)) else ret (Ok None)
           end
         else ret (Ok None)) ;;
      match found with
      | Err e => ret (Err e)
      | Ok (Some total) => ret (Ok total)
      | Ok None =>
          s <- get ;;
          free <- lift (slice_from (b_rbuf s) (b_rlen s)) ;;
          try_ RIo (port_read (length free) d) (fun new_data =>
          s <- get ;;
          put (set_rlen (set_rbuf s (splice (b_rbuf s) (b_rlen s) new_data))
                        (b_rlen s + length new_data)) ;;;
          read_loop fuel' d)
      end
  end.

(** bus/mod.rs:264-298, what [read_packet_deadline] does once a complete
    message of [stuffed_message_len] bytes is at the front of the buffer. *)
Definition finish_packet (stuffed_message_len : nat) : M (result packet read_error) :=
  s <- get ;;
  parameters_end <- lift (usize_sub stuffed_message_len 2) ;;
  crc_field <- lift (slice_from (b_rbuf s) parameters_end) ;;
  checksum_message <- lift (read_u16_le crc_field) ;;
  covered <- lift (slice_to (b_rbuf s) parameters_end) ;;
  let checksum_computed := calculate_checksum 0 covered in
  if negb (checksum_message =? checksum_computed)%N then
    consume_read_bytes stuffed_message_len ;;;
    ret (Err (RInvalidMessage (IMChecksum checksum_message checksum_computed)))
  else
  put (set_used s (b_used s + stuffed_message_len)) ;;;
  '(rbuf, parameter_count) <-
    lift (with_slice (b_rbuf s) HEADER_SIZE parameters_end unstuff_inplace) ;;
  s <- get ;;
  put (set_rbuf s rbuf) ;;;
  data <- lift (slice_to rbuf (HEADER_SIZE + parameter_count)) ;;
  let p := mkPacket data in
  instruction <- lift (pk_instruction p) ;;
  if beq instruction STATUS && (parameter_count <? 1) then
    ret (Err (RInvalidMessage (IMParameterCount 0 (Min 1))))
  else ret (Ok p).

(** bus/mod.rs:232-299 [read_packet_deadline] *)
Definition read_packet_deadline (d : deadline) : M (result packet read_error) :=
  s <- get ;;
  tryr RBufferFull (bts_check (HEADER_SIZE + 3) (length (b_rbuf s))) (fun _ =>
  try_ (fun e => e) (read_loop (S (script_size (p_script (b_port s)))) d) (fun len =>
  finish_packet len)).
