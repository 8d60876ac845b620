(** * FaultyPort: reading through a serial port that reports a wrong count *)
From Verif Require Import Base Endian Error Packet Time Bus.

(** One answer of [SerialPort::read] (serial_port/mod.rs:24-25): the port puts
    [bs] into the buffer it is given (as many as fit: safe code cannot write
    beyond it) and returns [count], whatever that is; or it returns an error. *)
Inductive fd_event :=
| FdData (bs : list byte) (count : N)
| FdErr (e : io_error).

(** bus/mod.rs:240-255: look for a complete message in the read buffer. *)
Definition look : M (result (option nat) read_error) :=
  s <- get ;;
  if HEADER_SIZE <? b_rlen s then
    read_buffer <- lift (slice_to (b_rbuf s) (b_rlen s)) ;;
    len_field <- lift (slice_from read_buffer 5) ;;
    body_len <- lift (read_u16_le len_field) ;;
    let total := HEADER_SIZE + N.to_nat body_len in
    match bts_check total (length (b_rbuf s)) with
    | Err e => consume_read_bytes HEADER_SIZE ;;; ret (Err (RBufferFull e))
    | Ok _ =>
        if total <=? b_rlen s then ret (Ok (Some total)) else ret (Ok None)
    end
  else ret (Ok None).

(** bus/mod.rs:236-262, the loop of [read_packet_deadline] with the answers
    [fs] of the port; also returns the answers that were not asked for.
    [self.read_len += new_data] is modelled with its overflow: a panic with
    overflow checks (taken to come with [debug_assert]), else the wrapped sum.
    The deadline and the log of port calls are left out. *)
Fixpoint f_loop (fs : list fd_event) (s : bus)
  : out (result nat read_error) * bus * list fd_event :=
  match (remove_garbage ;;; look) s with
  | (Panic p, s) => (Panic p, s, fs)
  | (Blocked, s) => (Blocked, s, fs)
  | (Val (Err e), s) => (Val (Err e), s, fs)
  | (Val (Ok (Some total)), s) => (Val (Ok total), s, fs)
  | (Val (Ok None), s) =>
      match slice_from (b_rbuf s) (b_rlen s) with
      | Panic p => (Panic p, s, fs)
      | Blocked => (Blocked, s, fs)
      | Val free =>
          match fs with
          | [] => (Blocked, s, [])
          | FdErr e :: fs => (Val (Err (RIo e)), s, fs)
          | FdData bs count :: fs =>
              let s := set_rbuf s (splice (b_rbuf s) (b_rlen s) (firstn (length free) bs)) in
              let sum := (N.of_nat (b_rlen s) + count)%N in
              if (usize_max <? sum)%N then
                if b_dbg s then (Panic POverflow, s, fs)
                else f_loop fs (set_rlen s (N.to_nat (sum - (usize_max + 1))))
              else f_loop fs (set_rlen s (N.to_nat sum))
          end
      end
  end.

(** bus/mod.rs:232-299 [read_packet_deadline] on such a port. *)
Definition f_read_packet (fs : list fd_event) (s : bus)
  : out (result packet read_error) * bus * list fd_event :=
  match bts_check (HEADER_SIZE + 3) (length (b_rbuf s)) with
  | Err e => (Val (Err (RBufferFull e)), s, fs)
  | Ok _ =>
      match f_loop fs s with
      | (Val (Ok len), s, fs) => (finish_packet len s, fs)
      | (Val (Err e), s, fs) => (Val (Err e), s, fs)
      | (Panic p, s, fs) => (Panic p, s, fs)
      | (Blocked, s, fs) => (Blocked, s, fs)
      end
  end.
