(** * LogModel: model of the log output (/repo/src/log.rs)

    With the feature [log] the macros of src/log.rs:5-33 pass their arguments to the
    crate log; without it (40-72) the arguments are only evaluated.  There are five
    uses, all with level debug or trace: src/bus/mod.rs:226, 266, 306, 307 and
    src/instructions/ping.rs:96.  The functions around them are repeated here with
    what they log; everything else is taken from [Bus] and [Client]. *)
From Coq Require Import Ascii String.
From Verif Require Import Base Endian Error Packet Time Bus Client Instructions Text.
Local Open Scope list_scope.

(** One call of a macro. *)
Inductive log_record :=
| LogSending (bs : list byte)      (* bus/mod.rs:226 *)
| LogReadPacket (bs : list byte)   (* bus/mod.rs:266 *)
| LogSkipping (n : nat)            (* bus/mod.rs:306 *)
| LogSkipped (bs : list byte)      (* bus/mod.rs:307 *)
| LogPingTimeout.                  (* instructions/ping.rs:96 *)

(** The level and the text of a record. *)
Inductive log_level := LevelDebug | LevelTrace.
Definition record_level (r : log_record) : log_level :=
  match r with LogSkipping _ => LevelDebug | _ => LevelTrace end.
Definition record_text (r : log_record) : string :=
  match r with
  | LogSending bs => "sending packet: " ++ hex2_array bs
  | LogReadPacket bs => "read packet: " ++ hex2_array bs
  | LogSkipping n => "skipping " ++ dec_nat n ++ " bytes of leading garbage."
  | LogSkipped bs => "skipped garbage: " ++ hex2_array bs
  | LogPingTimeout => "Ping response timed out."
  end.

(** ** Computations that use a bus and log *)

Definition T (A : Type) : Type := bus -> out A * bus * list log_record.

Definition quiet {A} (m : M A) : T A := fun s => (m s, []).
Definition say (r : log_record) : T unit := fun s => (Val tt, s, [r]).
Definition tbind {A B} (m : T A) (k : A -> T B) : T B := fun s =>
  match m s with
  | (Val a, s', l) => let '(o, s'', l') := k a s' in (o, s'', l ++ l')
  | (Panic p, s', l) => (Panic p, s', l)
  | (Blocked, s', l) => (Blocked, s', l)
  end.

Notation "x <~ m ;; k" := (tbind m (fun x => k))
  (at level 100, m at next level, right associativity).
Notation "' p <~ m ;; k" := (tbind m (fun x => match x with p => k end))
  (at level 100, p pattern, m at next level, right associativity).
Notation "m ;~ k" := (tbind m (fun _ => k)) (at level 100, right associativity).

(** [m?] and [r?], as [try_] and [tryr] in [Bus] *)
Definition ttry {A B E F} (f : E -> F) (m : T (result A E)) (k : A -> T (result B F)) : T (result B F) :=
  tbind m (fun r => match r with Ok a => k a | Err e => quiet (ret (Err (f e))) end).
Definition ttryr {A B E F} (f : E -> F) (r : result A E) (k : A -> T (result B F)) : T (result B F) :=
  match r with Ok a => k a | Err e => quiet (ret (Err (f e))) end.

(** ** Writing *)

(** bus/mod.rs:183-229 [write_packet] *)
Definition write_packet_log (packet_id instruction_id : byte) (parameter_count : nat)
    (encode_parameters : encoder) : T (result unit write_error) :=
  s <~ quiet get ;;
  '(b, r) <~ quiet (lift (build_packet (b_dbg s) (b_wbuf s) packet_id instruction_id
                                       parameter_count encode_parameters)) ;;
  quiet (put (set_wbuf s b)) ;~
  ttryr WBufferTooSmall r (fun checksum_index =>
  s <~ quiet get ;;
  quiet (put (set_used (set_rlen s 0) 0)) ;~
  ttry WDiscardBuffer (quiet port_discard) (fun _ =>
  stuffed_message <~ quiet (lift (slice_to b (checksum_index + 2))) ;;
  say (LogSending stuffed_message) ;~
  ttry WWrite (quiet (port_write_all stuffed_message)) (fun _ =>
  quiet (ret (Ok tt))))).

(** ** Reading *)

(** bus/mod.rs:302-311 [remove_garbage] *)
Definition remove_garbage_log : T unit :=
  s <~ quiet get ;;
  valid <~ quiet (lift (slice_to (b_rbuf s) (b_rlen s))) ;;
  unread <~ quiet (lift (slice_from valid (b_used s))) ;;
  let garbage_len := find_header unread in
  (if 0 <? garbage_len then
     say (LogSkipping garbage_len) ;~
     shown <~ quiet (lift (slice_to (b_rbuf s) garbage_len)) ;;
     say (LogSkipped shown)
   else quiet (ret tt)) ;~
  quiet (consume_read_bytes (b_used s + garbage_len)) ;~
  s <~ quiet get ;;
  if b_dbg s && negb (b_used s =? 0) then quiet (lift (Panic PDebugAssert))
  else quiet (ret tt).

(** bus/mod.rs:236-262, the loop of [read_packet_deadline] *)
Fixpoint read_loop_log (fuel : nat) (d : deadline) : T (result nat read_error) :=
  match fuel with
  | O => quiet (lift Blocked)
  | S fuel' =>
      remove_garbage_log ;~
      s <~ quiet get ;;
      found <~ quiet
        (if HEADER_SIZE <? b_rlen s then
           read_buffer <- lift (slice_to (b_rbuf s) (b_rlen s)) ;;
           len_field <- lift (slice_from read_buffer 5) ;;
           body_len <- lift (read_u16_le len_field) ;;
           let total := HEADER_SIZE + N.to_nat body_len in
           match bts_check total (length (b_rbuf s)) with
           | Err e => consume_read_bytes HEADER_SIZE ;;; ret (Err (RBufferFull e))
           | Ok _ =>
               if total <=? b_rlen s then ret (Ok (Some total)) else ret (Ok None)
           end
         else ret (Ok None)) ;;
      match found with
      | Err e => quiet (ret (Err e))
      | Ok (Some total) => quiet (ret (Ok total))
      | Ok None =>
          s <~ quiet get ;;
          free <~ quiet (lift (slice_from (b_rbuf s) (b_rlen s))) ;;
          ttry RIo (quiet (port_read (length free) d)) (fun new_data =>
          s <~ quiet get ;;
          quiet (put (set_rlen (set_rbuf s (splice (b_rbuf s) (b_rlen s) new_data))
                               (b_rlen s + length new_data))) ;~
          read_loop_log fuel' d)
      end
  end.

(** bus/mod.rs:264-298.  What follows the log record is [finish_packet], which
    computes [parameters_end] again. *)
Definition finish_packet_log (stuffed_message_len : nat) : T (result packet read_error) :=
  s <~ quiet get ;;
  parameters_end <~ quiet (lift (usize_sub stuffed_message_len 2)) ;;
  shown <~ quiet (lift (slice_to (b_rbuf s) parameters_end)) ;;
  say (LogReadPacket shown) ;~
  quiet (finish_packet stuffed_message_len).

(** bus/mod.rs:232-299 [read_packet_deadline] *)
Definition read_packet_deadline_log (d : deadline) : T (result packet read_error) :=
  s <~ quiet get ;;
  ttryr RBufferFull (bts_check (HEADER_SIZE + 3) (length (b_rbuf s))) (fun _ =>
  ttry (fun e => e) (read_loop_log (S (script_size (p_script (b_port s)))) d) (fun len =>
  finish_packet_log len)).

(** client.rs:177-193 [read_status_response_timeout] *)
Definition read_status_response_timeout_log (timeout : duration) : T (result packet read_error) :=
  d <~ quiet (port_make_deadline timeout) ;;
  ttry (fun e => e) (read_packet_deadline_log d) (fun p =>
  quiet (st <- lift (as_status p) ;;
         match st with
         | None =>
             i <- lift (pk_instruction p) ;;
             ret (Err (RInvalidMessage (IMInstruction i STATUS)))
         | Some status =>
             e <- lift (st_error status) ;;
             tryr RMotorError (motor_error_check e) (fun _ =>
             ret (Ok status))
         end)).

(** client.rs:198-203 [read_status_response] *)
Definition read_status_response_log (expected_parameters : N) : T (result packet read_error) :=
  s <~ quiet get ;;
  timeout <~ quiet (lift (response_timeout (b_dbg s) (b_baud s) expected_parameters)) ;;
  read_status_response_timeout_log timeout.

(** client.rs:144-159 [transfer_single] *)
Definition transfer_single_log (packet_id instruction_id : byte) (parameter_count : nat)
    (expected_response_parameters : N) (encode_parameters : encoder)
  : T (result packet transfer_error) :=
  ttry TWriteError (write_packet_log packet_id instruction_id parameter_count encode_parameters)
  (fun _ =>
  ttry TReadError (read_status_response_log expected_response_parameters) (fun response =>
  rid <~ quiet (lift (pk_id response)) ;;
  quiet (tryr (fun e => TReadError (RInvalidMessage e)) (packet_id_check rid packet_id) (fun _ =>
  ret (Ok response))))).

(** ping.rs:103-109 [Scan::next_response] *)
Definition scan_next_response_log : T (result (response ping_data) read_error) :=
  s <~ quiet get ;;
  timeout <~ quiet (lift (scan_timeout (b_dbg s) (b_baud s))) ;;
  ttry (fun e => e) (read_status_response_timeout_log timeout) (fun p =>
  quiet (r <- lift (response_ping p) ;;
         ret (map_err RInvalidMessage r))).

(** ping.rs:91-101 [Scan::scan_next] *)
Definition scan_next_log : T (option (result (response ping_data) read_error)) :=
  r <~ scan_next_response_log ;;
  match r with
  | Ok response => quiet (ret (Some (Ok response)))
  | Err (RIo e) =>
      if is_timeout_error e then say LogPingTimeout ;~ quiet (ret None)
      else quiet (ret (Some (Err (RIo e))))
  | Err e => quiet (ret (Some (Err e)))
  end.
