(** * LogSpec: vocabulary for statements about the log *)
From Verif Require Import Base Error Packet Bus Client Device Spec Api CallSpec StreamSpec LogModel.

(** The packets a log shows as sent and as received, the number of bytes it
    says were skipped and the bytes it shows as skipped. *)
Definition sent_in (l : list log_record) : list (list byte) :=
  flat_map (fun r => match r with LogSending bs => [bs] | _ => [] end) l.
Definition received_in (l : list log_record) : list (list byte) :=
  flat_map (fun r => match r with LogReadPacket bs => [bs] | _ => [] end) l.
Definition skip_count (l : list log_record) : nat :=
  list_sum (map (fun r => match r with LogSkipping n => n | _ => 0 end) l).
Definition garbage_in (l : list log_record) : list byte :=
  flat_map (fun r => match r with LogSkipped bs => bs | _ => [] end) l.

(** The bytes given to the serial port, call by call. *)
Definition written_in (evs : list io_event) : list (list byte) :=
  flat_map (fun e => match e with LWrite bs _ => [bs] | _ => [] end) evs.

(** What a read did with the line: it skipped the garbage [g] and took the
    messages [ws] (without their CRC), at most one. *)
Inductive read_story (s s' : bus) : out (result packet read_error) -> list byte -> list (list byte) -> Prop :=
| story_packet : forall p g w c, pending s = map inl (g ++ w ++ c) ++ pending s' -> length c = 2 ->
    garbage_split (g ++ w ++ c) g (w ++ c) -> read_story s s' (Val (Ok p)) g [w]
| story_invalid : forall e g w c, pending s = map inl (g ++ w ++ c) ++ pending s' -> length c = 2 ->
    garbage_split (g ++ w ++ c) g (w ++ c) -> read_story s s' (Val (Err (RInvalidMessage e))) g [w]
| story_panic : forall e g w c rest, pending s = map inl (g ++ w ++ c) ++ rest -> length c = 2 ->
    garbage_split (g ++ w ++ c) g (w ++ c) -> read_story s s' (Panic e) g [w]
| story_too_large : forall e g h, pending s = map inl (g ++ h) ++ pending s' -> length h = 7 ->
    garbage_split (g ++ h) g h -> read_story s s' (Val (Err (RBufferFull e))) g []
| story_io : forall e g c rest, pending s = map inl (g ++ c) ++ inr e :: rest ->
    pending s' = map inl c ++ rest -> garbage_split (g ++ c) g c -> read_story s s' (Val (Err (RIo e))) g []
| story_waiting : forall g c, pending s = map inl (g ++ c) -> pending s' = map inl c ->
    garbage_split (g ++ c) g c -> read_story s s' Blocked g [].

(** The bus has not handed out a packet since it was made, since the last packet
    was sent or since the last read that failed. *)
Inductive nothing_handed_out : bus -> Prop :=
| nho_new : forall dbg p rb wb baud s,
    with_buffers_and_baud_rate dbg p rb wb baud = Val s -> nothing_handed_out s
| nho_sent : forall id i n enc s s',
    write_packet id i n enc s = (Val (Ok tt), s') -> nothing_handed_out s'
| nho_failed : forall d e s s', 10 <= length (b_rbuf s) -> reach s ->
    read_packet_deadline d s = (Val (Err e), s') -> nothing_handed_out s'.

(** The number of bytes the bus holds that no read has used: what is left to
    read, less what the serial port still has to give. *)
Definition already_received (s : bus) : nat := length (pending s) - length (items (p_script (b_port s))).

(** A sequence of writes and reads on a bus. *)
Inductive bus_call :=
| CWrite (id i : byte) (n : nat) (enc : encoder)
| CRead (d : deadline).

Definition run_call (c : bus_call) : T (option (result packet read_error)) :=
  match c with
  | CWrite id i n enc => write_packet_log id i n enc ;~ quiet (ret None)
  | CRead d => r <~ read_packet_deadline_log d ;; quiet (ret (Some r))
  end.

Fixpoint run_calls (cs : list bus_call) : T (list (option (result packet read_error))) :=
  match cs with
  | [] => quiet (ret [])
  | c :: cs' => r <~ run_call c ;; rs <~ run_calls cs' ;; quiet (ret (r :: rs))
  end.

(** The read got a complete message, valid or not. *)
Definition got_message (r : option (result packet read_error)) : bool :=
  match r with Some (Ok _) | Some (Err (RInvalidMessage _)) => true | _ => false end.

(** The closures of the writes cannot change the length of their buffer. *)
Definition closures_ok (cs : list bus_call) : Prop :=
  Forall (fun c => match c with CWrite _ _ _ enc => encoder_ok enc | CRead _ => True end) cs.
