(** * StreamSpec: vocabulary for statements about what arrives on the line *)
From Verif Require Import Base Error Packet Bus Client Device Spec CallSpec.

(** What the port is going to deliver, without the division into read calls:
    bytes and errors in order. *)
Definition item : Type := byte + io_error.
Fixpoint items (script : list rd_event) : list item :=
  match script with
  | [] => []
  | RdData bs :: t => map inl bs ++ items t
  | RdErr e :: t => inr e :: items t
  end.

(** What a bus still has to process: the bytes received but not handed out
    ([used_bytes .. read_len] of the read buffer), then what the port delivers. *)
Definition pending (s : bus) : list item :=
  map inl (skipn (b_used s) (firstn (b_rlen s) (b_rbuf s))) ++ items (p_script (b_port s)).

(** [n] reads in a row (one deadline each), stopping at a panic or a read that
    does not return. *)
Fixpoint reads (ds : list deadline) : M (list (result packet read_error)) :=
  match ds with
  | [] => ret []
  | d :: ds' =>
      r <- read_packet_deadline d ;;
      rs <- reads ds' ;;
      ret (r :: rs)
  end.

(** [c] begins with a header, or is the beginning of one. *)
Definition at_header (c : list byte) : Prop :=
  (exists r, c = header ++ r) \/ (c <> [] /\ exists r, r <> [] /\ header = c ++ r).

(** [u] is garbage [g] followed by [c]: a header (perhaps only the beginning of
    one) starts at the beginning of [c] and nowhere before. *)
Definition garbage_split (u g c : list byte) : Prop :=
  u = g ++ c /\ (c = [] \/ at_header c) /\
  forall g1 b g2, g = g1 ++ b :: g2 -> ~ at_header (b :: g2 ++ c).

(** A message with any body bytes and any CRC field. *)
Definition message (id : byte) (body : list byte) (crc : N) : list byte :=
  wire_of_body id body crc.

(** [w] is a message with the body [body] and a correct CRC. *)
Definition framed (id : byte) (body w : list byte) : Prop :=
  exists crc, w = message id body crc /\ (N.of_nat (length body + 2) < 2 ^ 16)%N /\
    is_crc16 0 (header ++ [id] ++ le16 (N.of_nat (length body + 2)) ++ body) crc.

(** The call returned an error of the serial port. *)
Definition is_io {A} (r : result A read_error) : bool :=
  match r with Err (RIo _) => true | _ => false end.

(** The accessors of a packet, for the packet with the given id and
    (unstuffed) body. *)
Definition packet_is (p : packet) (id : byte) (body : list byte) : Prop :=
  pk_id p = Val id /\ slice_from (pk_data p) 7 = Val body.

(** Items that do not start with a byte: the port has nothing more, or fails. *)
Definition at_error (q : list item) : Prop := q = [] \/ exists e q', q = inr e :: q'.

(** The bytes among the items, and the number of errors. *)
Fixpoint bytes_in (q : list item) : list byte :=
  match q with [] => [] | inl b :: t => b :: bytes_in t | inr _ :: t => bytes_in t end.
Fixpoint errors_in (q : list item) : list io_error :=
  match q with [] => [] | inl _ :: t => errors_in t | inr e :: t => e :: errors_in t end.

(** The bytes of a packet of a conforming peer, perhaps after garbage: packet id
    [fst x] and body [snd x], in a form the library can receive. *)
Definition arrives (cap : nat) (x : byte * list byte) (chunk : list byte) : Prop :=
  exists g w, chunk = g ++ w /\ ~ contains g header /\ is_frame (fst x) (snd x) w /\
    snd x <> [] /\ ff_runs_ok (snd x) /\ length w <= cap.

(** The line [line] starts (after garbage) with a message with correct CRC from
    [id], whose unstuffed body is [body]; [rest] is what follows it. *)
Definition carries (line : list item) (id : byte) (body : list byte) (rest : list item) : Prop :=
  exists g stuffed w, ~ contains g header /\ framed id stuffed w /\ some_stuffed body stuffed /\
    line = map inl (g ++ w) ++ rest.

(** What the port is going to deliver (a write discards what was received before). *)
Definition incoming (s : bus) : list item := items (p_script (b_port s)).

(** [line'] is what remains of [line] after zero or more status messages that
    fit in a read buffer of [cap] bytes (garbage before each is skipped). *)
Inductive skips (cap : nat) : list item -> list item -> Prop :=
| skip_none : forall line, skips cap line line
| skip_status : forall g id stuffed w line1 line2,
    ~ contains g header -> framed id (STATUS :: stuffed) w -> length w <= cap ->
    skips cap line1 line2 -> skips cap (map inl (g ++ w) ++ line1) line2.

(** [w'] is [w] corrupted: header and length field are intact. *)
Definition corruption_of (id : byte) (body w w' : list byte) : Prop :=
  framed id body w /\ length w' = length w /\ firstn 4 w' = firstn 4 w /\
  firstn 2 (skipn 5 w') = firstn 2 (skipn 5 w).
