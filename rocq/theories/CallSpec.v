(** * CallSpec: vocabulary for statements about the calls a function makes on
    the serial port *)
From Verif Require Import Base Error Packet Bus Client Device Spec Api.

(** Between [s] and [s'] the port was called exactly like [evs]. *)
Definition calls (s s' : bus) (evs : list io_event) : Prop :=
  p_log (b_port s') = p_log (b_port s) ++ evs.

(** A closure that fills the parameter area with [params]. *)
Definition writes_parameters (enc : encoder) (params : list byte) : Prop :=
  encoder_ok enc /\ forall s, length s = length params -> enc s = Val (params, Ok tt).

(** [m] is a call that transmits one packet with packet id [id], instruction
    byte [i] and the bytes [params] after it. *)
Inductive sends : M (result unit write_error) -> byte -> byte -> list byte -> Prop :=
| sends_instruction : forall id i params enc, writes_parameters enc params ->
    sends (write_instruction id i (length params) enc) id i params
| sends_status : forall id error params enc, writes_parameters enc params ->
    sends (write_status id error (length params) enc) id STATUS (error :: params).

(** [w] is [l] with an FD inserted after some of the occurrences of FF FF FD. *)
Inductive some_stuffed : list byte -> list byte -> Prop :=
| ss_nil : some_stuffed [] []
| ss_byte : forall b l w, some_stuffed l w -> some_stuffed (b :: l) (b :: w)
| ss_pattern : forall l w, some_stuffed l w ->
    some_stuffed ([xff; xff; xfd] ++ l) ([xff; xff; xfd; xfd] ++ w).

(** What lies between the length field and the CRC of the bytes of a packet. *)
Definition body_of (w : list byte) : list byte := firstn (length w - 9) (skipn 7 w).

(** The value of the length field. *)
Definition length_field (w : list byte) : N := (b2n (nth 5 w x00) + 256 * b2n (nth 6 w x00))%N.

(** [w] is a packet as far as any receiver can tell: header, length, CRC, and a
    body that is some stuffing of an instruction byte and parameters. *)
Definition is_packet (id i : byte) (params w : list byte) : Prop :=
  exists body crc,
    w = header ++ [id] ++ le16 (N.of_nat (length body + 2)) ++ body ++ le16 crc /\
    some_stuffed (i :: params) body /\
    is_crc16 0 (header ++ [id] ++ le16 (N.of_nat (length body + 2)) ++ body) crc.

(** A result other than "buffer too small". *)
Definition not_too_small (r : result unit write_error) : Prop :=
  match r with Err (WBufferTooSmall _) => False | _ => True end.

(** The shape of every sequence of calls on the port: reads go to a non-empty
    buffer; a transmission is a successful discard directly followed by
    [write_all]; nothing else is discarded or written.  [P] constrains the
    bytes written. *)
Inductive calls_ok (P : list byte -> Prop) : list io_event -> Prop :=
| co_nil : calls_ok P []
| co_deadline : forall d l, calls_ok P l -> calls_ok P (LDeadline d :: l)
| co_set_baud : forall b r l, calls_ok P l -> calls_ok P (LSetBaud b r :: l)
| co_read : forall d cap a l, 0 < cap -> calls_ok P l -> calls_ok P (LRead d cap a :: l)
| co_read_wait : forall d cap l, 0 < cap -> calls_ok P l -> calls_ok P (LReadWait d cap :: l)
| co_discard_failed : forall e l, calls_ok P l -> calls_ok P (LDiscard (Some e) :: l)
| co_write : forall w r l, P w -> calls_ok P l -> calls_ok P (LDiscard None :: LWrite w r :: l).

(** The call is a read with deadline [d]. *)
Definition reads_with (d : deadline) (e : io_event) : Prop :=
  match e with
  | LRead d' _ _ => d' = d
  | LReadWait d' _ => d' = d
  | _ => False
  end.
