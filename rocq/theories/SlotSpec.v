(** * SlotSpec: what arrives in place of the answers of a sync or bulk read *)
From Coq Require Import ZArith.
From Verif Require Import Base Endian Error Packet Bus Data Client Spec CallSpec StreamSpec InstructionSpec.

(** What the port delivers while the client waits for one answer: a status
    packet; a packet that is no status packet (instruction [i]); a message with
    the checksum [found] where [computed] is right; or an error of the port
    (which is how a timeout is reported). *)
Inductive slot :=
| Answered (id error : byte) (params : list byte)
| Alien (i : byte)
| Garbled (found computed : N)
| Silent (e : io_error).

(** [slots cap line l rest]: the line delivers [l] and then [rest].  Each answer
    can be preceded by garbage. *)
Inductive slots (cap : nat) : list item -> list slot -> list item -> Prop :=
| sl_nil : forall rest, slots cap rest [] rest
| sl_answered : forall g id e ps w line l rest,
    ~ contains g header -> is_frame id (x55 :: e :: ps) w -> ff_runs_ok (x55 :: e :: ps) ->
    length w <= cap -> slots cap line l rest ->
    slots cap (map inl (g ++ w) ++ line) (Answered id e ps :: l) rest
| sl_alien : forall g id i ps w line l rest,
    ~ contains g header -> is_frame id (i :: ps) w -> ff_runs_ok (i :: ps) -> i <> x55 ->
    length w <= cap -> slots cap line l rest ->
    slots cap (map inl (g ++ w) ++ line) (Alien i :: l) rest
| sl_garbled : forall g id body found computed line l rest,
    ~ contains g header -> (found < 2 ^ 16)%N -> (N.of_nat (length body + 2) < 2 ^ 16)%N ->
    length body + 9 <= cap ->
    is_crc16 0 (header ++ [id] ++ le16 (N.of_nat (length body + 2)) ++ body) computed -> found <> computed ->
    slots cap line l rest ->
    slots cap (map inl (g ++ message id body found) ++ line) (Garbled found computed :: l) rest
| sl_silent : forall g e line l rest,
    garbage_split g g [] -> slots cap line l rest ->
    slots cap (map inl g ++ inr e :: line) (Silent e :: l) rest.

(** What the client reports for a slot, if it judges a status packet by [j]. *)
Definition verdict {X} (j : byte * byte * list byte -> result X read_error) (sl : slot) : result X read_error :=
  match sl with
  | Answered id e ps => j (id, e, ps)
  | Alien i => Err (RInvalidMessage (IMInstruction i x55))
  | Garbled found computed => Err (RInvalidMessage (IMChecksum found computed))
  | Silent e => Err (RIo e)
  end.

Definition failed {X} (x : option (result X read_error)) : Prop := exists e, x = Some (Err e).
