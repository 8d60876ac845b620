(** * TurnSpec: reading from several motors that take turns *)
From Coq Require Import ZArith.
From Verif Require Import Base Endian Error Packet Time Bus Data Client Instructions Device MockDevice
  Spec Api CallSpec StreamSpec DeviceSpec InstructionSpec RemoteSpec.

(** [for item in client.sync_read_bytes(ids, a, n)? { ... }] and the same for bulk reads. *)
Definition sync_read_all (ids : list byte) (a n : N)
  : M (result (list (option (result (response (list byte)) read_error))) write_error) :=
  r <- sync_read_bytes ids a n ;;
  match r with
  | Err e => ret (Err e)
  | Ok it => l <- take_then_drop srb_next srb_drop (length ids) it ;; ret (Ok l)
  end.

Definition bulk_read_all (qs : list bulk_read_data)
  : M (result (list (option (result (response (list byte)) read_error))) write_error) :=
  r <- bulk_read_bytes qs ;;
  match r with
  | Err e => ret (Err e)
  | Ok it => l <- take_then_drop br_next br_drop (length qs) it ;; ret (Ok l)
  end.

(** What the motor [m] is asked for. *)
Definition asked_for (m : motor) (a n : N) : result (response (list byte)) read_error :=
  match load (m_memory m) a n with
  | Some bs => Ok (mkResponse (m_id m) false bs)
  | None => Err (RMotorError x07)
  end.

(** The answer of [m] can be sent. *)
Definition answer_passes (cap : nat) (m : motor) (a n : N) : Prop :=
  forall bs, load (m_memory m) a n = Some bs -> passes comes_back cap (x55 :: x00 :: bs).

Definition sync_read_message (ids : list byte) (a n : N) : list byte := x82 :: le16 a ++ le16 n ++ ids.
Definition bulk_read_message (qs : list bulk_read_data) : list byte := x92 :: bulk_read_entries qs.

Definition timed_out {X} (x : option (result X read_error)) : Prop := exists e, x = Some (Err (RIo (IoTimeout e))).
