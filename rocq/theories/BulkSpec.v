(** * BulkSpec: writing to several motors with one bulk write *)
From Verif Require Import Base Error Packet Bus Instructions Device MockDevice Spec InstructionSpec RemoteSpec.

Definition bulk_write_message (l : list bulk_write_data) : list byte := x93 :: bulk_write_entries l.

(** What the bulk write [l] is supposed to do to the motor [m]. *)
Definition bulk_touched (l : list bulk_write_data) (m : motor) : motor :=
  match find (fun c => beq (bw_id c) (m_id m)) l with
  | Some c => mkMotor (m_id m) (stored (m_memory m) (bw_address c) (bw_data c)) (m_waiting m)
  | None => m
  end.

(** Arguments of the right type, at most one entry for a motor. *)
Definition proper_bulk (l : list bulk_write_data) : Prop :=
  Forall (fun c => is_u16 (bw_address c) /\ is_u16 (N.of_nat (length (bw_data c)))) l /\ NoDup (map bw_id l).
