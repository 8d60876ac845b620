(** * DeviceSpec: what the instruction packets of the protocol mean *)
From Verif Require Import Base Error Packet Device Spec.

(** The number of parameters an instruction packet must have. *)
Definition parameter_rule (i : byte) : option expected_count :=
  match i with
  | x02 => Some (Exact 4)               (* read: address, length *)
  | x03 => Some (Min 2)                 (* write: address, data *)
  | x04 => Some (Min 2)                 (* reg write: address, data *)
  | x06 => Some (Exact 1)               (* factory reset: what *)
  | x10 => Some (Min 1)                 (* clear: what *)
  | x82 => Some (Min 4)                 (* sync read: address, length, ids *)
  | x83 => Some (Min 4)                 (* sync write: address, length, data *)
  | _ => None
  end.
Definition follows_rule (i : byte) (n : nat) : Prop :=
  match parameter_rule i with
  | None => True
  | Some (Exact k) => n = k
  | Some (Min k) => k <= n
  | Some (Max k) => n <= k
  end.

Definition factory_reset_of (p : byte) : dev_factory_reset :=
  match p with xff => FRAll | x01 => FRExceptId | x02 => FRExceptIdBaudRate | p => FRUnknown p end.
Definition clear_of (p : byte) : dev_clear :=
  match p with x01 => ClearMultiTurns | x02 => ClearErrors | p => ClearReserved p end.

(** The instruction byte and the parameters of each instruction (numbers are
    little endian). *)
Inductive means : byte -> list byte -> instructions -> Prop :=
| m_ping : forall ps, means x01 ps IPing
| m_read : forall a l, (a < 2 ^ 16)%N -> (l < 2 ^ 16)%N -> means x02 (le16 a ++ le16 l) (IRead a l)
| m_write : forall a d, (a < 2 ^ 16)%N -> means x03 (le16 a ++ d) (IWrite a d)
| m_reg_write : forall a d, (a < 2 ^ 16)%N -> means x04 (le16 a ++ d) (IRegWrite a d)
| m_action : forall ps, means x05 ps IAction
| m_factory_reset : forall p, means x06 [p] (IFactoryReset (factory_reset_of p))
| m_reboot : forall ps, means x08 ps IReboot
| m_clear : forall p ps, means x10 (p :: ps) (IClear (clear_of p))
| m_sync_read : forall a l ids, (a < 2 ^ 16)%N -> (l < 2 ^ 16)%N ->
    means x82 (le16 a ++ le16 l ++ ids) (ISyncRead a l ids)
| m_sync_write : forall a l d, (a < 2 ^ 16)%N -> (l < 2 ^ 16)%N ->
    means x83 (le16 a ++ le16 l ++ d) (ISyncWrite a l d)
| m_bulk_read : forall ps, means x92 ps (IBulkRead ps)
| m_bulk_write : forall ps, means x93 ps (IBulkWrite ps)
| m_unknown : forall i ps,
    ~ In i [x01; x02; x03; x04; x05; x06; x08; x10; x82; x83; x92; x93] ->
    means i ps (IUnknown i ps).
