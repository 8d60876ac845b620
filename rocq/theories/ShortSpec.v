(** * ShortSpec: operations with short messages *)
From Verif Require Import Base Error Packet Bus Data Client Instructions InstructionSpec RemoteSpec.

(** Up to five bytes are written, up to seven are read; the arguments are of the right type. *)
Definition short_op (o : op) : Prop :=
  match o with
  | OpPing id => id <> xfe
  | OpRead id a n => id <> xfe /\ is_u16 a /\ (n <= 7)%N
  | OpWrite _ a d | OpRegWrite _ a d => is_u16 a /\ length d <= 5
  | OpAction _ | OpScan => True
  | OpSyncWrite _ _ _ => False
  end.
