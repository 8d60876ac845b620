(** * SurviveSpec: clients and devices whose user catches panics *)
From Verif Require Import Base Endian Error Packet Time Bus Data Client Instructions Device
  Spec Api CallSpec StreamSpec TwinSpec.

(** What the function that panicked may have left in the buffers: anything in the write buffer after the header prefix
    (the closures of the user never see that), and in the bytes of the read buffer that are handed out already. *)
Definition scribbled (s s' : bus) : Prop :=
  exists w r, s' = set_rbuf (set_wbuf s w) r /\
    length w = length (b_wbuf s) /\ firstn 4 w = firstn 4 (b_wbuf s) /\
    length r = length (b_rbuf s) /\ skipn (b_used s) r = skipn (b_used s) (b_rbuf s).

(** The states any sequence of calls can lead to, if the user catches panics ([std::panic::catch_unwind]) and goes on.
    The panic may come from the crate or from a closure or [Data] implementation of the user. *)
Inductive survives : bus -> Prop :=
| sv_new : forall dbg p rb wb baud s, with_buffers_and_baud_rate dbg p rb wb baud = Val s -> survives s
| sv_call : forall A (m : M A) s a s', survives s -> api m -> m s = (Val a, s') -> survives s'
| sv_panic : forall A (m : M A) s k s' s'', survives s -> api m -> m s = (Panic k, s') -> scribbled s' s'' -> survives s''.

(** [ready] (RemoteSpec.v) for a client whose user catches panics. *)
Definition still_ready (cap : nat) (s : bus) : Prop :=
  survives s /\ p_discards (b_port s) = [] /\ p_writes (b_port s) = [] /\ b_baud s <> 0%N /\ (b_baud s < 2 ^ 32)%N /\
  cap <= length (b_rbuf s) /\ cap <= length (b_wbuf s).

(** A message that makes [read_status_response] panic (see C16). *)
Definition fatal (w : list byte) : Prop := exists id body, (body = [] \/ body = [STATUS]) /\ framed id body w.

(** No such message on the line, also not with timeouts in between. *)
Definition calm (line : list item) : Prop := forall w, fatal w -> ~ contains (bytes_in line) w.
