(** * Property C81: no panic without a reason *)
From Coq Require Import ZArith.
From Verif Require Import Base Endian Error Packet Time Bus Data Client Instructions Device
  Spec Api CallSpec StreamSpec DeviceSpec DataSpec InstructionSpec TwinSpec SurviveSpec PanicSpec Demo SurviveTheorems PanicTheorems.

(** ** C81: a call whose arguments respect the documentation does not panic, whatever the port does. *)
@C81_no_panics

(** Neither does any sequence of such calls on a new client or device. *)
@C81_never

(** Numbers and arrays of numbers meet the conditions on [Data]. *)
@C81_crate_types

Example C81_calls_example : careful 64 (write (data_int false 4) x01 116 1024%Z) /\ careful 64 (read (data_int true 4) x01 132) /\
  careful 64 (ping x01) /\ careful 64 (bulk_read_bytes [mkBulkRead x01 132 4; mkBulkRead x02 132 4]) /\
  careful 64 (write_bytes x01 116 (repeat xff 60)).
Proof. exact careful_calls. Qed.

Example C81_run_example : exists s', survives answered /\ calm (pending answered) /\
  read (data_int false 1) x01 132 answered = (Val (Ok (mkResponse x01 false 42%Z)), s') /\ carefully answered s'.
Proof. exact careful_example. Qed.

Example C81_sizes_example : safe_size 64 30 /\ ~ safe_size 64 53 /\ safe_size 64 55.
Proof. exact tight_roomy. Qed.

(** ** The conditions are needed: without any one of them a call can panic although the others hold. *)
@C81_conditions_needed
