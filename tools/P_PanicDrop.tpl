(** * Property C81: when exactly giving up an iterator panics *)
From Coq Require Import ZArith.
From Verif Require Import Base Endian Error Packet Time Bus Data Client Instructions Device
  Spec Api CallSpec StreamSpec DeviceSpec DataSpec InstructionSpec TwinSpec SurviveSpec PanicSpec Demo PanicExactSpec PanicDropSpec
  PanicDropTheorems.

(** ** C81: dropping the iterator of a sync or bulk read panics exactly when taking the remaining elements one by one would
    come to a point where waiting panics. *)
@C81_exactly_when_giving_up_panics

(** The same for a scan, which has no fixed number of answers. *)
@C81_exactly_when_giving_up_a_scan_panics

Example C81_giving_up_example : exists s1 s2, survives answer_then_void /\
  given_up srb_next (srb_drop (mkSRB 1 [x01; x02] 0)) (mkSRB 1 [x01; x02] 0) 2 /\
  nexts srb_next 1 (mkSRB 1 [x01; x02] 0) answer_then_void =
    (Val ([Some (Ok (mkResponse x01 false [x2a]))], mkSRB 1 [x01; x02] 1), s1) /\ hopeless s1 /\ ~ hopeless answer_then_void /\
  given_up srb_next (srb_drop (mkSRB 1 [x01] 0)) (mkSRB 1 [x01] 0) 1 /\
  srb_drop (mkSRB 1 [x01] 0) answer_then_void = (Val tt, s2).
Proof. exact giving_up_trouble. Qed.
