(** * Property C81: when exactly giving up an iterator panics *)
From Coq Require Import ZArith.
From Verif Require Import Base Endian Error Packet Time Bus Data Client Instructions Device
  Spec Api CallSpec StreamSpec DeviceSpec DataSpec InstructionSpec TwinSpec SurviveSpec PanicSpec Demo PanicExactSpec PanicDropSpec
  PanicDropTheorems.

(** ** C81: dropping the iterator of a sync or bulk read panics exactly when taking the remaining elements one by one would
    come to a point where waiting panics. *)
Theorem C81_exactly_when_giving_up_panics : forall J X (next : J -> M (option X * J)) drop it due s, survives s ->
  given_up next drop it due ->
  (panics (fst (drop s)) <->
   exists k xs it' s1, k < due /\ nexts next k it s = (Val (xs, it'), s1) /\ hopeless s1).
Proof. exact L_C81_exactly_when_giving_up_panics. Qed.
Print Assumptions C81_exactly_when_giving_up_panics.

(** The same for a scan, which has no fixed number of answers. *)
Theorem C81_exactly_when_giving_up_a_scan_panics : forall s, survives s -> (b_baud s < 2 ^ 32)%N ->
  ((exists n, panics (fst (scan_drop n s))) <->
   exists k xs s1, scan_nexts k s = (Val xs, s1) /\ ~ In None xs /\ hopeless s1).
Proof. exact L_C81_exactly_when_giving_up_a_scan_panics. Qed.
Print Assumptions C81_exactly_when_giving_up_a_scan_panics.

Example C81_giving_up_example : exists s1 s2, survives answer_then_void /\
  given_up srb_next (srb_drop (mkSRB 1 [x01; x02] 0)) (mkSRB 1 [x01; x02] 0) 2 /\
  nexts srb_next 1 (mkSRB 1 [x01; x02] 0) answer_then_void =
    (Val ([Some (Ok (mkResponse x01 false [x2a]))], mkSRB 1 [x01; x02] 1), s1) /\ hopeless s1 /\ ~ hopeless answer_then_void /\
  given_up srb_next (srb_drop (mkSRB 1 [x01] 0)) (mkSRB 1 [x01] 0) 1 /\
  srb_drop (mkSRB 1 [x01] 0) answer_then_void = (Val tt, s2).
Proof. exact giving_up_trouble. Qed.
