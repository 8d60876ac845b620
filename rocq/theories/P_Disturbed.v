(** * Property C86: calls over a line on which anything may happen *)
From Coq Require Import ZArith.
From Verif Require Import Base Endian Error Packet Time Bus Data Client Instructions Device
  Spec Api CallSpec StreamSpec DeviceSpec InstructionSpec RemoteSpec TurnSpec ConformSpec Demo DemoProofs
  ConformTheorems SurviveSpec NoiseSpec DisturbedSpec DisturbedTheorems DisturbedExample.

(** ** Each motor has carried out its part of the call once or not at all, and everything the user is told about a motor is
    something that motor has sent after carrying out its part. *)
Theorem C86_truthful : forall St (b : behaviour St) cap k c vs o c' vs' l, 16 <= cap -> ready cap c -> sensible k ->
  ~ clears_error k -> passes ff_runs_ok cap (text k) -> disturbed b k c vs o c' vs' l -> Forall legible l ->
  partly b (meaning k) vs vs' l /\ exists x, o = Val x /\ truthful k l x.
Proof. exact L_C86_truthful. Qed.
Print Assumptions C86_truthful.

(** Three motors are asked for two bytes: the first answers, one bit of the answer of the second is disturbed, and the third
    has not heard the question. *)
Example C86_example : exists e, bad_answer e /\ disturbed notebook (KSyncRead [x01; x02; x03] 132 2) (fresh true [] 64 64) trio
  (Val (Turns (Ok [Some (Ok (mkResponse x01 true [x2a; x07])); Some (Err e); Some (Err (RIo (IoTimeout 7%N)))]))) trio_end
  trio [(x01, x80, [x2a; x07]); (x02, x80, [x05; x06])].
Proof. exact trio_disturbed. Qed.

Example C86_hypotheses : ready 64 (fresh true [] 64 64) /\ sensible (KSyncRead [x01; x02; x03] 132 2) /\
  ~ clears_error (KSyncRead [x01; x02; x03] 132 2) /\ passes ff_runs_ok 64 (text (KSyncRead [x01; x02; x03] 132 2)) /\
  Forall legible [(x01, x80, [x2a; x07]); (x02, x80, [x05; x06])].
Proof.
  split; [exact fresh_ready|]. split; [|split; [exact (fun x => x)|split; [|exact trio_legible]]].
  - cbn. repeat split; repeat constructor; cbn; intuition discriminate.
  - split; [cbn; lia|]. split; [reflexivity|]. cbn. repeat split.
Qed.

(** A scan: a motor answers, the port fails, the answer of another loses a byte. *)
Example C86_scan_example : disturbed pinger KScan (fresh true [] 64 64) pingers
  (Val (Told (RepFound (Ok [Ok (mkResponse x01 false (mkPing 1030 x26)); Err (RIo (IoOther 3%N))])))) scan_end
  pingers [(x01, x00, [x06; x04; x26]); (x02, x00, [x06; x04; x26])].
Proof. exact scan_disturbed. Qed.

(** ** Any number of calls *)
Theorem C86_session : forall St (b : behaviour St) cap ks c vs os ls c' vs', 16 <= cap -> ready cap c ->
  Forall (fun k => sensible k /\ ~ clears_error k /\ passes ff_runs_ok cap (text k)) ks ->
  stormy b c vs ks os ls c' vs' -> Forall (Forall legible) ls -> weathered b vs ks os vs'.
Proof. exact L_C86_session. Qed.
Print Assumptions C86_session.

(** ** A command that was acknowledged has been carried out exactly once. *)
Theorem C86_acknowledged : forall St (b : behaviour St) cap k id cmd c vs o c' vs' l, 16 <= cap -> ready cap c -> sensible k ->
  ~ clears_error k -> passes ff_runs_ok cap (text k) -> disturbed b k c vs o c' vs' l -> Forall legible l ->
  NoDup (map v_id vs) -> meaning k = ToOne id cmd -> (exists x, o = Val x /\ succeeds x) ->
  vs' = obey b id cmd vs.
Proof. exact L_C86_acknowledged. Qed.
Print Assumptions C86_acknowledged.

Example C86_acknowledged_example : meaning (KWrite x02 64 [x05; x06]) = ToOne x02 (CmdWrite 64 [x05; x06]) /\
  NoDup (map v_id trio) /\ succeeds (Told (RepDone (Ok (mkResponse x02 false tt)))) /\
  obey notebook x02 (CmdWrite 64 [x07; x08]) trio = [mkServo x01 [x2a; x07]; mkServo x02 [x07; x08]; mkServo x03 [x21; x22]].
Proof. split; [reflexivity|]. split; [repeat constructor; cbn; intuition discriminate|]. split; [vm_compute; eauto|reflexivity]. Qed.
