(** * Property C77: the shared bus of the integration tests *)
From Coq Require Import Permutation.
From Verif Require Import Base TestBus TestBusSpec TestBusTheorems.

(** ** C77.  Whatever the threads do and however they interleave: an endpoint hears exactly the messages of the others,
    each of them whole and once, those of one sender in order, and never its own.  [l] is what it hears; a message
    that is still being written may be missing. *)
Theorem C77_delivery : forall ids tr n e, NoDup ids -> bus_run ids tr n -> e <= length ids ->
  exists l, heard e tr ++ waiting n e = concat (map snd l) /\
    (forall m, In m l -> fst m <= length ids /\ fst m <> e) /\
    forall f, f <= length ids -> f <> e ->
      exists rest, of_sender f (said tr) = of_sender f l ++ rest /\ length rest <= 1 /\ (busy f tr = false -> rest = []).
Proof. exact L_C77_delivery. Qed.
Print Assumptions C77_delivery.

(** All endpoints hear the messages in the same order.  Not if two of them write at the same time. *)
Theorem C77_same_order_refuted :
  ~ forall ids tr n, NoDup ids -> bus_run ids tr n -> (forall g, busy g tr = false) ->
      exists l, Permutation l (said tr) /\
        forall e, e <= length ids -> heard e tr ++ waiting n e = concat (not_of e l).
Proof. exact L_C77_same_order_refuted. Qed.
Print Assumptions C77_same_order_refuted.

(** If no two do, the order is that in which they were written. *)
Theorem C77_same_order_partial : forall ids tr n, NoDup ids -> bus_run ids tr n -> one_at_a_time tr ->
  (forall g, busy g tr = false) ->
  forall e, e <= length ids -> heard e tr ++ waiting n e = concat (not_of e (said tr)).
Proof. exact L_C77_same_order_partial. Qed.
Print Assumptions C77_same_order_partial.

(** A write never waits for another thread. *)
Theorem C77_never_stuck : forall ids tr n f, bus_run ids tr n -> busy f tr = true ->
  (exists a b, tr = a ++ TWritePanics f :: b) \/
  exists ev n', bus_step ids n ev n' /\ (ev = TWritten f \/ ev = TWritePanics f \/ exists t, ev = TDeliver f t).
Proof. exact L_C77_never_stuck. Qed.
Print Assumptions C77_never_stuck.

(** A write panics only because a read of another endpoint has panicked before; then all writes of others do. *)
Theorem C77_panic_cause : forall ids a f b n, bus_run ids (a ++ TWritePanics f :: b) n ->
  exists e, e <> f /\ In (TReadPanics e) a.
Proof. exact L_C77_panic_cause. Qed.
Print Assumptions C77_panic_cause.
Theorem C77_panic_spreads : forall ids t1 e t2 n, NoDup ids -> bus_run ids (t1 ++ TReadPanics e :: t2) n ->
  (forall f, ~ In (TDeliver f e) t2) /\
  forall f data a b, t2 = a ++ TWrite f data :: b -> f <> e -> ~ In (TWritten f) b.
Proof. exact L_C77_panic_spreads. Qed.
Print Assumptions C77_panic_spreads.

(** Devices with the same id do not hear each other. *)
Theorem C77_same_id : forall ids i j id, nth_error ids i = Some id -> nth_error ids j = Some id -> 
  forall tr n, bus_run ids tr n -> ~ In (TDeliver (S i) (S j)) tr.
Proof. exact L_C77_same_id. Qed.
Print Assumptions C77_same_id.

(** The client talks, device 2 answers while device 1 reads. *)
Example C77_example : exists n,
  let tr := [TWrite 0 [x01; x02]; TDeliver 0 1; TRead 1 10 [x01; x02]; TDeliver 0 2; TWritten 0; TTimedOut 1; TRead 2 10 [x01; x02];
             TWrite 2 [x0a]; TDeliver 2 0; TDeliver 2 1; TWritten 2; TRead 0 10 [x0a]] in
  NoDup [x05; x07] /\ bus_run [x05; x07] tr n /\ (forall g, busy g tr = false) /\
  heard 1 tr = [x01; x02] /\ waiting n 1 = [x0a] /\ heard 0 tr = [x0a].
Proof.
  cbv zeta. eexists. split; [repeat constructor; cbn; intuition discriminate|].
  split; [apply run_of; vm_compute; reflexivity|].
  split; [intro g; do 3 (destruct g as [|g]; [reflexivity|]); reflexivity|]. vm_compute. auto.
Qed.

(** Nobody calls [write_all] while another call lasts. *)
Example C77_example_one_at_a_time :
  one_at_a_time [TWrite 0 [x01; x02]; TDeliver 0 1; TDeliver 0 2; TWritten 0; TWrite 2 [x0a]].
Proof.
  intros before f data after E g.
  destruct before as [|e0 [|e1 [|e2 [|e3 [|e4 before]]]]]; cbn [app] in E; try discriminate E.
  - reflexivity.
  - injection E as <- <- <- <- _ _. destruct g; reflexivity.
  - injection E as _ _ _ _ _ E. destruct before; discriminate E.
Qed.

(** The client's read buffer is too small for what device 1 sends; the next write of device 2 panics, too. *)
Example C77_example_panic : exists n,
  bus_run [x05; x07]
    [TWrite 1 [x01; x02; x03]; TDeliver 1 0; TReadPanics 0; TDeliver 1 2; TWritten 1; TWrite 2 [x04]; TWritePanics 2] n.
Proof.
  eexists. apply run_of. vm_compute. reflexivity.
Qed.

(** Two devices with id 5: what one says only reaches the client. *)
Example C77_example_same_id : exists n,
  nth_error [x05; x05] 0 = Some x05 /\ nth_error [x05; x05] 1 = Some x05 /\
  bus_run [x05; x05] [TWrite 1 [x01]; TDeliver 1 0; TWritten 1] n.
Proof. eexists. split; [reflexivity|]. split; [reflexivity|]. apply run_of. vm_compute. reflexivity. Qed.
