(** * Property C78: client and simulated motors in threads of their own, on the bus of the tests *)
From Verif Require Import Base Error Packet Time Bus Data Client Instructions Device MockDevice Api Spec CallSpec StreamSpec
  Demo RemoteSpec RemoteProofs TestBus TestBusSpec ConcurrentSpec ConcurrentResults ConcurrentExamples ConcurrentScan
  PatientSpec PatientTheorems.
From Coq Require Import Permutation.

(** ** C78.  However the threads interleave, the calls report what a sequence of calls on the motors' memories returns, and
    every motor has carried out a beginning of the same sequence, with all calls for it that have returned.  Partial: calls for
    one motor and sync writes ([directed]), and a client that does not give up waiting. *)
@C78_threads_agree_partial

(** If it does, an answer that comes too late passes for the answer to a later call: the claim is false even if calls may
    report timeouts. *)
@C78_impatient_client_refuted

(** Nor for calls for all motors: a simulated motor acknowledges a write sent to all of them, the client does not read that,
    and takes it for the answer to its next call. *)
@C78_for_all_motors_refuted

(** When nothing goes on any more, the client has finished, or waits for a motor that is not there.  Partial as above. *)
@C78_no_deadlock_partial

(** What waits for the client fits in its buffer, so its reads do not panic. *)
@C78_room_for_answers_partial

(** Not so for the motors: they hear everything, and a slow one may find more than fits. *)
@C78_room_for_motors_refuted

(** A scan on its own, by a client that gives up when it likes: it reports each motor at most once, namely those whose answers
    the client has read before it first gives up, in that order; all of them if all have answered by then and nothing is left to
    read.  No motor panics. *)
@C78_scan

(** Sequences with scans, sync writes and calls for motors that may be missing, by a client that gives up waiting only when
    nothing goes on any more: the replies are those of the same calls made one after the other, except that a scan may report
    the motors in another order; a call for a missing motor reports a timeout, a scan reports every motor once. *)
@C78_patient_client

(** Such a client never waits for a motor that is there and has been asked: when nothing goes on any more it has finished, scans,
    or waits for a motor that is not there. *)
@C78_patient_no_deadlock

(** But the answers to a scan need not fit in its buffer, although every message does. *)
@C78_room_for_scan_refuted

(** One motor gets two requests at once and answers while the other gets the second request. *)
Example C78_example : exists n, let ms := pair_of_motors in let c := fresh true [] 48 48 in
  connected 48 c (map (node_of 48) ms) ms /\ all_possible comes_back 48 ms set_and_get /\ Forall directed set_and_get /\
  bus_run (map m_id ms) busy_talk n /\ test_run c (map (node_of 48) ms) set_and_get busy_talk /\ ~ In (TTimedOut 0) busy_talk /\
  stuck c (map (node_of 48) ms) set_and_get busy_talk n /\
  fst (fst (perform_all set_and_get (set_script c (reads 0 busy_talk)))) =
    [RepSent (Ok tt); RepData (Ok (mkResponse x01 false [x55]))].
Proof. exact L_C78_example. Qed.

(** A client that waits for an answer. *)
Example C78_room_example : exists n, let ms := pair_of_motors in let c := fresh true [] 16 16 in
  connected 16 c (map (node_of 16) ms) ms /\ all_possible comes_back 16 ms [OpPing x01] /\ Forall directed [OpPing x01] /\
  bus_run (map m_id ms) slow_talk n /\ test_run c (map (node_of 16) ms) [OpPing x01] slow_talk /\ ~ In (TTimedOut 0) slow_talk /\
  awaits (client_program c [OpPing x01]) (reads 0 slow_talk) 16 /\ length (waiting n 0) = 14.
Proof. exact L_C78_room_example. Qed.

(** Two motors answer a scan at the same time. *)
Example C78_scan_example : exists n, let ms := pair_of_motors in let c := fresh true [] 48 48 in
  connected 48 c (map (node_of 48) ms) ms /\ bus_run (map m_id ms) scan_talk n /\
  test_run c (map (node_of 48) ms) [OpScan] scan_talk /\
  fst (perform_all [OpScan] (set_script c (reads 0 scan_talk))) =
    ([RepFound (Ok [Ok (mkResponse x02 false (mkPing 5130 x2e)); Ok (mkResponse x01 false (mkPing 5130 x2e))])], Val tt).
Proof. exact L_C78_scan_example. Qed.

(** A call for a missing motor, a scan with slow motors, and a read. *)
Example C78_patient_example : exists n, let ms := pair_of_motors in let c := fresh true [] 48 48 in
  connected 48 c (map (node_of 48) ms) ms /\ all_possible comes_back 48 ms mixed_ops /\ Forall ordinary mixed_ops /\
  bus_run (map m_id ms) mixed_talk n /\ test_run c (map (node_of 48) ms) mixed_ops mixed_talk /\
  patient (map m_id ms) c (map (node_of 48) ms) mixed_ops mixed_talk /\
  fst (perform_all mixed_ops (set_script c (reads 0 mixed_talk))) =
    ([unanswered (OpPing x05) 0;
      RepFound (Ok [Ok (mkResponse x01 false (mkPing 5130 x2e)); Ok (mkResponse x02 false (mkPing 5130 x2e))]);
      RepData (Ok (mkResponse x01 false [x07]))], Val tt).
Proof. exact L_C78_patient_example. Qed.
