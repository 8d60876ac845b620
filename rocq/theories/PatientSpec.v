(** * PatientSpec: a client that gives up waiting only when nothing goes on any more *)
From Coq Require Import Permutation.
From Verif Require Import Base Error Packet Time Bus Data Client Instructions Device MockDevice
  Spec CallSpec StreamSpec RemoteSpec TestBus TestBusSpec ConcurrentSpec.

(** Calls for one motor, sync writes and scans. *)
Definition ordinary (o : op) : Prop := directed o \/ o = OpScan.

(** Whenever a read of the client times out, all motors have done what they do, everything
    written has been delivered, and everything delivered has been read. *)
Definition patient (ids : list byte) (c : bus) (ds : list node) (os : list op) (tr : list bus_event) : Prop :=
  forall past future n, tr = past ++ TTimedOut 0 :: future -> bus_run ids past n -> stuck c ds os past n.

(** Like [remote], except that a call that all motors answer may be told their answers in any order. *)
Inductive remote_in_any_order : list motor -> list op -> list reply -> list motor -> Prop :=
| any_order_nil : forall ms, remote_in_any_order ms [] [] ms
| any_order_cons : forall ms ms1 o r os rs ms',
    Permutation ms1 ms -> answers o ms1 r -> remote_in_any_order (map (touched o) ms) os rs ms' ->
    remote_in_any_order ms (o :: os) (r :: rs) ms'.

(** The client waits for an answer: from one motor, or from whoever there is. *)
Definition waits_for_answer (o : op) : Prop := target o <> None \/ o = OpScan.
