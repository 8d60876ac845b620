(** * TestBusSpec: what is said and heard on the bus of the tests, in terms of the events *)
From Verif Require Import Base TestBus.

(** All bytes that endpoint [e] got from [read]. *)
Definition heard (e : nat) (tr : list bus_event) : list byte :=
  flat_map (fun ev => match ev with TRead f _ bs => if f =? e then bs else [] | _ => [] end) tr.

(** All messages, with their senders, in the order of the calls of [write_all]. *)
Definition said (tr : list bus_event) : list (nat * list byte) :=
  flat_map (fun ev => match ev with TWrite f data => [(f, data)] | _ => [] end) tr.

(** Those of one endpoint, and those of all others. *)
Definition of_sender (f : nat) (l : list (nat * list byte)) : list (list byte) :=
  map snd (filter (fun m => fst m =? f) l).
Definition not_of (e : nat) (l : list (nat * list byte)) : list (list byte) :=
  map snd (filter (fun m => negb (fst m =? e)) l).

(** Endpoint [f] has called [write_all], which has not returned. *)
Definition busy (f : nat) (tr : list bus_event) : bool :=
  fold_left (fun b ev => match ev with
                         | TWrite g _ => if g =? f then true else b
                         | TWritten g => if g =? f then false else b
                         | _ => b
                         end) tr false.

(** Nobody calls [write_all] while another call lasts. *)
Definition one_at_a_time (tr : list bus_event) : Prop :=
  forall before f data after, tr = before ++ TWrite f data :: after -> forall g, busy g before = false.

(** What waits for endpoint [e]. *)
Definition waiting (n : net) (e : nat) : list byte := sh_data (net_shared n e).
