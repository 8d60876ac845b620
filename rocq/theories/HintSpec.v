(** * HintSpec: what the standard library asks of [size_hint] *)
From Verif Require Import Base Bus Client Instructions InstructionSpec HintModel.

(** The items among what [next] returned. *)
Definition items {X} (xs : list (option X)) : nat :=
  length (filter (fun x => match x with Some _ => true | None => false end) xs).

(** Never fewer items than the lower bound, never more than the upper one, however
    often [next] is called; the upper bound is reached; once the end is reached
    [next] says so for ever and leaves the bus alone. *)
Definition honest_hint {I X} (next : I -> M (option X * I)) (hint : I -> out (nat * option nat)) (it : I) : Prop :=
  exists lo hi, hint it = Val (lo, Some hi) /\
    forall k s xs it' s', nexts next k it s = (Val (xs, it'), s') ->
      items xs <= hi /\ (hi <= k -> items xs = hi) /\
      (lo <= items xs \/ (k < lo /\ items xs = k)) /\
      (In None xs -> next it' s' = (Val (None, it'), s')).
