(** * CompletionSpec: what a user of shell-completion may expect *)
From Coq Require Import Ascii String.
From Verif Require Import Base CliOutput Completion.
Local Open Scope list_scope.

(** Ways to write "-": the name itself, and the name as a directory. *)
Inductive dash : list byte -> Prop :=
| dash_name : dash [x2d]
| dash_slash : forall p, dash p -> dash (p ++ [x2f])
| dash_dot : forall p, dash p -> dash (p ++ [x2f; x2e]).

(** A text in whole lines: the script, with the last line ended. *)
Definition whole_lines (script text : list byte) : Prop :=
  (text = script /\ exists l, script = l ++ [x0a]) \/
  (text = script ++ [x0a] /\ ~ exists l, script = l ++ [x0a]).

Definition prefix_of (a b : list byte) : Prop := exists rest, b = a ++ rest.

(** The system takes all [n] bytes: every call takes some or is repeated. *)
Inductive takes_all : list accepts -> nat -> Prop :=
| ta_done : forall sys, takes_all sys 0
| ta_rest : forall n, takes_all [] n
| ta_some : forall k sys n, k <> 0 -> takes_all sys (n - k) -> takes_all (Takes k :: sys) n
| ta_again : forall sys n, takes_all sys n -> takes_all (Interrupted :: sys) n.

(** The text of the error line, without the reason. *)
Definition complaint (e : line) (what : string) : Prop :=
  exists why, e = (LvError, what ++ ": " ++ why)%string.
