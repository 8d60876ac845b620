(** * TextSpec: what numerals and unambiguous texts are, independently of the code *)
From Coq Require Import Ascii String.
From Verif Require Import Base Error.
Local Open Scope string_scope.
Local Open Scope N_scope.

Definition digit_value (c : ascii) : option N :=
  let n := N_of_ascii c in
  if (48 <=? n) && (n <=? 57) then Some (n - 48)
  else if (65 <=? n) && (n <=? 70) then Some (n - 55)
  else None.

Fixpoint value_from (base acc : N) (s : string) : option N :=
  match s with
  | "" => Some acc
  | String c s' =>
      match digit_value c with
      | Some d => if d <? base then value_from base (acc * base + d) s' else None
      | None => None
      end
  end.

(** The text [s] is a numeral for [n]. *)
Definition denotes (base : N) (s : string) (n : N) : Prop := s <> "" /\ value_from base 0 s = Some n.

(** ... without superfluous zeros. *)
Definition numeral (base : N) (s : string) (n : N) : Prop :=
  denotes base s n /\ (s = "0" \/ forall s', s <> String "0" s').

(** Different errors have different texts. *)
Definition unambiguous {E} (text : E -> string) : Prop :=
  forall a b, text a = text b -> a = b.
