(** * BorrowSpec: what users may do with a packet *)
From Verif Require Import Base Error Packet Time Bus Device BorrowModel.

(** [&mut self] can be used: its permission is there.  Tags are not used twice. *)
Definition usable (device : nat) (m : machine) : Prop :=
  (exists later earlier, ms_stack m = later ++ Unique device :: earlier /\ ~ In device (map tag_of later)) /\
  Forall (fun p => tag_of p < ms_next m) (ms_stack m).

(** Users look at data they have, or take a part of it ([parameters], [ids], ...), as
    often as they like and in any order.  [i] is the number of the piece of data. *)
Inductive use := Look (i : nat) | Part (i start : nat).

Fixpoint uses (vs : list view) (us : list use) : B (list (list byte)) :=
  match us with
  | [] => bret []
  | Look i :: us' =>
      match nth_error vs i with
      | None => uses vs us'
      | Some v => bytes <~ see v ;; l <~ uses vs us' ;; bret (bytes :: l)
      end
  | Part i start :: us' =>
      match nth_error vs i with
      | Some v =>
          if start <=? v_len v then
            t <~ borrow_shared (v_tag v) ;;
            uses (vs ++ [mkView t (v_start v + start) (v_len v - start)]) us'
          else uses vs us'
      | None => uses vs us'
      end
  end.

(** What they should see. *)
Fixpoint seen (ds : list (list byte)) (us : list use) : list (list byte) :=
  match us with
  | [] => []
  | Look i :: us' => match nth_error ds i with None => seen ds us' | Some d => d :: seen ds us' end
  | Part i start :: us' =>
      match nth_error ds i with
      | Some d => if start <=? length d then seen (ds ++ [skipn start d]) us' else seen ds us'
      | None => seen ds us'
      end
  end.

(** The result with references [x] in [m] is the result [o] with values in [s]. *)
Definition same_outcome (x : bout (result view read_error)) (m : machine) (o : out (result packet read_error)) (s : bus) : Prop :=
  ms_bus m = s /\
  match o with
  | Panic p => x = BPanic p
  | Blocked => x = BBlocked
  | Val (Err e) => x = BVal (Err e)
  | Val (Ok p) => exists v, x = BVal (Ok v) /\ forall us, fst (uses [v] us m) = BVal (seen [pk_data p] us)
  end.

(** Instructions are read again and again, with a time limit each, and what was read is
    looked at: with references into the buffer ... *)
Fixpoint references (device : nat) (l : list (duration * list use)) : B (list (result (list (list byte)) read_error)) :=
  match l with
  | [] => bret []
  | (timeout, us) :: l' =>
      r <~ read_raw_instruction_view device timeout ;;
      match r with
      | Ok v => x <~ uses [v] us ;; xs <~ references device l' ;; bret (Ok x :: xs)
      | Err e => xs <~ references device l' ;; bret (Err e :: xs)
      end
  end.

(** ... and with values. *)
Fixpoint values (l : list (duration * list use)) : M (list (result (list (list byte)) read_error)) :=
  match l with
  | [] => ret []
  | (timeout, us) :: l' =>
      r <- read_raw_instruction_timeout timeout ;;
      xs <- values l' ;;
      ret (match r with Ok p => Ok (seen [pk_data p] us) | Err e => Err e end :: xs)
  end.
