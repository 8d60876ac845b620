(** * StaticBuffer: model of the macro [static_buffer!] (/repo/src/bus/mod.rs:58-75)

    One occurrence of the macro is one pair of statics [USED], [BUFFER].  Any
    number of threads may evaluate it, any number of times.  The evaluation is
    split into the atomic [swap] and the branch on its result, so that every
    interleaving of different evaluations is covered.  [Ordering::Relaxed] does
    not matter for a single atomic object: read-modify-write operations on it
    are totally ordered (this is the only part of the memory model used). *)
From Verif Require Import Base.

(** Where one evaluation of the macro is. *)
Inductive sb_pc :=
| SBStart                    (* before the swap, mod.rs:64 *)
| SBSwapped (old : bool)     (* the swap returned [old] *)
| SBGot                      (* holds the [&'static mut \[u8\]], mod.rs:67-73 *)
| SBPanicked.                (* mod.rs:65 *)

Record sb_state := mkSB { sb_used : bool; sb_evals : list sb_pc }.

(** mod.rs:62: [USED] starts [false]; no evaluation has been started. *)
Definition sb_init : sb_state := mkSB false [].

Fixpoint sb_set (l : list sb_pc) (i : nat) (v : sb_pc) : list sb_pc :=
  match l, i with
  | [], _ => []
  | _ :: t, O => v :: t
  | h :: t, S j => h :: sb_set t j v
  end.

(** One step of some thread: start a new evaluation, or advance one. *)
Inductive sb_step : sb_state -> sb_state -> Prop :=
| sb_begin : forall u l, sb_step (mkSB u l) (mkSB u (l ++ [SBStart]))
(** mod.rs:64 [USED.swap(true, _)] *)
| sb_swap : forall u l i, nth_error l i = Some SBStart ->
    sb_step (mkSB u l) (mkSB true (sb_set l i (SBSwapped u)))
(** mod.rs:64-73, the [if] *)
| sb_panic : forall u l i, nth_error l i = Some (SBSwapped true) ->
    sb_step (mkSB u l) (mkSB u (sb_set l i SBPanicked))
| sb_take : forall u l i, nth_error l i = Some (SBSwapped false) ->
    sb_step (mkSB u l) (mkSB u (sb_set l i SBGot)).

Inductive sb_reach : sb_state -> Prop :=
| sb_reach_init : sb_reach sb_init
| sb_reach_step : forall s s', sb_reach s -> sb_step s s' -> sb_reach s'.
