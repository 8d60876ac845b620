(** * Bytestuff: model of /repo/src/bus/bytestuff.rs *)
From Verif Require Import Base Error.

(** bytestuff.rs:8 [PATTERN] *)
Definition PATTERN : list byte := [xff; xff; xfd; xfd].

(** bytestuff.rs:18-30, the loop of [unstuff_inplace]: [n] iterations remain,
    [i] is the loop variable. *)
Fixpoint unstuff_loop (n i : nat) (data : list byte) (deleted state : nat)
  : out (list byte * nat) :=
  match n with
  | O => Val (data, deleted)
  | S n' =>
      let* d := idx data i in
      let* p := idx PATTERN state in
      let state1 := if beq d p then S state else 0 in
      if state1 =? 4 then
        unstuff_loop n' (S i) data (S deleted) 0
      else if 0 <? deleted then
        let* v := idx data i in
        let* j := usize_sub i deleted in
        let* data' := set data j v in
        unstuff_loop n' (S i) data' deleted state1
      else
        unstuff_loop n' (S i) data deleted state1
  end.

(** bytestuff.rs:14-33 [unstuff_inplace]: new contents and new length. *)
Definition unstuff_inplace (data : list byte) : out (list byte * nat) :=
  let* '(data', deleted) := unstuff_loop (length data) 0 data 0 0 in
  let* n := usize_sub (length data') deleted in
  Val (data', n).

(** bytestuff.rs:39-49, the loop of [stuffing_required]. *)
Fixpoint stuffing_loop (data : list byte) (state count : nat) : out nat :=
  match data with
  | [] => Val count
  | b :: rest =>
      let* p := idx PATTERN state in
      let state1 := if beq b p then S state else 0 in
      if state1 =? length PATTERN - 1 then stuffing_loop rest 0 (S count)
      else stuffing_loop rest state1 count
  end.

(** bytestuff.rs:36-52 [stuffing_required] *)
Definition stuffing_required (data : list byte) : out nat := stuffing_loop data 0 0.

(** bytestuff.rs:71-82, the [while] loop of [stuff_inplace].  Every iteration
    increases [read] and the loop stops at [read = len], so [fuel = len]
    iterations always suffice (the [O] case is the loop exit). *)
Fixpoint stuff_loop (fuel : nat) (buffer : list byte) (len required read applied : nat)
  : out (list byte * nat) :=
  match fuel with
  | O => Val (buffer, applied)
  | S fuel' =>
      if (read <? len) && (applied <? required) then
        let read_pos := len - read - 1 in
        let write_pos := read_pos + (required - applied) in
        let* hit :=
          (if 2 <=? read_pos then
             let* s := slice buffer (read_pos - 2) (read_pos - 2 + 3) in
             Val (bytes_eqb s (firstn 3 PATTERN))
           else Val false) in
        if (hit : bool) then
          let* w := usize_sub write_pos 3 in
          let* buffer' := copy_into buffer w (w + 4) PATTERN in
          stuff_loop fuel' buffer' len required (read + 3) (S applied)
        else
          let* v := idx buffer read_pos in
          let* buffer' := set buffer write_pos v in
          stuff_loop fuel' buffer' len required (S read) applied
      else Val (buffer, applied)
  end.

(** bytestuff.rs:60-86 [stuff_inplace].  [dbg]: debug assertions enabled. *)
Definition stuff_inplace (dbg : bool) (buffer : list byte) (len : nat)
  : out (list byte * result nat buffer_too_small) :=
  let* s := slice_to buffer len in
  let* required := stuffing_required s in
  if required =? 0 then Val (buffer, Ok len)
  else
    match bts_check (len + required) (length buffer) with
    | Err e => Val (buffer, Err e)
    | Ok _ =>
        let* '(buffer', applied) := stuff_loop len buffer len required 0 0 in
        if dbg && negb (applied =? required) then Panic PDebugAssert
        else Val (buffer', Ok (len + required))
    end.
