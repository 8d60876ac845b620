(** * CallerIter: sync and bulk writes with iterators that do not keep their promises

    [Instructions.v] takes the iterators passed to [sync_write_bytes] and [bulk_write] for
    lists.  Both traits involved are safe to implement: [ExactSizeIterator::len] may differ
    from the number of items, and the second pass over a cloned iterator (or the second call
    of [as_ref] on its items) may give something else than the first. *)
From Verif Require Import Base Endian Error Checksum Bytestuff Packet Bus Data Client Instructions.

(** [a * b] and [a + b] of two [usize] *)
Definition usize_mul (dbg : bool) (a b : N) : out N :=
  if (usize_max <? a * b)%N then (if dbg then Panic POverflow else Val ((a * b) mod (usize_max + 1))%N)
  else Val (a * b)%N.
Definition usize_add (dbg : bool) (a b : N) : out N :=
  if (usize_max <? a + b)%N then (if dbg then Panic POverflow else Val ((a + b) mod (usize_max + 1))%N)
  else Val (a + b)%N.

(** sync_write.rs:41-69 [sync_write_bytes].  [motors] is what [len()] of the iterator says
    (line 54), [data] are the items it gives.  An iterator without end is the same as a list
    that is long enough: the loop panics when the buffer is full. *)
Definition sync_write_bytes_iter (motors address count : N) (data : list (sync_write_data (list byte)))
  : M (result unit write_error) :=
  s <- get ;;
  product <- lift (usize_mul (b_dbg s) motors (1 + count)) ;;
  parameter_count <- lift (usize_add (b_dbg s) 4 product) ;;
  write_instruction BROADCAST SYNC_WRITE (N.to_nat parameter_count)
    (enc_ok (fun b =>
       let* b := write_u16_at b 0 address in
       let* b := write_u16_at b 2 count in
       sync_write_bytes_loop (N.to_nat count) 0 data b)).

(** bulk_write.rs:48-87 [bulk_write].  [counted] are the items of the first pass (lines
    58-71), [written] those of the second (lines 74-84). *)
Definition bulk_write_iter (counted written : list bulk_write_data) : M (result unit write_error) :=
  parameter_count <- lift (bulk_write_count counted 0) ;;
  write_instruction BROADCAST BULK_WRITE parameter_count (enc_ok (bulk_write_loop 0 written)).

(** sync_write.rs:75-98 [sync_write], with [motors] as above. *)
Definition sync_write_iter {A} (D : data_impl A) (motors address : N) (data : list (sync_write_data A))
  : M (result unit write_error) :=
  let count := 1 in
  s <- get ;;
  product <- lift (usize_mul (b_dbg s) motors (1 + N.of_nat count)) ;;
  parameter_count <- lift (usize_add (b_dbg s) 4 product) ;;
  write_instruction BROADCAST SYNC_WRITE (N.to_nat parameter_count)
    (fun b =>
       let* b := write_u16_at b 0 address in
       let* b := write_u16_at b 2 (N.of_nat count mod 2 ^ 16) in
       sync_write_loop D count 0 data b).
