(** * Property C71: the memory of array decoding *)
From Coq Require Import ZArith.
From Verif Require Import Base Error Data DataSpec ArrayMemory MemorySpec MemoryTheorems.

(** ** C71.  The result is always a value: no access out of bounds or of memory that was not written, no failing debug
    assertion; and what is returned is what Data.v says. *)
@C71_memory_safe

(** If no array comes out (an error, or a panic of the element type), the elements decoded so far are dropped, each once, and
    nothing else is. *)
@C71_no_array_no_leak

(** If one comes out, all of its slots were written. *)
@C71_array_complete

(** [decodable] determines the elements. *)
@C71_decodable_unique

Example C71_example : mem_decode picky true 3 [x05; x06; x00] = MVal (Panic PExplicit, [5%Z; 6%Z]) /\
  mem_decode picky true 3 [x05; x01; x07] = MVal (Val (Err (IMParameterCount 0 (Exact 1))), [5%Z]) /\
  mem_decode picky true 3 [x05; x06] = MVal (Panic PIndex, [5%Z; 6%Z]) /\
  exists dropped, mem_decode picky true 3 [x05; x06; x07] = MVal (Val (Ok [5%Z; 6%Z; 7%Z]), dropped).
Proof. exact picky_cases. Qed.
