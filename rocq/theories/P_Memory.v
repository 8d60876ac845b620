(** * Property C71: the memory of array decoding *)
From Coq Require Import ZArith.
From Verif Require Import Base Error Data DataSpec ArrayMemory MemorySpec MemoryTheorems.

(** ** C71.  The result is always a value: no access out of bounds or of memory that was not written, no failing debug
    assertion; and what is returned is what Data.v says. *)
Theorem C71_memory_safe : forall A (D : data_impl A) dbg n l, exists dropped,
  mem_decode D dbg n l = MVal (d_decode (data_array D n) l, dropped).
Proof. exact L_C71_memory_safe. Qed.
Print Assumptions C71_memory_safe.

(** If no array comes out (an error, or a panic of the element type), the elements decoded so far are dropped, each once, and
    nothing else is. *)
Theorem C71_no_array_no_leak : forall A (D : data_impl A) dbg n l o dropped, mem_decode D dbg n l = MVal (o, dropped) ->
  (forall arr, o <> Val (Ok arr)) -> decodable D n l dropped.
Proof. exact L_C71_no_array_no_leak. Qed.
Print Assumptions C71_no_array_no_leak.

(** If one comes out, all of its slots were written. *)
Theorem C71_array_complete : forall A (D : data_impl A) dbg n l arr dropped, mem_decode D dbg n l = MVal (Val (Ok arr), dropped) ->
  decodable D n l arr /\ length arr = n.
Proof. exact L_C71_array_complete. Qed.
Print Assumptions C71_array_complete.

(** [decodable] determines the elements. *)
Theorem C71_decodable_unique : forall A (D : data_impl A) n l vs ws, decodable D n l vs -> decodable D n l ws -> vs = ws.
Proof. exact L_C71_decodable_unique. Qed.
Print Assumptions C71_decodable_unique.

Example C71_example : mem_decode picky true 3 [x05; x06; x00] = MVal (Panic PExplicit, [5%Z; 6%Z]) /\
  mem_decode picky true 3 [x05; x01; x07] = MVal (Val (Err (IMParameterCount 0 (Exact 1))), [5%Z]) /\
  mem_decode picky true 3 [x05; x06] = MVal (Panic PIndex, [5%Z; 6%Z]) /\
  exists dropped, mem_decode picky true 3 [x05; x06; x07] = MVal (Val (Ok [5%Z; 6%Z; 7%Z]), dropped).
Proof. exact picky_cases. Qed.
