(** * Time: [core::time::Duration] and /repo/src/bus/mod.rs [message_transfer_time] *)
From Verif Require Import Base.
Local Open Scope N_scope.

Definition u32_max : N := 2 ^ 32 - 1.
Definition u64_max : N := 2 ^ 64 - 1.
Definition nanos_per_sec : N := 1000000000.

(** [core::time::Duration]: whole seconds ([u64]) and nanoseconds below 1e9. *)
Record duration := mkDur { d_secs : N; d_nanos : N }.

(** [Duration::new]: carries whole seconds out of [nanos], panics when the
    seconds overflow. *)
Definition dur_new (secs nanos : N) : out duration :=
  if nanos <? nanos_per_sec then Val (mkDur secs nanos)
  else
    let s := secs + nanos / nanos_per_sec in
    if u64_max <? s then Panic POverflow
    else Val (mkDur s (nanos mod nanos_per_sec)).

(** [Duration::from_millis(34)] *)
Definition dur_34ms : duration := mkDur 0 34000000.

(** [Duration + Duration]: panics on overflow of the seconds. *)
Definition dur_add (a b : duration) : out duration :=
  let n := d_nanos a + d_nanos b in
  let s := d_secs a + d_secs b + (if nanos_per_sec <=? n then 1 else 0) in
  if u64_max <? s then Panic POverflow
  else Val (mkDur s (if nanos_per_sec <=? n then n - nanos_per_sec else n)).

(** [Duration * u32]: panics on overflow of the seconds. *)
Definition dur_mul (a : duration) (k : N) : out duration :=
  let total := d_nanos a * k in
  let s := d_secs a * k + total / nanos_per_sec in
  if u64_max <? s then Panic POverflow
  else Val (mkDur s (total mod nanos_per_sec)).

(** [u64] multiplication.  [dbg]: overflow checks enabled. *)
Definition u64_mul (dbg : bool) (a b : N) : out N :=
  if u64_max <? a * b then (if dbg then Panic POverflow else Val ((a * b) mod 2 ^ 64))
  else Val (a * b).

(** bus/mod.rs:343-350 [message_transfer_time]; both arguments are [u32].
    [div_ceil], [/] and [%] panic on a zero divisor. *)
Definition message_transfer_time (dbg : bool) (message_size baud_rate : N) : out duration :=
  let* bits := u64_mul dbg message_size 10 in
  if baud_rate =? 0 then Panic PDivZero
  else
    let secs := bits / baud_rate in
    let subsec_bits := bits mod baud_rate in
    let* x := u64_mul dbg subsec_bits 1000000000 in
    let nanos := x / baud_rate + (if x mod baud_rate =? 0 then 0 else 1) in
    dur_new secs (nanos mod 2 ^ 32).
