(** * Properties C36-C38: values on the wire *)
From Coq Require Import ZArith.
From Verif Require Import Base Endian Error Checksum Bytestuff Packet Time Bus Data Client
  Instructions Device Api Spec CallSpec StreamSpec DeviceSpec InstructionSpec DataSpec Demo DemoProofs DataTheorems.

(** ** C36 *)
Theorem C36_representation : forall A (D : data_impl A) V R, crate_type D V R -> forall v, V v ->
  exists l, R v l /\ length l = d_size D /\ forall l', R v l' -> l' = l.
Proof. exact L_C36_representation. Qed.
Print Assumptions C36_representation.

Theorem C36_encode : forall A (D : data_impl A) V R v l before buf,
  crate_type D V R -> R v l -> length before = d_size D ->
  d_encode D v (before ++ buf) = Val (l ++ buf, Ok tt).
Proof. exact L_C36_encode. Qed.
Print Assumptions C36_encode.

Theorem C36_too_small : forall A (D : data_impl A) V R v buf,
  crate_type D V R -> length buf < d_size D ->
  d_encode D v buf = Val (buf, Err (mkBTS (d_size D) (length buf))).
Proof. exact L_C36_too_small. Qed.
Print Assumptions C36_too_small.

Theorem C36_round_trip : forall A (D : data_impl A) V R v l,
  crate_type D V R -> R v l -> d_decode D l = Val (Ok v).
Proof. exact L_C36_round_trip. Qed.
Print Assumptions C36_round_trip.

Theorem C36_decode_encode : forall A (D : data_impl A) V R l,
  crate_type D V R -> length l = d_size D -> exists v, d_decode D l = Val (Ok v) /\ V v /\ R v l.
Proof. exact L_C36_decode_encode. Qed.
Print Assumptions C36_decode_encode.

(** An array of two signed 16 bit numbers. *)
Example C36_example :
  let D := data_array (data_int true 2) 2 in
  crate_type D (fun vs => length vs = 2 /\ Forall (int_range true 2) vs) (array_bytes (int_bytes true 2) 2) /\
  array_bytes (int_bytes true 2) 2 [(-2)%Z; 772%Z] [xfe; xff; x04; x03] /\
  d_encode D [(-2)%Z; 772%Z] [x00; x00; x00; x00; x55] = Val ([xfe; xff; x04; x03; x55], Ok tt) /\
  d_decode D [xfe; xff; x04; x03] = Val (Ok [(-2)%Z; 772%Z]).
Proof.
  cbv zeta. split; [|split; [|split; vm_compute; reflexivity]].
  - constructor; [constructor; cbn; tauto|]. split; vm_compute; discriminate.
  - split; [reflexivity|]. exists [[xfe; xff]; [x04; x03]]. split; [|reflexivity]. constructor; [|constructor; [|constructor]].
    + split; [vm_compute; split; [discriminate|reflexivity]|]. split; [reflexivity|]. exists (-1)%Z. vm_compute. reflexivity.
    + split; [vm_compute; split; [discriminate|reflexivity]|]. split; [reflexivity|]. exists 0%Z. vm_compute. reflexivity.
Qed.

Example C36_too_small_example :
  crate_type (data_int false 4) (int_range false 4) (int_bytes false 4) /\
  d_encode (data_int false 4) 7%Z [x01; x02; x03] = Val ([x01; x02; x03], Err (mkBTS 4 3)).
Proof. split; [constructor; cbn; tauto|vm_compute; reflexivity]. Qed.

(** ** C37.  Refuted for arrays. *)
Theorem C37_refuted : ~ (forall A (D : data_impl A) V R l, crate_type D V R -> length l <> d_size D ->
  exists e, d_decode D l = Val (Err e)).
Proof. exact L_C37_refuted. Qed.
Print Assumptions C37_refuted.

Theorem C37_numbers_partial : forall signed w l, In w [1; 2; 4; 8; 16] -> length l <> w ->
  d_decode (data_int signed w) l = Val (Err (IMParameterCount (length l) (Exact w))).
Proof. exact L_C37_numbers_partial. Qed.
Print Assumptions C37_numbers_partial.

Theorem C37_array_ignores_rest : forall A (D : data_impl A) V R n l extra,
  crate_type (data_array D n) V R -> length l = d_size (data_array D n) ->
  d_decode (data_array D n) (l ++ extra) = d_decode (data_array D n) l.
Proof. exact L_C37_array_ignores_rest. Qed.
Print Assumptions C37_array_ignores_rest.

Theorem C37_short_array_panics : forall A (D : data_impl A) V R n l,
  crate_type D V R -> array_const_ok D n -> length l < d_size (data_array D n) ->
  d_decode (data_array D n) l = Panic PIndex.
Proof. exact L_C37_short_array_panics. Qed.
Print Assumptions C37_short_array_panics.

Example C37_example :
  d_decode (data_int false 4) [x01; x02] = Val (Err (IMParameterCount 2 (Exact 4))) /\
  d_decode (data_array (data_int false 2) 2) [x01; x00; x02; x00; x03] = Val (Ok [1%Z; 2%Z]) /\
  d_decode (data_array (data_int false 2) 2) [x01; x00; x02] = Panic PIndex.
Proof. split; [|split]; vm_compute; reflexivity. Qed.

(** ** C38.  Refuted: a successful decode drops the elements it hands out. *)
Theorem C38_refuted : ~ (forall A (D : data_impl A) n l arr dropped,
  array_decode_drops D n l = Val (Ok arr, dropped) -> dropped = []).
Proof. exact L_C38_refuted. Qed.
Print Assumptions C38_refuted.

Theorem C38_failed_decode_partial : forall A (D : data_impl A) n l e dropped,
  array_decode_drops D n l = Val (Err e, dropped) ->
  length dropped < n /\
  (forall i v, nth_error dropped i = Some v -> d_decode D (element D l i) = Val (Ok v)) /\
  d_decode D (element D l (length dropped)) = Val (Err e).
Proof. exact L_C38_failed_decode_partial. Qed.
Print Assumptions C38_failed_decode_partial.

Theorem C38_successful_decode_drops_everything : forall A (D : data_impl A) n l arr dropped,
  array_decode_drops D n l = Val (Ok arr, dropped) ->
  dropped = arr /\ length arr = n /\
  forall i v, nth_error arr i = Some v -> d_decode D (element D l i) = Val (Ok v).
Proof. exact L_C38_successful_decode_drops_everything. Qed.
Print Assumptions C38_successful_decode_drops_everything.

Example C38_example : exists e,
  array_decode_drops (data_int false 1) 2 [x05; x06] = Val (Ok [5%Z; 6%Z], [5%Z; 6%Z]) /\
  array_decode_drops (mkData Z 1 (fun _ b => Val (b, Ok tt))
    (fun b => if beq (hd x00 b) x00 then Val (Err e) else Val (Ok 7%Z))) 3 [x01; x00; x01] = Val (Err e, [7%Z]).
Proof. exists (IMParameterCount 0 (Exact 1)). split; vm_compute; reflexivity. Qed.
