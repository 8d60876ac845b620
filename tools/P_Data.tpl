(** * Properties C36-C38: values on the wire *)
From Coq Require Import ZArith.
From Verif Require Import Base Endian Error Checksum Bytestuff Packet Time Bus Data Client
  Instructions Device Api Spec CallSpec StreamSpec DeviceSpec InstructionSpec DataSpec Demo DemoProofs DataTheorems.

(** ** C36 *)
@C36_representation

@C36_encode

@C36_too_small

@C36_round_trip

@C36_decode_encode

(** An array of two signed 16 bit numbers. *)
Example C36_example :
  let D := data_array (data_int true 2) 2 in
  crate_type D (fun vs => length vs = 2 /\ Forall (int_range true 2) vs) (array_bytes (int_bytes true 2) 2) /\
  array_bytes (int_bytes true 2) 2 [(-2)%Z; 772%Z] [xfe; xff; x04; x03] /\
  d_encode D [(-2)%Z; 772%Z] [x00; x00; x00; x00; x55] = Val ([xfe; xff; x04; x03; x55], Ok tt) /\
  d_decode D [xfe; xff; x04; x03] = Val (Ok [(-2)%Z; 772%Z]).
Proof.
  cbv zeta. split; [|split; [|split; vm_compute; reflexivity]].
  - constructor; [constructor; cbn; tauto|]. split; vm_compute; discriminate.
  - split; [reflexivity|]. exists [[xfe; xff]; [x04; x03]]. split; [|reflexivity]. constructor; [|constructor; [|constructor]].
    + split; [vm_compute; split; [discriminate|reflexivity]|]. split; [reflexivity|]. exists (-1)%Z. vm_compute. reflexivity.
    + split; [vm_compute; split; [discriminate|reflexivity]|]. split; [reflexivity|]. exists 0%Z. vm_compute. reflexivity.
Qed.

Example C36_too_small_example :
  crate_type (data_int false 4) (int_range false 4) (int_bytes false 4) /\
  d_encode (data_int false 4) 7%Z [x01; x02; x03] = Val ([x01; x02; x03], Err (mkBTS 4 3)).
Proof. split; [constructor; cbn; tauto|vm_compute; reflexivity]. Qed.

(** ** C37.  Refuted for arrays. *)
@C37_refuted

@C37_numbers_partial

@C37_array_ignores_rest

@C37_short_array_panics

Example C37_example :
  d_decode (data_int false 4) [x01; x02] = Val (Err (IMParameterCount 2 (Exact 4))) /\
  d_decode (data_array (data_int false 2) 2) [x01; x00; x02; x00; x03] = Val (Ok [1%Z; 2%Z]) /\
  d_decode (data_array (data_int false 2) 2) [x01; x00; x02] = Panic PIndex.
Proof. split; [|split]; vm_compute; reflexivity. Qed.

(** ** C38.  Refuted: a successful decode drops the elements it hands out. *)
@C38_refuted

@C38_failed_decode_partial

@C38_successful_decode_drops_everything

Example C38_example : exists e,
  array_decode_drops (data_int false 1) 2 [x05; x06] = Val (Ok [5%Z; 6%Z], [5%Z; 6%Z]) /\
  array_decode_drops (mkData Z 1 (fun _ b => Val (b, Ok tt))
    (fun b => if beq (hd x00 b) x00 then Val (Err e) else Val (Ok 7%Z))) 3 [x01; x00; x01] = Val (Err e, [7%Z]).
Proof. exists (IMParameterCount 0 (Exact 1)). split; vm_compute; reflexivity. Qed.
