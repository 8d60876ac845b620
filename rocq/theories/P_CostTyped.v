(** * Property C89, typed calls *)
From Coq Require Import ZArith.
From Verif Require Import Base Endian Error Checksum Bytestuff Packet Time Bus Data Client
  Instructions Device Api Spec CallSpec StreamSpec DataSpec InstructionSpec TypedSpec CostSpec Demo DemoProofs TypedTheorems CostTyped.

(** ** C89.  The typed calls save as many bytes as the calls with bytes.  (Typed sync writes of
    larger values fail, C73.) *)
Theorem C89_typed_sync_read : forall A (D : data_impl A) a ids k ks, ordinary a -> is_u16 (N.of_nat (d_size D)) ->
  Forall motor_id ids -> costs (sync_read D ids a) k -> Forall2 (fun id => costs (read D id a)) ids ks ->
  k + 13 * length ids = list_sum ks + 14.
Proof. exact L_C89_typed_sync_read. Qed.
Print Assumptions C89_typed_sync_read.

Theorem C89_typed_sync_write_one_byte : forall A (D : data_impl A) a l k ks, ordinary a -> data_ok D -> d_size D = 1 ->
  Forall (fun x => motor_id (sw_id x) /\ exists b, encodes_as D (sw_data x) [b]) l ->
  costs (sync_write D a l) k -> Forall2 (fun x => costs (write D (sw_id x) a (sw_data x))) l ks ->
  k + 11 * length l = list_sum ks + 14.
Proof. exact L_C89_typed_sync_write_one_byte. Qed.
Print Assumptions C89_typed_sync_write_one_byte.

Example C89_typed_example :
  let l := [mkSync x01 1%Z; mkSync x02 0%Z] in let D := data_int false 1 in
  ordinary 65 /\ data_ok D /\ d_size D = 1 /\
  Forall (fun x => motor_id (sw_id x) /\ exists b, encodes_as D (sw_data x) [b]) l /\
  costs (sync_write D 65 l) 18 /\ Forall2 (fun x => costs (write D (sw_id x) 65 (sw_data x))) l [13; 13].
Proof.
  cbv zeta. split; [reflexivity|].
  assert (K : forall v b, int_bytes false 1 v [b] -> data_ok (data_int false 1) /\ encodes_as (data_int false 1) v [b]).
  { intros v b. apply (L_C73_crate_types_encode _ _ _ _ _ _ (ct_int false 1 (or_introl eq_refl))). }
  assert (I1 : int_bytes false 1 1 [x01]) by (split; [vm_compute; split; [discriminate|reflexivity]|]; split; [reflexivity|]; exists 0%Z; reflexivity).
  assert (I0 : int_bytes false 1 0 [x00]) by (split; [vm_compute; split; [discriminate|reflexivity]|]; split; [reflexivity|]; exists 0%Z; reflexivity).
  split; [exact (proj1 (K _ _ I1))|]. split; [reflexivity|]. split.
  { constructor; [split; [vm_compute; discriminate|exists x01; exact (proj2 (K _ _ I1))]|].
    constructor; [split; [vm_compute; discriminate|exists x00; exact (proj2 (K _ _ I0))]|]. constructor. }
  assert (R := fresh_reach true [] 32 64 ltac:(lia)). split.
  - split; [lia|]. do 4 eexists. split; [exact R|]. split; [vm_compute; reflexivity|]. split; vm_compute; reflexivity.
  - constructor; [|constructor; [|constructor]]; (split; [lia|]); do 4 eexists; (split; [exact R|]; split; [vm_compute; reflexivity|]; split; vm_compute; reflexivity).
Qed.
