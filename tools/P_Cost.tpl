(** * Property C89: one message to many motors is shorter than many messages *)
From Coq Require Import ZArith.
From Verif Require Import Base Endian Error Checksum Bytestuff Packet Time Bus Data Client
  Instructions Device Api Spec CallSpec StreamSpec InstructionSpec CostSpec Demo DemoProofs CostTheorems.

(** ** C89.  The exact number of bytes saved on the line, stuffing included. *)
@C89_sync_write

@C89_bulk_write

@C89_sync_read

@C89_bulk_read

(** Without conditions on ids and addresses: strictly shorter for two or more motors. *)
@C89_sync_write_shorter

(** For addresses from FD00 on a bulk write can be as long as separate writes, not longer. *)
@C89_bulk_write_not_longer

(** Two motors, data that must be stuffed: 25 bytes instead of 33. *)
Example C89_example :
  let l := [mkSync x01 [xff; xff; xfd; x00]; mkSync x02 [x01; x02; x03; x04]] in
  ordinary 116 /\ is_u16 4 /\
  Forall (fun x => motor_id (sw_id x) /\ length (sw_data x) = N.to_nat 4) l /\
  costs (sync_write_bytes 116 4 l) 25 /\
  Forall2 (fun x => costs (write_bytes (sw_id x) 116 (sw_data x))) l [17; 16].
Proof.
  cbv zeta. split; [reflexivity|]. split; [reflexivity|]. split.
  { repeat constructor; vm_compute; discriminate. }
  assert (R := fresh_reach true [] 32 64 ltac:(lia)). split.
  - split; [lia|]. do 4 eexists. split; [exact R|]. split; [vm_compute; reflexivity|]. split; vm_compute; reflexivity.
  - repeat constructor; try lia; do 4 eexists; (split; [exact R|]; split; [vm_compute; reflexivity|]; split; vm_compute; reflexivity).
Qed.

Example C89_bulk_example :
  let l := [mkBulkWrite x01 116 [xff; xff; xfd; x00]; mkBulkWrite x02 102 [x01; x02]] in
  Forall (fun x => motor_id (bw_id x) /\ ordinary (bw_address x) /\ ordinary (N.of_nat (length (bw_data x)))) l /\
  costs (bulk_write l) 27 /\
  Forall2 (fun x => costs (write_bytes (bw_id x) (bw_address x) (bw_data x))) l [17; 14].
Proof.
  cbv zeta. split.
  { repeat constructor; vm_compute; try reflexivity; discriminate. }
  assert (R := fresh_reach true [] 32 64 ltac:(lia)). split.
  - split; [lia|]. do 4 eexists. split; [exact R|]. split; [vm_compute; reflexivity|]. split; vm_compute; reflexivity.
  - repeat constructor; try lia; do 4 eexists; (split; [exact R|]; split; [vm_compute; reflexivity|]; split; vm_compute; reflexivity).
Qed.

Example C89_read_example :
  let ids := [x01; x02; x03] in
  let l := [mkBulkRead x01 116 4; mkBulkRead x02 102 2] in
  Forall motor_id ids /\ NoDup (map br_id l) /\
  Forall (fun x => motor_id (br_id x) /\ ordinary (br_address x) /\ is_u16 (br_count x)) l /\
  costs (sync_read_bytes ids 116 4) 17 /\ Forall2 (fun id => costs (read_bytes id 116 4)) ids [14; 14; 14] /\
  costs (bulk_read_bytes l) 20 /\ Forall2 (fun x => costs (read_bytes (br_id x) (br_address x) (br_count x))) l [14; 14].
Proof.
  cbv zeta. split; [repeat constructor; vm_compute; discriminate|].
  split; [repeat constructor; vm_compute; intros H; repeat (destruct H as [H|H]; [discriminate|]); exact H|].
  split; [repeat constructor; vm_compute; try reflexivity; discriminate|].
  assert (R := fresh_reach true [RdErr (IoTimeout 0)] 32 64 ltac:(lia)).
  split; [|split; [|split]].
  - split; [lia|]. do 4 eexists. split; [exact R|]. split; [vm_compute; reflexivity|]. split; vm_compute; reflexivity.
  - repeat constructor; try lia; do 4 eexists; (split; [exact R|]; split; [vm_compute; reflexivity|]; split; vm_compute; reflexivity).
  - split; [lia|]. do 4 eexists. split; [exact R|]. split; [vm_compute; reflexivity|]. split; vm_compute; reflexivity.
  - repeat constructor; try lia; do 4 eexists; (split; [exact R|]; split; [vm_compute; reflexivity|]; split; vm_compute; reflexivity).
Qed.
