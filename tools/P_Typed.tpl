(** * Property C73: typed and untyped calls *)
From Coq Require Import ZArith.
From Verif Require Import Base Endian Error Packet Bus Data Client Instructions Api DataSpec Spec CallSpec InstructionSpec Demo DemoProofs
  TypedSpec TypedTheorems.

(** ** C73.  [read] is [read_bytes] of the size of the type, followed by decoding. *)
@C73_read

(** [sync_read] sends what [sync_read_bytes] sends, ... *)
@C73_sync_read

(** ... and each response it yields is that of [sync_read_bytes], decoded. *)
@C73_sync_read_next

(** Dropping the iterators: the full statement is false, because the one of [sync_read] runs the decoder of the user on the
    responses it throws away. *)
@C73_sync_read_drop_refuted

(** It holds for decoders that do not panic on a byte string of the right length, ... *)
@C73_sync_read_drop_partial

(** ... like those of the crate. *)
@C73_crate_types_decode

(** [write] is [write_bytes] of the encoded value, ... *)
@C73_write

(** ... also for the types of the crate. *)
@C73_crate_types_encode

(** [reg_write] and [sync_write]: false (finding 7 of DESIGN.md), but true for types of one byte. *)
@C73_reg_write_refuted

@C73_reg_write_one_byte_partial

@C73_sync_write_refuted

@C73_sync_write_one_byte_partial

Example C73_example : exists s1 s2,
  read_bytes x01 100 2 word_arrives = (Val (Ok (mkResponse x01 false [x34; x12])), s1) /\
  read (data_int false 2) x01 100 word_arrives = (Val (Ok (mkResponse x01 false 4660%Z)), s2).
Proof. exact word_read. Qed.

Example C73_drop_example : (exists k s', sr_drop nonzero (mkSR [x01] 0) zero_arrives = (Panic k, s')) /\
  (exists s', srb_drop (mkSRB 1 [x01] 0) zero_arrives = (Val tt, s')).
Proof. exact zero_drop. Qed.

(** The writes: a value of two bytes, and values of one byte registered and for two motors. *)
Example C73_write_example : exists s1 s2 s3,
  let s := fresh true [] 32 32 in
  let l := [mkSync x01 5%Z; mkSync x02 6%Z] in
  let l' := [mkSync x01 [x05]; mkSync x02 [x06]] in
  reach s /\ data_ok (data_int false 2) /\ encodes_as (data_int false 2) 4660%Z [x34; x12] /\
  write (data_int false 2) xfe 100 4660%Z s = (Val (Ok (mkResponse xfe false tt)), s1) /\
  calls s s1 [LDiscard None; LWrite (frame xfe [WRITE; x64; x00; x34; x12]) None] /\
  data_ok (data_int false 1) /\ d_size (data_int false 1) = 1 /\ encodes_as (data_int false 1) 5%Z [x05] /\
  reg_write (data_int false 1) xfe 100 5%Z s = (Val (Ok (mkResponse xfe false tt)), s2) /\
  Forall2 (fun c c' => sw_id c = sw_id c' /\ encodes_as (data_int false 1) (sw_data c) (sw_data c')) l l' /\
  sync_write (data_int false 1) 100 l s = (Val (Ok tt), s3).
Proof.
  do 3 eexists. cbv zeta. split; [apply fresh_reach; lia|].
  assert (C1 : forall v b, int_bytes false 1 v b -> data_ok (data_int false 1) /\ encodes_as (data_int false 1) v b).
  { intros v b H. eapply L_C73_crate_types_encode; [apply (ct_int false 1 (or_introl eq_refl))|exact H]. }
  assert (C2 : data_ok (data_int false 2) /\ encodes_as (data_int false 2) 4660%Z [x34; x12]).
  { eapply L_C73_crate_types_encode; [apply (ct_int false 2); cbn; tauto|]. split; [vm_compute; split; [discriminate|reflexivity]|]. split; [reflexivity|]. exists 0%Z. reflexivity. }
  destruct C2 as [O2 E2].
  destruct (C1 5%Z [x05]) as [O1 E5]; [split; [vm_compute; split; [discriminate|reflexivity]|]; split; [reflexivity|]; exists 0%Z; reflexivity|].
  destruct (C1 6%Z [x06]) as [_ E6]; [split; [vm_compute; split; [discriminate|reflexivity]|]; split; [reflexivity|]; exists 0%Z; reflexivity|].
  split; [exact O2|]. split; [exact E2|]. split; [vm_compute; reflexivity|]. split; [vm_compute; reflexivity|].
  split; [exact O1|]. split; [reflexivity|]. split; [exact E5|]. split; [vm_compute; reflexivity|].
  split; [|vm_compute; reflexivity].
  constructor; [split; [reflexivity|exact E5]|constructor; [split; [reflexivity|exact E6]|constructor]].
Qed.
