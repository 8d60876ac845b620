(** * Property C73: typed and untyped calls *)
From Coq Require Import ZArith.
From Verif Require Import Base Endian Error Packet Bus Data Client Instructions Api DataSpec Spec CallSpec InstructionSpec Demo DemoProofs
  TypedSpec TypedTheorems.

(** ** C73.  [read] is [read_bytes] of the size of the type, followed by decoding. *)
Theorem C73_read : forall A (D : data_impl A) id a s o s',
  read_bytes id a (N.of_nat (d_size D)) s = (o, s') ->
  read D id a s = (decode_outcome D (fun e => TReadError (RInvalidMessage e)) o, s').
Proof. exact L_C73_read. Qed.
Print Assumptions C73_read.

(** [sync_read] sends what [sync_read_bytes] sends, ... *)
Theorem C73_sync_read : forall A (D : data_impl A) ids a s o s',
  sync_read_bytes ids a (N.of_nat (d_size D)) s = (o, s') ->
  match o with
  | Val (Ok itb) => exists it, sync_read D ids a s = (Val (Ok it), s') /\ same_position D it itb
  | Val (Err e) => sync_read D ids a s = (Val (Err e), s')
  | Panic k => sync_read D ids a s = (Panic k, s')
  | Blocked => sync_read D ids a s = (Blocked, s')
  end.
Proof. exact L_C73_sync_read. Qed.
Print Assumptions C73_sync_read.

(** ... and each response it yields is that of [sync_read_bytes], decoded. *)
Theorem C73_sync_read_next : forall A (D : data_impl A) it itb s o s',
  same_position D it itb -> srb_next itb s = (o, s') ->
  match o with
  | Val (None, itb') => exists it', sr_next D it s = (Val (None, it'), s') /\ same_position D it' itb'
  | Val (Some r, itb') =>
      match decode_outcome D RInvalidMessage (Val r) with
      | Val v => exists it', sr_next D it s = (Val (Some v, it'), s') /\ same_position D it' itb'
      | Panic k => sr_next D it s = (Panic k, s')
      | Blocked => sr_next D it s = (Blocked, s')
      end
  | Panic k => sr_next D it s = (Panic k, s')
  | Blocked => sr_next D it s = (Blocked, s')
  end.
Proof. exact L_C73_sync_read_next. Qed.
Print Assumptions C73_sync_read_next.

(** Dropping the iterators: the full statement is false, because the one of [sync_read] runs the decoder of the user on the
    responses it throws away. *)
Theorem C73_sync_read_drop_refuted : ~ (forall A (D : data_impl A) it itb s,
  data_ok D -> reach s -> same_position D it itb -> sr_drop D it s = srb_drop itb s).
Proof. exact L_C73_sync_read_drop_refuted. Qed.
Print Assumptions C73_sync_read_drop_refuted.

(** It holds for decoders that do not panic on a byte string of the right length, ... *)
Theorem C73_sync_read_drop_partial : forall A (D : data_impl A) it itb s,
  decodes_calmly D -> same_position D it itb -> sr_drop D it s = srb_drop itb s.
Proof. exact L_C73_sync_read_drop_partial. Qed.
Print Assumptions C73_sync_read_drop_partial.

(** ... like those of the crate. *)
Theorem C73_crate_types_decode : forall A (D : data_impl A) V R, crate_type D V R -> decodes_calmly D.
Proof. exact L_C73_crate_types_decode. Qed.
Print Assumptions C73_crate_types_decode.

(** [write] is [write_bytes] of the encoded value, ... *)
Theorem C73_write : forall A (D : data_impl A) id a v bytes s,
  reach s -> data_ok D -> encodes_as D v bytes -> write D id a v s = write_bytes id a bytes s.
Proof. exact L_C73_write. Qed.
Print Assumptions C73_write.

(** ... also for the types of the crate. *)
Theorem C73_crate_types_encode : forall A (D : data_impl A) V R v bytes, crate_type D V R -> R v bytes ->
  data_ok D /\ encodes_as D v bytes.
Proof. exact L_C73_crate_types_encode. Qed.
Print Assumptions C73_crate_types_encode.

(** [reg_write] and [sync_write]: false (finding 7 of DESIGN.md), but true for types of one byte. *)
Theorem C73_reg_write_refuted : ~ (forall A (D : data_impl A) V R id a v bytes s,
  crate_type D V R -> R v bytes -> is_u16 a -> reach s -> reg_write D id a v s = reg_write_bytes id a bytes s).
Proof. exact L_C73_reg_write_refuted. Qed.
Print Assumptions C73_reg_write_refuted.

Theorem C73_reg_write_one_byte_partial : forall A (D : data_impl A) id a v bytes s,
  reach s -> data_ok D -> encodes_as D v bytes -> d_size D = 1 -> reg_write D id a v s = reg_write_bytes id a bytes s.
Proof. exact L_C73_reg_write_one_byte_partial. Qed.
Print Assumptions C73_reg_write_one_byte_partial.

Theorem C73_sync_write_refuted : ~ (forall A (D : data_impl A) V R a l l' s,
  crate_type D V R -> Forall2 (fun c c' => sw_id c = sw_id c' /\ R (sw_data c) (sw_data c')) l l' -> is_u16 a -> reach s ->
  sync_write D a l s = sync_write_bytes a (N.of_nat (d_size D)) l' s).
Proof. exact L_C73_sync_write_refuted. Qed.
Print Assumptions C73_sync_write_refuted.

Theorem C73_sync_write_one_byte_partial : forall A (D : data_impl A) a l l' s,
  reach s -> data_ok D -> d_size D = 1 ->
  Forall2 (fun c c' => sw_id c = sw_id c' /\ encodes_as D (sw_data c) (sw_data c')) l l' ->
  sync_write D a l s = sync_write_bytes a 1 l' s.
Proof. exact L_C73_sync_write_one_byte_partial. Qed.
Print Assumptions C73_sync_write_one_byte_partial.

Example C73_example : exists s1 s2,
  read_bytes x01 100 2 word_arrives = (Val (Ok (mkResponse x01 false [x34; x12])), s1) /\
  read (data_int false 2) x01 100 word_arrives = (Val (Ok (mkResponse x01 false 4660%Z)), s2).
Proof. exact word_read. Qed.

Example C73_drop_example : (exists k s', sr_drop nonzero (mkSR [x01] 0) zero_arrives = (Panic k, s')) /\
  (exists s', srb_drop (mkSRB 1 [x01] 0) zero_arrives = (Val tt, s')).
Proof. exact zero_drop. Qed.

(** The writes: a value of two bytes, and values of one byte registered and for two motors. *)
Example C73_write_example : exists s1 s2 s3,
  let s := fresh true [] 32 32 in
  let l := [mkSync x01 5%Z; mkSync x02 6%Z] in
  let l' := [mkSync x01 [x05]; mkSync x02 [x06]] in
  reach s /\ data_ok (data_int false 2) /\ encodes_as (data_int false 2) 4660%Z [x34; x12] /\
  write (data_int false 2) xfe 100 4660%Z s = (Val (Ok (mkResponse xfe false tt)), s1) /\
  calls s s1 [LDiscard None; LWrite (frame xfe [WRITE; x64; x00; x34; x12]) None] /\
  data_ok (data_int false 1) /\ d_size (data_int false 1) = 1 /\ encodes_as (data_int false 1) 5%Z [x05] /\
  reg_write (data_int false 1) xfe 100 5%Z s = (Val (Ok (mkResponse xfe false tt)), s2) /\
  Forall2 (fun c c' => sw_id c = sw_id c' /\ encodes_as (data_int false 1) (sw_data c) (sw_data c')) l l' /\
  sync_write (data_int false 1) 100 l s = (Val (Ok tt), s3).
Proof.
  do 3 eexists. cbv zeta. split; [apply fresh_reach; lia|].
  assert (C1 : forall v b, int_bytes false 1 v b -> data_ok (data_int false 1) /\ encodes_as (data_int false 1) v b).
  { intros v b H. eapply L_C73_crate_types_encode; [apply (ct_int false 1 (or_introl eq_refl))|exact H]. }
  assert (C2 : data_ok (data_int false 2) /\ encodes_as (data_int false 2) 4660%Z [x34; x12]).
  { eapply L_C73_crate_types_encode; [apply (ct_int false 2); cbn; tauto|]. split; [vm_compute; split; [discriminate|reflexivity]|]. split; [reflexivity|]. exists 0%Z. reflexivity. }
  destruct C2 as [O2 E2].
  destruct (C1 5%Z [x05]) as [O1 E5]; [split; [vm_compute; split; [discriminate|reflexivity]|]; split; [reflexivity|]; exists 0%Z; reflexivity|].
  destruct (C1 6%Z [x06]) as [_ E6]; [split; [vm_compute; split; [discriminate|reflexivity]|]; split; [reflexivity|]; exists 0%Z; reflexivity|].
  split; [exact O2|]. split; [exact E2|]. split; [vm_compute; reflexivity|]. split; [vm_compute; reflexivity|].
  split; [exact O1|]. split; [reflexivity|]. split; [exact E5|]. split; [vm_compute; reflexivity|].
  split; [|vm_compute; reflexivity].
  constructor; [split; [reflexivity|exact E5]|constructor; [split; [reflexivity|exact E6]|constructor]].
Qed.
