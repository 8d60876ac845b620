(** * Properties C29-C32, C43, C58: what each instruction sends, and what a device makes of it *)
From Coq Require Import ZArith.
From Verif Require Import Base Endian Error Checksum Bytestuff Packet Time Bus Data Client
  Instructions Device Api Spec CallSpec StreamSpec DeviceSpec InstructionSpec DataSpec Demo DemoProofs
  StatusProofs InstructionProofs DataTheorems GenericTheorems UnderstoodTheorems UnderstoodExact SyncLengthTheorems.

(** ** C29.  Refuted for [clear_error], which sends the code for the wrong subcommand. *)
@C29_parameters_on_the_wire

@C29_clear_error_refuted

@C29_clear_error_partial

Example C29_example :
  request (write (data_int false 4) x07 116 1000%Z) x07 x03 ([x74; x00] ++ [xe8; x03; x00; x00])
    (IWrite 116 [xe8; x03; x00; x00]) /\
  request (sync_write_bytes 116 2 [mkSync x01 [x0a; x0b]; mkSync x02 [x0c; x0d]]) xfe x83
    ([x74; x00] ++ [x02; x00] ++ [x01; x0a; x0b; x02; x0c; x0d]) (ISyncWrite 116 2 [x01; x0a; x0b; x02; x0c; x0d]) /\
  request (bulk_read_bytes [mkBulkRead x01 116 2; mkBulkRead x03 132 4]) xfe x92
    [x01; x74; x00; x02; x00; x03; x84; x00; x04; x00] (IBulkRead [x01; x74; x00; x02; x00; x03; x84; x00; x04; x00]) /\
  exists s', let s := fresh true [] 32 64 in
    sync_write_bytes 116 2 [mkSync x01 [x0a; x0b]; mkSync x02 [x0c; x0d]] s = (Val (Ok tt), s') /\
    calls s s' [LDiscard None; LWrite (frame xfe [x83; x74; x00; x02; x00; x01; x0a; x0b; x02; x0c; x0d]) None].
Proof.
  split; [|split; [|split]].
  - apply (rq_write Z (data_int false 4) x07 116 1000%Z [xe8; x03; x00; x00]); [reflexivity| |].
    + apply (crate_data_ok _ _ (int_range false 4) (int_bytes false 4)). constructor. cbn. tauto.
    + split; [reflexivity|]. intros [|b0 [|b1 [|b2 [|b3 [|b4 b]]]]] H; try discriminate. reflexivity.
  - apply rq_sync_write_bytes; [reflexivity|reflexivity|]. repeat constructor.
  - apply (rq_bulk_read_bytes [mkBulkRead x01 116 2; mkBulkRead x03 132 4]). repeat constructor; cbn; intuition discriminate.
  - eexists. cbv zeta. split; vm_compute; reflexivity.
Qed.

(** ** C30.  Refuted: the typed version always claims one byte. *)
@C30_reg_write_refuted

@C30_one_byte_partial

@C30_wider_always_fails

Example C30_example : exists e s1 s2,
  let s := fresh true [] 32 32 in
  crate_type (data_int false 2) (int_range false 2) (int_bytes false 2) /\ 1 < d_size (data_int false 2) /\ reach s /\
  reg_write (data_int false 2) x01 64 5%Z s = (Val (Err (TWriteError (WBufferTooSmall e))), s1) /\
  encodes_as (data_int false 1) 5%Z [x05] /\
  reg_write (data_int false 1) xfe 64 5%Z s = (Val (Ok (mkResponse xfe false tt)), s2) /\
  calls s s2 [LDiscard None; LWrite (frame xfe [REG_WRITE; x40; x00; x05]) None].
Proof.
  do 3 eexists. cbv zeta. split; [constructor; cbn; tauto|]. split; [cbn; lia|]. split; [apply fresh_reach; lia|].
  split; [vm_compute; reflexivity|].
  split; [split; [reflexivity|]; intros [|b0 [|b1 b]] H; try discriminate; reflexivity|].
  split; vm_compute; reflexivity.
Qed.

(** ** C31.  Refuted in the same way. *)
@C31_sync_write_refuted

@C31_one_byte_partial

@C31_wider_always_fails

Example C31_example : exists e s1 s2,
  let s := fresh true [] 32 32 in
  let l := [mkSync x01 5%Z; mkSync x02 6%Z] in
  (N.of_nat (14 + 2 * length l) <= usize_max)%N /\ reach s /\
  sync_write (data_int true 4) 64 l s = (Val (Err (WBufferTooSmall e)), s1) /\
  sync_write (data_int true 1) 64 l s = (Val (Ok tt), s2) /\
  calls s s2 [LDiscard None; LWrite (frame xfe [SYNC_WRITE; x40; x00; x01; x00; x01; x05; x02; x06]) None].
Proof.
  do 3 eexists. cbv zeta. split; [vm_compute; discriminate|]. split; [apply fresh_reach; lia|].
  split; [vm_compute; reflexivity|]. split; vm_compute; reflexivity.
Qed.

(** ** C32.  Refuted: a bulk write to one motor twice is sent. *)
@C32_bulk_read

@C32_bulk_write_refuted

@C32_bulk_write_too_much_data

@C32_bulk_write_partial

Example C32_example : exists s1 s2,
  let s := fresh true [] 32 64 in
  bulk_read_bytes [mkBulkRead x01 116 2; mkBulkRead x01 132 4] s = (Panic PExplicit, s) /\
  bulk_read_bytes [mkBulkRead x01 116 2; mkBulkRead x02 116 2] s = (Val (Ok (mkBR [mkBulkRead x01 116 2; mkBulkRead x02 116 2] 0)), s1) /\
  bulk_write [mkBulkWrite x01 116 [x01]; mkBulkWrite x01 116 [x02]] s = (Val (Ok tt), s2).
Proof. do 2 eexists. cbv zeta. split; [vm_compute; reflexivity|]. split; vm_compute; reflexivity. Qed.

(** 65536 bytes for one motor. *)
Example C32_too_much_example :
  let data := repeat x00 (N.to_nat 65536) in
  In (mkBulkWrite x02 116 data) [mkBulkWrite x01 116 [x01]; mkBulkWrite x02 116 data] /\ ~ is_u16 (N.of_nat (length data)).
Proof.
  cbv zeta. split; [right; left; reflexivity|]. rewrite repeat_length, N2Nat.id. unfold is_u16. lia.
Qed.

(** ** C43.  Refuted for data the code does not stuff correctly, and for [clear_error]. *)
@C43_understood_partial

@C43_understood_exactly

@C43_understood_refuted

@C43_clear_error_refuted

@C43_clear_error_misread

(** A write that needs stuffing, as the device sees it. *)
Example C43_example : exists s' c',
  let s := fresh true [] 32 32 in
  let w := frame xfe [WRITE; x40; x00; xff; xff; xfd; x01] in
  let c := fresh true [RdData (firstn 9 w); RdData (skipn 9 w)] 32 32 in
  request (write_bytes xfe 64 [xff; xff; xfd; x01]) xfe x03 [x40; x00; xff; xff; xfd; x01] (IWrite 64 [xff; xff; xfd; x01]) /\
  write_bytes xfe 64 [xff; xff; xfd; x01] s = (Val (Ok (mkResponse xfe false tt)), s') /\
  calls s s' [LDiscard None; LWrite w None] /\
  comes_back [x03; x40; x00; xff; xff; xfd; x01] /\
  device_read dur_34ms c = (Val (Ok (mkInstruction xfe (IWrite 64 [xff; xff; xfd; x01]))), c').
Proof.
  do 2 eexists. cbv zeta. split; [apply (rq_write_bytes xfe 64 [xff; xff; xfd; x01]); reflexivity|].
  split; [vm_compute; reflexivity|]. split; [vm_compute; reflexivity|].
  split; [vm_compute; intuition discriminate|]. vm_compute. reflexivity.
Qed.

(** Clearing the error of a motor, as the device sees it. *)
Example C43_clear_error_example : exists o s' c',
  let s := fresh true [] 32 32 in
  let w := frame x07 [x10; x01; x45; x52; x43; x4c] in
  let c := fresh true [RdData ([xff] ++ w)] 32 32 in
  reach s /\ clear_error x07 s = (o, s') /\ (exists evs, calls s s' evs /\ In (LWrite w None) evs) /\
  reach c /\ length w <= length (b_rbuf c) /\ pending c = map inl ([xff] ++ w) ++ [] /\
  device_read dur_34ms c = (Val (Ok (mkInstruction x07 (IClear ClearMultiTurns))), c').
Proof.
  do 3 eexists. cbv zeta. split; [apply fresh_reach; lia|]. split; [vm_compute; reflexivity|].
  split; [eexists; split; [vm_compute; reflexivity|right; left; vm_compute; reflexivity]|].
  split; [apply fresh_reach; lia|]. split; [vm_compute; lia|]. split; vm_compute; reflexivity.
Qed.

(** ** C58: synchronous writes of the wrong length. *)
@C58_wrong_length

@C58_right_length

Example C58_example : exists s',
  let s := fresh true [] 64 64 in let l := [mkSync x01 [x05; x06]; mkSync x02 [x07]] in
  reach s /\ ~ Forall (fun e => length (sw_data e) = N.to_nat 2) l /\ sync_write_bytes 10 2 l s = (Panic PAssert, s') /\ calls s s' [] /\
  14 + length l * (1 + N.to_nat 2) <= length (b_wbuf s) /\ (N.of_nat (length (b_wbuf s)) <= usize_max)%N /\
  Forall (fun e => length (sw_data e) = N.to_nat 2) [mkSync x01 [x05; x06]] /\ plenty_of_room s (4 + 1 * (1 + N.to_nat 2)).
Proof.
  eexists. cbv zeta. split; [apply fresh_reach; lia|].
  split. { intro F. inversion F as [|? ? _ F2]. inversion F2 as [|? ? E _]. discriminate E. }
  split; [vm_compute; reflexivity|]. split; [reflexivity|]. split; [vm_compute; lia|]. split; [vm_compute; discriminate|].
  split; [repeat constructor|]. split; [vm_compute; lia|reflexivity].
Qed.
