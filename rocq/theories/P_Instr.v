(** * Properties C29-C32, C43, C58: what each instruction sends, and what a device makes of it *)
From Coq Require Import ZArith.
From Verif Require Import Base Endian Error Checksum Bytestuff Packet Time Bus Data Client
  Instructions Device Api Spec CallSpec StreamSpec DeviceSpec InstructionSpec DataSpec Demo DemoProofs
  StatusProofs InstructionProofs DataTheorems GenericTheorems UnderstoodTheorems UnderstoodExact SyncLengthTheorems.

(** ** C29.  Refuted for [clear_error], which sends the code for the wrong subcommand. *)
Theorem C29_parameters_on_the_wire : forall B E (m : M (result B E)) id i params ins,
  request m id i params ins -> transmits m id i params.
Proof. exact L_C29_parameters_on_the_wire. Qed.
Print Assumptions C29_parameters_on_the_wire.

Theorem C29_clear_error_refuted : ~ (forall id, transmits (clear_error id) id x10 clear_error_code).
Proof. exact L_C29_clear_error_refuted. Qed.
Print Assumptions C29_clear_error_refuted.

Theorem C29_clear_error_partial : forall id,
  transmits (clear_error id) id x10 [x01; x45; x52; x43; x4c] /\
  transmits broadcast_clear_error xfe x10 [x01; x45; x52; x43; x4c].
Proof. exact L_C29_clear_error_partial. Qed.
Print Assumptions C29_clear_error_partial.

Example C29_example :
  request (write (data_int false 4) x07 116 1000%Z) x07 x03 ([x74; x00] ++ [xe8; x03; x00; x00])
    (IWrite 116 [xe8; x03; x00; x00]) /\
  request (sync_write_bytes 116 2 [mkSync x01 [x0a; x0b]; mkSync x02 [x0c; x0d]]) xfe x83
    ([x74; x00] ++ [x02; x00] ++ [x01; x0a; x0b; x02; x0c; x0d]) (ISyncWrite 116 2 [x01; x0a; x0b; x02; x0c; x0d]) /\
  request (bulk_read_bytes [mkBulkRead x01 116 2; mkBulkRead x03 132 4]) xfe x92
    [x01; x74; x00; x02; x00; x03; x84; x00; x04; x00] (IBulkRead [x01; x74; x00; x02; x00; x03; x84; x00; x04; x00]) /\
  exists s', let s := fresh true [] 32 64 in
    sync_write_bytes 116 2 [mkSync x01 [x0a; x0b]; mkSync x02 [x0c; x0d]] s = (Val (Ok tt), s') /\
    calls s s' [LDiscard None; LWrite (frame xfe [x83; x74; x00; x02; x00; x01; x0a; x0b; x02; x0c; x0d]) None].
Proof.
  split; [|split; [|split]].
  - apply (rq_write Z (data_int false 4) x07 116 1000%Z [xe8; x03; x00; x00]); [reflexivity| |].
    + apply (crate_data_ok _ _ (int_range false 4) (int_bytes false 4)). constructor. cbn. tauto.
    + split; [reflexivity|]. intros [|b0 [|b1 [|b2 [|b3 [|b4 b]]]]] H; try discriminate. reflexivity.
  - apply rq_sync_write_bytes; [reflexivity|reflexivity|]. repeat constructor.
  - apply (rq_bulk_read_bytes [mkBulkRead x01 116 2; mkBulkRead x03 132 4]). repeat constructor; cbn; intuition discriminate.
  - eexists. cbv zeta. split; vm_compute; reflexivity.
Qed.

(** ** C30.  Refuted: the typed version always claims one byte. *)
Theorem C30_reg_write_refuted : ~ (forall A (D : data_impl A) V R id a v bytes,
  crate_type D V R -> R v bytes -> is_u16 a ->
  transmits (reg_write D id a v) id x04 (le16 a ++ bytes)).
Proof. exact L_C30_reg_write_refuted. Qed.
Print Assumptions C30_reg_write_refuted.

Theorem C30_one_byte_partial : forall A (D : data_impl A) id a v bytes,
  data_ok D -> encodes_as D v bytes -> d_size D = 1 ->
  transmits (reg_write D id a v) id x04 (le16 a ++ bytes).
Proof. exact L_C30_one_byte_partial. Qed.
Print Assumptions C30_one_byte_partial.

Theorem C30_wider_always_fails : forall A (D : data_impl A) V R id a v s,
  crate_type D V R -> 1 < d_size D -> reach s ->
  exists e s', reg_write D id a v s = (Val (Err (TWriteError (WBufferTooSmall e))), s') /\ calls s s' [].
Proof. exact L_C30_wider_always_fails. Qed.
Print Assumptions C30_wider_always_fails.

Example C30_example : exists e s1 s2,
  let s := fresh true [] 32 32 in
  crate_type (data_int false 2) (int_range false 2) (int_bytes false 2) /\ 1 < d_size (data_int false 2) /\ reach s /\
  reg_write (data_int false 2) x01 64 5%Z s = (Val (Err (TWriteError (WBufferTooSmall e))), s1) /\
  encodes_as (data_int false 1) 5%Z [x05] /\
  reg_write (data_int false 1) xfe 64 5%Z s = (Val (Ok (mkResponse xfe false tt)), s2) /\
  calls s s2 [LDiscard None; LWrite (frame xfe [REG_WRITE; x40; x00; x05]) None].
Proof.
  do 3 eexists. cbv zeta. split; [constructor; cbn; tauto|]. split; [cbn; lia|]. split; [apply fresh_reach; lia|].
  split; [vm_compute; reflexivity|].
  split; [split; [reflexivity|]; intros [|b0 [|b1 b]] H; try discriminate; reflexivity|].
  split; vm_compute; reflexivity.
Qed.

(** ** C31.  Refuted in the same way. *)
Theorem C31_sync_write_refuted : ~ (forall A (D : data_impl A) V R a l l',
  crate_type D V R -> is_u16 a ->
  Forall2 (fun c c' => sw_id c = sw_id c' /\ R (sw_data c) (sw_data c')) l l' ->
  transmits (sync_write D a l) xfe x83 (le16 a ++ le16 (N.of_nat (d_size D)) ++ sync_entries l')).
Proof. exact L_C31_sync_write_refuted. Qed.
Print Assumptions C31_sync_write_refuted.

Theorem C31_one_byte_partial : forall A (D : data_impl A) a l l',
  data_ok D -> d_size D = 1 -> 
  Forall2 (fun c c' => sw_id c = sw_id c' /\ encodes_as D (sw_data c) (sw_data c')) l l' ->
  transmits (sync_write D a l) xfe x83 (le16 a ++ le16 1 ++ sync_entries l').
Proof. exact L_C31_one_byte_partial. Qed.
Print Assumptions C31_one_byte_partial.

Theorem C31_wider_always_fails : forall A (D : data_impl A) V R a c l s,
  crate_type D V R -> 1 < d_size D -> reach s -> (N.of_nat (14 + 2 * length (c :: l)) <= usize_max)%N ->
  exists e s', sync_write D a (c :: l) s = (Val (Err (WBufferTooSmall e)), s') /\ calls s s' [].
Proof. exact L_C31_wider_always_fails. Qed.
Print Assumptions C31_wider_always_fails.

Example C31_example : exists e s1 s2,
  let s := fresh true [] 32 32 in
  let l := [mkSync x01 5%Z; mkSync x02 6%Z] in
  (N.of_nat (14 + 2 * length l) <= usize_max)%N /\ reach s /\
  sync_write (data_int true 4) 64 l s = (Val (Err (WBufferTooSmall e)), s1) /\
  sync_write (data_int true 1) 64 l s = (Val (Ok tt), s2) /\
  calls s s2 [LDiscard None; LWrite (frame xfe [SYNC_WRITE; x40; x00; x01; x00; x01; x05; x02; x06]) None].
Proof.
  do 3 eexists. cbv zeta. split; [vm_compute; discriminate|]. split; [apply fresh_reach; lia|].
  split; [vm_compute; reflexivity|]. split; vm_compute; reflexivity.
Qed.

(** ** C32.  Refuted: a bulk write to one motor twice is sent. *)
Theorem C32_bulk_read : forall l s,
  (~ NoDup (map br_id l) -> bulk_read_bytes l s = (Panic PExplicit, s)) /\
  (NoDup (map br_id l) -> reach s -> plenty_of_room s (5 * length l) ->
     exists r s', bulk_read_bytes l s = (Val r, s')).
Proof. exact L_C32_bulk_read. Qed.
Print Assumptions C32_bulk_read.

Theorem C32_bulk_write_refuted : ~ (forall l s, reach s -> ~ NoDup (map bw_id l) ->
  exists p s', bulk_write l s = (Panic p, s')).
Proof. exact L_C32_bulk_write_refuted. Qed.
Print Assumptions C32_bulk_write_refuted.

Theorem C32_bulk_write_too_much_data : forall l c s, In c l -> ~ is_u16 (N.of_nat (length (bw_data c))) ->
  bulk_write l s = (Panic PExplicit, s).
Proof. exact L_C32_bulk_write_too_much_data. Qed.
Print Assumptions C32_bulk_write_too_much_data.

Theorem C32_bulk_write_partial : forall l s, Forall (fun c => is_u16 (N.of_nat (length (bw_data c)))) l ->
  reach s -> plenty_of_room s (length (bulk_write_entries l)) -> exists r s', bulk_write l s = (Val r, s').
Proof. exact L_C32_bulk_write_partial. Qed.
Print Assumptions C32_bulk_write_partial.

Example C32_example : exists s1 s2,
  let s := fresh true [] 32 64 in
  bulk_read_bytes [mkBulkRead x01 116 2; mkBulkRead x01 132 4] s = (Panic PExplicit, s) /\
  bulk_read_bytes [mkBulkRead x01 116 2; mkBulkRead x02 116 2] s = (Val (Ok (mkBR [mkBulkRead x01 116 2; mkBulkRead x02 116 2] 0)), s1) /\
  bulk_write [mkBulkWrite x01 116 [x01]; mkBulkWrite x01 116 [x02]] s = (Val (Ok tt), s2).
Proof. do 2 eexists. cbv zeta. split; [vm_compute; reflexivity|]. split; vm_compute; reflexivity. Qed.

(** 65536 bytes for one motor. *)
Example C32_too_much_example :
  let data := repeat x00 (N.to_nat 65536) in
  In (mkBulkWrite x02 116 data) [mkBulkWrite x01 116 [x01]; mkBulkWrite x02 116 data] /\ ~ is_u16 (N.of_nat (length data)).
Proof.
  cbv zeta. split; [right; left; reflexivity|]. rewrite repeat_length, N2Nat.id. unfold is_u16. lia.
Qed.

(** ** C43.  Refuted for data the code does not stuff correctly, and for [clear_error]. *)
Theorem C43_understood_partial : forall B E (m : M (result B E)) id i params ins s o s' evs w r c t line g rest,
  request m id i params ins -> reach s -> m s = (o, s') -> calls s s' evs -> In (LWrite w r) evs ->
  comes_back (i :: params) -> (N.of_nat (length w - 7) < 2 ^ 16)%N ->
  reach c -> skips (length (b_rbuf c)) (pending c) line -> ~ contains g header -> length w <= length (b_rbuf c) ->
  line = map inl (g ++ w) ++ rest ->
  exists c', device_read t c = (Val (Ok (mkInstruction id ins)), c') /\ pending c' = rest.
Proof. exact L_C43_understood_partial. Qed.
Print Assumptions C43_understood_partial.

Theorem C43_understood_exactly : forall B E (m : M (result B E)) id i params ins s o s' evs w r c t line g rest,
  request m id i params ins -> reach s -> m s = (o, s') -> calls s s' evs -> In (LWrite w r) evs ->
  (N.of_nat (length w - 7) < 2 ^ 16)%N ->
  reach c -> skips (length (b_rbuf c)) (pending c) line -> ~ contains g header -> length w <= length (b_rbuf c) ->
  line = map inl (g ++ w) ++ rest ->
  exists x c', device_read t c = (Val x, c') /\ pending c' = rest /\
    (x = Ok (mkInstruction id ins) <-> comes_back (i :: params)).
Proof. exact L_C43_understood_exactly. Qed.
Print Assumptions C43_understood_exactly.

Theorem C43_understood_refuted : ~ (forall B E (m : M (result B E)) id i params ins s o s' evs w r c t line g rest,
  request m id i params ins -> reach s -> m s = (o, s') -> calls s s' evs -> In (LWrite w r) evs ->
  (N.of_nat (length w - 7) < 2 ^ 16)%N ->
  reach c -> skips (length (b_rbuf c)) (pending c) line -> ~ contains g header -> length w <= length (b_rbuf c) ->
  line = map inl (g ++ w) ++ rest ->
  exists c', device_read t c = (Val (Ok (mkInstruction id ins)), c') /\ pending c' = rest).
Proof. exact L_C43_understood_refuted. Qed.
Print Assumptions C43_understood_refuted.

Theorem C43_clear_error_refuted : ~ (forall id s o s' evs w r c t line g rest,
  reach s -> clear_error id s = (o, s') -> calls s s' evs -> In (LWrite w r) evs ->
  reach c -> skips (length (b_rbuf c)) (pending c) line -> ~ contains g header -> length w <= length (b_rbuf c) ->
  line = map inl (g ++ w) ++ rest ->
  exists c', device_read t c = (Val (Ok (mkInstruction id (IClear ClearErrors))), c') /\ pending c' = rest).
Proof. exact L_C43_clear_error_refuted. Qed.
Print Assumptions C43_clear_error_refuted.

Theorem C43_clear_error_misread : forall id s o s' evs w r c t line g rest,
  reach s -> clear_error id s = (o, s') -> calls s s' evs -> In (LWrite w r) evs ->
  reach c -> skips (length (b_rbuf c)) (pending c) line -> ~ contains g header -> length w <= length (b_rbuf c) ->
  line = map inl (g ++ w) ++ rest ->
  exists c', device_read t c = (Val (Ok (mkInstruction id (IClear ClearMultiTurns))), c') /\ pending c' = rest.
Proof. exact L_C43_clear_error_misread. Qed.
Print Assumptions C43_clear_error_misread.

(** A write that needs stuffing, as the device sees it. *)
Example C43_example : exists s' c',
  let s := fresh true [] 32 32 in
  let w := frame xfe [WRITE; x40; x00; xff; xff; xfd; x01] in
  let c := fresh true [RdData (firstn 9 w); RdData (skipn 9 w)] 32 32 in
  request (write_bytes xfe 64 [xff; xff; xfd; x01]) xfe x03 [x40; x00; xff; xff; xfd; x01] (IWrite 64 [xff; xff; xfd; x01]) /\
  write_bytes xfe 64 [xff; xff; xfd; x01] s = (Val (Ok (mkResponse xfe false tt)), s') /\
  calls s s' [LDiscard None; LWrite w None] /\
  comes_back [x03; x40; x00; xff; xff; xfd; x01] /\
  device_read dur_34ms c = (Val (Ok (mkInstruction xfe (IWrite 64 [xff; xff; xfd; x01]))), c').
Proof.
  do 2 eexists. cbv zeta. split; [apply (rq_write_bytes xfe 64 [xff; xff; xfd; x01]); reflexivity|].
  split; [vm_compute; reflexivity|]. split; [vm_compute; reflexivity|].
  split; [vm_compute; intuition discriminate|]. vm_compute. reflexivity.
Qed.

(** Clearing the error of a motor, as the device sees it. *)
Example C43_clear_error_example : exists o s' c',
  let s := fresh true [] 32 32 in
  let w := frame x07 [x10; x01; x45; x52; x43; x4c] in
  let c := fresh true [RdData ([xff] ++ w)] 32 32 in
  reach s /\ clear_error x07 s = (o, s') /\ (exists evs, calls s s' evs /\ In (LWrite w None) evs) /\
  reach c /\ length w <= length (b_rbuf c) /\ pending c = map inl ([xff] ++ w) ++ [] /\
  device_read dur_34ms c = (Val (Ok (mkInstruction x07 (IClear ClearMultiTurns))), c').
Proof.
  do 3 eexists. cbv zeta. split; [apply fresh_reach; lia|]. split; [vm_compute; reflexivity|].
  split; [eexists; split; [vm_compute; reflexivity|right; left; vm_compute; reflexivity]|].
  split; [apply fresh_reach; lia|]. split; [vm_compute; lia|]. split; vm_compute; reflexivity.
Qed.

(** ** C58: synchronous writes of the wrong length. *)
Theorem C58_wrong_length : forall a n l s o s', reach s -> ~ Forall (fun e => length (sw_data e) = N.to_nat n) l ->
  sync_write_bytes a n l s = (o, s') ->
  calls s s' [] /\ (forall r, o <> Val (Ok r)) /\
  (14 + length l * (1 + N.to_nat n) <= length (b_wbuf s) ->
   (N.of_nat (length (b_wbuf s)) <= usize_max)%N -> o = Panic PAssert).
Proof. exact L_C58_wrong_length. Qed.
Print Assumptions C58_wrong_length.

Theorem C58_right_length : forall a n l s, reach s -> Forall (fun e => length (sw_data e) = N.to_nat n) l ->
  plenty_of_room s (4 + length l * (1 + N.to_nat n)) -> exists r s', sync_write_bytes a n l s = (Val r, s').
Proof. exact L_C58_right_length. Qed.
Print Assumptions C58_right_length.

Example C58_example : exists s',
  let s := fresh true [] 64 64 in let l := [mkSync x01 [x05; x06]; mkSync x02 [x07]] in
  reach s /\ ~ Forall (fun e => length (sw_data e) = N.to_nat 2) l /\ sync_write_bytes 10 2 l s = (Panic PAssert, s') /\ calls s s' [] /\
  14 + length l * (1 + N.to_nat 2) <= length (b_wbuf s) /\ (N.of_nat (length (b_wbuf s)) <= usize_max)%N /\
  Forall (fun e => length (sw_data e) = N.to_nat 2) [mkSync x01 [x05; x06]] /\ plenty_of_room s (4 + 1 * (1 + N.to_nat 2)).
Proof.
  eexists. cbv zeta. split; [apply fresh_reach; lia|].
  split. { intro F. inversion F as [|? ? _ F2]. inversion F2 as [|? ? E _]. discriminate E. }
  split; [vm_compute; reflexivity|]. split; [reflexivity|]. split; [vm_compute; lia|]. split; [vm_compute; discriminate|].
  split; [repeat constructor|]. split; [vm_compute; lia|reflexivity].
Qed.
