(** * Properties C33-C35: sync read, bulk read, scan *)
From Coq Require Import ZArith.
From Verif Require Import Base Endian Error Checksum Bytestuff Packet Time Bus Data Client
  Instructions Device Api Spec CallSpec StreamSpec DeviceSpec InstructionSpec TimeSpec Demo DemoProofs
  StatusProofs InstructionProofs IterTheorems ScanTheorems HintModel HintSpec HintTheorems.

(** ** C33 *)
@C33_sync_read_bytes_item

@C33_sync_read_item

@C33_bulk_read_item

@C33_sync_read_bytes

@C33_sync_read

@C33_bulk_read

@C33_sync_read_bytes_outcome

@C33_sync_read_outcome

@C33_bulk_read_outcome

(** [size_hint]: both bounds hold, the upper one is reached, and after the end comes nothing more. *)
@C33_size_hint_bytes

@C33_size_hint

@C33_size_hint_bulk

Example C33_size_hint_example :
  srb_size_hint (mkSRB 2 [x01; x02; x03] 1) = Val (0, Some 2) /\ br_size_hint (mkBR [mkBulkRead x01 132 4] 1) = Val (0, Some 0).
Proof. split; reflexivity. Qed.

(** Three motors; the second answers with an error, the third is another one. *)
Example C33_example : exists s',
  let s := fresh true [RdData (frame x01 [STATUS; x00; x11; x22] ++ [x00] ++ frame x02 [STATUS; x04]);
                       RdData (frame x09 [STATUS; x00; x33; x44])] 64 32 in
  let sts := [(x01, x00, [x11; x22]); (x02, x04, []); (x09, x00, [x33; x44])] in
  reach s /\ is_u16 2 /\ b_baud s <> 0%N /\ statuses (length (b_rbuf s)) (pending s) sts [] /\
  nexts srb_next 4 (mkSRB 2 [x01; x02; x03] 0) s =
    (Val ([Some (Ok (mkResponse x01 false [x11; x22])); Some (Err (RMotorError x04));
           Some (Err (RInvalidMessage (IMPacketId x09 (Some x03)))); None], mkSRB 2 [x01; x02; x03] 3), s').
Proof.
  eexists. cbv zeta. split; [apply fresh_reach; lia|]. split; [reflexivity|]. split; [discriminate|].
  split; [|vm_compute; reflexivity].
  apply (sts_cons 64 [] x01 x00 [x11; x22] (frame x01 [STATUS; x00; x11; x22])
           (map inl ([x00] ++ frame x02 [STATUS; x04]) ++ map inl ([] ++ frame x09 [STATUS; x00; x33; x44]) ++ [])); demo.
  apply sts_cons; demo. apply sts_cons; demo. constructor.
Qed.

(** Values of two bytes; the second motor sets the alert bit. *)
Example C33_typed_example : exists s',
  let D := data_int false 2 in let decode := fun ps => Ok (int_value false 2 (from_le ps)) in
  let s := fresh true [RdData (frame x01 [STATUS; x00; x11; x22] ++ frame x02 [STATUS; x80; x33; x44])] 64 32 in
  let sts := [(x01, x00, [x11; x22]); (x02, x80, [x33; x44])] in
  reach s /\ is_u16 (N.of_nat (d_size D)) /\ b_baud s <> 0%N /\
  (forall ps, length ps = d_size D -> d_decode D ps = Val (decode ps)) /\ statuses (length (b_rbuf s)) (pending s) sts [] /\
  nexts (sr_next D) 2 (mkSR [x01; x02] 0) s =
    (Val ([Some (Ok (mkResponse x01 false 8721%Z)); Some (Ok (mkResponse x02 true 17459%Z))], mkSR [x01; x02] 2), s').
Proof.
  eexists. cbv zeta. split; [apply fresh_reach; lia|]. split; [reflexivity|]. split; [discriminate|].
  split; [intros [|x [|y [|]]] L; try discriminate L; reflexivity|].
  split; [|vm_compute; reflexivity].
  apply (sts_cons 64 [] x01 x00 [x11; x22] (frame x01 [STATUS; x00; x11; x22])
           (map inl ([] ++ frame x02 [STATUS; x80; x33; x44]) ++ [])); demo.
  apply sts_cons; demo. constructor.
Qed.

(** Different registers of two motors; the second sends too little. *)
Example C33_bulk_example : exists s',
  let l := [mkBulkRead x01 100 1; mkBulkRead x02 132 2] in
  let s := fresh true [RdData (frame x01 [STATUS; x00; x11]); RdData (frame x02 [STATUS; x00; x33])] 64 32 in
  let sts := [(x01, x00, [x11]); (x02, x00, [x33])] in
  reach s /\ Forall (fun q => is_u16 (br_count q)) l /\ b_baud s <> 0%N /\ statuses (length (b_rbuf s)) (pending s) sts [] /\
  nexts br_next 3 (mkBR l 0) s =
    (Val ([Some (Ok (mkResponse x01 false [x11])); Some (Err (RInvalidMessage (IMParameterCount 1 (Exact 2)))); None], mkBR l 2), s').
Proof.
  eexists. cbv zeta. split; [apply fresh_reach; lia|]. split; [constructor; [reflexivity|constructor; [reflexivity|constructor]]|].
  split; [discriminate|]. split; [|vm_compute; reflexivity].
  apply (sts_cons 64 [] x01 x00 [x11] (frame x01 [STATUS; x00; x11]) (map inl ([] ++ frame x02 [STATUS; x00; x33]) ++ [])); demo.
  apply sts_cons; demo. constructor.
Qed.

(** ** C34 *)
@C34_sync_read_bytes

@C34_sync_read

@C34_bulk_read

@C34_line_is_drained_sync_bytes

@C34_line_is_drained_sync

@C34_line_is_drained_bulk

(** One of three answers is taken, the iterator dropped: the next packet is intact. *)
Example C34_example : exists s',
  let s := fresh true [RdData (frame x01 [STATUS; x00; x11] ++ frame x02 [STATUS; x00; x22]);
                       RdData (frame x03 [STATUS; x00; x33]); RdData (frame x04 [STATUS; x00])] 64 32 in
  take_then_drop srb_next srb_drop 1 (mkSRB 1 [x01; x02; x03] 0) s =
    (Val [Some (Ok (mkResponse x01 false [x11]))], s') /\
  pending s' = map inl (frame x04 [STATUS; x00]).
Proof. eexists. cbv zeta. split; vm_compute; reflexivity. Qed.

(** The same with typed and bulk reads. *)
Example C34_other_iterators_example : exists s' s'',
  let s := fresh true [RdData (frame x01 [STATUS; x00; x11] ++ frame x02 [STATUS; x00; x22]); RdData (frame x04 [STATUS; x00])] 64 32 in
  let sts := [(x01, x00, [x11]); (x02, x00, [x22])] in
  reach s /\ b_baud s <> 0%N /\ statuses (length (b_rbuf s)) (pending s) sts (map inl (frame x04 [STATUS; x00])) /\
  take_then_drop (sr_next (data_int true 1)) (sr_drop (data_int true 1)) 1 (mkSR [x01; x02] 0) s =
    (Val [Some (Ok (mkResponse x01 false 17%Z))], s') /\ pending s' = map inl (frame x04 [STATUS; x00]) /\
  take_then_drop br_next br_drop 0 (mkBR [mkBulkRead x01 100 1; mkBulkRead x02 101 1] 0) s = (Val [], s'') /\
  pending s'' = map inl (frame x04 [STATUS; x00]).
Proof.
  do 2 eexists. cbv zeta. split; [apply fresh_reach; lia|]. split; [discriminate|]. split.
  - apply (sts_cons 64 [] x01 x00 [x11] (frame x01 [STATUS; x00; x11])
      (map inl ([] ++ frame x02 [STATUS; x00; x22]) ++ map inl (frame x04 [STATUS; x00]))); demo.
    apply sts_cons; demo. constructor.
  - split; [vm_compute; reflexivity|]. split; [vm_compute; reflexivity|]. split; vm_compute; reflexivity.
Qed.

(** ** C35.  Refuted: with a read buffer that is too small the drop never ends. *)
@C35_ends_at_timeout

@C35_timeout_is_never_an_item

@C35_item

@C35_complete_scan

@C35_drop_reads_up_to_timeout

@C35_drop_ends_partial

@C35_drop_ends_refuted

@C35_small_buffer_never_ends

@C35_errors_do_not_end_it

Example C35_example : exists s1 s2 c,
  let s := fresh true [RdData (frame x01 [STATUS; x00; x06; x04; x26] ++ frame x02 [STATUS; x80; x06; x04; x27]);
                       RdErr (IoTimeout 1); RdData (frame x03 [STATUS; x00])] 64 32 in
  let sts := [(x01, x00, [x06; x04; x26]); (x02, x80, [x06; x04; x27])] in
  reach s /\ b_baud s <> 0%N /\ (b_baud s < 2 ^ 32)%N /\ 10 <= length (b_rbuf s) /\
  is_timeout_error (IoTimeout 1) = true /\
  statuses (length (b_rbuf s)) (pending s) sts (map inl [] ++ inr (IoTimeout 1) :: map inl (frame x03 [STATUS; x00])) /\
  scan_nexts 3 s = (Val [Some (Ok (mkResponse x01 false (mkPing 1030 x26)));
                         Some (Ok (mkResponse x02 true (mkPing 1030 x27))); None], s1) /\
  scan_drop 3 s = (Val true, s2) /\ pending s2 = map inl c ++ map inl (frame x03 [STATUS; x00]) /\ c = [].
Proof.
  do 3 eexists. cbv zeta. split; [apply fresh_reach; lia|]. split; [discriminate|]. split; [reflexivity|].
  split; [vm_compute; lia|]. split; [reflexivity|]. split.
  - apply (sts_cons 64 [] x01 x00 [x06; x04; x26] (frame x01 [STATUS; x00; x06; x04; x26])
      (map inl ([] ++ frame x02 [STATUS; x80; x06; x04; x27]) ++
       map inl [] ++ inr (IoTimeout 1) :: map inl (frame x03 [STATUS; x00]))); demo.
    apply sts_cons; demo. constructor.
  - split; [vm_compute; reflexivity|]. split; [vm_compute; reflexivity|]. split; [|reflexivity]. vm_compute. reflexivity.
Qed.

Example C35_small_buffer_example :
  let s := fresh true [RdErr (IoTimeout 1)] 9 32 in
  reach s /\ b_baud s <> 0%N /\ (b_baud s < 2 ^ 32)%N /\ length (b_rbuf s) < 10 /\ fst (scan_drop 100 s) = Val false.
Proof.
  cbv zeta. split; [apply fresh_reach; lia|]. split; [discriminate|]. split; [reflexivity|].
  split; [vm_compute; lia|]. vm_compute. reflexivity.
Qed.

(** Two errors of the port: the drop goes on. *)
Example C35_errors_example : exists rest,
  let s := fresh true [RdErr (IoOther 5); RdErr (IoOther 5); RdErr (IoTimeout 1)] 32 32 in
  reach s /\ b_baud s <> 0%N /\ (b_baud s < 2 ^ 32)%N /\ 10 <= length (b_rbuf s) /\ is_timeout_error (IoOther 5) = false /\
  pending s = repeat (inr (IoOther 5)) 2 ++ rest /\ fst (scan_drop 2 s) = Val false /\ fst (scan_drop 3 s) = Val true.
Proof.
  eexists. cbv zeta. split; [apply fresh_reach; lia|]. split; [discriminate|]. split; [reflexivity|].
  split; [vm_compute; lia|]. split; [reflexivity|]. split; [vm_compute; reflexivity|]. split; vm_compute; reflexivity.
Qed.
