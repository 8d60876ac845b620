(** * Properties C33-C35: sync read, bulk read, scan *)
From Coq Require Import ZArith.
From Verif Require Import Base Endian Error Checksum Bytestuff Packet Time Bus Data Client
  Instructions Device Api Spec CallSpec StreamSpec DeviceSpec InstructionSpec TimeSpec Demo DemoProofs
  StatusProofs InstructionProofs IterTheorems ScanTheorems HintModel HintSpec HintTheorems.

(** ** C33 *)
Theorem C33_sync_read_bytes_item : forall n ids i s r it s', reach s ->
  srb_next (mkSRB n ids i) s = (Val (Some (Ok r), it), s') ->
  exists id e data, nth_error ids i = Some id /\ it = mkSRB n ids (S i) /\
    carries (pending s) id (x55 :: e :: data) (pending s') /\ no_error e /\
    length data = N.to_nat n /\ r = mkResponse id (alert_bit e) data.
Proof. exact L_C33_sync_read_bytes_item. Qed.
Print Assumptions C33_sync_read_bytes_item.

Theorem C33_sync_read_item : forall A (D : data_impl A) ids i s r it s', reach s ->
  sr_next D (mkSR ids i) s = (Val (Some (Ok r), it), s') ->
  exists id e data v, nth_error ids i = Some id /\ it = mkSR ids (S i) /\
    carries (pending s) id (x55 :: e :: data) (pending s') /\ no_error e /\
    length data = d_size D /\ d_decode D data = Val (Ok v) /\ r = mkResponse id (alert_bit e) v.
Proof. exact L_C33_sync_read_item. Qed.
Print Assumptions C33_sync_read_item.

Theorem C33_bulk_read_item : forall l i s r it s', reach s ->
  br_next (mkBR l i) s = (Val (Some (Ok r), it), s') ->
  exists q e data, nth_error l i = Some q /\ it = mkBR l (S i) /\
    carries (pending s) (br_id q) (x55 :: e :: data) (pending s') /\ no_error e /\
    length data = N.to_nat (br_count q) /\ r = mkResponse (br_id q) (alert_bit e) data.
Proof. exact L_C33_bulk_read_item. Qed.
Print Assumptions C33_bulk_read_item.

Theorem C33_sync_read_bytes : forall n ids k s xs it s', reach s ->
  nexts srb_next k (mkSRB n ids 0) s = (Val (xs, it), s') ->
  length xs = k /\ srb_remaining it = Val (length ids - k) /\
  (forall m, m < k -> match nth_error ids m with
     | None => nth_error xs m = Some None
     | Some id => exists x, nth_error xs m = Some (Some x) /\
         forall r, x = Ok r -> r_motor_id r = id /\ length (r_data r) = N.to_nat n
     end).
Proof. exact L_C33_sync_read_bytes. Qed.
Print Assumptions C33_sync_read_bytes.

Theorem C33_sync_read : forall A (D : data_impl A) ids k s xs it s', reach s ->
  nexts (sr_next D) k (mkSR ids 0) s = (Val (xs, it), s') ->
  length xs = k /\ sr_remaining it = Val (length ids - k) /\
  (forall m, m < k -> match nth_error ids m with
     | None => nth_error xs m = Some None
     | Some id => exists x, nth_error xs m = Some (Some x) /\ forall r, x = Ok r -> r_motor_id r = id
     end).
Proof. exact L_C33_sync_read. Qed.
Print Assumptions C33_sync_read.

Theorem C33_bulk_read : forall l k s xs it s', reach s ->
  nexts br_next k (mkBR l 0) s = (Val (xs, it), s') ->
  length xs = k /\ br_remaining it = Val (length l - k) /\
  (forall m, m < k -> match nth_error l m with
     | None => nth_error xs m = Some None
     | Some q => exists x, nth_error xs m = Some (Some x) /\
         forall r, x = Ok r -> r_motor_id r = br_id q /\ length (r_data r) = N.to_nat (br_count q)
     end).
Proof. exact L_C33_bulk_read. Qed.
Print Assumptions C33_bulk_read.

Theorem C33_sync_read_bytes_outcome : forall n ids s sts rest, reach s -> is_u16 n -> b_baud s <> 0%N ->
  length sts = length ids -> statuses (length (b_rbuf s)) (pending s) sts rest ->
  exists s', nexts srb_next (length ids) (mkSRB n ids 0) s =
      (Val (map (fun '(id, st) => Some (judge id (N.to_nat n) st)) (combine ids sts), mkSRB n ids (length ids)), s') /\
    pending s' = rest.
Proof. exact L_C33_sync_read_bytes_outcome. Qed.
Print Assumptions C33_sync_read_bytes_outcome.

Theorem C33_sync_read_outcome : forall A (D : data_impl A) decode ids s sts rest, reach s ->
  is_u16 (N.of_nat (d_size D)) -> b_baud s <> 0%N ->
  (forall ps, length ps = d_size D -> d_decode D ps = Val (decode ps)) ->
  length sts = length ids -> statuses (length (b_rbuf s)) (pending s) sts rest ->
  exists s', nexts (sr_next D) (length ids) (mkSR ids 0) s =
      (Val (map (fun '(id, st) => Some (judge_value decode id (d_size D) st)) (combine ids sts), mkSR ids (length ids)), s') /\
    pending s' = rest.
Proof. exact L_C33_sync_read_outcome. Qed.
Print Assumptions C33_sync_read_outcome.

Theorem C33_bulk_read_outcome : forall l s sts rest, reach s -> Forall (fun q => is_u16 (br_count q)) l ->
  b_baud s <> 0%N -> length sts = length l -> statuses (length (b_rbuf s)) (pending s) sts rest ->
  exists s', nexts br_next (length l) (mkBR l 0) s =
      (Val (map (fun '(q, st) => Some (judge (br_id q) (N.to_nat (br_count q)) st)) (combine l sts), mkBR l (length l)), s') /\
    pending s' = rest.
Proof. exact L_C33_bulk_read_outcome. Qed.
Print Assumptions C33_bulk_read_outcome.

(** [size_hint]: both bounds hold, the upper one is reached, and after the end comes nothing more. *)
Theorem C33_size_hint_bytes : forall n ids i, i <= length ids -> honest_hint srb_next srb_size_hint (mkSRB n ids i).
Proof. exact L_C33_size_hint_bytes. Qed.
Print Assumptions C33_size_hint_bytes.

Theorem C33_size_hint : forall A (D : data_impl A) ids i, i <= length ids -> honest_hint (sr_next D) sr_size_hint (mkSR ids i).
Proof. exact L_C33_size_hint. Qed.
Print Assumptions C33_size_hint.

Theorem C33_size_hint_bulk : forall l i, i <= length l -> honest_hint br_next br_size_hint (mkBR l i).
Proof. exact L_C33_size_hint_bulk. Qed.
Print Assumptions C33_size_hint_bulk.

Example C33_size_hint_example :
  srb_size_hint (mkSRB 2 [x01; x02; x03] 1) = Val (0, Some 2) /\ br_size_hint (mkBR [mkBulkRead x01 132 4] 1) = Val (0, Some 0).
Proof. split; reflexivity. Qed.

(** Three motors; the second answers with an error, the third is another one. *)
Example C33_example : exists s',
  let s := fresh true [RdData (frame x01 [STATUS; x00; x11; x22] ++ [x00] ++ frame x02 [STATUS; x04]);
                       RdData (frame x09 [STATUS; x00; x33; x44])] 64 32 in
  let sts := [(x01, x00, [x11; x22]); (x02, x04, []); (x09, x00, [x33; x44])] in
  reach s /\ is_u16 2 /\ b_baud s <> 0%N /\ statuses (length (b_rbuf s)) (pending s) sts [] /\
  nexts srb_next 4 (mkSRB 2 [x01; x02; x03] 0) s =
    (Val ([Some (Ok (mkResponse x01 false [x11; x22])); Some (Err (RMotorError x04));
           Some (Err (RInvalidMessage (IMPacketId x09 (Some x03)))); None], mkSRB 2 [x01; x02; x03] 3), s').
Proof.
  eexists. cbv zeta. split; [apply fresh_reach; lia|]. split; [reflexivity|]. split; [discriminate|].
  split; [|vm_compute; reflexivity].
  apply (sts_cons 64 [] x01 x00 [x11; x22] (frame x01 [STATUS; x00; x11; x22])
           (map inl ([x00] ++ frame x02 [STATUS; x04]) ++ map inl ([] ++ frame x09 [STATUS; x00; x33; x44]) ++ [])); demo.
  apply sts_cons; demo. apply sts_cons; demo. constructor.
Qed.

(** Values of two bytes; the second motor sets the alert bit. *)
Example C33_typed_example : exists s',
  let D := data_int false 2 in let decode := fun ps => Ok (int_value false 2 (from_le ps)) in
  let s := fresh true [RdData (frame x01 [STATUS; x00; x11; x22] ++ frame x02 [STATUS; x80; x33; x44])] 64 32 in
  let sts := [(x01, x00, [x11; x22]); (x02, x80, [x33; x44])] in
  reach s /\ is_u16 (N.of_nat (d_size D)) /\ b_baud s <> 0%N /\
  (forall ps, length ps = d_size D -> d_decode D ps = Val (decode ps)) /\ statuses (length (b_rbuf s)) (pending s) sts [] /\
  nexts (sr_next D) 2 (mkSR [x01; x02] 0) s =
    (Val ([Some (Ok (mkResponse x01 false 8721%Z)); Some (Ok (mkResponse x02 true 17459%Z))], mkSR [x01; x02] 2), s').
Proof.
  eexists. cbv zeta. split; [apply fresh_reach; lia|]. split; [reflexivity|]. split; [discriminate|].
  split; [intros [|x [|y [|]]] L; try discriminate L; reflexivity|].
  split; [|vm_compute; reflexivity].
  apply (sts_cons 64 [] x01 x00 [x11; x22] (frame x01 [STATUS; x00; x11; x22])
           (map inl ([] ++ frame x02 [STATUS; x80; x33; x44]) ++ [])); demo.
  apply sts_cons; demo. constructor.
Qed.

(** Different registers of two motors; the second sends too little. *)
Example C33_bulk_example : exists s',
  let l := [mkBulkRead x01 100 1; mkBulkRead x02 132 2] in
  let s := fresh true [RdData (frame x01 [STATUS; x00; x11]); RdData (frame x02 [STATUS; x00; x33])] 64 32 in
  let sts := [(x01, x00, [x11]); (x02, x00, [x33])] in
  reach s /\ Forall (fun q => is_u16 (br_count q)) l /\ b_baud s <> 0%N /\ statuses (length (b_rbuf s)) (pending s) sts [] /\
  nexts br_next 3 (mkBR l 0) s =
    (Val ([Some (Ok (mkResponse x01 false [x11])); Some (Err (RInvalidMessage (IMParameterCount 1 (Exact 2)))); None], mkBR l 2), s').
Proof.
  eexists. cbv zeta. split; [apply fresh_reach; lia|]. split; [constructor; [reflexivity|constructor; [reflexivity|constructor]]|].
  split; [discriminate|]. split; [|vm_compute; reflexivity].
  apply (sts_cons 64 [] x01 x00 [x11] (frame x01 [STATUS; x00; x11]) (map inl ([] ++ frame x02 [STATUS; x00; x33]) ++ [])); demo.
  apply sts_cons; demo. constructor.
Qed.

(** ** C34 *)
Theorem C34_sync_read_bytes : forall n ids k s xs s', reach s ->
  take_then_drop srb_next srb_drop k (mkSRB n ids 0) s = (Val xs, s') ->
  exists evs, calls s s' evs /\ status_reads evs = length ids /\ Forall only_reads evs.
Proof. exact L_C34_sync_read_bytes. Qed.
Print Assumptions C34_sync_read_bytes.

Theorem C34_sync_read : forall A (D : data_impl A) ids k s xs s', reach s ->
  take_then_drop (sr_next D) (sr_drop D) k (mkSR ids 0) s = (Val xs, s') ->
  exists evs, calls s s' evs /\ status_reads evs = length ids /\ Forall only_reads evs.
Proof. exact L_C34_sync_read. Qed.
Print Assumptions C34_sync_read.

Theorem C34_bulk_read : forall l k s xs s', reach s ->
  take_then_drop br_next br_drop k (mkBR l 0) s = (Val xs, s') ->
  exists evs, calls s s' evs /\ status_reads evs = length l /\ Forall only_reads evs.
Proof. exact L_C34_bulk_read. Qed.
Print Assumptions C34_bulk_read.

Theorem C34_line_is_drained_sync_bytes : forall n ids k s sts rest, reach s -> is_u16 n -> b_baud s <> 0%N ->
  k <= length ids -> length sts = length ids -> statuses (length (b_rbuf s)) (pending s) sts rest ->
  exists s', take_then_drop srb_next srb_drop k (mkSRB n ids 0) s =
      (Val (map (fun '(id, st) => Some (judge id (N.to_nat n) st)) (firstn k (combine ids sts))), s') /\
    pending s' = rest.
Proof. exact L_C34_line_is_drained_sync_bytes. Qed.
Print Assumptions C34_line_is_drained_sync_bytes.

Theorem C34_line_is_drained_sync : forall A (D : data_impl A) decode ids k s sts rest, reach s ->
  is_u16 (N.of_nat (d_size D)) -> b_baud s <> 0%N ->
  (forall ps, length ps = d_size D -> d_decode D ps = Val (decode ps)) ->
  k <= length ids -> length sts = length ids -> statuses (length (b_rbuf s)) (pending s) sts rest ->
  exists s', take_then_drop (sr_next D) (sr_drop D) k (mkSR ids 0) s =
      (Val (map (fun '(id, st) => Some (judge_value decode id (d_size D) st)) (firstn k (combine ids sts))), s') /\
    pending s' = rest.
Proof. exact L_C34_line_is_drained_sync. Qed.
Print Assumptions C34_line_is_drained_sync.

Theorem C34_line_is_drained_bulk : forall l k s sts rest, reach s -> Forall (fun q => is_u16 (br_count q)) l ->
  b_baud s <> 0%N -> k <= length l -> length sts = length l ->
  statuses (length (b_rbuf s)) (pending s) sts rest ->
  exists s', take_then_drop br_next br_drop k (mkBR l 0) s =
      (Val (map (fun '(q, st) => Some (judge (br_id q) (N.to_nat (br_count q)) st)) (firstn k (combine l sts))), s') /\
    pending s' = rest.
Proof. exact L_C34_line_is_drained_bulk. Qed.
Print Assumptions C34_line_is_drained_bulk.

(** One of three answers is taken, the iterator dropped: the next packet is intact. *)
Example C34_example : exists s',
  let s := fresh true [RdData (frame x01 [STATUS; x00; x11] ++ frame x02 [STATUS; x00; x22]);
                       RdData (frame x03 [STATUS; x00; x33]); RdData (frame x04 [STATUS; x00])] 64 32 in
  take_then_drop srb_next srb_drop 1 (mkSRB 1 [x01; x02; x03] 0) s =
    (Val [Some (Ok (mkResponse x01 false [x11]))], s') /\
  pending s' = map inl (frame x04 [STATUS; x00]).
Proof. eexists. cbv zeta. split; vm_compute; reflexivity. Qed.

(** The same with typed and bulk reads. *)
Example C34_other_iterators_example : exists s' s'',
  let s := fresh true [RdData (frame x01 [STATUS; x00; x11] ++ frame x02 [STATUS; x00; x22]); RdData (frame x04 [STATUS; x00])] 64 32 in
  let sts := [(x01, x00, [x11]); (x02, x00, [x22])] in
  reach s /\ b_baud s <> 0%N /\ statuses (length (b_rbuf s)) (pending s) sts (map inl (frame x04 [STATUS; x00])) /\
  take_then_drop (sr_next (data_int true 1)) (sr_drop (data_int true 1)) 1 (mkSR [x01; x02] 0) s =
    (Val [Some (Ok (mkResponse x01 false 17%Z))], s') /\ pending s' = map inl (frame x04 [STATUS; x00]) /\
  take_then_drop br_next br_drop 0 (mkBR [mkBulkRead x01 100 1; mkBulkRead x02 101 1] 0) s = (Val [], s'') /\
  pending s'' = map inl (frame x04 [STATUS; x00]).
Proof.
  do 2 eexists. cbv zeta. split; [apply fresh_reach; lia|]. split; [discriminate|]. split.
  - apply (sts_cons 64 [] x01 x00 [x11] (frame x01 [STATUS; x00; x11])
      (map inl ([] ++ frame x02 [STATUS; x00; x22]) ++ map inl (frame x04 [STATUS; x00]))); demo.
    apply sts_cons; demo. constructor.
  - split; [vm_compute; reflexivity|]. split; [vm_compute; reflexivity|]. split; vm_compute; reflexivity.
Qed.

(** ** C35.  Refuted: with a read buffer that is too small the drop never ends. *)
Theorem C35_ends_at_timeout : forall s s', reach s -> scan_next s = (Val None, s') ->
  exists e u g c rest, is_timeout_error e = true /\ pending s = map inl u ++ inr e :: rest /\
    garbage_split u g c /\ pending s' = map inl c ++ rest.
Proof. exact L_C35_ends_at_timeout. Qed.
Print Assumptions C35_ends_at_timeout.

Theorem C35_timeout_is_never_an_item : forall s e s', scan_next s = (Val (Some (Err (RIo e))), s') ->
  is_timeout_error e = false.
Proof. exact L_C35_timeout_is_never_an_item. Qed.
Print Assumptions C35_timeout_is_never_an_item.

Theorem C35_item : forall s r s', reach s -> scan_next s = (Val (Some (Ok r)), s') ->
  exists id e m0 m1 f, carries (pending s) id [x55; e; m0; m1; f] (pending s') /\ no_error e /\
    r = mkResponse id (alert_bit e) (mkPing (b2n m0 + 256 * b2n m1) f).
Proof. exact L_C35_item. Qed.
Print Assumptions C35_item.

Theorem C35_complete_scan : forall sts s g e rest, reach s -> b_baud s <> 0%N -> (b_baud s < 2 ^ 32)%N ->
  10 <= length (b_rbuf s) -> ~ contains g header -> is_timeout_error e = true ->
  statuses (length (b_rbuf s)) (pending s) sts (map inl g ++ inr e :: rest) ->
  exists s' g' c, scan_nexts (length sts + 1) s = (Val (map (fun st => Some (judge_ping st)) sts ++ [None]), s') /\
    garbage_split g g' c /\ pending s' = map inl c ++ rest.
Proof. exact L_C35_complete_scan. Qed.
Print Assumptions C35_complete_scan.

Theorem C35_drop_reads_up_to_timeout : forall sts s g e rest, reach s -> b_baud s <> 0%N -> (b_baud s < 2 ^ 32)%N ->
  10 <= length (b_rbuf s) -> ~ contains g header -> is_timeout_error e = true ->
  statuses (length (b_rbuf s)) (pending s) sts (map inl g ++ inr e :: rest) ->
  exists s' g' c, scan_drop (length sts + 1) s = (Val true, s') /\
    garbage_split g g' c /\ pending s' = map inl c ++ rest.
Proof. exact L_C35_drop_reads_up_to_timeout. Qed.
Print Assumptions C35_drop_reads_up_to_timeout.

Theorem C35_drop_ends_partial : forall s, reach s -> 10 <= length (b_rbuf s) ->
  exists n, forall m, n <= m -> fst (scan_drop m s) <> Val false.
Proof. exact L_C35_drop_ends_partial. Qed.
Print Assumptions C35_drop_ends_partial.

Theorem C35_drop_ends_refuted :
  ~ (forall s, reach s -> exists n, forall m, n <= m -> fst (scan_drop m s) <> Val false).
Proof. exact L_C35_drop_ends_refuted. Qed.
Print Assumptions C35_drop_ends_refuted.

Theorem C35_small_buffer_never_ends : forall n s, reach s -> b_baud s <> 0%N -> (b_baud s < 2 ^ 32)%N ->
  length (b_rbuf s) < 10 -> fst (scan_drop n s) = Val false.
Proof. exact L_C35_small_buffer_never_ends. Qed.
Print Assumptions C35_small_buffer_never_ends.

Theorem C35_errors_do_not_end_it : forall n s e rest, reach s -> b_baud s <> 0%N -> (b_baud s < 2 ^ 32)%N ->
  10 <= length (b_rbuf s) -> is_timeout_error e = false -> pending s = repeat (inr e) n ++ rest ->
  fst (scan_drop n s) = Val false.
Proof. exact L_C35_errors_do_not_end_it. Qed.
Print Assumptions C35_errors_do_not_end_it.

Example C35_example : exists s1 s2 c,
  let s := fresh true [RdData (frame x01 [STATUS; x00; x06; x04; x26] ++ frame x02 [STATUS; x80; x06; x04; x27]);
                       RdErr (IoTimeout 1); RdData (frame x03 [STATUS; x00])] 64 32 in
  let sts := [(x01, x00, [x06; x04; x26]); (x02, x80, [x06; x04; x27])] in
  reach s /\ b_baud s <> 0%N /\ (b_baud s < 2 ^ 32)%N /\ 10 <= length (b_rbuf s) /\
  is_timeout_error (IoTimeout 1) = true /\
  statuses (length (b_rbuf s)) (pending s) sts (map inl [] ++ inr (IoTimeout 1) :: map inl (frame x03 [STATUS; x00])) /\
  scan_nexts 3 s = (Val [Some (Ok (mkResponse x01 false (mkPing 1030 x26)));
                         Some (Ok (mkResponse x02 true (mkPing 1030 x27))); None], s1) /\
  scan_drop 3 s = (Val true, s2) /\ pending s2 = map inl c ++ map inl (frame x03 [STATUS; x00]) /\ c = [].
Proof.
  do 3 eexists. cbv zeta. split; [apply fresh_reach; lia|]. split; [discriminate|]. split; [reflexivity|].
  split; [vm_compute; lia|]. split; [reflexivity|]. split.
  - apply (sts_cons 64 [] x01 x00 [x06; x04; x26] (frame x01 [STATUS; x00; x06; x04; x26])
      (map inl ([] ++ frame x02 [STATUS; x80; x06; x04; x27]) ++
       map inl [] ++ inr (IoTimeout 1) :: map inl (frame x03 [STATUS; x00]))); demo.
    apply sts_cons; demo. constructor.
  - split; [vm_compute; reflexivity|]. split; [vm_compute; reflexivity|]. split; [|reflexivity]. vm_compute. reflexivity.
Qed.

Example C35_small_buffer_example :
  let s := fresh true [RdErr (IoTimeout 1)] 9 32 in
  reach s /\ b_baud s <> 0%N /\ (b_baud s < 2 ^ 32)%N /\ length (b_rbuf s) < 10 /\ fst (scan_drop 100 s) = Val false.
Proof.
  cbv zeta. split; [apply fresh_reach; lia|]. split; [discriminate|]. split; [reflexivity|].
  split; [vm_compute; lia|]. vm_compute. reflexivity.
Qed.

(** Two errors of the port: the drop goes on. *)
Example C35_errors_example : exists rest,
  let s := fresh true [RdErr (IoOther 5); RdErr (IoOther 5); RdErr (IoTimeout 1)] 32 32 in
  reach s /\ b_baud s <> 0%N /\ (b_baud s < 2 ^ 32)%N /\ 10 <= length (b_rbuf s) /\ is_timeout_error (IoOther 5) = false /\
  pending s = repeat (inr (IoOther 5)) 2 ++ rest /\ fst (scan_drop 2 s) = Val false /\ fst (scan_drop 3 s) = Val true.
Proof.
  eexists. cbv zeta. split; [apply fresh_reach; lia|]. split; [discriminate|]. split; [reflexivity|].
  split; [vm_compute; lia|]. split; [reflexivity|]. split; [vm_compute; reflexivity|]. split; vm_compute; reflexivity.
Qed.
