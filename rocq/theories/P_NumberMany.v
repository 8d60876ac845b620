(** * Property C84: exactly which data can be exchanged with many motors at once *)
From Coq Require Import ZArith.
From Verif Require Import Base Error Packet Time Bus Data Client Instructions Device Spec Api CallSpec StreamSpec
  DeviceSpec InstructionSpec DataSpec CostSpec NumberSpec NumberManySpec Demo DemoProofs NumberManyTheorems.

(** ** C84, writing to many motors: the packet is the one of the protocol if and only if
    no FF FF FD is overlooked in the data of any motor; nothing depends on neighbours. *)
Theorem C84_sync_write : forall a n l s o s' evs wire r, (a < 65280)%N -> is_u16 n ->
  Forall (fun x => motor_id (sw_id x) /\ length (sw_data x) = N.to_nat n) l ->
  reach s -> sync_write_bytes a n l s = (o, s') -> calls s s' evs -> In (LWrite wire r) evs ->
  (is_frame xfe (x83 :: le16 a ++ le16 n ++ sync_entries l) wire <->
   Forall (fun x => ff_runs_ok (sw_data x)) l /\
   (N.of_nat (length (pstuff (x83 :: le16 a ++ le16 n ++ sync_entries l)) + 2) < 2 ^ 16)%N).
Proof. exact L_C84_sync_write. Qed.
Print Assumptions C84_sync_write.

Theorem C84_bulk_write : forall l s o s' evs wire r,
  Forall (fun x => motor_id (bw_id x) /\ (bw_address x < 65280)%N /\ (N.of_nat (length (bw_data x)) < 65280)%N) l ->
  reach s -> bulk_write l s = (o, s') -> calls s s' evs -> In (LWrite wire r) evs ->
  (is_frame xfe (x93 :: bulk_write_entries l) wire <->
   Forall (fun x => ff_runs_ok (bw_data x)) l /\
   (N.of_nat (length (pstuff (x93 :: bulk_write_entries l)) + 2) < 2 ^ 16)%N).
Proof. exact L_C84_bulk_write. Qed.
Print Assumptions C84_bulk_write.

(** One goal position per motor: the single awkward value spoils the packet for all. *)
Theorem C84_sync_write_numbers : forall signed w a l vs s o s' evs wire r, In w [1; 2; 4] -> (a < 65280)%N ->
  Forall2 (fun x v => motor_id (sw_id x) /\ int_bytes signed w v (sw_data x)) l vs -> length l <= 253 ->
  reach s -> sync_write_bytes a (N.of_nat w) l s = (o, s') -> calls s s' evs -> In (LWrite wire r) evs ->
  (is_frame xfe (x83 :: le16 a ++ le16 (N.of_nat w) ++ sync_entries l) wire <-> Forall (fun v => ~ awkward signed w v) vs).
Proof. exact L_C84_sync_write_numbers. Qed.
Print Assumptions C84_sync_write_numbers.

Example C84_sync_write_example : exists o s' evs wire, let s := fresh true [] 32 64 in
  let l := [mkSync x01 [xff; xff; xff; xff]; mkSync x02 [xff; xff; xff; xfd]] in
  sync_write_bytes 116 4 l s = (o, s') /\ calls s s' evs /\ In (LWrite wire None) evs /\ reach s /\
  Forall2 (fun x v => motor_id (sw_id x) /\ int_bytes true 4 v (sw_data x)) l [(-1)%Z; (-33554433)%Z] /\
  awkward true 4 (-33554433)%Z /\ ~ awkward true 4 (-1)%Z.
Proof.
  do 4 eexists. cbv zeta. split; [apply surjective_pairing|]. split; [vm_compute; reflexivity|].
  split; [right; left; reflexivity|]. split; [apply fresh_reach; lia|]. split; [|split].
  - apply Forall2_cons; [|apply Forall2_cons; [|apply Forall2_nil]];
      (split; [vm_compute; discriminate|]; split; [vm_compute; split; [discriminate|reflexivity]|]; split; [reflexivity|]).
    + exists (-1)%Z. vm_compute. reflexivity.
    + exists (-1)%Z. vm_compute. reflexivity.
  - split; reflexivity.
  - intros [_ K]. discriminate K.
Qed.

(** ** C84, reading from many motors: every item is exactly the data of the motor asked, or
    the report that there are too many parameters; the items after it are not affected. *)
Theorem C84_sync_read_bytes : forall ids a n s sts rest, reach s -> plenty_of_room s (4 + length ids) -> port_ready s ->
  b_baud s <> 0%N -> is_u16 n -> Forall2 (fun id => answers id (N.to_nat n)) ids sts ->
  motors_send (length (b_rbuf s)) (incoming s) sts rest ->
  exists it s1, sync_read_bytes ids a n s = (Val (Ok it), s1) /\
  exists xs it' s', nexts srb_next (length ids) it s1 = (Val (xs, it'), s') /\ pending s' = rest /\
    Forall2 (received (fun ps => ps)) sts xs.
Proof. exact L_C84_sync_read_bytes. Qed.
Print Assumptions C84_sync_read_bytes.

Theorem C84_sync_read : forall A (D : data_impl A) V Rep value ids a s sts rest,
  crate_type D V Rep -> is_u16 (N.of_nat (d_size D)) ->
  reach s -> plenty_of_room s (4 + length ids) -> port_ready s -> b_baud s <> 0%N ->
  Forall2 (fun id st => answers id (d_size D) st /\ Rep (value (snd st)) (snd st)) ids sts ->
  motors_send (length (b_rbuf s)) (incoming s) sts rest ->
  exists it s1, sync_read D ids a s = (Val (Ok it), s1) /\
  exists xs it' s', nexts (sr_next D) (length ids) it s1 = (Val (xs, it'), s') /\ pending s' = rest /\
    Forall2 (received value) sts xs.
Proof. exact L_C84_sync_read. Qed.
Print Assumptions C84_sync_read.

Theorem C84_bulk_read : forall l s sts rest, NoDup (map br_id l) -> Forall (fun q => is_u16 (br_count q)) l ->
  reach s -> plenty_of_room s (5 * length l) -> port_ready s -> b_baud s <> 0%N ->
  Forall2 (fun q => answers (br_id q) (N.to_nat (br_count q))) l sts ->
  motors_send (length (b_rbuf s)) (incoming s) sts rest ->
  exists it s1, bulk_read_bytes l s = (Val (Ok it), s1) /\
  exists xs it' s', nexts br_next (length l) it s1 = (Val (xs, it'), s') /\ pending s' = rest /\
    Forall2 (received (fun ps => ps)) sts xs.
Proof. exact L_C84_bulk_read. Qed.
Print Assumptions C84_bulk_read.

Example C84_sync_read_example : exists s1 it s2,
  let line := frame x01 [x55; x00; xff; xff; xff; xfd] ++ frame x02 [x55; x80; x2a; x00; x00; x00] in
  let sts := [(x01, x00, [xff; xff; xff; xfd]); (x02, x80, [x2a; x00; x00; x00])] in
  let s := fresh true [RdData line] 32 64 in
  plenty_of_room s (4 + 2) /\ port_ready s /\ motors_send 32 (incoming s) sts [] /\
  Forall2 (fun id st => answers id 4 st) [x01; x02] sts /\
  sync_read (data_int true 4) [x01; x02] 132 s = (Val (Ok (mkSR [x01; x02] 0)), s1) /\
  nexts (sr_next (data_int true 4)) 2 (mkSR [x01; x02] 0) s1 =
    (Val ([Some (Err (RInvalidMessage (IMParameterCount 5 (Exact 4)))); Some (Ok (mkResponse x02 true 42%Z))], it), s2).
Proof.
  do 3 eexists. cbv zeta. split; [|split; [|split; [|split; [|split]]]].
  - split; [vm_compute; repeat constructor|reflexivity].
  - split; reflexivity.
  - apply (ms_cons 32 [] x01 x00 [xff; xff; xff; xfd] (frame x01 [x55; x00; xff; xff; xff; xfd])
      (map inl ([] ++ frame x02 [x55; x80; x2a; x00; x00; x00]) ++ [])).
    { intros [[|? ?] [? K]]; discriminate K. }
    { apply frame_ok; reflexivity. }
    { vm_compute; repeat constructor. }
    apply ms_cons.
    { intros [[|? ?] [? K]]; discriminate K. }
    { apply frame_ok; reflexivity. }
    { vm_compute; repeat constructor. }
    apply ms_nil.
  - repeat constructor.
  - vm_compute. reflexivity.
  - vm_compute. reflexivity.
Qed.
