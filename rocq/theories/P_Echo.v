(** * Property C75: lines that return what the client transmits *)
From Coq Require Import ZArith.
From Verif Require Import Base Endian Error Checksum Bytestuff Packet Time Bus Data Client
  Instructions Device Api Spec CallSpec StreamSpec DeviceSpec InstructionSpec RemoteSpec SlotSpec TurnSpec Demo CrcErrorProofs
  DemoProofs EchoSpec EchoTheorems.

(** ** C75.  A call that waits for an answer reports the echo, possibly after noise, as what it is.  The answer
    stays unread; the next transmission discards it (C13). *)
Theorem C75_answer : forall B (m : M (result B transfer_error)) id i params cap s o s' evs g rest,
  asks m id i params -> ready cap s -> fits cap (i :: params) ->
  m s = (o, s') -> calls s s' evs -> ~ contains g header -> incoming s = map inl (g ++ transmitted evs) ++ rest ->
  o = Val (Err (TReadError (own_echo i))) /\ pending s' = rest.
Proof. exact L_C75_answer. Qed.
Print Assumptions C75_answer.

(** Motor 1 is pinged, and its answer follows the echo. *)
Example C75_example : exists s' evs,
  let s := fresh true [RdData ([x07] ++ frame x01 [PING]); RdData (frame x01 [STATUS; x00; x06; x04; x26])] 64 32 in
  asks (ping x01) x01 x01 [] /\ ready 32 s /\ fits 32 [x01] /\
  ping x01 s = (Val (Err (TReadError (RInvalidMessage (IMInstruction PING STATUS)))), s') /\ calls s s' evs /\
  incoming s = map inl ([x07] ++ transmitted evs) ++ map inl (frame x01 [STATUS; x00; x06; x04; x26]) /\
  pending s' = map inl (frame x01 [STATUS; x00; x06; x04; x26]).
Proof.
  do 2 eexists. cbv zeta. split; [apply as_ping|].
  split; [split; [apply fresh_reach; lia|vm_compute; intuition (discriminate || lia)]|].
  split; [vm_compute; intuition lia|]. split; [vm_compute; reflexivity|]. split; [vm_compute; reflexivity|].
  split; vm_compute; reflexivity.
Qed.

(** In a sync or bulk read the echo takes the place of the first answer, and every answer that of the next: not one
    motor is reported as read. *)
Theorem C75_sync_read_bytes : forall ids a n cap s it s1 evs g line sts lst rest,
  ready cap s -> 10 <= cap -> is_u16 n -> NoDup ids -> fits cap (sync_read_message ids a n) ->
  ff_runs_ok (sync_read_message ids a n) ->
  sync_read_bytes ids a n s = (Val (Ok it), s1) -> calls s s1 evs ->
  ~ contains g header -> incoming s = map inl (g ++ transmitted evs) ++ line ->
  ids = map (fun st => fst (fst st)) sts ++ [lst] -> statuses (length (b_rbuf s)) line sts rest ->
  exists xs s2, take_then_drop srb_next srb_drop (length ids) it s1 = (Val xs, s2) /\
    length xs = length ids /\ hd None xs = Some (Err (own_echo x82)) /\ Forall failed xs /\ pending s2 = rest.
Proof. exact L_C75_sync_read_bytes. Qed.
Print Assumptions C75_sync_read_bytes.
Theorem C75_sync_read : forall A (D : data_impl A) decode ids a cap s it s1 evs g line sts lst rest,
  ready cap s -> 10 <= cap -> is_u16 (N.of_nat (d_size D)) ->
  (forall ps, length ps = d_size D -> d_decode D ps = Val (decode ps)) ->
  NoDup ids -> fits cap (sync_read_message ids a (N.of_nat (d_size D))) ->
  ff_runs_ok (sync_read_message ids a (N.of_nat (d_size D))) ->
  sync_read D ids a s = (Val (Ok it), s1) -> calls s s1 evs ->
  ~ contains g header -> incoming s = map inl (g ++ transmitted evs) ++ line ->
  ids = map (fun st => fst (fst st)) sts ++ [lst] -> statuses (length (b_rbuf s)) line sts rest ->
  exists xs s2, take_then_drop (sr_next D) (sr_drop D) (length ids) it s1 = (Val xs, s2) /\
    length xs = length ids /\ hd None xs = Some (Err (own_echo x82)) /\ Forall failed xs /\ pending s2 = rest.
Proof. exact L_C75_sync_read. Qed.
Print Assumptions C75_sync_read.
Theorem C75_bulk_read : forall qs cap s it s1 evs g line sts lst rest,
  ready cap s -> 10 <= cap -> Forall (fun q => is_u16 (br_count q)) qs -> NoDup (map br_id qs) ->
  fits cap (bulk_read_message qs) -> ff_runs_ok (bulk_read_message qs) ->
  bulk_read_bytes qs s = (Val (Ok it), s1) -> calls s s1 evs ->
  ~ contains g header -> incoming s = map inl (g ++ transmitted evs) ++ line ->
  map br_id qs = map (fun st => fst (fst st)) sts ++ [lst] -> statuses (length (b_rbuf s)) line sts rest ->
  exists xs s2, take_then_drop br_next br_drop (length qs) it s1 = (Val xs, s2) /\
    length xs = length qs /\ hd None xs = Some (Err (own_echo x92)) /\ Forall failed xs /\ pending s2 = rest.
Proof. exact L_C75_bulk_read. Qed.
Print Assumptions C75_bulk_read.

Example C75_sync_example : exists it s1 s2 evs,
  let s := fresh true [RdData (frame xfe (sync_read_message [x01; x02] 3 1)); RdData (frame x01 [STATUS; x00; x11]);
                       RdData (frame x02 [STATUS; x00; x22])] 64 32 in
  sync_read_bytes [x01; x02] 3 1 s = (Val (Ok it), s1) /\ calls s s1 evs /\
  incoming s = map inl ([] ++ transmitted evs) ++ map inl (frame x01 [STATUS; x00; x11] ++ frame x02 [STATUS; x00; x22]) /\
  take_then_drop srb_next srb_drop 2 it s1 =
    (Val [Some (Err (RInvalidMessage (IMInstruction SYNC_READ STATUS)));
          Some (Err (RInvalidMessage (IMPacketId x01 (Some x02))))], s2).
Proof.
  do 4 eexists. cbv zeta. split; [vm_compute; reflexivity|]. split; [vm_compute; reflexivity|].
  split; vm_compute; reflexivity.
Qed.

(** A scan reports the echo as an error and finds the motors all the same. *)
Theorem C75_scan : forall cap s s1 evs g line sts g2 e rest,
  ready cap s -> 13 <= cap -> scan s = (Val (Ok tt), s1) -> calls s s1 evs ->
  ~ contains g header -> incoming s = map inl (g ++ transmitted evs) ++ line ->
  ~ contains g2 header -> is_timeout_error e = true ->
  statuses (length (b_rbuf s)) line sts (map inl g2 ++ inr e :: rest) ->
  exists s2, scan_nexts (length sts + 2) s1 =
    (Val (Some (Err (own_echo x01)) :: map (fun st => Some (judge_ping st)) sts ++ [None]), s2).
Proof. exact L_C75_scan. Qed.
Print Assumptions C75_scan.

Example C75_scan_example : exists s1 s2 evs,
  let s := fresh true [RdData (frame xfe [PING]); RdData (frame x01 [STATUS; x00; x06; x04; x26]); RdErr (IoTimeout 0)] 64 32 in
  scan s = (Val (Ok tt), s1) /\ calls s s1 evs /\
  incoming s = map inl ([] ++ transmitted evs) ++ map inl (frame x01 [STATUS; x00; x06; x04; x26]) ++ [inr (IoTimeout 0)] /\
  scan_nexts 3 s1 = (Val [Some (Err (RInvalidMessage (IMInstruction PING STATUS)));
                          Some (Ok (mkResponse x01 false (mkPing 1030 x26))); None], s2).
Proof.
  do 3 eexists. cbv zeta. split; [vm_compute; reflexivity|]. split; [vm_compute; reflexivity|].
  split; vm_compute; reflexivity.
Qed.

(** A device does not notice the echo of its status packets. *)
Theorem C75_device : forall m id params cap s s1 evs rest t u,
  sends m id x55 params -> ready cap s -> 10 <= cap -> fits cap (x55 :: params) ->
  m s = (Val (Ok tt), s1) -> reach s1 -> calls s s1 evs -> incoming s = map inl (transmitted evs) ++ rest ->
  reach u -> length (b_rbuf u) = length (b_rbuf s) -> pending u = rest ->
  fst (device_read t s1) = fst (device_read t u) /\
  pending (snd (device_read t s1)) = pending (snd (device_read t u)).
Proof. exact L_C75_device. Qed.
Print Assumptions C75_device.

Example C75_device_example : exists s1 s2 u2 evs i,
  let s := fresh true [RdData (frame x01 [STATUS; x00; x07]); RdData (frame x01 [PING])] 64 32 in
  let u := fresh true [RdData (frame x01 [PING])] 64 32 in
  device_write_status x01 x00 1 (fill [x07]) s = (Val (Ok tt), s1) /\ calls s s1 evs /\
  incoming s = map inl (transmitted evs) ++ pending u /\
  device_read dur_34ms s1 = (Val (Ok i), s2) /\ device_read dur_34ms u = (Val (Ok i), u2) /\ i = mkInstruction x01 IPing.
Proof.
  do 5 eexists. cbv zeta. split; [vm_compute; reflexivity|]. split; [vm_compute; reflexivity|].
  split; [vm_compute; reflexivity|]. split; [vm_compute; reflexivity|]. split; vm_compute; reflexivity.
Qed.
