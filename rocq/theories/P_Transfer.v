(** * Properties C25-C27: one request, one answer *)
From Coq Require Import ZArith.
From Verif Require Import Base Endian Error Checksum Bytestuff Packet Time Bus Data Client
  Instructions Device Api Spec CallSpec StreamSpec DeviceSpec InstructionSpec Demo DemoProofs
  StatusProofs InstructionProofs TransferTheorems.

(** ** C25 *)
Theorem C25_transfer_single : forall s id i n expected enc p s', reach s -> encoder_ok enc ->
  transfer_single id i n expected enc s = (Val (Ok p), s') ->
  exists e params, carries (incoming s) id (x55 :: e :: params) (pending s') /\ no_error e /\
    packet_is p id (x55 :: e :: params).
Proof. exact L_C25_transfer_single. Qed.
Print Assumptions C25_transfer_single.

Theorem C25_transfer_single_outcome : forall s id i expected enc params id' e ps rest,
  reach s -> writes_parameters enc params -> plenty_of_room s (length params) -> port_ready s ->
  (expected < 2 ^ 16)%N -> b_baud s <> 0%N -> status_comes s id' e ps rest ->
  exists s', pending s' = rest /\
    (~ no_error e ->
       transfer_single id i (length params) expected enc s = (Val (Err (TReadError (RMotorError e))), s')) /\
    (no_error e -> id' <> id ->
       transfer_single id i (length params) expected enc s =
         (Val (Err (TReadError (RInvalidMessage (IMPacketId id' (Some id))))), s')) /\
    (no_error e -> id' = id -> exists p, packet_is p id (x55 :: e :: ps) /\
       transfer_single id i (length params) expected enc s = (Val (Ok p), s')).
Proof. exact L_C25_transfer_single_outcome. Qed.
Print Assumptions C25_transfer_single_outcome.

Theorem C25_ping : forall s id r s', reach s -> ping id s = (Val (Ok r), s') ->
  exists e m0 m1 f, carries (incoming s) id [x55; e; m0; m1; f] (pending s') /\ no_error e /\
    r = mkResponse id (alert_bit e) (mkPing (b2n m0 + 256 * b2n m1) f).
Proof. exact L_C25_ping. Qed.
Print Assumptions C25_ping.

Theorem C25_ping_outcome : forall s id id' e ps rest,
  reach s -> plenty_of_room s 0 -> port_ready s -> b_baud s <> 0%N -> status_comes s id' e ps rest ->
  exists s', pending s' = rest /\
    ping id s =
      (Val (if negb (b2n e mod 128 =? 0)%N then Err (TReadError (RMotorError e))
            else if negb (beq id' id) then Err (TReadError (RInvalidMessage (IMPacketId id' (Some id))))
            else match ps with
                 | [m0; m1; f] => Ok (mkResponse id (alert_bit e) (mkPing (b2n m0 + 256 * b2n m1) f))
                 | _ => Err (TReadError (RInvalidMessage (IMParameterCount (length ps) (Exact 3))))
                 end), s').
Proof. exact L_C25_ping_outcome. Qed.
Print Assumptions C25_ping_outcome.

Theorem C25_read_bytes : forall s id a n r s', reach s -> read_bytes id a n s = (Val (Ok r), s') ->
  exists e data, carries (incoming s) id (x55 :: e :: data) (pending s') /\ no_error e /\
    length data = N.to_nat n /\ r = mkResponse id (alert_bit e) data.
Proof. exact L_C25_read_bytes. Qed.
Print Assumptions C25_read_bytes.

Theorem C25_read_bytes_outcome : forall s id a n id' e ps rest,
  reach s -> plenty_of_room s 4 -> port_ready s -> b_baud s <> 0%N -> is_u16 n -> status_comes s id' e ps rest ->
  exists s', pending s' = rest /\
    read_bytes id a n s =
      (Val (if negb (b2n e mod 128 =? 0)%N then Err (TReadError (RMotorError e))
            else if negb (beq id' id) then Err (TReadError (RInvalidMessage (IMPacketId id' (Some id))))
            else if negb (length ps =? N.to_nat n) then
              Err (TReadError (RInvalidMessage (IMParameterCount (length ps) (Exact (N.to_nat n)))))
            else Ok (mkResponse id (alert_bit e) ps)), s').
Proof. exact L_C25_read_bytes_outcome. Qed.
Print Assumptions C25_read_bytes_outcome.

Theorem C25_read : forall A (D : data_impl A) s id a r s', reach s -> read D id a s = (Val (Ok r), s') ->
  exists e data v, carries (incoming s) id (x55 :: e :: data) (pending s') /\ no_error e /\
    length data = d_size D /\ d_decode D data = Val (Ok v) /\ r = mkResponse id (alert_bit e) v.
Proof. exact L_C25_read. Qed.
Print Assumptions C25_read.

Theorem C25_read_outcome : forall A (D : data_impl A) s id a id' e ps rest decoded,
  reach s -> plenty_of_room s 4 -> port_ready s -> b_baud s <> 0%N -> is_u16 (N.of_nat (d_size D)) ->
  status_comes s id' e ps rest -> (length ps = d_size D -> d_decode D ps = Val decoded) ->
  exists s', pending s' = rest /\
    read D id a s =
      (Val (if negb (b2n e mod 128 =? 0)%N then Err (TReadError (RMotorError e))
            else if negb (beq id' id) then Err (TReadError (RInvalidMessage (IMPacketId id' (Some id))))
            else if negb (length ps =? d_size D) then
              Err (TReadError (RInvalidMessage (IMParameterCount (length ps) (Exact (d_size D)))))
            else match decoded with
                 | Ok v => Ok (mkResponse id (alert_bit e) v)
                 | Err x => Err (TReadError (RInvalidMessage x))
                 end), s').
Proof. exact L_C25_read_outcome. Qed.
Print Assumptions C25_read_outcome.

(** Motor 1 is asked for two bytes and answers. *)
Example C25_example : exists s',
  let w := frame x01 [STATUS; x80; x2a; x07] in
  let s := fresh true [RdData ([x00; xff] ++ w)] 32 32 in
  reach s /\ plenty_of_room s 4 /\ port_ready s /\ b_baud s <> 0%N /\
  status_comes s x01 x80 [x2a; x07] [] /\
  read_bytes x01 132 2 s = (Val (Ok (mkResponse x01 true [x2a; x07])), s').
Proof.
  eexists. cbv zeta. split; [apply fresh_reach; lia|]. split; [vm_compute; split; [lia|reflexivity]|].
  split; [split; reflexivity|]. split; [discriminate|].
  split; [exists [x00; xff], (frame x01 [STATUS; x80; x2a; x07]); demo|]. vm_compute. reflexivity.
Qed.

(** Another motor answers. *)
Example C25_example_other_motor : exists s',
  let w := frame x02 [STATUS; x00; x2a; x07] in
  let s := fresh true [RdData ([x00; xff] ++ w)] 32 32 in
  reach s /\ plenty_of_room s 4 /\ port_ready s /\ b_baud s <> 0%N /\
  status_comes s x02 x00 [x2a; x07] [] /\
  read_bytes x01 132 2 s = (Val (Err (TReadError (RInvalidMessage (IMPacketId x02 (Some x01))))), s').
Proof.
  eexists. cbv zeta. split; [apply fresh_reach; lia|]. split; [vm_compute; split; [lia|reflexivity]|].
  split; [split; reflexivity|]. split; [discriminate|].
  split; [exists [x00; xff], (frame x02 [STATUS; x00; x2a; x07]); demo|]. vm_compute. reflexivity.
Qed.

(** The answer is too short. *)
Example C25_example_count : exists s',
  let w := frame x01 [STATUS; x00; x2a] in
  let s := fresh true [RdData ([x00; xff] ++ w)] 32 32 in
  reach s /\ plenty_of_room s 4 /\ port_ready s /\ b_baud s <> 0%N /\
  status_comes s x01 x00 [x2a] [] /\
  read_bytes x01 132 2 s = (Val (Err (TReadError (RInvalidMessage (IMParameterCount 1 (Exact 2))))), s').
Proof.
  eexists. cbv zeta. split; [apply fresh_reach; lia|]. split; [vm_compute; split; [lia|reflexivity]|].
  split; [split; reflexivity|]. split; [discriminate|].
  split; [exists [x00; xff], (frame x01 [STATUS; x00; x2a]); demo|]. vm_compute. reflexivity.
Qed.

(** The same with a ping and with a typed read. *)
Example C25_ping_and_read_example : exists s1 s2,
  let w := frame x01 [STATUS; x80; x06; x04; x2d] in
  let s := fresh true [RdData w] 32 32 in
  let v := frame x01 [STATUS; x00; xfe; xff] in
  let t := fresh true [RdData ([xff] ++ v)] 32 32 in
  status_comes s x01 x80 [x06; x04; x2d] [] /\
  ping x01 s = (Val (Ok (mkResponse x01 true (mkPing 1030 x2d))), s1) /\
  status_comes t x01 x00 [xfe; xff] [] /\
  read (data_int true 2) x01 132 t = (Val (Ok (mkResponse x01 false (-2)%Z)), s2).
Proof.
  do 2 eexists. cbv zeta.
  split; [exists [], (frame x01 [STATUS; x80; x06; x04; x2d]); demo|]. split; [vm_compute; reflexivity|].
  split; [exists [xff], (frame x01 [STATUS; x00; xfe; xff]); demo|]. vm_compute. reflexivity.
Qed.

(** ** C26.  Refuted: the acknowledgement of any motor is accepted. *)
Theorem C26_acknowledged_refuted : ~ (forall f s id r s', acknowledged f -> id <> xfe -> reach s ->
  f id s = (Val (Ok r), s') ->
  exists e, carries (incoming s) id [x55; e] (pending s') /\ no_error e).
Proof. exact L_C26_acknowledged_refuted. Qed.
Print Assumptions C26_acknowledged_refuted.

Theorem C26_acknowledged_partial : forall f s id r s', acknowledged f -> id <> xfe -> reach s ->
  f id s = (Val (Ok r), s') ->
  exists id' e, carries (incoming s) id' [x55; e] (pending s') /\ no_error e /\
    r = mkResponse id' (alert_bit e) tt.
Proof. exact L_C26_acknowledged_partial. Qed.
Print Assumptions C26_acknowledged_partial.

Theorem C26_acknowledged_outcome : forall f s id o s' id' e ps rest,
  acknowledged f -> id <> xfe -> reach s -> b_baud s <> 0%N -> status_comes s id' e ps rest ->
  f id s = (Val o, s') ->
  (exists x, o = Err (TWriteError x)) \/
  pending s' = rest /\
  o = (if negb (b2n e mod 128 =? 0)%N then Err (TReadError (RMotorError e))
       else match ps with
            | [] => Ok (mkResponse id' (alert_bit e) tt)
            | _ => Err (TReadError (RInvalidMessage (IMParameterCount (length ps) (Exact 0))))
            end).
Proof. exact L_C26_acknowledged_outcome. Qed.
Print Assumptions C26_acknowledged_outcome.

Example C26_example : exists s',
  let s := fresh true [RdData (frame x01 [STATUS; x00])] 32 32 in
  acknowledged (fun id => write_bytes id 64 [x01]) /\ reach s /\ b_baud s <> 0%N /\
  status_comes s x01 x00 [] [] /\
  write_bytes x01 64 [x01] s = (Val (Ok (mkResponse x01 false tt)), s').
Proof.
  eexists. cbv zeta. split; [apply (ak_write_bytes 64 [x01])|]. split; [apply fresh_reach; lia|]. split; [discriminate|].
  split; [exists [], (frame x01 [STATUS; x00]); demo|]. vm_compute. reflexivity.
Qed.

Example C26_example_other_motor : exists s',
  let s := fresh true [RdData (frame x02 [STATUS; x00])] 32 32 in
  acknowledged reboot /\ reach s /\ b_baud s <> 0%N /\ status_comes s x02 x00 [] [] /\
  reboot x01 s = (Val (Ok (mkResponse x02 false tt)), s').
Proof.
  eexists. cbv zeta. split; [exact ak_reboot|]. split; [apply fresh_reach; lia|]. split; [discriminate|].
  split; [exists [], (frame x02 [STATUS; x00]); demo|]. vm_compute. reflexivity.
Qed.

(** ** C27 *)
Theorem C27_broadcast : forall f s o s', acknowledged f -> f xfe s = (o, s') ->
  (exists evs, calls s s' evs /\ Forall only_writes evs) /\
  incoming s' = incoming s /\ p_deadlines (b_port s') = p_deadlines (b_port s) /\
  (forall r, o = Val (Ok r) -> r = mkResponse xfe false tt) /\
  (forall e, o = Val (Err e) -> exists e', e = TWriteError e').
Proof. exact L_C27_broadcast. Qed.
Print Assumptions C27_broadcast.

(** A status packet is waiting; a broadcast does not touch it. *)
Example C27_example : exists s',
  let s := fresh true [RdData (frame x01 [STATUS; x03])] 32 32 in
  reboot xfe s = (Val (Ok (mkResponse xfe false tt)), s') /\
  calls s s' [LDiscard None; LWrite (frame xfe [REBOOT]) None] /\ incoming s' = incoming s.
Proof. eexists. cbv zeta. split; [vm_compute; reflexivity|]. split; vm_compute; reflexivity. Qed.
