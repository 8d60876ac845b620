(** * Properties C25-C27: one request, one answer *)
From Coq Require Import ZArith.
From Verif Require Import Base Endian Error Checksum Bytestuff Packet Time Bus Data Client
  Instructions Device Api Spec CallSpec StreamSpec DeviceSpec InstructionSpec Demo DemoProofs
  StatusProofs InstructionProofs TransferTheorems.

(** ** C25 *)
@C25_transfer_single

@C25_transfer_single_outcome

@C25_ping

@C25_ping_outcome

@C25_read_bytes

@C25_read_bytes_outcome

@C25_read

@C25_read_outcome

(** Motor 1 is asked for two bytes and answers. *)
Example C25_example : exists s',
  let w := frame x01 [STATUS; x80; x2a; x07] in
  let s := fresh true [RdData ([x00; xff] ++ w)] 32 32 in
  reach s /\ plenty_of_room s 4 /\ port_ready s /\ b_baud s <> 0%N /\
  status_comes s x01 x80 [x2a; x07] [] /\
  read_bytes x01 132 2 s = (Val (Ok (mkResponse x01 true [x2a; x07])), s').
Proof.
  eexists. cbv zeta. split; [apply fresh_reach; lia|]. split; [vm_compute; split; [lia|reflexivity]|].
  split; [split; reflexivity|]. split; [discriminate|].
  split; [exists [x00; xff], (frame x01 [STATUS; x80; x2a; x07]); demo|]. vm_compute. reflexivity.
Qed.

(** Another motor answers. *)
Example C25_example_other_motor : exists s',
  let w := frame x02 [STATUS; x00; x2a; x07] in
  let s := fresh true [RdData ([x00; xff] ++ w)] 32 32 in
  reach s /\ plenty_of_room s 4 /\ port_ready s /\ b_baud s <> 0%N /\
  status_comes s x02 x00 [x2a; x07] [] /\
  read_bytes x01 132 2 s = (Val (Err (TReadError (RInvalidMessage (IMPacketId x02 (Some x01))))), s').
Proof.
  eexists. cbv zeta. split; [apply fresh_reach; lia|]. split; [vm_compute; split; [lia|reflexivity]|].
  split; [split; reflexivity|]. split; [discriminate|].
  split; [exists [x00; xff], (frame x02 [STATUS; x00; x2a; x07]); demo|]. vm_compute. reflexivity.
Qed.

(** The answer is too short. *)
Example C25_example_count : exists s',
  let w := frame x01 [STATUS; x00; x2a] in
  let s := fresh true [RdData ([x00; xff] ++ w)] 32 32 in
  reach s /\ plenty_of_room s 4 /\ port_ready s /\ b_baud s <> 0%N /\
  status_comes s x01 x00 [x2a] [] /\
  read_bytes x01 132 2 s = (Val (Err (TReadError (RInvalidMessage (IMParameterCount 1 (Exact 2))))), s').
Proof.
  eexists. cbv zeta. split; [apply fresh_reach; lia|]. split; [vm_compute; split; [lia|reflexivity]|].
  split; [split; reflexivity|]. split; [discriminate|].
  split; [exists [x00; xff], (frame x01 [STATUS; x00; x2a]); demo|]. vm_compute. reflexivity.
Qed.

(** The same with a ping and with a typed read. *)
Example C25_ping_and_read_example : exists s1 s2,
  let w := frame x01 [STATUS; x80; x06; x04; x2d] in
  let s := fresh true [RdData w] 32 32 in
  let v := frame x01 [STATUS; x00; xfe; xff] in
  let t := fresh true [RdData ([xff] ++ v)] 32 32 in
  status_comes s x01 x80 [x06; x04; x2d] [] /\
  ping x01 s = (Val (Ok (mkResponse x01 true (mkPing 1030 x2d))), s1) /\
  status_comes t x01 x00 [xfe; xff] [] /\
  read (data_int true 2) x01 132 t = (Val (Ok (mkResponse x01 false (-2)%Z)), s2).
Proof.
  do 2 eexists. cbv zeta.
  split; [exists [], (frame x01 [STATUS; x80; x06; x04; x2d]); demo|]. split; [vm_compute; reflexivity|].
  split; [exists [xff], (frame x01 [STATUS; x00; xfe; xff]); demo|]. vm_compute. reflexivity.
Qed.

(** ** C26.  Refuted: the acknowledgement of any motor is accepted. *)
@C26_acknowledged_refuted

@C26_acknowledged_partial

@C26_acknowledged_outcome

Example C26_example : exists s',
  let s := fresh true [RdData (frame x01 [STATUS; x00])] 32 32 in
  acknowledged (fun id => write_bytes id 64 [x01]) /\ reach s /\ b_baud s <> 0%N /\
  status_comes s x01 x00 [] [] /\
  write_bytes x01 64 [x01] s = (Val (Ok (mkResponse x01 false tt)), s').
Proof.
  eexists. cbv zeta. split; [apply (ak_write_bytes 64 [x01])|]. split; [apply fresh_reach; lia|]. split; [discriminate|].
  split; [exists [], (frame x01 [STATUS; x00]); demo|]. vm_compute. reflexivity.
Qed.

Example C26_example_other_motor : exists s',
  let s := fresh true [RdData (frame x02 [STATUS; x00])] 32 32 in
  acknowledged reboot /\ reach s /\ b_baud s <> 0%N /\ status_comes s x02 x00 [] [] /\
  reboot x01 s = (Val (Ok (mkResponse x02 false tt)), s').
Proof.
  eexists. cbv zeta. split; [exact ak_reboot|]. split; [apply fresh_reach; lia|]. split; [discriminate|].
  split; [exists [], (frame x02 [STATUS; x00]); demo|]. vm_compute. reflexivity.
Qed.

(** ** C27 *)
@C27_broadcast

(** A status packet is waiting; a broadcast does not touch it. *)
Example C27_example : exists s',
  let s := fresh true [RdData (frame x01 [STATUS; x03])] 32 32 in
  reboot xfe s = (Val (Ok (mkResponse xfe false tt)), s') /\
  calls s s' [LDiscard None; LWrite (frame xfe [REBOOT]) None] /\ incoming s' = incoming s.
Proof. eexists. cbv zeta. split; [vm_compute; reflexivity|]. split; vm_compute; reflexivity. Qed.
