(** * Property C84: exactly which data can be exchanged with motors that follow the protocol *)
From Coq Require Import ZArith.
From Verif Require Import Base Error Packet Time Bus Data Client Instructions Device Spec Api CallSpec StreamSpec
  DeviceSpec InstructionSpec DataSpec NumberSpec Demo DemoProofs NumberTheorems.

(** ** C84, sending: whatever the call, what it transmits is the packet of the protocol for
    its contents if and only if no FF FF FD is overlooked. *)
Theorem C84_request : forall B E (m : M (result B E)) id i params ins s o s' evs w r,
  request m id i params ins -> reach s -> m s = (o, s') -> calls s s' evs -> In (LWrite w r) evs ->
  (is_frame id (i :: params) w <->
   ff_runs_ok (i :: params) /\ (N.of_nat (length (pstuff (i :: params)) + 2) < 2 ^ 16)%N).
Proof. exact L_C84_request. Qed.
Print Assumptions C84_request.

(** Of the numbers of 8, 16 and 32 bits there is exactly one, of 32 bits, that is not sent
    as the protocol demands (at addresses that exist). *)
Theorem C84_write : forall signed w v bytes id a s o s' evs wire r, In w [1; 2; 4] -> int_bytes signed w v bytes ->
  (a < 65280)%N -> reach s -> write (data_int signed w) id a v s = (o, s') -> calls s s' evs -> In (LWrite wire r) evs ->
  (is_frame id (x03 :: le16 a ++ bytes) wire <-> ~ awkward signed w v).
Proof. exact L_C84_write. Qed.
Print Assumptions C84_write.

Example C84_write_example : exists o s' evs wire, let s := fresh true [] 32 32 in
  write (data_int true 4) x01 116 (-33554433)%Z s = (o, s') /\ calls s s' evs /\ In (LWrite wire None) evs /\
  firstn 14 wire = header ++ [x01; x09; x00; x03; x74; x00; xff; xff; xff; xfd] /\ length wire = 16 /\
  int_bytes true 4 (-33554433)%Z [xff; xff; xff; xfd] /\
  int_bytes true 4 (-33554434)%Z [xfe; xff; xff; xfd] /\ ~ awkward true 4 (-33554434)%Z.
Proof.
  do 4 eexists. cbv zeta. split; [apply surjective_pairing|]. split; [vm_compute; reflexivity|].
  split; [right; left; reflexivity|]. split; [reflexivity|]. split; [reflexivity|]. split; [|split].
  - split; [vm_compute; split; [discriminate|reflexivity]|]. split; [reflexivity|]. exists (-1)%Z. reflexivity.
  - split; [vm_compute; split; [discriminate|reflexivity]|]. split; [reflexivity|]. exists (-1)%Z. reflexivity.
  - intros [_ K]. discriminate K.
Qed.

(** ** C84, receiving: the client gets exactly the data the motor sent, or reports that there
    are too many parameters; it never takes other data for that of the motor. *)
Theorem C84_read_bytes : forall s id a n e ps rest,
  reach s -> plenty_of_room s 4 -> port_ready s -> b_baud s <> 0%N -> is_u16 n -> no_error e ->
  motor_sends s id e ps rest -> length ps = N.to_nat n ->
  exists s', pending s' = rest /\
    (ff_runs_ok ps -> read_bytes id a n s = (Val (Ok (mkResponse id (alert_bit e) ps)), s')) /\
    (~ ff_runs_ok ps -> read_bytes id a n s =
      (Val (Err (TReadError (RInvalidMessage (IMParameterCount (length ps + overlooked ps) (Exact (length ps)))))), s')).
Proof. exact L_C84_read_bytes. Qed.
Print Assumptions C84_read_bytes.

Theorem C84_read : forall A (D : data_impl A) V Rep v s id a e bytes rest,
  crate_type D V Rep -> Rep v bytes -> is_u16 (N.of_nat (d_size D)) ->
  reach s -> plenty_of_room s 4 -> port_ready s -> b_baud s <> 0%N -> no_error e -> motor_sends s id e bytes rest ->
  exists s', pending s' = rest /\
    (ff_runs_ok bytes -> read D id a s = (Val (Ok (mkResponse id (alert_bit e) v)), s')) /\
    (~ ff_runs_ok bytes -> read D id a s =
      (Val (Err (TReadError (RInvalidMessage (IMParameterCount (d_size D + overlooked bytes) (Exact (d_size D)))))), s')).
Proof. exact L_C84_read. Qed.
Print Assumptions C84_read.

(** The one number of 32 bits cannot be read. *)
Theorem C84_read_number : forall signed w v bytes id a s e rest, In w [1; 2; 4] -> int_bytes signed w v bytes ->
  reach s -> plenty_of_room s 4 -> port_ready s -> b_baud s <> 0%N -> no_error e -> motor_sends s id e bytes rest ->
  exists s', pending s' = rest /\
    (~ awkward signed w v -> read (data_int signed w) id a s = (Val (Ok (mkResponse id (alert_bit e) v)), s')) /\
    (awkward signed w v -> read (data_int signed w) id a s =
      (Val (Err (TReadError (RInvalidMessage (IMParameterCount 5 (Exact 4))))), s')).
Proof. exact L_C84_read_number. Qed.
Print Assumptions C84_read_number.

Example C84_read_example : exists s' t', 
  let s := fresh true [RdData (frame x01 [x55; x80; xff; xff; xff; xfd])] 32 32 in
  let t := fresh true [RdData (frame x01 [x55; x80; xff; xff; xff; xff])] 32 32 in
  motor_sends s x01 x80 [xff; xff; xff; xfd] [] /\ no_error x80 /\ plenty_of_room s 4 /\ port_ready s /\
  read (data_int true 4) x01 132 s = (Val (Err (TReadError (RInvalidMessage (IMParameterCount 5 (Exact 4))))), s') /\
  motor_sends t x01 x80 [xff; xff; xff; xff] [] /\
  read (data_int true 4) x01 132 t = (Val (Ok (mkResponse x01 true (-1)%Z)), t').
Proof.
  do 2 eexists. cbv zeta. split; [|split; [|split; [|split; [|split; [|split]]]]].
  - exists [], (frame x01 [x55; x80; xff; xff; xff; xfd]). split; [intros [[|? ?] [? K]]; discriminate K|].
    split; [apply frame_ok; reflexivity|]. split; [vm_compute; repeat constructor|reflexivity].
  - reflexivity.
  - split; [vm_compute; repeat constructor|reflexivity].
  - split; reflexivity.
  - vm_compute. reflexivity.
  - exists [], (frame x01 [x55; x80; xff; xff; xff; xff]). split; [intros [[|? ?] [? K]]; discriminate K|].
    split; [apply frame_ok; reflexivity|]. split; [vm_compute; repeat constructor|reflexivity].
  - vm_compute. reflexivity.
Qed.
