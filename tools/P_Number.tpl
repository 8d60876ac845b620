(** * Property C84: exactly which data can be exchanged with motors that follow the protocol *)
From Coq Require Import ZArith.
From Verif Require Import Base Error Packet Time Bus Data Client Instructions Device Spec Api CallSpec StreamSpec
  DeviceSpec InstructionSpec DataSpec NumberSpec Demo DemoProofs NumberTheorems.

(** ** C84, sending: whatever the call, what it transmits is the packet of the protocol for
    its contents if and only if no FF FF FD is overlooked. *)
@C84_request

(** Of the numbers of 8, 16 and 32 bits there is exactly one, of 32 bits, that is not sent
    as the protocol demands (at addresses that exist). *)
@C84_write

Example C84_write_example : exists o s' evs wire, let s := fresh true [] 32 32 in
  write (data_int true 4) x01 116 (-33554433)%Z s = (o, s') /\ calls s s' evs /\ In (LWrite wire None) evs /\
  firstn 14 wire = header ++ [x01; x09; x00; x03; x74; x00; xff; xff; xff; xfd] /\ length wire = 16 /\
  int_bytes true 4 (-33554433)%Z [xff; xff; xff; xfd] /\
  int_bytes true 4 (-33554434)%Z [xfe; xff; xff; xfd] /\ ~ awkward true 4 (-33554434)%Z.
Proof.
  do 4 eexists. cbv zeta. split; [apply surjective_pairing|]. split; [vm_compute; reflexivity|].
  split; [right; left; reflexivity|]. split; [reflexivity|]. split; [reflexivity|]. split; [|split].
  - split; [vm_compute; split; [discriminate|reflexivity]|]. split; [reflexivity|]. exists (-1)%Z. reflexivity.
  - split; [vm_compute; split; [discriminate|reflexivity]|]. split; [reflexivity|]. exists (-1)%Z. reflexivity.
  - intros [_ K]. discriminate K.
Qed.

(** ** C84, receiving: the client gets exactly the data the motor sent, or reports that there
    are too many parameters; it never takes other data for that of the motor. *)
@C84_read_bytes

@C84_read

(** The one number of 32 bits cannot be read. *)
@C84_read_number

Example C84_read_example : exists s' t', 
  let s := fresh true [RdData (frame x01 [x55; x80; xff; xff; xff; xfd])] 32 32 in
  let t := fresh true [RdData (frame x01 [x55; x80; xff; xff; xff; xff])] 32 32 in
  motor_sends s x01 x80 [xff; xff; xff; xfd] [] /\ no_error x80 /\ plenty_of_room s 4 /\ port_ready s /\
  read (data_int true 4) x01 132 s = (Val (Err (TReadError (RInvalidMessage (IMParameterCount 5 (Exact 4))))), s') /\
  motor_sends t x01 x80 [xff; xff; xff; xff] [] /\
  read (data_int true 4) x01 132 t = (Val (Ok (mkResponse x01 true (-1)%Z)), t').
Proof.
  do 2 eexists. cbv zeta. split; [|split; [|split; [|split; [|split; [|split]]]]].
  - exists [], (frame x01 [x55; x80; xff; xff; xff; xfd]). split; [intros [[|? ?] [? K]]; discriminate K|].
    split; [apply frame_ok; reflexivity|]. split; [vm_compute; repeat constructor|reflexivity].
  - reflexivity.
  - split; [vm_compute; repeat constructor|reflexivity].
  - split; reflexivity.
  - vm_compute. reflexivity.
  - exists [], (frame x01 [x55; x80; xff; xff; xff; xff]). split; [intros [[|? ?] [? K]]; discriminate K|].
    split; [apply frame_ok; reflexivity|]. split; [vm_compute; repeat constructor|reflexivity].
  - vm_compute. reflexivity.
Qed.
