(** * Property C84: exactly which data can be exchanged with many motors at once *)
From Coq Require Import ZArith.
From Verif Require Import Base Error Packet Time Bus Data Client Instructions Device Spec Api CallSpec StreamSpec
  DeviceSpec InstructionSpec DataSpec CostSpec NumberSpec NumberManySpec Demo DemoProofs NumberManyTheorems.

(** ** C84, writing to many motors: the packet is the one of the protocol if and only if
    no FF FF FD is overlooked in the data of any motor; nothing depends on neighbours. *)
@C84_sync_write

@C84_bulk_write

(** One goal position per motor: the single awkward value spoils the packet for all. *)
@C84_sync_write_numbers

Example C84_sync_write_example : exists o s' evs wire, let s := fresh true [] 32 64 in
  let l := [mkSync x01 [xff; xff; xff; xff]; mkSync x02 [xff; xff; xff; xfd]] in
  sync_write_bytes 116 4 l s = (o, s') /\ calls s s' evs /\ In (LWrite wire None) evs /\ reach s /\
  Forall2 (fun x v => motor_id (sw_id x) /\ int_bytes true 4 v (sw_data x)) l [(-1)%Z; (-33554433)%Z] /\
  awkward true 4 (-33554433)%Z /\ ~ awkward true 4 (-1)%Z.
Proof.
  do 4 eexists. cbv zeta. split; [apply surjective_pairing|]. split; [vm_compute; reflexivity|].
  split; [right; left; reflexivity|]. split; [apply fresh_reach; lia|]. split; [|split].
  - apply Forall2_cons; [|apply Forall2_cons; [|apply Forall2_nil]];
      (split; [vm_compute; discriminate|]; split; [vm_compute; split; [discriminate|reflexivity]|]; split; [reflexivity|]).
    + exists (-1)%Z. vm_compute. reflexivity.
    + exists (-1)%Z. vm_compute. reflexivity.
  - split; reflexivity.
  - intros [_ K]. discriminate K.
Qed.

(** ** C84, reading from many motors: every item is exactly the data of the motor asked, or
    the report that there are too many parameters; the items after it are not affected. *)
@C84_sync_read_bytes

@C84_sync_read

@C84_bulk_read

Example C84_sync_read_example : exists s1 it s2,
  let line := frame x01 [x55; x00; xff; xff; xff; xfd] ++ frame x02 [x55; x80; x2a; x00; x00; x00] in
  let sts := [(x01, x00, [xff; xff; xff; xfd]); (x02, x80, [x2a; x00; x00; x00])] in
  let s := fresh true [RdData line] 32 64 in
  plenty_of_room s (4 + 2) /\ port_ready s /\ motors_send 32 (incoming s) sts [] /\
  Forall2 (fun id st => answers id 4 st) [x01; x02] sts /\
  sync_read (data_int true 4) [x01; x02] 132 s = (Val (Ok (mkSR [x01; x02] 0)), s1) /\
  nexts (sr_next (data_int true 4)) 2 (mkSR [x01; x02] 0) s1 =
    (Val ([Some (Err (RInvalidMessage (IMParameterCount 5 (Exact 4)))); Some (Ok (mkResponse x02 true 42%Z))], it), s2).
Proof.
  do 3 eexists. cbv zeta. split; [|split; [|split; [|split; [|split]]]].
  - split; [vm_compute; repeat constructor|reflexivity].
  - split; reflexivity.
  - apply (ms_cons 32 [] x01 x00 [xff; xff; xff; xfd] (frame x01 [x55; x00; xff; xff; xff; xfd])
      (map inl ([] ++ frame x02 [x55; x80; x2a; x00; x00; x00]) ++ [])).
    { intros [[|? ?] [? K]]; discriminate K. }
    { apply frame_ok; reflexivity. }
    { vm_compute; repeat constructor. }
    apply ms_cons.
    { intros [[|? ?] [? K]]; discriminate K. }
    { apply frame_ok; reflexivity. }
    { vm_compute; repeat constructor. }
    apply ms_nil.
  - repeat constructor.
  - vm_compute. reflexivity.
  - vm_compute. reflexivity.
Qed.
