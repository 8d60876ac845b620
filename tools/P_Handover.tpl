(** * Property C88: using the serial port directly, and giving it up *)
From Coq Require Import ZArith.
From Verif Require Import Base Endian Error Checksum Bytestuff Packet Time Bus Data Client
  Instructions Device Api Spec CallSpec StreamSpec InstructionSpec DataSpec TwinSpec HandoverSpec Demo DemoProofs
  TwinTheorems HandoverTheorems.

(** ** C88.  Whatever was done with the port: a client that sends before it listens
    goes on like a new one. *)
@C88_asks_first

(** In particular when the port is taken out and given to a new client. *)
@C88_given_up

(** Without data in the read buffer this is so for every program. *)
@C88_nothing_read_ahead

(** Refuted without such a condition: a device that has read two instructions at once and
    returned the first loses the second ("normally not a problem", says the documentation;
    but a device listens first). *)
@C88_listens_first_refuted

(** A client with an answer nobody asked for in its buffer; the port is replaced by one
    that answers a ping.  The program pings and then listens again. *)
Example C88_asks_first_example : exists t e evs s',
  let s := snd (read_status_response 3 (fresh true [RdData (frame x01 [STATUS; x00] ++ frame x02 [STATUS; x00])] 64 32)) in
  let q := b_port (fresh true [RdData (frame x07 [STATUS; x00; x08; x04; x2a]); RdErr (IoTimeout 0)] 64 32) in
  let p := Call (ping x07) (st_ping _) (fun r =>
           if sent_t r then Call (read_status_response 3) (st_read_status_response _) (fun r2 => Done (r, Some r2))
           else Done (r, None)) in
  reach s /\ read_ahead s <> [] /\ anew s q t /\ asks_first p /\
  runs p (port_used s q) (Val (Ok (mkResponse x07 false (mkPing 1032 x2a)), Some (Err e))) evs s' /\ evs <> [].
Proof.
  exists (mkBus (b_port (fresh true [RdData (frame x07 [STATUS; x00; x08; x04; x2a]); RdErr (IoTimeout 0)] 64 32)) 57600
            (repeat x01 64) 0 0 (header ++ repeat x01 28) true).
  do 3 eexists. cbv zeta. split.
  { eapply reach_call; [apply (fresh_reach true [RdData (frame x01 [STATUS; x00] ++ frame x02 [STATUS; x00])] 64 32); lia|apply (api_read_status_response 3)|vm_compute; reflexivity]. }
  split; [vm_compute; discriminate|]. split.
  { exists (repeat x01 64), (repeat x01 32). split; [vm_compute; reflexivity|]. split; [vm_compute; reflexivity|].
    vm_compute. reflexivity. }
  split.
  { apply (af_request _ _ _ _ sent_t); [apply rq_ping|]. intros a ->. apply af_done. }
  split.
  - eapply runs_call; [vm_compute; reflexivity|vm_compute; reflexivity|].
    eapply runs_call; [vm_compute; reflexivity|vm_compute; reflexivity|apply runs_done].
  - discriminate.
Qed.

(** The other way for a device: its answer to the first of two instructions makes it
    forget the second, which it would have returned without answering. *)
Example C88_answer_example : exists evs s' e evs2 s2,
  let listen := Call (device_read (mkDur 1 0)) (st_device_read _) (fun r => Done r) in
  let answer := Call (device_write_status_ok x01) (st_device_write_status_ok _) (fun r =>
                if sent_w r then listen else Done (Err (RIo (IoTimeout 0)))) in
  reach after_first /\ asks_first answer /\
  runs listen after_first (Val (Ok (mkInstruction x01 IPing))) evs s' /\
  runs answer after_first (Val (Err e)) evs2 s2.
Proof.
  do 5 eexists. cbv zeta. split; [apply after_first_reach|]. split.
  { apply (af_request _ _ _ _ sent_w); [apply rq_device_write_status_ok|]. intros a ->. apply af_done. }
  split.
  - eapply runs_call; [vm_compute; reflexivity|vm_compute; reflexivity|apply runs_done].
  - eapply runs_call; [vm_compute; reflexivity|vm_compute; reflexivity|].
    eapply runs_call; [vm_compute; reflexivity|vm_compute; reflexivity|apply runs_done].
Qed.
