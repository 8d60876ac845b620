(** * Properties C18, C43, C46, C55 for short messages, whatever they contain; C59 exactly *)
From Coq Require Import ZArith ZifyN ZifyNat ZifyBool.
From Verif Require Import Base Endian Error Checksum Bytestuff Packet Time Bus Data Client
  Instructions Device MockDevice Api Spec CallSpec StreamSpec DeviceSpec InstructionSpec DataSpec RemoteSpec
  Demo DemoProofs StatusProofs RemoteTheorems RemoteExtra ShortSpec ProfileSpec PanicExactSpec ShortMoreTheorems.

(** ** C18, C43, C46.  Eight bytes after the length field (nine for a status) always come back. *)
@C18_short_messages

Example C18_short_example : exists s' w p t',
  let s := fresh true [] 32 32 in
  let t := fresh true [RdData ([x00; xff] ++ w)] 32 32 in
  let d := [x74; xff; xff; xff; xfd; xff; xff] in
  let m := write_instruction x01 WRITE 7 (fill d) in
  reach s /\ sends m x01 WRITE d /\ m s = (Val (Ok tt), s') /\ length d <= 7 /\
  calls s s' [LDiscard None; LWrite w None] /\ reach t /\ ~ contains [x00; xff] header /\
  length w <= length (b_rbuf t) /\ pending t = map inl ([x00; xff] ++ w) ++ [] /\
  read_packet_deadline now t = (Val (Ok p), t') /\ packet_is p x01 (WRITE :: d).
Proof.
  do 4 eexists. cbv zeta.
  split; [apply fresh_reach; lia|].
  split; [apply (sends_instruction x01 WRITE [x74; xff; xff; xff; xfd; xff; xff]), fill_writes|].
  split; [vm_compute; reflexivity|]. split; [vm_compute; lia|]. split; [vm_compute; reflexivity|].
  split; [apply fresh_reach; lia|]. split; [apply header_in_false; reflexivity|].
  split; [vm_compute; lia|]. split; [reflexivity|]. split; [vm_compute; reflexivity|]. split; vm_compute; reflexivity.
Qed.

@C43_short_instructions

Example C43_short_example : exists s' w c',
  let s := fresh true [] 32 32 in
  let d := [xff; xff; xff; xfd; xfd] in
  let c := fresh true [RdData (x00 :: w)] 32 32 in
  request (write_bytes xfe 65280 d) xfe WRITE (le16 65280 ++ d) (IWrite 65280 d) /\ length (le16 65280 ++ d) <= 7 /\
  reach s /\ write_bytes xfe 65280 d s = (Val (Ok (mkResponse xfe false tt)), s') /\
  calls s s' [LDiscard None; LWrite w None] /\ reach c /\
  skips (length (b_rbuf c)) (pending c) (map inl ([x00] ++ w) ++ []) /\ ~ contains [x00] header /\
  length w <= length (b_rbuf c) /\
  device_read dur_34ms c = (Val (Ok (mkInstruction xfe (IWrite 65280 d))), c').
Proof.
  do 3 eexists. cbv zeta.
  split; [apply (rq_write_bytes xfe 65280 [xff; xff; xff; xfd; xfd]); reflexivity|]. split; [vm_compute; lia|].
  split; [apply fresh_reach; lia|]. split; [vm_compute; reflexivity|]. split; [vm_compute; reflexivity|].
  split; [apply fresh_reach; lia|]. split; [apply skip_none|]. split; [apply header_in_false; reflexivity|].
  split; [vm_compute; lia|]. vm_compute. reflexivity.
Qed.

@C46_short_answers

Example C46_short_example : exists s' w p c',
  let s := fresh true [] 32 32 in
  let c := fresh false [RdData (xff :: w)] 32 32 in
  let d := [xff; xff; xff; xfd; xff; xff; xfd] in
  reach s /\ writes_parameters (fill d) d /\ length d <= 7 /\
  device_write_status x05 x80 (length d) (fill d) s = (Val (Ok tt), s') /\
  calls s s' [LDiscard None; LWrite w None] /\ reach c /\ length w <= length (b_rbuf c) /\
  read_status_response_timeout dur_34ms c = (Val (Ok p), c') /\ packet_is p x05 (STATUS :: x80 :: d).
Proof.
  do 4 eexists. cbv zeta.
  split; [apply fresh_reach; lia|]. split; [apply fill_writes|]. split; [vm_compute; lia|].
  split; [vm_compute; reflexivity|]. split; [vm_compute; reflexivity|].
  split; [apply fresh_reach; lia|]. split; [vm_compute; lia|]. split; [vm_compute; reflexivity|].
  split; vm_compute; reflexivity.
Qed.

(** ** C55.  With up to five bytes written and up to seven read. *)
@C55_short_write_then_read

@C55_short_registered_write

@C55_short_others_untouched

@C55_short_broadcast

Example C55_short_example : exists mem' before after xs c' ds',
  let c := fresh true [] 64 64 in let mem := repeat xff 8 in
  let m := mkMotor x02 mem None in let ms := [mkMotor x01 mem None; m] in
  let d := [xff; xff; xff; xfd; xfd] in
  let os := [OpRegWrite (m_id m) 3 d; OpRead (m_id m) 1 7; OpAction (m_id m); OpRead (m_id m) 1 7] in
  connected 64 c (two_motors mem mem) ms /\ In m ms /\ Forall short_op os /\ Forall (elsewhere x01) os /\
  session c (two_motors mem mem) os xs c' ds' /\
  store mem 3 d = Some mem' /\ load mem 1 7 = Some before /\ load mem' 1 7 = Some after /\
  before = repeat xff 7 /\ after = [xff; xff] ++ d.
Proof. exact short_registered_example. Qed.

(** ** C59.  The builds do the same with a message unless it fits in the write buffer and the
    last two bytes counted by its length field do not. *)
@C59_exactly_for_messages

Example C59_exactly_example : exists s' t',
  let s := fresh true [] 32 32 in
  reach s /\ sends (write_instruction x05 PING 0 (fill [])) x05 PING [] /\ b_dbg s = true /\
  write_instruction x05 PING 0 (fill []) s = (Val (Ok tt), s') /\
  write_instruction x05 PING 0 (fill []) (release s) = (Val (Ok tt), t') /\ t' = release s'.
Proof.
  do 2 eexists. cbv zeta. split; [apply fresh_reach; lia|]. split; [apply (sends_instruction x05 PING []), fill_writes|].
  split; [reflexivity|]. split; [vm_compute; reflexivity|]. split; vm_compute; reflexivity.
Qed.
