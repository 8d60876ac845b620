(** * Properties C18, C43, C46, C55 for short messages, whatever they contain; C59 exactly *)
From Coq Require Import ZArith ZifyN ZifyNat ZifyBool.
From Verif Require Import Base Endian Error Checksum Bytestuff Packet Time Bus Data Client
  Instructions Device MockDevice Api Spec CallSpec StreamSpec DeviceSpec InstructionSpec DataSpec RemoteSpec
  Demo DemoProofs StatusProofs RemoteTheorems RemoteExtra ShortSpec ProfileSpec PanicExactSpec ShortMoreTheorems.

(** ** C18, C43, C46.  Eight bytes after the length field (nine for a status) always come back. *)
Theorem C18_short_messages : forall s m id i params s' w t d g rest,
  reach s -> sends m id i params -> m s = (Val (Ok tt), s') -> i <> xff -> length params <= 7 ->
  calls s s' [LDiscard None; LWrite w None] ->
  reach t -> ~ contains g header -> length w <= length (b_rbuf t) ->
  pending t = map inl (g ++ w) ++ rest ->
  exists p t', read_packet_deadline d t = (Val (Ok p), t') /\ pending t' = rest /\ packet_is p id (i :: params).
Proof. exact L_C18_short_messages. Qed.
Print Assumptions C18_short_messages.

Example C18_short_example : exists s' w p t',
  let s := fresh true [] 32 32 in
  let t := fresh true [RdData ([x00; xff] ++ w)] 32 32 in
  let d := [x74; xff; xff; xff; xfd; xff; xff] in
  let m := write_instruction x01 WRITE 7 (fill d) in
  reach s /\ sends m x01 WRITE d /\ m s = (Val (Ok tt), s') /\ length d <= 7 /\
  calls s s' [LDiscard None; LWrite w None] /\ reach t /\ ~ contains [x00; xff] header /\
  length w <= length (b_rbuf t) /\ pending t = map inl ([x00; xff] ++ w) ++ [] /\
  read_packet_deadline now t = (Val (Ok p), t') /\ packet_is p x01 (WRITE :: d).
Proof.
  do 4 eexists. cbv zeta.
  split; [apply fresh_reach; lia|].
  split; [apply (sends_instruction x01 WRITE [x74; xff; xff; xff; xfd; xff; xff]), fill_writes|].
  split; [vm_compute; reflexivity|]. split; [vm_compute; lia|]. split; [vm_compute; reflexivity|].
  split; [apply fresh_reach; lia|]. split; [apply header_in_false; reflexivity|].
  split; [vm_compute; lia|]. split; [reflexivity|]. split; [vm_compute; reflexivity|]. split; vm_compute; reflexivity.
Qed.

Theorem C43_short_instructions : forall B E (m : M (result B E)) id i params ins s o s' evs w r c t line g rest,
  request m id i params ins -> length params <= 7 -> reach s -> m s = (o, s') -> calls s s' evs -> In (LWrite w r) evs ->
  reach c -> skips (length (b_rbuf c)) (pending c) line -> ~ contains g header -> length w <= length (b_rbuf c) ->
  line = map inl (g ++ w) ++ rest ->
  exists c', device_read t c = (Val (Ok (mkInstruction id ins)), c') /\ pending c' = rest.
Proof. exact L_C43_short_instructions. Qed.
Print Assumptions C43_short_instructions.

Example C43_short_example : exists s' w c',
  let s := fresh true [] 32 32 in
  let d := [xff; xff; xff; xfd; xfd] in
  let c := fresh true [RdData (x00 :: w)] 32 32 in
  request (write_bytes xfe 65280 d) xfe WRITE (le16 65280 ++ d) (IWrite 65280 d) /\ length (le16 65280 ++ d) <= 7 /\
  reach s /\ write_bytes xfe 65280 d s = (Val (Ok (mkResponse xfe false tt)), s') /\
  calls s s' [LDiscard None; LWrite w None] /\ reach c /\
  skips (length (b_rbuf c)) (pending c) (map inl ([x00] ++ w) ++ []) /\ ~ contains [x00] header /\
  length w <= length (b_rbuf c) /\
  device_read dur_34ms c = (Val (Ok (mkInstruction xfe (IWrite 65280 d))), c').
Proof.
  do 3 eexists. cbv zeta.
  split; [apply (rq_write_bytes xfe 65280 [xff; xff; xff; xfd; xfd]); reflexivity|]. split; [vm_compute; lia|].
  split; [apply fresh_reach; lia|]. split; [vm_compute; reflexivity|]. split; [vm_compute; reflexivity|].
  split; [apply fresh_reach; lia|]. split; [apply skip_none|]. split; [apply header_in_false; reflexivity|].
  split; [vm_compute; lia|]. vm_compute. reflexivity.
Qed.

Theorem C46_short_answers : forall s id error params enc s' w c t g rest,
  reach s -> writes_parameters enc params -> length params <= 7 ->
  device_write_status id error (length params) enc s = (Val (Ok tt), s') ->
  calls s s' [LDiscard None; LWrite w None] ->
  reach c -> ~ contains g header -> length w <= length (b_rbuf c) ->
  pending c = map inl (g ++ w) ++ rest ->
  exists c', pending c' = rest /\
    ((b2n error mod 128 = 0)%N -> exists p, packet_is p id (STATUS :: error :: params) /\
       read_status_response_timeout t c = (Val (Ok p), c')) /\
    ((b2n error mod 128 <> 0)%N -> read_status_response_timeout t c = (Val (Err (RMotorError error)), c')).
Proof. exact L_C46_short_answers. Qed.
Print Assumptions C46_short_answers.

Example C46_short_example : exists s' w p c',
  let s := fresh true [] 32 32 in
  let c := fresh false [RdData (xff :: w)] 32 32 in
  let d := [xff; xff; xff; xfd; xff; xff; xfd] in
  reach s /\ writes_parameters (fill d) d /\ length d <= 7 /\
  device_write_status x05 x80 (length d) (fill d) s = (Val (Ok tt), s') /\
  calls s s' [LDiscard None; LWrite w None] /\ reach c /\ length w <= length (b_rbuf c) /\
  read_status_response_timeout dur_34ms c = (Val (Ok p), c') /\ packet_is p x05 (STATUS :: x80 :: d).
Proof.
  do 4 eexists. cbv zeta.
  split; [apply fresh_reach; lia|]. split; [apply fill_writes|]. split; [vm_compute; lia|].
  split; [vm_compute; reflexivity|]. split; [vm_compute; reflexivity|].
  split; [apply fresh_reach; lia|]. split; [vm_compute; lia|]. split; [vm_compute; reflexivity|].
  split; vm_compute; reflexivity.
Qed.

(** ** C55.  With up to five bytes written and up to seven read. *)
Theorem C55_short_write_then_read : forall cap c ds ms m a d mem' xs c' ds',
  let os := [OpWrite (m_id m) a d; OpRead (m_id m) a (N.of_nat (length d))] in
  connected cap c ds ms -> 21 <= cap -> In m ms -> is_u16 a -> length d <= 5 -> session c ds os xs c' ds' ->
  store (m_memory m) a d = Some mem' ->
  xs = [Val (RepDone (Ok (mkResponse (m_id m) false tt))); Val (RepData (Ok (mkResponse (m_id m) false d)))].
Proof. exact L_C55_short_write_then_read. Qed.
Print Assumptions C55_short_write_then_read.

Theorem C55_short_registered_write : forall cap c ds ms m a d mem' b n before after xs c' ds',
  let os := [OpRegWrite (m_id m) a d; OpRead (m_id m) b n; OpAction (m_id m); OpRead (m_id m) b n] in
  connected cap c ds ms -> 21 <= cap -> In m ms -> is_u16 a -> length d <= 5 -> is_u16 b -> (n <= 7)%N ->
  session c ds os xs c' ds' ->
  store (m_memory m) a d = Some mem' -> load (m_memory m) b n = Some before -> load mem' b n = Some after ->
  xs = [Val (RepDone (Ok (mkResponse (m_id m) false tt))); Val (RepData (Ok (mkResponse (m_id m) false before)));
        Val (RepDone (Ok (mkResponse (m_id m) false tt))); Val (RepData (Ok (mkResponse (m_id m) false after)))].
Proof. exact L_C55_short_registered_write. Qed.
Print Assumptions C55_short_registered_write.

Theorem C55_short_others_untouched : forall cap c ds ms m os xs c' ds',
  connected cap c ds ms -> 21 <= cap -> In m ms -> Forall short_op os -> session c ds os xs c' ds' ->
  Forall (elsewhere (m_id m)) os ->
  exists d, In d ds' /\ is_motor d m.
Proof. exact L_C55_short_others_untouched. Qed.
Print Assumptions C55_short_others_untouched.

Theorem C55_short_broadcast : forall cap c ds ms a d xs c' ds',
  let os := [OpRegWrite xfe a d; OpAction xfe] in
  connected cap c ds ms -> 21 <= cap -> is_u16 a -> length d <= 5 -> session c ds os xs c' ds' ->
  xs = [Val (RepDone (Ok (mkResponse xfe false tt))); Val (RepDone (Ok (mkResponse xfe false tt)))] /\
  Forall2 is_motor ds' (map (fun m => mkMotor (m_id m) (stored (m_memory m) a d) None) ms).
Proof. exact L_C55_short_broadcast. Qed.
Print Assumptions C55_short_broadcast.

Example C55_short_example : exists mem' before after xs c' ds',
  let c := fresh true [] 64 64 in let mem := repeat xff 8 in
  let m := mkMotor x02 mem None in let ms := [mkMotor x01 mem None; m] in
  let d := [xff; xff; xff; xfd; xfd] in
  let os := [OpRegWrite (m_id m) 3 d; OpRead (m_id m) 1 7; OpAction (m_id m); OpRead (m_id m) 1 7] in
  connected 64 c (two_motors mem mem) ms /\ In m ms /\ Forall short_op os /\ Forall (elsewhere x01) os /\
  session c (two_motors mem mem) os xs c' ds' /\
  store mem 3 d = Some mem' /\ load mem 1 7 = Some before /\ load mem' 1 7 = Some after /\
  before = repeat xff 7 /\ after = [xff; xff] ++ d.
Proof. exact short_registered_example. Qed.

(** ** C59.  The builds do the same with a message unless it fits in the write buffer and the
    last two bytes counted by its length field do not. *)
Theorem C59_exactly_for_messages : forall s m id i params, reach s -> sends m id i params -> b_dbg s = true ->
  (m (release s) = (fst (m s), release (snd (m s))) <->
   ~ ((N.of_nat (length params + 10) <= usize_max)%N /\ length params + 10 <= length (b_wbuf s) /\
      7 + inflated (i :: params) <= length (b_wbuf s) /\
      (2 ^ 16 <= N.of_nat (inflated (i :: params)) mod 2 ^ 16 + 2)%N)).
Proof. exact L_C59_exactly_for_messages. Qed.
Print Assumptions C59_exactly_for_messages.

Example C59_exactly_example : exists s' t',
  let s := fresh true [] 32 32 in
  reach s /\ sends (write_instruction x05 PING 0 (fill [])) x05 PING [] /\ b_dbg s = true /\
  write_instruction x05 PING 0 (fill []) s = (Val (Ok tt), s') /\
  write_instruction x05 PING 0 (fill []) (release s) = (Val (Ok tt), t') /\ t' = release s'.
Proof.
  do 2 eexists. cbv zeta. split; [apply fresh_reach; lia|]. split; [apply (sends_instruction x05 PING []), fill_writes|].
  split; [reflexivity|]. split; [vm_compute; reflexivity|]. split; vm_compute; reflexivity.
Qed.
