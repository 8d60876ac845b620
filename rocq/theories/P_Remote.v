(** * Properties C54, C55, C56, C61: client and motors on one bus *)
From Coq Require Import ZArith ZifyN ZifyNat ZifyBool.
From Verif Require Import Base Endian Error Checksum Bytestuff Packet Time Bus Data Client
  Instructions Device MockDevice Api Spec CallSpec StreamSpec InstructionSpec DataSpec RemoteSpec
  Demo DemoProofs RemoteTheorems RemoteExtra ShortSpec ShortTheorems.

(** ** C54: a client and simulated motors behave like memories accessed from a distance.
    Refuted because of messages the byte stuffing does not protect (finding 1). *)
Theorem C54_remote_memory_refuted : ~ (forall cap c ds ms os xs c' ds',
  connected cap c ds ms -> all_possible (fun _ => True) cap ms os -> session c ds os xs c' ds' ->
  exists rs ms', xs = map Val rs /\ remote ms os rs ms' /\ Forall2 is_motor ds' ms').
Proof. exact L_C54_remote_memory_refuted. Qed.
Print Assumptions C54_remote_memory_refuted.

(** True when every message misses the pattern the stuffing overlooks, and for
    synchronous writes without a data byte equal to the id of a motor. *)
Theorem C54_remote_memory_partial : forall cap c ds ms os xs c' ds',
  connected cap c ds ms -> all_possible comes_back cap ms os -> session c ds os xs c' ds' ->
  exists rs ms', xs = map Val rs /\ remote ms os rs ms' /\ Forall2 is_motor ds' ms'.
Proof. exact L_C54_remote_memory_partial. Qed.
Print Assumptions C54_remote_memory_partial.

Theorem C54_sync_write_refuted : ~ (forall cap c ds ms a n l x c' ds',
  connected cap c ds ms -> is_u16 a -> is_u16 n -> Forall (fun e => length (sw_data e) = N.to_nat n) l ->
  NoDup (map sw_id l) -> passes comes_back cap (message_of (OpSyncWrite a n l)) ->
  exchange (perform (OpSyncWrite a n l)) c ds x c' ds' ->
  Forall2 is_motor ds' (map (touched (OpSyncWrite a n l)) ms)).
Proof. exact L_C54_sync_write_refuted. Qed.
Print Assumptions C54_sync_write_refuted.

(** Such executions exist, for every sequence of operations. *)
Theorem C54_sessions_exist : forall cap c ds ms os, connected cap c ds ms -> all_possible comes_back cap ms os ->
  exists xs c' ds', session c ds os xs c' ds'.
Proof. exact L_C54_sessions_exist. Qed.
Print Assumptions C54_sessions_exist.

(** Without any condition on the contents when up to five bytes are written and up to
    seven are read. *)
Theorem C54_short_operations : forall cap c ds ms os xs c' ds',
  connected cap c ds ms -> 21 <= cap -> Forall short_op os -> session c ds os xs c' ds' ->
  exists rs ms', xs = map Val rs /\ remote ms os rs ms' /\ Forall2 is_motor ds' ms'.
Proof. exact L_C54_short_operations. Qed.
Print Assumptions C54_short_operations.

Example C54_short_example : exists xs c' ds', let c := fresh true [] 64 64 in let m := repeat xff 8 in
  let os := [OpWrite x01 0 [xff; xff; xff; xfd; xfd]; OpRead x01 1 7; OpRegWrite xfe 2 [xfd; xfd]; OpAction x02; OpScan; OpPing x09] in
  connected 64 c (two_motors m m) [mkMotor x01 m None; mkMotor x02 m None] /\ Forall short_op os /\
  session c (two_motors m m) os xs c' ds'.
Proof.
  set (m := repeat xff 8).
  set (os := [OpWrite x01 0 [xff; xff; xff; xfd; xfd]; OpRead x01 1 7; OpRegWrite xfe 2 [xfd; xfd]; OpAction x02; OpScan; OpPing x09]).
  assert (S : Forall short_op os) by (unfold os; repeat (apply Forall_cons || apply Forall_nil); cbn; repeat split; try discriminate; lia).
  destruct (L_C54_sessions_exist 64 _ _ _ os (two_connected m m) (short_all_possible 64 os _ ltac:(lia) S)) as [xs [c' [ds' Se]]].
  exists xs, c', ds'. split; [apply two_connected|]. split; [exact S|exact Se].
Qed.

(** Two motors ([some_operations] in RemoteExtra.v), an absent third, errors, registered and synchronous writes, scans and writes to all motors. *)
Example C54_example : exists xs c' ds', let c := fresh true [] 64 64 in let m := repeat x07 8 in
  connected 64 c (two_motors m m) [mkMotor x01 m None; mkMotor x02 m None] /\
  all_possible comes_back 64 [mkMotor x01 m None; mkMotor x02 m None] some_operations /\
  session c (two_motors m m) some_operations xs c' ds'.
Proof.
  set (m := repeat x07 8).
  assert (A : all_possible comes_back 64 [mkMotor x01 m None; mkMotor x02 m None] some_operations)
    by exact some_operations_possible.
  destruct (L_C54_sessions_exist 64 _ _ _ _ (two_connected m m) A) as [xs [c' [ds' S]]].
  exists xs, c', ds'. split; [apply two_connected|]. split; [exact A|exact S].
Qed.

(** What the memories are supposed to do with them. *)
Example C54_meaning : exists r1 r2 rs ms', let m := repeat x07 8 in
  remote [mkMotor x01 m None; mkMotor x02 m None] some_operations (r1 :: r2 :: rs) ms' /\
  map m_memory ms' = [[x31; x07; x17; xff; xff; x42; x41; x07]; [x32; x21; x07; x07; x07; x42; x41; x07]] /\
  r1 = RepPing (Ok (mkResponse x01 false (mkPing 5130 x2e))) /\
  r2 = RepPing (Err (TReadError (RIo (IoTimeout 0)))) /\
  nth 3 rs (RepSent (Ok tt)) = RepDone (Ok (mkResponse x02 false tt)) /\
  nth 5 rs (RepSent (Ok tt)) = RepDone (Err (TReadError (RMotorError x07))) /\
  nth 7 rs (RepSent (Ok tt)) = RepData (Ok (mkResponse x01 false [x31; x07; x17; xff; xff; xfd; x07; x07])) /\
  nth 8 rs (RepSent (Ok tt)) = RepData (Err (TReadError (RMotorError x07))) /\
  nth 9 rs (RepSent (Ok tt)) = RepFound (Ok [Ok (mkResponse x01 false (mkPing 5130 x2e)); Ok (mkResponse x02 false (mkPing 5130 x2e))]) /\
  nth 10 rs (RepSent (Ok tt)) = RepDone (Ok (mkResponse xfe false tt)).
Proof. exact some_operations_meaning. Qed.

(** ** C55: reading back, registered writes, other motors.  Partial: with the condition
    of C54 on the messages. *)
Theorem C55_write_then_read_refuted : ~ (forall cap c ds ms m a d mem' xs c' ds',
  let os := [OpWrite (m_id m) a d; OpRead (m_id m) a (N.of_nat (length d))] in
  connected cap c ds ms -> In m ms -> all_possible (fun _ => True) cap ms os -> session c ds os xs c' ds' ->
  store (m_memory m) a d = Some mem' ->
  xs = [Val (RepDone (Ok (mkResponse (m_id m) false tt))); Val (RepData (Ok (mkResponse (m_id m) false d)))]).
Proof. exact L_C55_write_then_read_refuted. Qed.
Print Assumptions C55_write_then_read_refuted.

Theorem C55_write_then_read_partial : forall cap c ds ms m a d mem' xs c' ds',
  let os := [OpWrite (m_id m) a d; OpRead (m_id m) a (N.of_nat (length d))] in
  connected cap c ds ms -> In m ms -> all_possible comes_back cap ms os -> session c ds os xs c' ds' ->
  store (m_memory m) a d = Some mem' ->
  xs = [Val (RepDone (Ok (mkResponse (m_id m) false tt))); Val (RepData (Ok (mkResponse (m_id m) false d)))].
Proof. exact L_C55_write_then_read_partial. Qed.
Print Assumptions C55_write_then_read_partial.

Theorem C55_registered_write_waits_partial : forall cap c ds ms m a d mem' b n before after xs c' ds',
  let os := [OpRegWrite (m_id m) a d; OpRead (m_id m) b n; OpAction (m_id m); OpRead (m_id m) b n] in
  connected cap c ds ms -> In m ms -> all_possible comes_back cap ms os -> session c ds os xs c' ds' ->
  store (m_memory m) a d = Some mem' -> load (m_memory m) b n = Some before -> load mem' b n = Some after ->
  xs = [Val (RepDone (Ok (mkResponse (m_id m) false tt))); Val (RepData (Ok (mkResponse (m_id m) false before)));
        Val (RepDone (Ok (mkResponse (m_id m) false tt))); Val (RepData (Ok (mkResponse (m_id m) false after)))].
Proof. exact L_C55_registered_write_waits_partial. Qed.
Print Assumptions C55_registered_write_waits_partial.

Theorem C55_others_untouched_partial : forall cap c ds ms m os xs c' ds',
  connected cap c ds ms -> In m ms -> all_possible comes_back cap ms os -> session c ds os xs c' ds' ->
  Forall (elsewhere (m_id m)) os ->
  exists d, In d ds' /\ is_motor d m.
Proof. exact L_C55_others_untouched_partial. Qed.
Print Assumptions C55_others_untouched_partial.

Theorem C55_broadcast_reaches_all_partial : forall cap c ds ms a d xs c' ds',
  let os := [OpRegWrite xfe a d; OpAction xfe] in
  connected cap c ds ms -> all_possible comes_back cap ms os -> session c ds os xs c' ds' ->
  xs = [Val (RepDone (Ok (mkResponse xfe false tt))); Val (RepDone (Ok (mkResponse xfe false tt)))] /\
  Forall2 is_motor ds' (map (fun m => mkMotor (m_id m) (stored (m_memory m) a d) None) ms).
Proof. exact L_C55_broadcast_reaches_all_partial. Qed.
Print Assumptions C55_broadcast_reaches_all_partial.

Theorem C55_scan_during_a_session_partial : forall cap c ds ms os xs x c' ds', connected cap c ds ms ->
  all_possible comes_back cap ms os -> session c ds (os ++ [OpScan]) (xs ++ [x]) c' ds' ->
  x = Val (RepFound (Ok (map (fun m => Ok (mkResponse (m_id m) false (mkPing 5130 x2e))) ms))).
Proof. exact L_C55_scan_during_a_session_partial. Qed.
Print Assumptions C55_scan_during_a_session_partial.

Example C55_example : exists mem' before after xs c' ds',
  let c := fresh true [] 64 64 in let mem := repeat x07 8 in
  let m := mkMotor x02 mem None in let ms := [mkMotor x01 mem None; m] in
  let os := [OpRegWrite (m_id m) 3 [x11; x12]; OpRead (m_id m) 2 3; OpAction (m_id m); OpRead (m_id m) 2 3] in
  connected 64 c (two_motors mem mem) ms /\ In m ms /\ all_possible comes_back 64 ms os /\
  session c (two_motors mem mem) os xs c' ds' /\
  store mem 3 [x11; x12] = Some mem' /\ load mem 2 3 = Some before /\ load mem' 2 3 = Some after /\
  before = [x07; x07; x07] /\ after = [x07; x11; x12] /\ Forall (elsewhere x01) os.
Proof. exact registered_example. Qed.

Example C55_broadcast_example : exists xs c' ds',
  let c := fresh true [] 64 64 in let mem := repeat x07 8 in
  let ms := [mkMotor x01 mem None; mkMotor x02 mem None] in
  connected 64 c (two_motors mem mem) ms /\
  all_possible comes_back 64 ms [OpRegWrite xfe 5 [x42]; OpAction xfe; OpScan] /\
  session c (two_motors mem mem) ([OpRegWrite xfe 5 [x42]; OpAction xfe] ++ [OpScan]) xs c' ds' /\
  map (fun m => stored (m_memory m) 5 [x42]) ms = repeat [x07; x07; x07; x07; x07; x42; x07; x07] 2.
Proof. exact broadcast_example. Qed.

(** ** C56: a value written to a motor is the value read from it. *)
Theorem C56_value_round_trip_refuted : ~ (forall A (D : data_impl A) V R v bytes cap c ds ms m a mem' x y c1 ds1 c2 ds2,
  crate_type D V R -> R v bytes -> connected cap c ds ms -> In m ms ->
  all_possible (fun _ => True) cap ms [OpWrite (m_id m) a bytes; OpRead (m_id m) a (N.of_nat (length bytes))] ->
  store (m_memory m) a bytes = Some mem' ->
  exchange (write D (m_id m) a v) c ds x c1 ds1 -> exchange (read D (m_id m) a) c1 ds1 y c2 ds2 ->
  x = Val (Ok (mkResponse (m_id m) false tt)) /\ y = Val (Ok (mkResponse (m_id m) false v))).
Proof. exact L_C56_value_round_trip_refuted. Qed.
Print Assumptions C56_value_round_trip_refuted.

Theorem C56_value_read_partial : forall A (D : data_impl A) V R v bytes cap c ds ms m a y c' ds',
  crate_type D V R -> R v bytes -> connected cap c ds ms -> In m ms ->
  possible comes_back cap ms (OpRead (m_id m) a (N.of_nat (length bytes))) ->
  load (m_memory m) a (N.of_nat (length bytes)) = Some bytes ->
  exchange (read D (m_id m) a) c ds y c' ds' ->
  y = Val (Ok (mkResponse (m_id m) false v)).
Proof. exact L_C56_value_read_partial. Qed.
Print Assumptions C56_value_read_partial.

Theorem C56_value_round_trip_partial : forall A (D : data_impl A) V R v bytes cap c ds ms m a mem' x y c1 ds1 c2 ds2,
  crate_type D V R -> R v bytes -> connected cap c ds ms -> In m ms ->
  all_possible comes_back cap ms [OpWrite (m_id m) a bytes; OpRead (m_id m) a (N.of_nat (length bytes))] ->
  store (m_memory m) a bytes = Some mem' ->
  exchange (write D (m_id m) a v) c ds x c1 ds1 -> exchange (read D (m_id m) a) c1 ds1 y c2 ds2 ->
  x = Val (Ok (mkResponse (m_id m) false tt)) /\ y = Val (Ok (mkResponse (m_id m) false v)).
Proof. exact L_C56_value_round_trip_partial. Qed.
Print Assumptions C56_value_round_trip_partial.

(** Values of up to five bytes, in particular all integers of up to 32 bits, need no condition. *)
Theorem C56_short_values : forall A (D : data_impl A) V R v bytes cap c ds ms m a mem' x y c1 ds1 c2 ds2,
  crate_type D V R -> R v bytes -> d_size D <= 5 -> connected cap c ds ms -> 21 <= cap -> In m ms -> is_u16 a ->
  store (m_memory m) a bytes = Some mem' ->
  exchange (write D (m_id m) a v) c ds x c1 ds1 -> exchange (read D (m_id m) a) c1 ds1 y c2 ds2 ->
  x = Val (Ok (mkResponse (m_id m) false tt)) /\ y = Val (Ok (mkResponse (m_id m) false v)).
Proof. exact L_C56_short_values. Qed.
Print Assumptions C56_short_values.

Example C56_example : exists mem' x y c1 ds1 c2 ds2,
  let c := fresh true [] 64 64 in let mem := repeat x07 8 in
  let m := mkMotor x02 mem None in let ms := [mkMotor x01 mem None; m] in
  let D := data_int true 4 in let bytes := [xfe; xff; xff; xff] in
  crate_type D (int_range true 4) (int_bytes true 4) /\ int_bytes true 4 (-2)%Z bytes /\
  connected 64 c (two_motors mem mem) ms /\ In m ms /\
  all_possible comes_back 64 ms [OpWrite (m_id m) 1 bytes; OpRead (m_id m) 1 (N.of_nat (length bytes))] /\
  store mem 1 bytes = Some mem' /\
  exchange (write D (m_id m) 1 (-2)%Z) c (two_motors mem mem) x c1 ds1 /\
  exchange (read D (m_id m) 1) c1 ds1 y c2 ds2.
Proof. exact value_example. Qed.

(** ** C61: a scan finds the motors on the bus. *)
Theorem C61_scan_finds_the_motors : forall cap c ds ms x c' ds', connected cap c ds ms ->
  exchange scan_all c ds x c' ds' ->
  x = Val (RepFound (Ok (map (fun m => Ok (mkResponse (m_id m) false (mkPing 5130 x2e))) ms))) /\
  Forall2 is_motor ds' ms.
Proof. exact L_C61_scan_finds_the_motors. Qed.
Print Assumptions C61_scan_finds_the_motors.

Theorem C61_scans_exist : forall cap c ds ms, connected cap c ds ms -> exists x c' ds', exchange scan_all c ds x c' ds'.
Proof. exact L_C61_scans_exist. Qed.
Print Assumptions C61_scans_exist.

(** Three motors. *)
Example C61_example : exists x c' ds',
  let c := fresh true [] 64 64 in
  connected 64 c three_motors [mkMotor x07 [] None; mkMotor x01 [x00; x01] None; mkMotor x02 [x05] None] /\
  exchange scan_all c three_motors x c' ds'.
Proof.
  destruct (L_C61_scans_exist _ _ _ _ three_connected) as [x [c' [ds' E]]].
  exists x, c', ds'. split; [exact three_connected|exact E].
Qed.
