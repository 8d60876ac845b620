(** * RepoTests: the unit tests of the crate, run on the model

    Bounded checks of the transcription, not proofs of properties.  The tests of [static_buffer!] are in [P_Small.v] (C47),
    those of tests/integration_test.rs follow at the end. *)
From Coq Require Import ZArith.
From Verif Require Import Base Endian Checksum Bytestuff Error Packet Time Bus Data Client Instructions Device MockDevice
  Spec StreamSpec RemoteSpec TurnSpec Demo.
Local Open Scope N_scope.

(** bytestuff.rs:91-111, the helpers of the tests *)
Definition test_unstuff (data : list byte) : out (list byte) :=
  let* '(data, len) := unstuff_inplace data in Val (firstn len data).
Definition maximum_stuffed_len (n : nat) : nat := n / 3 * 4 + n mod 3.
Definition test_stuff (dbg : bool) (data : list byte) : out (result (list byte) buffer_too_small) :=
  let* '(data, r) := stuff_inplace dbg (data ++ repeat x00 (maximum_stuffed_len (length data) - length data)) (length data) in
  Val (match r with Ok n => Ok (firstn n data) | Err e => Err e end).

(** bytestuff.rs:112-123 *)
Example test_unstuff_passes :
  test_unstuff [x00; x00; x00] = Val [x00; x00; x00] /\
  test_unstuff [xff; xff; xfd; x00] = Val [xff; xff; xfd; x00] /\
  test_unstuff [xff; xff; xfd; xfd] = Val [xff; xff; xfd] /\
  test_unstuff [xff; xff; x01; xfd; xfd] = Val [xff; xff; x01; xfd; xfd] /\
  test_unstuff [x00; xff; xff; xfd; xfd; x01; xff; xff; xfd; xfd; x02; x03] = Val [x00; xff; xff; xfd; x01; xff; xff; xfd; x02; x03].
Proof. repeat split. Qed.

(** bytestuff.rs:124-136 *)
Example test_stuff_passes : forall dbg,
  test_stuff dbg [x00; x00; x00] = Val (Ok [x00; x00; x00]) /\
  test_stuff dbg [xff; xff; xfd; x00] = Val (Ok [xff; xff; xfd; xfd; x00]) /\
  test_stuff dbg [xff; xff; xfd; xfd] = Val (Ok [xff; xff; xfd; xfd; xfd]) /\
  test_stuff dbg [xff; xff; x01; xfd] = Val (Ok [xff; xff; x01; xfd]) /\
  test_stuff dbg [x00; xff; xff; xfd; x01; xff; xff; xfd; x02; x03] = Val (Ok [x00; xff; xff; xfd; xfd; x01; xff; xff; xfd; xfd; x02; x03]) /\
  test_stuff dbg [xff; xff; xfd; xff; xff; xfd] = Val (Ok [xff; xff; xfd; xfd; xff; xff; xfd; xfd]) /\
  test_stuff dbg [xff; xff; xfd; x00; xff; xff; xfd] = Val (Ok [xff; xff; xfd; xfd; x00; xff; xff; xfd; xfd]).
Proof. intros []; repeat split. Qed.

(** endian.rs:35-49 *)
Example test_write_u16_le_passes :
  write_u16_at [xff; xff; xff; xff] 0 0 = Val [x00; x00; xff; xff] /\ write_u16_at [x00; x00; xff; xff] 2 0x1234 = Val [x00; x00; x34; x12].
Proof. split; reflexivity. Qed.
Example test_read_u16_le_passes : read_u16_le [x00; x00; x34; x12] = Val 0 /\ read_u16_le [x34; x12] = Val 0x1234.
Proof. split; reflexivity. Qed.

(** checksum.rs:59-63 *)
Example test_calculate_checksum_passes : calculate_checksum 0 [xff; xff; xfd; x00; x01; x03; x00; x01] = 0x4E19.
Proof. reflexivity. Qed.

(** packet.rs:130-155 *)
Example status_packet_passes : let p := mkPacket [xff; xff; xfd; x00; x23; x04; x00; STATUS; x89] in
  pk_id p = Val x23 /\ pk_instruction p = Val STATUS /\ as_status p = Val (Some p) /\ st_error p = Val x89 /\ st_parameters p = Val [].
Proof. repeat split. Qed.
Example instruction_packet_passes : let p := mkPacket [xff; xff; xfd; x00; x23; x03; x00; WRITE] in
  pk_id p = Val x23 /\ pk_instruction p = Val WRITE /\ as_instruction p = Val (Some p) /\ in_parameters p = Val [].
Proof. repeat split. Qed.

(** bus/mod.rs:357-403 *)
Example test_message_transfer_time_passes : forall dbg, Forall (fun '(size, baud, d) => message_transfer_time dbg size baud = Val d) [
  (100, 1000, mkDur 1 0);
  (1000, 10000, mkDur 1 0);
  (1000, 1000000, mkDur 0 10000000);
  (1000, 10000000, mkDur 0 1000000);
  (1000, 100000000, mkDur 0 100000);
  (1000, 1000000000, mkDur 0 10000);
  (1000, 2000000000, mkDur 0 5000);
  (1000, 4000000000, mkDur 0 2500);
  (10000, 4000000000, mkDur 0 25000);
  (1000000, 4000000000, mkDur 0 2500000);
  (10000000, 4000000000, mkDur 0 25000000);
  (100000000, 4000000000, mkDur 0 250000000);
  (1000000000, 4000000000, mkDur 2 500000000);
  (2000000000, 4000000000, mkDur 5 0);
  (4000000000, 4000000000, mkDur 10 0);
  (4000000000, 2000000000, mkDur 20 0);
  (4000000000, 1000000000, mkDur 40 0);
  (4000000000, 100000000, mkDur 400 0);
  (4000000000, 10000000, mkDur 4000 0);
  (4000000000, 1000000, mkDur 40000 0);
  (4000000000, 100000, mkDur 400000 0);
  (4000000000, 10000, mkDur 4000000 0);
  (4000000000, 1000, mkDur 40000000 0);
  (4000000000, 100, mkDur 400000000 0);
  (4000000000, 10, mkDur 4000000000 0);
  (4000000000, 1, mkDur 40000000000 0);
  (43, 1, mkDur 430 0);
  (43, 10, mkDur 43 0);
  (43, 2, mkDur 215 0);
  (43, 20, mkDur 21 500000000);
  (43, 200, mkDur 2 150000000);
  (43, 2000000, mkDur 0 215000);
  (43, 2000000000, mkDur 0 215);
  (43, 4000000000, mkDur 0 108);
  (3, 4000000000, mkDur 0 8);
  (5, 4000000000, mkDur 0 13);
  (4294967294, 1, mkDur 42949672940 0);
  (4294967294, 4294967294, mkDur 10 0);
  (2147483647, 4294967294, mkDur 5 0);
  (4294967294, 2147483647, mkDur 20 0)].
Proof. intros []; repeat constructor. Qed.

(** bus/mod.rs:405-421 *)
Example test_find_garbage_end_passes : Forall (fun '(l, n) => find_header l = n) [
  ([xff], 0%nat);
  ([xff; xff], 0%nat);
  ([xff; xff; xfd], 0%nat);
  ([xff; xff; xfd; x00], 0%nat);
  ([xff; xff; xfd; x00; x09], 0%nat);
  ([x00; x01; x02; x03; x04; xff], 5%nat);
  ([x00; x01; x02; x03; x04; xff; xff], 5%nat);
  ([x00; x01; x02; x03; x04; xff; xff; xfd], 5%nat);
  ([x00; x01; x02; x03; x04; xff; xff; xfd; x00], 5%nat);
  ([x00; x01; x02; x03; x04; xff; xff; xfd; x00; x09], 5%nat);
  ([xff; x01], 2%nat);
  ([x00; x01; x02; x03; x04; xff; x06], 7%nat)].
Proof. repeat constructor. Qed.

(** bus/mod.rs:461-531.  The dummy port fills the buffer with the bytes of two packets and answers 50 to every read. *)
Definition dummy_bytes : list byte :=
  let p := [xff; xff; xfd; x00; x00; x0a; x00] ++ repeat x00 8 in
  [xff; xff; xfd; x00; x00; x10; x27; x00] ++ p ++ le16 (calculate_checksum 0 p) ++ repeat x00 25.
Example test_buffer_too_small_passes : forall dbg, exists b b1 b2 p e, let d := mkDeadline 0 (mkDur 1 0) in
  length dummy_bytes = 50%nat /\
  with_buffers dbg (mkPort (repeat (RdData dummy_bytes) 2) [] [] [] 1 []) (Ok 115200) (repeat x00 128) (repeat x00 128) = Val (Ok b) /\
  read_packet_deadline d b = (Val (Err (RBufferFull e)), b1) /\ read_packet_deadline d b1 = (Val (Ok p), b2).
Proof. intros []; do 5 eexists; cbv zeta; (split; [reflexivity|]); (split; [reflexivity|]); split; vm_compute; reflexivity. Qed.

(** ** tests/integration_test.rs, on the simulated motors of tests/common/mock

    tests/common/mock/mod.rs:43-54 [run_mock]: motors 1 and 2, each with a table of 200 zeros (mock_device.rs:51-58).
    [ask]: the client's message reaches the motors, each goes through its loop once, the client hears what they send. *)
Definition world : Type := bus * list node.
Definition start (dbg : bool) : world :=
  let m id := mkNode id (fresh dbg [] 128 128) (Val (mkMock (repeat x00 200) None)) in (fresh dbg [] 128 128, [m x01; m x02]).
Definition sent_since (s s' : bus) : list byte := transmitted (skipn (length (p_log (b_port s))) (p_log (b_port s'))).
Definition hear (s : bus) (w : list byte) : bus := set_script s (RdData w :: silence [1; 2; 3]).
Definition go_round (w : list byte) (d : node) : list byte * node :=
  match n_state d with
  | Val st => let '(o, s') := mock_iteration (n_id d) st (hear (n_bus d) w) in (sent_since (n_bus d) s', mkNode (n_id d) s' o)
  | _ => ([], d)
  end.
Definition ask {A} (m : M A) (k : A -> world -> Prop) (w : world) : Prop :=
  let l := map (go_round (sent_since (fst w) (snd (m (set_script (fst w) []))))) (snd w) in
  match m (hear (fst w) (flat_map fst l)) with (Val a, s') => k a (s', map snd l) | _ => False end.
(** [assert!(response.motor_id == id)] *)
Definition from {A} (id : byte) (r : result (response A) transfer_error) : Prop :=
  match r with Ok x => r_motor_id x = id | Err _ => False end.

Example test_read_passes : forall dbg, ask (read (data_int false 4) x01 132) (fun r _ => from x01 r) (start dbg).
Proof. intros []; vm_compute; reflexivity. Qed.
Example test_read_bytes_passes : forall dbg, ask (read_bytes x01 132 4) (fun r _ => from x01 r) (start dbg).
Proof. intros []; vm_compute; reflexivity. Qed.
Example test_write_passes : forall dbg,
  ask (write (data_int false 1) x01 65 1%Z) (fun r => ask (write (data_int false 1) x01 65 0%Z) (fun _ _ => from x01 r)) (start dbg).
Proof. intros []; vm_compute; reflexivity. Qed.
Example test_write_bytes_passes : forall dbg, ask (write_bytes x01 116 [x01; x02; x03; x04]) (fun r _ => from x01 r) (start dbg).
Proof. intros []; vm_compute; reflexivity. Qed.
Example test_reg_write_passes : forall dbg,
  ask (reg_write (data_int false 1) x01 65 1%Z) (fun r => ask (action x01) (fun a =>
    ask (write (data_int false 1) x01 65 0%Z) (fun _ _ => from x01 r /\ from x01 a))) (start dbg).
Proof. intros []; vm_compute; split; reflexivity. Qed.
Example test_reg_write_bytes_passes : forall dbg, ask (reg_write_bytes x01 116 [x01; x02; x03; x04]) (fun r _ => from x01 r) (start dbg).
Proof. intros []; vm_compute; reflexivity. Qed.

(** The tests that are marked [should_panic]: motor 2 does not answer. *)
Definition second_fails (r : result (list (option (result (response (list byte)) read_error))) write_error) : Prop :=
  match r with Ok [Some (Ok x); Some (Err (RIo (IoTimeout _)))] => r_motor_id x = x01 | _ => False end.
Example test_sync_read_bytes_panics : forall dbg, ask (sync_read_all [x01; x02] 132 4) (fun r _ => second_fails r) (start dbg).
Proof. intros []; vm_compute; reflexivity. Qed.
Example test_bulk_read_bytes_panics : forall dbg,
  ask (bulk_read_all [mkBulkRead x01 132 4; mkBulkRead x02 132 4]) (fun r _ => second_fails r) (start dbg).
Proof. intros []; vm_compute; reflexivity. Qed.

Example test_ping_passes : forall dbg,
  ask scan_all (fun r _ => match r with RepFound (Ok l) => length l = 2%nat | _ => False end) (start dbg).
Proof. intros []; vm_compute; reflexivity. Qed.
