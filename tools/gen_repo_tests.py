import re
src=open('/repo/src/bus/mod.rs').read()
def hx(l): return '['+'; '.join('x%02x'%int(x,0) for x in re.findall(r'0x[0-9A-Fa-f]+|\d+',l))+']'
o=[]
o.append('''(** * RepoTests: the unit tests of the crate, run on the model

    Bounded checks of the transcription, not proofs of properties.  The tests of [static_buffer!] are in [P_Small.v] (C47),
    those of tests/integration_test.rs follow at the end. *)
From Coq Require Import ZArith.
From Verif Require Import Base Endian Checksum Bytestuff Error Packet Time Bus Data Client Instructions Device MockDevice
  Spec StreamSpec RemoteSpec TurnSpec Demo.
Local Open Scope N_scope.

(** bytestuff.rs:91-111, the helpers of the tests *)
Definition test_unstuff (data : list byte) : out (list byte) :=
  let* '(data, len) := unstuff_inplace data in Val (firstn len data).
Definition maximum_stuffed_len (n : nat) : nat := n / 3 * 4 + n mod 3.
Definition test_stuff (dbg : bool) (data : list byte) : out (result (list byte) buffer_too_small) :=
  let* '(data, r) := stuff_inplace dbg (data ++ repeat x00 (maximum_stuffed_len (length data) - length data)) (length data) in
  Val (match r with Ok n => Ok (firstn n data) | Err e => Err e end).
''')
bs=open('/repo/src/bus/bytestuff.rs').read()
o.append('(** bytestuff.rs:112-123 *)\nExample test_unstuff_passes :')
cs=re.findall(r'unstuff\(vec!\[(.*?)\]\)\s*== \[(.*?)\]',bs)
o.append('  '+' /\\\n  '.join('test_unstuff %s = Val %s'%(hx(a),hx(b)) for a,b in cs)+'.\nProof. repeat split. Qed.\n')
assert len(cs)==5
cs=re.findall(r'[^n]stuff\(vec!\[(.*?)\]\)\.unwrap\(\)\s*== \[(.*?)\]',bs); assert len(cs)==7
o.append('(** bytestuff.rs:124-136 *)\nExample test_stuff_passes : forall dbg,')
o.append('  '+' /\\\n  '.join('test_stuff dbg %s = Val (Ok %s)'%(hx(a),hx(b)) for a,b in cs)+'.\nProof. intros []; repeat split. Qed.\n')
o.append('''(** endian.rs:35-49 *)
Example test_write_u16_le_passes :
  write_u16_at [xff; xff; xff; xff] 0 0 = Val [x00; x00; xff; xff] /\\ write_u16_at [x00; x00; xff; xff] 2 0x1234 = Val [x00; x00; x34; x12].
Proof. split; reflexivity. Qed.
Example test_read_u16_le_passes : read_u16_le [x00; x00; x34; x12] = Val 0 /\\ read_u16_le [x34; x12] = Val 0x1234.
Proof. split; reflexivity. Qed.

(** checksum.rs:59-63 *)
Example test_calculate_checksum_passes : calculate_checksum 0 [xff; xff; xfd; x00; x01; x03; x00; x01] = 0x4E19.
Proof. reflexivity. Qed.

(** packet.rs:130-155 *)
Example status_packet_passes : let p := mkPacket [xff; xff; xfd; x00; x23; x04; x00; STATUS; x89] in
  pk_id p = Val x23 /\\ pk_instruction p = Val STATUS /\\ as_status p = Val (Some p) /\\ st_error p = Val x89 /\\ st_parameters p = Val [].
Proof. repeat split. Qed.
Example instruction_packet_passes : let p := mkPacket [xff; xff; xfd; x00; x23; x03; x00; WRITE] in
  pk_id p = Val x23 /\\ pk_instruction p = Val WRITE /\\ as_instruction p = Val (Some p) /\\ in_parameters p = Val [].
Proof. repeat split. Qed.
''')
L=4294967294
def num(s):
    s=s.replace('_','').replace('lots',str(L)).replace('u64::from(%d)'%L,str(L)).replace('/','//')
    return eval(s)
mt=re.findall(r'assert!\(message_transfer_time\((.*?), (.*?)\) == Duration::from_(\w+)\((.*?)\)\)',src)
n=src.count('assert!(message_transfer_time')
assert len(mt)==n,(len(mt),n)
unit={'secs':10**9,'millis':10**6,'micros':10**3,'nanos':1}
rows=[]
for a,b,u,v in mt:
    if v.startswith('u64::from(lots'): v='lots * 10'
    t=num(v)*unit[u]
    rows.append('(%d, %d, mkDur %d %d)'%(num(a),num(b),t//10**9,t%10**9))
o.append('(** bus/mod.rs:357-403 *)\nExample test_message_transfer_time_passes : forall dbg, Forall (fun '+"'(size, baud, d)"+' => message_transfer_time dbg size baud = Val d) [')
o.append('  '+';\n  '.join(rows)+'].\nProof. intros []; repeat constructor. Qed.\n')
fh=re.findall(r'assert!\(find_header\(&\[(.*?)\]\) == (\d+)\)',src); assert len(fh)==12
o.append('(** bus/mod.rs:405-421 *)\nExample test_find_garbage_end_passes : Forall (fun '+"'(l, n)"+' => find_header l = n) [')
o.append('  '+';\n  '.join('(%s, %s%%nat)'%(hx(a),b) for a,b in fh)+'].\nProof. repeat constructor. Qed.\n')
o.append(r'''(** bus/mod.rs:461-531.  The dummy port fills the buffer with the bytes of two packets and answers 50 to every read. *)
Definition dummy_bytes : list byte :=
  let p := [xff; xff; xfd; x00; x00; x0a; x00] ++ repeat x00 8 in
  [xff; xff; xfd; x00; x00; x10; x27; x00] ++ p ++ le16 (calculate_checksum 0 p) ++ repeat x00 25.
Example test_buffer_too_small_passes : forall dbg, exists b b1 b2 p e, let d := mkDeadline 0 (mkDur 1 0) in
  length dummy_bytes = 50%nat /\
  with_buffers dbg (mkPort (repeat (RdData dummy_bytes) 2) [] [] [] 1 []) (Ok 115200) (repeat x00 128) (repeat x00 128) = Val (Ok b) /\
  read_packet_deadline d b = (Val (Err (RBufferFull e)), b1) /\ read_packet_deadline d b1 = (Val (Ok p), b2).
Proof. intros []; do 5 eexists; cbv zeta; (split; [reflexivity|]); (split; [reflexivity|]); split; vm_compute; reflexivity. Qed.

(** ** tests/integration_test.rs, on the simulated motors of tests/common/mock

    tests/common/mock/mod.rs:43-54 [run_mock]: motors 1 and 2, each with a table of 200 zeros (mock_device.rs:51-58).
    [ask]: the client's message reaches the motors, each goes through its loop once, the client hears what they send. *)
Definition world : Type := bus * list node.
Definition start (dbg : bool) : world :=
  let m id := mkNode id (fresh dbg [] 128 128) (Val (mkMock (repeat x00 200) None)) in (fresh dbg [] 128 128, [m x01; m x02]).
Definition sent_since (s s' : bus) : list byte := transmitted (skipn (length (p_log (b_port s))) (p_log (b_port s'))).
Definition hear (s : bus) (w : list byte) : bus := set_script s (RdData w :: silence [1; 2; 3]).
Definition go_round (w : list byte) (d : node) : list byte * node :=
  match n_state d with
  | Val st => let '(o, s') := mock_iteration (n_id d) st (hear (n_bus d) w) in (sent_since (n_bus d) s', mkNode (n_id d) s' o)
  | _ => ([], d)
  end.
Definition ask {A} (m : M A) (k : A -> world -> Prop) (w : world) : Prop :=
  let l := map (go_round (sent_since (fst w) (snd (m (set_script (fst w) []))))) (snd w) in
  match m (hear (fst w) (flat_map fst l)) with (Val a, s') => k a (s', map snd l) | _ => False end.
(** [assert!(response.motor_id == id)] *)
Definition from {A} (id : byte) (r : result (response A) transfer_error) : Prop :=
  match r with Ok x => r_motor_id x = id | Err _ => False end.

Example test_read_passes : forall dbg, ask (read (data_int false 4) x01 132) (fun r _ => from x01 r) (start dbg).
Proof. intros []; vm_compute; reflexivity. Qed.
Example test_read_bytes_passes : forall dbg, ask (read_bytes x01 132 4) (fun r _ => from x01 r) (start dbg).
Proof. intros []; vm_compute; reflexivity. Qed.
Example test_write_passes : forall dbg,
  ask (write (data_int false 1) x01 65 1%Z) (fun r => ask (write (data_int false 1) x01 65 0%Z) (fun _ _ => from x01 r)) (start dbg).
Proof. intros []; vm_compute; reflexivity. Qed.
Example test_write_bytes_passes : forall dbg, ask (write_bytes x01 116 [x01; x02; x03; x04]) (fun r _ => from x01 r) (start dbg).
Proof. intros []; vm_compute; reflexivity. Qed.
Example test_reg_write_passes : forall dbg,
  ask (reg_write (data_int false 1) x01 65 1%Z) (fun r => ask (action x01) (fun a =>
    ask (write (data_int false 1) x01 65 0%Z) (fun _ _ => from x01 r /\ from x01 a))) (start dbg).
Proof. intros []; vm_compute; split; reflexivity. Qed.
Example test_reg_write_bytes_passes : forall dbg, ask (reg_write_bytes x01 116 [x01; x02; x03; x04]) (fun r _ => from x01 r) (start dbg).
Proof. intros []; vm_compute; reflexivity. Qed.

(** The tests that are marked [should_panic]: motor 2 does not answer. *)
Definition second_fails (r : result (list (option (result (response (list byte)) read_error))) write_error) : Prop :=
  match r with Ok [Some (Ok x); Some (Err (RIo (IoTimeout _)))] => r_motor_id x = x01 | _ => False end.
Example test_sync_read_bytes_panics : forall dbg, ask (sync_read_all [x01; x02] 132 4) (fun r _ => second_fails r) (start dbg).
Proof. intros []; vm_compute; reflexivity. Qed.
Example test_bulk_read_bytes_panics : forall dbg,
  ask (bulk_read_all [mkBulkRead x01 132 4; mkBulkRead x02 132 4]) (fun r _ => second_fails r) (start dbg).
Proof. intros []; vm_compute; reflexivity. Qed.

Example test_ping_passes : forall dbg,
  ask scan_all (fun r _ => match r with RepFound (Ok l) => length l = 2%nat | _ => False end) (start dbg).
Proof. intros []; vm_compute; reflexivity. Qed.
''')
open('/verif/rocq/theories/RepoTests.v','w').write('\n'.join(o))
