(** * Property C53: the commands of the command line tool *)
From Coq Require Import ZArith.
From Verif Require Import Base Endian Error Checksum Bytestuff Packet Time Bus Data Client
  Instructions Device Api Cli Spec CallSpec StreamSpec DeviceSpec InstructionSpec DataSpec CliSpec Demo DemoProofs
  StatusProofs CliTheorems.

(** ** C53 *)
Theorem C53_command_sends : forall c id i params, command_request c id i params ->
  forall fuel, transmits (cli_command fuel c) id i params.
Proof. exact L_C53_command_sends. Qed.
Print Assumptions C53_command_sends.

Theorem C53_reading_reports : forall c id n report fuel s rep s', reading c id n report -> reach s ->
  cli_command fuel c s = (Val (Ok rep), s') ->
  exists e data, carries (incoming s) id (x55 :: e :: data) (pending s') /\ no_error e /\ length data = n /\
    rep = report (alert_bit e) data.
Proof. exact L_C53_reading_reports. Qed.
Print Assumptions C53_reading_reports.

Theorem C53_changing_reports : forall c m fuel s rep s', changing c m -> reach s ->
  cli_command fuel c s = (Val (Ok rep), s') ->
  match m with
  | MId id => id <> xfe -> exists id' e, carries (incoming s) id' [x55; e] (pending s') /\ no_error e /\
      rep = RepDone (mkResponse id' (alert_bit e) tt)
  | MBroadcast => rep = RepDone (mkResponse xfe false tt)
  end.
Proof. exact L_C53_changing_reports. Qed.
Print Assumptions C53_changing_reports.

Theorem C53_scan_reports : forall sts late s s0 e line g e2 rest fuel, reach s -> b_baud s <> 0%N ->
  (b_baud s < 2 ^ 32)%N -> 10 <= length (b_rbuf s) -> scan s = (Val (Ok tt), s0) ->
  is_timeout_error e = true -> is_timeout_error e2 = true -> ~ contains g header ->
  statuses (length (b_rbuf s)) (pending s0) sts (inr e :: line) ->
  statuses (length (b_rbuf s)) line late (map inl g ++ inr e2 :: rest) ->
  length sts < fuel -> length late < fuel ->
  exists s' g' c, cli_command fuel (CPing MBroadcast) s = (Val (Ok (RepScan (map judge_ping sts))), s') /\
    garbage_split g g' c /\ pending s' = map inl c ++ rest.
Proof. exact L_C53_scan_reports. Qed.
Print Assumptions C53_scan_reports.

(** read16 of motor 1. *)
Example C53_read_example : exists s',
  let s := fresh true [RdData (frame x01 [STATUS; x80; x34; x12])] 32 32 in
  command_request (CRead16 (MId x01) 132) x01 x02 [x84; x00; x02; x00] /\
  reading (CRead16 (MId x01) 132) x01 2 (fun alert data => RepValue (mkResponse x01 alert (le_value data))) /\
  reach s /\ cli_command 5 (CRead16 (MId x01) 132) s = (Val (Ok (RepValue (mkResponse x01 true 4660%Z))), s').
Proof.
  eexists. cbv zeta. split; [exact (cr_read16 x01 132)|]. split; [apply rd_read16|].
  split; [apply fresh_reach; lia|]. vm_compute. reflexivity.
Qed.

(** write32 to all motors. *)
Example C53_write_example : exists s',
  let s := fresh true [] 32 32 in
  command_request (CWrite32 MBroadcast 116 305419896) xfe x03 [x74; x00; x78; x56; x34; x12] /\
  changing (CWrite32 MBroadcast 116 305419896) MBroadcast /\
  reach s /\ cli_command 5 (CWrite32 MBroadcast 116 305419896) s = (Val (Ok (RepDone (mkResponse xfe false tt))), s').
Proof.
  eexists. cbv zeta. split.
  - apply (cr_write32 MBroadcast 116 305419896 [x78; x56; x34; x12]).
    split; [vm_compute; split; [discriminate|reflexivity]|]. split; [reflexivity|]. exists 0%Z. reflexivity.
  - split; [apply ch_write32|]. split; [apply fresh_reach; lia|]. vm_compute. reflexivity.
Qed.

(** A motor that answers a scan late is not reported. *)
Example C53_scan_example : exists s0 s',
  let s := fresh true [RdData (frame x01 [STATUS; x00; x06; x04; x26]); RdErr (IoTimeout 1);
                       RdData (frame x02 [STATUS; x00; x06; x04; x26]); RdErr (IoTimeout 1); RdData [xff]] 64 32 in
  reach s /\ b_baud s <> 0%N /\ (b_baud s < 2 ^ 32)%N /\ 10 <= length (b_rbuf s) /\ scan s = (Val (Ok tt), s0) /\
  statuses (length (b_rbuf s)) (pending s0) [(x01, x00, [x06; x04; x26])] (inr (IoTimeout 1) ::
    map inl ([] ++ frame x02 [STATUS; x00; x06; x04; x26]) ++ map inl [] ++ [inr (IoTimeout 1); inl xff]) /\
  statuses (length (b_rbuf s)) (map inl ([] ++ frame x02 [STATUS; x00; x06; x04; x26]) ++ map inl [] ++ [inr (IoTimeout 1); inl xff])
    [(x02, x00, [x06; x04; x26])] (map inl [] ++ [inr (IoTimeout 1); inl xff]) /\
  cli_command 5 (CPing MBroadcast) s =
    (Val (Ok (RepScan [Ok (mkResponse x01 false (mkPing 1030 x26))])), s') /\ pending s' = [inl xff].
Proof.
  do 2 eexists. cbv zeta. split; [apply fresh_reach; lia|]. split; [discriminate|]. split; [reflexivity|].
  split; [vm_compute; lia|]. split; [vm_compute; reflexivity|]. split.
  - apply (sts_cons 64 [] x01 x00 [x06; x04; x26] (frame x01 [STATUS; x00; x06; x04; x26])); demo. constructor.
  - split; [apply sts_cons; demo; constructor|]. split; vm_compute; reflexivity.
Qed.
