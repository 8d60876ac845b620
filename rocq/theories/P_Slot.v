(** * Property C66: failures of single motors in sync and bulk reads *)
From Coq Require Import ZArith.
From Verif Require Import Base Endian Error Checksum Bytestuff Packet Time Bus Data Client
  Instructions Device Api Spec CallSpec StreamSpec DeviceSpec InstructionSpec SlotSpec Demo CrcErrorProofs
  DemoProofs SlotTheorems.

(** ** C66.  Refuted by an answer that is missing altogether. *)
Theorem C66_confined_refuted :
  ~ (forall n before lost after s sts1 sts2 e rest, reach s -> 10 <= length (b_rbuf s) ->
     is_u16 n -> b_baud s <> 0%N -> NoDup (before ++ lost :: after) ->
     length sts1 = length before -> map (fun st => fst (fst st)) sts2 = after ->
     statuses (length (b_rbuf s)) (pending s) (sts1 ++ sts2) (inr e :: rest) ->
     exists x s', take_then_drop srb_next srb_drop (length before + S (length after)) (mkSRB n (before ++ lost :: after) 0) s =
         (Val (map (fun '(id, st) => Some (judge id (N.to_nat n) st)) (combine before sts1) ++ x ::
               map (fun '(id, st) => Some (judge id (N.to_nat n) st)) (combine after sts2)), s') /\
       pending s' = rest).
Proof. exact L_C66_confined_refuted. Qed.
Print Assumptions C66_confined_refuted.

(** An answer with an error, from the wrong motor, of the wrong length, damaged,
    or not arriving in time affects its own item only. *)
Theorem C66_sync_read_bytes_partial : forall n ids k s sls rest, reach s -> 10 <= length (b_rbuf s) ->
  is_u16 n -> b_baud s <> 0%N -> k <= length ids -> length sls = length ids ->
  slots (length (b_rbuf s)) (pending s) sls rest ->
  exists s', take_then_drop srb_next srb_drop k (mkSRB n ids 0) s =
      (Val (map (fun '(id, sl) => Some (verdict (judge id (N.to_nat n)) sl)) (firstn k (combine ids sls))), s') /\
    pending s' = rest.
Proof. exact L_C66_sync_read_bytes_partial. Qed.
Print Assumptions C66_sync_read_bytes_partial.

Theorem C66_sync_read_partial : forall A (D : data_impl A) decode ids k s sls rest, reach s -> 10 <= length (b_rbuf s) ->
  is_u16 (N.of_nat (d_size D)) -> b_baud s <> 0%N ->
  (forall ps, length ps = d_size D -> d_decode D ps = Val (decode ps)) ->
  k <= length ids -> length sls = length ids -> slots (length (b_rbuf s)) (pending s) sls rest ->
  exists s', take_then_drop (sr_next D) (sr_drop D) k (mkSR ids 0) s =
      (Val (map (fun '(id, sl) => Some (verdict (judge_value decode id (d_size D)) sl)) (firstn k (combine ids sls))), s') /\
    pending s' = rest.
Proof. exact L_C66_sync_read_partial. Qed.
Print Assumptions C66_sync_read_partial.

Theorem C66_bulk_read_partial : forall reqs k s sls rest, reach s -> 10 <= length (b_rbuf s) ->
  Forall (fun q => is_u16 (br_count q)) reqs -> b_baud s <> 0%N -> k <= length reqs -> length sls = length reqs ->
  slots (length (b_rbuf s)) (pending s) sls rest ->
  exists s', take_then_drop br_next br_drop k (mkBR reqs 0) s =
      (Val (map (fun '(q, sl) => Some (verdict (judge (br_id q) (N.to_nat (br_count q))) sl)) (firstn k (combine reqs sls))), s') /\
    pending s' = rest.
Proof. exact L_C66_bulk_read_partial. Qed.
Print Assumptions C66_bulk_read_partial.

(** What becomes of the others when an answer is missing and those of the later
    motors come in its place. *)
Theorem C66_lost_sync_read_bytes : forall n before lost after s sts1 sts2 e rest, reach s -> 10 <= length (b_rbuf s) ->
  is_u16 n -> b_baud s <> 0%N -> NoDup (before ++ lost :: after) ->
  length sts1 = length before -> map (fun st => fst (fst st)) sts2 = after ->
  statuses (length (b_rbuf s)) (pending s) (sts1 ++ sts2) (inr e :: rest) ->
  exists xs s', take_then_drop srb_next srb_drop (length before + S (length after)) (mkSRB n (before ++ lost :: after) 0) s =
      (Val (map (fun '(id, st) => Some (judge id (N.to_nat n) st)) (combine before sts1) ++ xs), s') /\
    pending s' = rest /\ length xs = S (length after) /\ Forall failed xs.
Proof. exact L_C66_lost_sync_read_bytes. Qed.
Print Assumptions C66_lost_sync_read_bytes.

Theorem C66_lost_sync_read : forall A (D : data_impl A) decode before lost after s sts1 sts2 e rest, reach s ->
  10 <= length (b_rbuf s) -> is_u16 (N.of_nat (d_size D)) -> b_baud s <> 0%N ->
  (forall ps, length ps = d_size D -> d_decode D ps = Val (decode ps)) ->
  NoDup (before ++ lost :: after) ->
  length sts1 = length before -> map (fun st => fst (fst st)) sts2 = after ->
  statuses (length (b_rbuf s)) (pending s) (sts1 ++ sts2) (inr e :: rest) ->
  exists xs s', take_then_drop (sr_next D) (sr_drop D) (length before + S (length after)) (mkSR (before ++ lost :: after) 0) s =
      (Val (map (fun '(id, st) => Some (judge_value decode id (d_size D) st)) (combine before sts1) ++ xs), s') /\
    pending s' = rest /\ length xs = S (length after) /\ Forall failed xs.
Proof. exact L_C66_lost_sync_read. Qed.
Print Assumptions C66_lost_sync_read.

Theorem C66_lost_bulk_read : forall before lost after s sts1 sts2 e rest, reach s -> 10 <= length (b_rbuf s) ->
  Forall (fun q => is_u16 (br_count q)) (before ++ lost :: after) -> b_baud s <> 0%N ->
  NoDup (map br_id (before ++ lost :: after)) ->
  length sts1 = length before -> map (fun st => fst (fst st)) sts2 = map br_id after ->
  statuses (length (b_rbuf s)) (pending s) (sts1 ++ sts2) (inr e :: rest) ->
  exists xs s', take_then_drop br_next br_drop (length before + S (length after)) (mkBR (before ++ lost :: after) 0) s =
      (Val (map (fun '(q, st) => Some (judge (br_id q) (N.to_nat (br_count q)) st)) (combine before sts1) ++ xs), s') /\
    pending s' = rest /\ length xs = S (length after) /\ Forall failed xs.
Proof. exact L_C66_lost_bulk_read. Qed.
Print Assumptions C66_lost_bulk_read.

(** Six motors: an alert, a damaged answer, a timeout after noise, an error, an
    echo, and a good answer. *)
Example C66_example : exists s',
  let c := Checksum.calculate_checksum 0 (header ++ [x02] ++ le16 5 ++ [STATUS; x00; x22]) in
  let s := fresh true [RdData (frame x01 [STATUS; x80; x11] ++ [x00] ++ message x02 [STATUS; x00; x22] 7);
                       RdData [x0a; x0b]; RdErr (IoTimeout 1);
                       RdData (frame x04 [STATUS; x04] ++ frame x05 [PING] ++ frame x06 [STATUS; x00; x66])] 64 32 in
  let sls := [Answered x01 x80 [x11]; Garbled 7 c; Silent (IoTimeout 1); Answered x04 x04 []; Alien PING;
              Answered x06 x00 [x66]] in
  reach s /\ 10 <= length (b_rbuf s) /\ is_u16 1 /\ b_baud s <> 0%N /\
  slots (length (b_rbuf s)) (pending s) sls [] /\
  take_then_drop srb_next srb_drop 6 (mkSRB 1 [x01; x02; x03; x04; x05; x06] 0) s =
    (Val [Some (Ok (mkResponse x01 true [x11])); Some (Err (RInvalidMessage (IMChecksum 7 c)));
          Some (Err (RIo (IoTimeout 1))); Some (Err (RMotorError x04));
          Some (Err (RInvalidMessage (IMInstruction PING STATUS)));
          Some (Ok (mkResponse x06 false [x66]))], s').
Proof.
  eexists. cbv zeta. split; [apply fresh_reach; lia|]. split; [vm_compute; lia|]. split; [reflexivity|].
  split; [discriminate|]. split; [|vm_compute; reflexivity].
  apply (sl_answered 64 [] x01 x80 [x11] (frame x01 [STATUS; x80; x11])
    (map inl ([x00] ++ message x02 [STATUS; x00; x22] 7) ++ map inl [x0a; x0b] ++ inr (IoTimeout 1) ::
     map inl ([] ++ frame x04 [STATUS; x04]) ++ map inl ([] ++ frame x05 [PING]) ++
     map inl ([] ++ frame x06 [STATUS; x00; x66]) ++ [])); demo.
  apply sl_garbled.
  - demo.
  - reflexivity.
  - reflexivity.
  - vm_compute; lia.
  - apply checksum_iff_crc16; reflexivity.
  - vm_compute; discriminate.
  - apply sl_silent.
    + split; [reflexivity|]. split; [left; reflexivity|].
      intros g1 b g2 E K. assert (B : b = x0a \/ b = x0b).
      { destruct g1 as [|y [|z [|u g1]]]; injection E; auto; discriminate. }
      destruct K as [[r K]|[_ [r [_ K]]]]; destruct B; subst b; discriminate.
    + apply sl_answered; demo. apply sl_alien with (id := x05) (ps := []); demo.
      apply sl_answered; demo. constructor.
Qed.

(** Motor 1 is silent, motors 2 and 3 answer at once: all three items are errors. *)
Example C66_lost_example : exists s',
  let s := fresh true [RdData (frame x02 [STATUS; x00; x22]); RdData (frame x03 [STATUS; x00; x33]);
                       RdErr (IoTimeout 1)] 64 32 in
  let sts2 := [(x02, x00, [x22]); (x03, x00, [x33])] in
  reach s /\ NoDup ([] ++ x01 :: [x02; x03]) /\ map (fun st => fst (fst st)) sts2 = [x02; x03] /\
  statuses (length (b_rbuf s)) (pending s) ([] ++ sts2) [inr (IoTimeout 1)] /\
  take_then_drop srb_next srb_drop 3 (mkSRB 1 [x01; x02; x03] 0) s =
    (Val [Some (Err (RInvalidMessage (IMPacketId x02 (Some x01))));
          Some (Err (RInvalidMessage (IMPacketId x03 (Some x02))));
          Some (Err (RIo (IoTimeout 1)))], s').
Proof.
  eexists. cbv zeta. split; [apply fresh_reach; lia|].
  split; [repeat constructor; cbn; intuition discriminate|]. split; [reflexivity|].
  split; [|vm_compute; reflexivity].
  apply (sts_cons 64 [] x02 x00 [x22] (frame x02 [STATUS; x00; x22])
    (map inl ([] ++ frame x03 [STATUS; x00; x33]) ++ [inr (IoTimeout 1)])); demo.
  apply sts_cons; demo. constructor.
Qed.

(** An answer that breaks off after the length field takes the next one with it. *)
Example C66_cut_off_example : exists s' e1 e2,
  let s := fresh true [RdData (firstn 9 (frame x01 [STATUS; x00; x11])); RdErr (IoTimeout 1);
                       RdData (frame x02 [STATUS; x00; x22]); RdErr (IoTimeout 2)] 64 32 in
  take_then_drop srb_next srb_drop 2 (mkSRB 1 [x01; x02] 0) s = (Val [Some (Err e1); Some (Err e2)], s').
Proof. do 3 eexists. cbv zeta. vm_compute. reflexivity. Qed.
