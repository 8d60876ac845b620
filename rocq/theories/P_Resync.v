(** * Property C67: finding back to packet boundaries *)
From Coq Require Import ZArith.
From Verif Require Import Base Endian Error Checksum Bytestuff Packet Time Bus Data Client
  Instructions Device Api Spec CallSpec StreamSpec ResyncSpec Demo DemoProofs ResyncTheorems.

(** ** C67.  Refuted by packets that end in a header. *)
Theorem C67_finds_back_refuted :
  ~ (forall s junk sent1 ws1 x sent2 w ws2 rest, reach s -> 10 <= length (b_rbuf s) ->
     Forall2 (fun x w => is_frame (fst x) (snd x) w /\ snd x <> [] /\ ff_runs_ok (snd x) /\ length w <= length (b_rbuf s))
       (sent1 ++ x :: sent2) (ws1 ++ w :: ws2) -> length sent1 = length ws1 ->
     length (b_rbuf s) <= length (concat ws1) + 4 -> ws1 <> [] ->
     no_empty_message (junk ++ concat (ws1 ++ w :: ws2)) ->
     pending s = map inl (junk ++ concat (ws1 ++ w :: ws2)) ++ rest ->
     exists k, forall ds, length ds = k + S (length sent2) ->
       exists first packets s', reads ds s = (Val (first ++ map Ok packets), s') /\ length first = k /\
         Forall2 (fun p x => packet_is p (fst x) (snd x)) packets (x :: sent2) /\ pending s' = rest).
Proof. exact L_C67_finds_back_refuted. Qed.
Print Assumptions C67_finds_back_refuted.

(** Without such packets, whatever was received before: what follows after as many
    bytes as the read buffer has is all delivered. *)
Theorem C67_finds_back_partial : forall s junk sent1 ws1 x sent2 w ws2 rest, reach s -> 10 <= length (b_rbuf s) ->
  Forall2 (plain_packet (length (b_rbuf s))) (sent1 ++ x :: sent2) (ws1 ++ w :: ws2) -> length sent1 = length ws1 ->
  length (b_rbuf s) <= length (concat ws1) + 4 -> ws1 <> [] ->
  no_empty_message (junk ++ concat (ws1 ++ w :: ws2)) ->
  pending s = map inl (junk ++ concat (ws1 ++ w :: ws2)) ++ rest ->
  exists k, forall ds, length ds = k + S (length sent2) ->
    exists first packets s', reads ds s = (Val (first ++ map Ok packets), s') /\ length first = k /\
      Forall2 (fun p x => packet_is p (fst x) (snd x)) packets (x :: sent2) /\ pending s' = rest.
Proof. exact L_C67_finds_back_partial. Qed.
Print Assumptions C67_finds_back_partial.

(** Which packets these are. *)
Theorem C67_second_header : forall id body w, is_frame id body w -> (N.of_nat (length w) < 65024)%N ->
  contains (tl w) header <-> exists a, w = a ++ header.
Proof. exact L_C67_second_header. Qed.
Print Assumptions C67_second_header.

(** With one of these the reader can stay out of step for ever. *)
Theorem C67_never_finds_back : forall s n ds rest, reach s -> 10 <= length (b_rbuf s) ->
  (N.of_nat (length (b_rbuf s)) < 65030)%N -> length ds = n ->
  pending s = map inl (header ++ concat (repeat trap n)) ++ rest ->
  is_frame x35 [x55; x00; x4a; xff; xff] trap /\
  exists g s', reads ds s =
      (Val (repeat (Err (RBufferFull (mkBTS (7 + N.to_nat 65023) (length (b_rbuf s))))) n), s') /\
    pending s' = map inl (g ++ header) ++ rest.
Proof. exact L_C67_never_finds_back. Qed.
Print Assumptions C67_never_finds_back.

Theorem C67_never_finds_back_pauses : forall s e n ds rest, reach s -> 10 <= length (b_rbuf s) ->
  (N.of_nat (length (b_rbuf s)) < 65030)%N -> length ds = 2 * n ->
  pending s = map inl header ++ concat (repeat (map inl trap ++ [inr e]) n) ++ rest ->
  exists s', reads ds s =
      (Val (concat (repeat [Err (RBufferFull (mkBTS (7 + N.to_nat 65023) (length (b_rbuf s)))); Err (RIo e)] n)), s') /\
    pending s' = map inl header ++ rest.
Proof. exact L_C67_never_finds_back_pauses. Qed.
Print Assumptions C67_never_finds_back_pauses.

(** The junk announces a message of 17 bytes, which takes the first packet with it. *)
Example C67_example : exists p2 p3 s' c,
  let w1 := frame x01 [STATUS; x00; x11] in
  let w2 := frame x02 [STATUS; x00; x22] in
  let w3 := frame x03 [STATUS; x80; xff; xff; xfd] in
  let junk := [x00; xff] ++ header ++ [x07; x0a; x00] in
  let s := fresh true [RdData (junk ++ w1); RdData (w2 ++ w3)] 20 20 in
  reach s /\ 10 <= length (b_rbuf s) /\
  Forall2 (plain_packet (length (b_rbuf s)))
    ([(x01, [STATUS; x00; x11]); (x02, [STATUS; x00; x22])] ++ (x03, [STATUS; x80; xff; xff; xfd]) :: [])
    ([w1; w2] ++ w3 :: []) /\
  length (b_rbuf s) <= length (concat [w1; w2]) + 4 /\
  no_empty_message (junk ++ concat ([w1; w2] ++ w3 :: [])) /\
  pending s = map inl (junk ++ concat ([w1; w2] ++ w3 :: [])) ++ [] /\
  reads [now; now; now] s = (Val ([Err (RInvalidMessage (IMChecksum 4352 c)); Ok p2] ++ map Ok [p3]), s') /\
  packet_is p3 x03 [STATUS; x80; xff; xff; xfd].
Proof.
  do 4 eexists. cbv zeta. split; [apply fresh_reach; lia|]. split; [vm_compute; lia|].
  split; [repeat (constructor; [split; [demo|]; split; [discriminate|]; split; [demo|]; split;
    [vm_compute; lia|apply header_in_false; reflexivity]|]); constructor|].
  split; [vm_compute; lia|]. split; [apply has_empty_no; reflexivity|]. split; [vm_compute; reflexivity|].
  split; [vm_compute; reflexivity|]. split; vm_compute; reflexivity.
Qed.

(** The packet of the theorems above; in step it is received without trouble. *)
Example C67_trap_example : exists p s',
  let s := fresh true [RdData trap] 20 20 in
  is_frame x35 [STATUS; x00; x4a; xff; xff] trap /\ (exists a, trap = a ++ header) /\
  reads [now] s = (Val [Ok p], s') /\ packet_is p x35 [STATUS; x00; x4a; xff; xff].
Proof.
  do 2 eexists. cbv zeta. split; [exact trap_frame|].
  split; [exists [xff; xff; xfd; x00; x35; x07; x00; x55; x00; x4a]; reflexivity|].
  split; [vm_compute; reflexivity|]. split; vm_compute; reflexivity.
Qed.

Example C67_never_example :
  let s := fresh true [RdData (header ++ trap); RdErr (IoTimeout 1); RdData trap; RdErr (IoTimeout 1)] 20 20 in
  reach s /\ pending s = map inl header ++ concat (repeat (map inl trap ++ [inr (IoTimeout 1)]) 2) ++ [].
Proof. cbv zeta. split; [apply fresh_reach; lia|vm_compute; reflexivity]. Qed.
