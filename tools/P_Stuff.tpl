(** * Properties C04-C07: byte stuffing *)
From Verif Require Import Base Endian Error Checksum Bytestuff Packet Time Bus Data Client
  Instructions Device Api Spec CallSpec StreamSpec Demo DemoProofs StuffProofs SendTheorems ReadTheorems ShortTheorems.

(** ** C04.  Not true for every body: the parameters FF FF FF FD are sent
    without the FD that must follow FF FF FD. *)
@C04_stuffing_refuted

(** The body is always the data with FD inserted after some of the FF FF FD; it
    is what the protocol prescribes exactly when no run of FF before an FD has
    a length of 3, 4, 6, 7, 9, ... *)
@C04_stuffing_partial

Example C04_example : exists s',
  let s := fresh true [] 32 32 in
  let m := write_instruction x01 WRITE 5 (fill [x00; xff; xff; xfd; x00]) in
  reach s /\ sends m x01 WRITE [x00; xff; xff; xfd; x00] /\ m s = (Val (Ok tt), s') /\
  ff_runs_ok [WRITE; x00; xff; xff; xfd; x00] /\
  calls s s' [LDiscard None; LWrite [xff; xff; xfd; x00; x01; x09; x00; x03; x00; xff; xff; xfd; xfd; x00; xb8; xcf] None].
Proof.
  eexists. cbv zeta. split; [apply fresh_reach; lia|].
  split; [apply (sends_instruction x01 WRITE [x00; xff; xff; xfd; x00]), fill_writes|].
  split; [vm_compute; reflexivity|]. split; [vm_compute; intuition lia|]. vm_compute. reflexivity.
Qed.

(** ** C05.  Refuted by the same kind of data. *)
@C05_no_header_in_body_refuted

@C05_no_header_in_body_partial

(** The exact condition: a header in the data is sent as it is if it is one of the
    first patterns, which go out bare (as many as are not noticed). *)
@C05_exactly_when_header_in_body

Example C05_example : exists s',
  let s := fresh false [] 32 32 in
  let m := write_status x07 x00 5 (fill [xff; xff; xfd; x00; x01]) in
  reach s /\ sends m x07 STATUS [x00; xff; xff; xfd; x00; x01] /\ m s = (Val (Ok tt), s') /\
  ff_runs_ok [STATUS; x00; xff; xff; xfd; x00; x01].
Proof.
  eexists. cbv zeta. split; [apply fresh_reach; lia|].
  split; [apply (sends_status x07 x00 [xff; xff; xfd; x00; x01]), fill_writes|].
  split; [vm_compute; reflexivity|]. vm_compute; intuition lia.
Qed.

Example C05_example_exactly : exists s' w,
  let s := fresh false [] 32 32 in
  let params := [x00; xff; xff; xfd; x00; xff; xff; xff; xfd] in
  let m := write_status x07 x00 8 (fill (tl params)) in
  reach s /\ sends m x07 STATUS params /\ m s = (Val (Ok tt), s') /\
  calls s s' [LDiscard None; LWrite w None] /\ contains (body_of w) header /\
  patterns_from 0 (STATUS :: params) = 2 /\ noticed_from 0 (STATUS :: params) = 1.
Proof.
  do 2 eexists. cbv zeta. split; [apply fresh_reach; lia|].
  split; [apply (sends_status x07 x00 [xff; xff; xfd; x00; xff; xff; xff; xfd]), fill_writes|].
  split; [vm_compute; reflexivity|]. split; [vm_compute; reflexivity|].
  split; [exists [STATUS; x00], [xff; xff; xff; xfd; xfd]; vm_compute; reflexivity|].
  split; vm_compute; reflexivity.
Qed.

(** ** C06.  Not true for every body: FF FF FD 00 FF FF FF FD comes back
    different. *)
@C06_unstuff_stuff_refuted

(** The exact condition. *)
@C06_unstuff_stuff_partial

(** Two sufficient conditions that are easier to check. *)
@C06_misses_first_suffices

@C06_runs_ok_suffices

(** Up to seven bytes always come back; eight need not. *)
@C06_short_suffices

@C06_short_sharp

Example C06_example :
  misses_first [x03; xff; xff; xff; xfd; xff; xff; xfd; x00] /\
  ~ ff_runs_ok [x03; xff; xff; xff; xfd; xff; xff; xfd; x00] /\
  comes_back [x03; xff; xff; xff; xfd; xff; xff; xfd; x00] /\
  stuff_inplace true ([x03; xff; xff; xff; xfd; xff; xff; xfd; x00] ++ [x00; x00]) 9 =
    Val ([x03; xff; xff; xff; xfd; xff; xff; xfd; xfd; x00; x00], Ok 10).
Proof. split; [|split; [|split; [|vm_compute; reflexivity]]]; vm_compute; intuition (try discriminate; lia). Qed.

(** The condition is weaker than the sufficient ones: here the first pattern goes
    out bare, the second is stuffed, and the receiver counts neither the FF after
    the first nor, then, too many. *)
Example C06_example_wrong_but_harmless :
  let l := [xff; xff; xfd; xff; xff; xff; xfd] in
  comes_back l /\ ~ misses_first l /\
  stuff_inplace true (l ++ [x00]) 7 = Val ([xff; xff; xfd; xff; xff; xff; xfd; xfd], Ok 8).
Proof. cbv zeta. split; [|split; [|vm_compute; reflexivity]]; vm_compute; intuition (try discriminate; lia). Qed.

(** ** C07.  A packet stuffed as the protocol prescribes is read, but its data
    is only right when the FF runs are of the lengths the library recognises. *)
@C07_conforming_peer_refuted

@C07_conforming_peer_partial

Example C07_example :
  let body := [STATUS; x00; xff; xff; xfd; x02] in
  let s := fresh true [RdData (x01 :: firstn 6 (frame x01 body)); RdData (skipn 6 (frame x01 body))] 32 32 in
  reach s /\ ~ contains [x01] header /\ is_frame x01 body (frame x01 body) /\ body <> [] /\
  length (frame x01 body) <= length (b_rbuf s) /\
  pending s = map inl ([x01] ++ frame x01 body) ++ [] /\ ff_runs_ok body.
Proof. cbv zeta. demo. Qed.
