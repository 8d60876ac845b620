(** * Property C90: motors get the commands the caller gave *)
From Coq Require Import ZArith.
From Verif Require Import Base Endian Error Checksum Bytestuff Packet Time Bus Data Client
  Instructions Device Api Spec CallSpec StreamSpec InstructionSpec CallerIter GivenSpec Demo DemoProofs InstructionProofs TypedTheorems GivenTheorems GivenValues.

(** ** C90.  With an iterator whose length is right, sync writes are those of the other properties. *)
Theorem C90_honest : forall a n l s, (4 + N.of_nat (length l) * (1 + n) <= usize_max)%N ->
  sync_write_bytes_iter (N.of_nat (length l)) a n l s = sync_write_bytes a n l s.
Proof. exact L_C90_honest. Qed.
Print Assumptions C90_honest.

(** False otherwise: commands are sent that were not given. *)
Theorem C90_only_what_was_given_refuted : ~ (forall motors a n l s s' evs, reach s -> of_size (N.to_nat n) l ->
  is_u16 a -> is_u16 n -> (N.of_nat (length l) <= motors <= usize_max)%N ->
  sync_write_bytes_iter motors a n l s = (Val (Ok tt), s') -> calls s s' evs ->
  exists commands, incl commands l /\ NoDup commands /\ sent BROADCAST SYNC_WRITE (le16 a ++ le16 n ++ sync_entries commands) evs).
Proof. exact L_C90_only_what_was_given_refuted. Qed.
Print Assumptions C90_only_what_was_given_refuted.

(** Exactly: the commands that are missing are made up from what lies in the write buffer. *)
Theorem C90_fewer_than_announced : forall motors a n l s, reach s -> of_size (N.to_nat n) l ->
  length l <= motors -> (4 + N.of_nat motors * (1 + n) <= usize_max)%N ->
  exists ghosts, length l + length ghosts = motors /\ of_size (N.to_nat n) ghosts /\
    (12 + motors * (1 + N.to_nat n) <= length (b_wbuf s) ->
     sync_entries ghosts = leftover s (12 + length (sync_entries l)) (length (sync_entries ghosts))) /\
    sync_write_bytes_iter (N.of_nat motors) a n l s = sync_write_bytes a n (l ++ ghosts) s.
Proof. exact L_C90_fewer_than_announced. Qed.
Print Assumptions C90_fewer_than_announced.

(** That is the message sent before. *)
Theorem C90_old_messages_come_back : forall m id i params motors a n l s0 s, reach s0 -> sends m id i params ->
  m s0 = (Val (Ok tt), s) -> of_size (N.to_nat n) l -> length l <= motors -> (4 + N.of_nat motors * (1 + n) <= usize_max)%N ->
  exists w ghosts, calls s0 s [LDiscard None; LWrite w None] /\
    length l + length ghosts = motors /\ of_size (N.to_nat n) ghosts /\
    (12 + motors * (1 + N.to_nat n) <= length w ->
     sync_entries ghosts = firstn (length (sync_entries ghosts)) (skipn (12 + length (sync_entries l)) w)) /\
    sync_write_bytes_iter (N.of_nat motors) a n l s = sync_write_bytes a n (l ++ ghosts) s.
Proof. exact L_C90_old_messages_come_back. Qed.
Print Assumptions C90_old_messages_come_back.

(** Nothing is sent when there are more commands than announced, or one has the wrong size. *)
Theorem C90_more_than_announced : forall motors a n l s o s', reach s -> (motors < N.of_nat (length l))%N ->
  sync_write_bytes_iter motors a n l s = (o, s') -> calls s s' [] /\ forall r, o <> Val (Ok r).
Proof. exact L_C90_more_than_announced. Qed.
Print Assumptions C90_more_than_announced.

Theorem C90_wrong_size : forall motors a n l s o s', reach s -> ~ of_size (N.to_nat n) l ->
  sync_write_bytes_iter motors a n l s = (o, s') -> calls s s' [] /\ forall r, o <> Val (Ok r).
Proof. exact L_C90_wrong_size. Qed.
Print Assumptions C90_wrong_size.

(** The typed sync write does the same with values of one byte (it fails with larger ones, C73). *)
Theorem C90_typed_sync_write : forall A (D : data_impl A) motors a l l' s, reach s -> data_ok D -> d_size D = 1 ->
  Forall2 (fun c c' => sw_id c = sw_id c' /\ encodes_as D (sw_data c) (sw_data c')) l l' ->
  sync_write_iter D motors a l s = sync_write_bytes_iter motors a 1 l' s.
Proof. exact L_C90_typed_sync_write. Qed.
Print Assumptions C90_typed_sync_write.

(** Bulk writes go through the commands twice; what counts is the second time. *)
Theorem C90_bulk_same_size : forall counted written s, Forall (fun w => is_u16 (N.of_nat (length (bw_data w)))) (counted ++ written) ->
  bulk_size counted = bulk_size written -> bulk_write_iter counted written s = bulk_write written s.
Proof. exact L_C90_bulk_same_size. Qed.
Print Assumptions C90_bulk_same_size.

Theorem C90_bulk_more_than_counted : forall counted written s o s', reach s -> bulk_size counted < bulk_size written ->
  bulk_write_iter counted written s = (o, s') -> calls s s' [] /\ forall r, o <> Val (Ok r).
Proof. exact L_C90_bulk_more_than_counted. Qed.
Print Assumptions C90_bulk_more_than_counted.

Theorem C90_bulk_fewer_than_counted : forall counted written s enc, reach s ->
  Forall (fun w => is_u16 (N.of_nat (length (bw_data w)))) counted -> bulk_size written <= bulk_size counted ->
  10 + bulk_size counted <= length (b_wbuf s) ->
  writes_parameters enc (bulk_write_entries written ++ leftover s (8 + bulk_size written) (bulk_size counted - bulk_size written)) ->
  bulk_write_iter counted written s = write_instruction BROADCAST BULK_WRITE (bulk_size counted) enc s.
Proof. exact L_C90_bulk_fewer_than_counted. Qed.
Print Assumptions C90_bulk_fewer_than_counted.

(** Likewise for values whose [encode] does not fill its buffer: the rest is left over. *)
Theorem C90_unfilled_write : forall A (D : data_impl A) id a v bytes s, reach s -> data_ok D -> 12 + d_size D <= length (b_wbuf s) ->
  d_encode D v (leftover s 10 (d_size D)) = Val (bytes, Ok tt) -> write D id a v s = write_bytes id a bytes s.
Proof. exact L_C90_unfilled_write. Qed.
Print Assumptions C90_unfilled_write.

Theorem C90_unfilled_reg_write : forall A (D : data_impl A) id a v bytes s, reach s -> data_ok D -> 13 <= length (b_wbuf s) ->
  d_encode D v (leftover s 10 1) = Val (bytes, Ok tt) -> reg_write D id a v s = reg_write_bytes id a bytes s.
Proof. exact L_C90_unfilled_reg_write. Qed.
Print Assumptions C90_unfilled_reg_write.

(** And for the closures passed to the calls that send any instruction or status. *)
Theorem C90_unfilled_instruction : forall id i n enc enc' params s, reach s -> encoder_ok enc -> 10 + n <= length (b_wbuf s) ->
  enc (leftover s 8 n) = Val (params, Ok tt) -> writes_parameters enc' params ->
  write_instruction id i n enc s = write_instruction id i (length params) enc' s.
Proof. exact L_C90_unfilled_instruction. Qed.
Print Assumptions C90_unfilled_instruction.

Theorem C90_unfilled_status : forall id e n enc enc' params s, reach s -> encoder_ok enc -> 11 + n <= length (b_wbuf s) ->
  enc (leftover s 9 n) = Val (params, Ok tt) -> writes_parameters enc' params ->
  device_write_status id e n enc s = device_write_status id e (length params) enc' s.
Proof. exact L_C90_unfilled_status. Qed.
Print Assumptions C90_unfilled_status.

(** A message to motor 1; then two commands are announced, one for motor 5 is given: motor 2 is
    told to set the register to 7. *)
Example C90_example :
  let data := [x00; x00; x00; x00; x02; x07] in
  let message := write_instruction x01 WRITE 8 (address_and_bytes 100 data) in
  sends message x01 WRITE (le16 100 ++ data) /\ of_size 1 [mkSync x05 [x01]] /\
  exists s, message (fresh true [] 32 64) = (Val (Ok tt), s) /\
    sync_write_bytes_iter 2 64 1 [mkSync x05 [x01]] s = sync_write_bytes 64 1 [mkSync x05 [x01]; mkSync x02 [x07]] s /\
    exists s', sync_write_bytes_iter 2 64 1 [mkSync x05 [x01]] s = (Val (Ok tt), s').
Proof.
  cbv zeta. split; [apply (sends_instruction x01 WRITE (le16 100 ++ [x00; x00; x00; x00; x02; x07])), address_and_bytes_writes|].
  split; [repeat constructor|]. eexists. split; [vm_compute; reflexivity|]. split; [vm_compute; reflexivity|].
  eexists. vm_compute. reflexivity.
Qed.

(** So many announced that their size overflows: a debug build panics, a release build sends a
    message without commands. *)
Example C90_overflow_example :
  sync_write_bytes_iter (2 ^ 63) 64 1 [] (fresh true [] 32 64) = (Panic POverflow, fresh true [] 32 64) /\
  sync_write_bytes_iter (2 ^ 63) 64 1 [] (fresh false [] 32 64) = sync_write_bytes 64 1 [] (fresh false [] 32 64) /\
  exists s', sync_write_bytes 64 1 [] (fresh false [] 32 64) = (Val (Ok tt), s').
Proof. split; [vm_compute; reflexivity|]. split; [vm_compute; reflexivity|]. eexists. vm_compute. reflexivity. Qed.

Example C90_more_example :
  sync_write_bytes_iter 1 64 1 [mkSync x05 [x01]; mkSync x06 [x01]] (fresh true [] 32 64) = (Panic PIndex, fresh true [] 32 64) /\
  sync_write_bytes_iter 2 64 1 [mkSync x05 [x01]; mkSync x06 []] (fresh true [] 32 64) = (Panic PAssert, fresh true [] 32 64).
Proof. split; vm_compute; reflexivity. Qed.

(** The first pass finds two commands, the second only one: five bytes of zeros are sent as a
    command (to motor 0, of no bytes). *)
Example C90_bulk_example :
  let counted := [mkBulkWrite x01 64 [x01]; mkBulkWrite x02 64 []] in
  let written := [mkBulkWrite x01 64 [x01]] in
  bulk_size counted = 11 /\ bulk_size written = 6 /\
  bulk_write_iter counted written (fresh true [] 32 64) = bulk_write (written ++ [mkBulkWrite x00 0 []]) (fresh true [] 32 64) /\
  bulk_write_iter written counted (fresh true [] 32 64) = (Panic PIndex, fresh true [] 32 64).
Proof. cbv zeta. repeat split; vm_compute; reflexivity. Qed.

(** A value of two bytes of which only the first is written: the second is the one sent before. *)
Example C90_unfilled_example : data_ok half_written /\ exists s, let before := write_instruction x01 WRITE 4 (address_and_bytes 100 [x05; x06]) in
  before (fresh true [] 32 64) = (Val (Ok tt), s) /\ leftover s 10 2 = [x05; x06] /\
  d_encode half_written x09 [x05; x06] = Val ([x09; x06], Ok tt) /\
  write half_written xfe 70 x09 s = write_bytes xfe 70 [x09; x06] s.
Proof.
  split; [exact half_written_ok|]. eexists. cbv zeta. split; [vm_compute; reflexivity|]. split; [vm_compute; reflexivity|].
  split; [reflexivity|]. vm_compute. reflexivity.
Qed.

Example C90_typed_example :
  sync_write_iter (data_int false 1) 2 64 [mkSync x05 1%Z] (fresh true [] 32 64) =
  sync_write_bytes_iter 2 64 1 [mkSync x05 [x01]] (fresh true [] 32 64).
Proof. vm_compute. reflexivity. Qed.

(** A status with two parameters, of which the closure writes none: those of the last instruction. *)
Example C90_unfilled_status_example : exists s, let nothing : encoder := fun b => Val (b, Ok tt) in encoder_ok nothing /\
  write_instruction x01 WRITE 4 (address_and_bytes 100 [x05; x06]) (fresh true [] 32 64) = (Val (Ok tt), s) /\
  nothing (leftover s 9 2) = Val ([x00; x05], Ok tt) /\ length (b_wbuf s) = 64.
Proof.
  eexists. cbv zeta. split; [intros b b' r E; injection E as <- _; reflexivity|]. split; [vm_compute; reflexivity|].
  split; vm_compute; reflexivity.
Qed.
