(** * Property C87: the references into the read buffer that the unsafe code of [Device] makes *)
From Verif Require Import Base Endian Error Packet Time Bus Device Demo BorrowModel BorrowSpec BorrowTheorems.

(** ** One read: no undefined behaviour, the same result as with values, and the packet shows its bytes as often as it is used. *)
@C87_read

(** A status packet and then an instruction: write 05 06 to address 64. *)
Example C87_read_example : usable 0 demo_machine /\
  match read_raw_instruction_view 0 (mkDur 1 0) demo_machine with
  | (BVal (Ok v), m) => fst (uses [v] [Part 0 8; Look 1; Part 1 2; Look 2; Look 1] m) = BVal [[x40; x00; x05; x06]; [x05; x06]; [x40; x00; x05; x06]]
  | _ => False
  end.
Proof.
  split; [|vm_compute; reflexivity].
  split; [exists [], []; split; [reflexivity|exact (fun x => x)]|]. constructor; [cbn; lia|constructor].
Qed.

(** ** The packet may be used until the device is used again, and not after that: the references are those the compiler allows. *)
@C87_until_next_use

(** ** Reading again and again *)
@C87_session

Example C87_session_example : fst (references 0 [(mkDur 1 0, [Look 0; Part 0 7; Look 1]); (mkDur 2 0, [])] demo_machine) = BBlocked /\
  fst (references 0 [(mkDur 1 0, [Part 0 7; Look 1])] demo_machine) = BVal [Ok [[x03; x40; x00; x05; x06]]].
Proof. split; vm_compute; reflexivity. Qed.
