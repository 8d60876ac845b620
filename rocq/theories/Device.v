(** * Device: model of /repo/src/device.rs *)
From Verif Require Import Base Endian Error Packet Time Bus.

(** device.rs:204-213 [FactoryReset] *)
Inductive dev_factory_reset := FRAll | FRExceptId | FRExceptIdBaudRate | FRUnknown (p : byte).

(** device.rs:217-226 [Clear] *)
Inductive dev_clear := ClearMultiTurns | ClearErrors | ClearReserved (p : byte).

(** device.rs:245-259 [Instructions]; the data type [T] is always the bytes. *)
Inductive instructions :=
| IPing
| IRead (address length : N)
| IWrite (address : N) (parameters : list byte)
| IRegWrite (address : N) (parameters : list byte)
| IAction
| IFactoryReset (f : dev_factory_reset)
| IReboot
| IClear (c : dev_clear)
| ISyncRead (address length : N) (ids : list byte)
| ISyncWrite (address length : N) (parameters : list byte)
| IBulkRead (parameters : list byte)
| IBulkWrite (parameters : list byte)
| IUnknown (instruction : byte) (parameters : list byte).

(** device.rs:233-238 [Instruction] *)
Record instruction := mkInstruction { i_id : byte; i_instruction : instructions }.

(** [read_u16_le(&parameters\[a..b\])] *)
Definition u16_param (ps : list byte) (a b : nat) : out N :=
  let* s := slice ps a b in read_u16_le s.

(** device.rs:267-331, the [match] of [try_from] *)
Definition parse_instructions (instr : byte) (parameters : list byte)
  : out (result instructions invalid_message) :=
  let with_check (c : result unit invalid_message) (k : out instructions) :=
    match c with
    | Err e => Val (Err e)
    | Ok _ => let* i := k in Val (Ok i)
    end in
  if beq instr PING then Val (Ok IPing)
  else if beq instr READ then
    with_check (param_count_check (length parameters) 4)
      (let* a := u16_param parameters 0 2 in
       let* l := u16_param parameters 2 4 in Val (IRead a l))
  else if beq instr WRITE then
    with_check (param_count_check_min (length parameters) 2)
      (let* a := u16_param parameters 0 2 in
       let* p := slice_from parameters 2 in Val (IWrite a p))
  else if beq instr REG_WRITE then
    with_check (param_count_check_min (length parameters) 2)
      (let* a := u16_param parameters 0 2 in
       let* p := slice_from parameters 2 in Val (IRegWrite a p))
  else if beq instr ACTION then Val (Ok IAction)
  else if beq instr FACTORY_RESET then
    with_check (param_count_check (length parameters) 1)
      (let* p := idx parameters 0 in
       Val (IFactoryReset (if beq p xff then FRAll
                           else if beq p x01 then FRExceptId
                           else if beq p x02 then FRExceptIdBaudRate
                           else FRUnknown p)))
  else if beq instr REBOOT then Val (Ok IReboot)
  else if beq instr CLEAR then
    with_check (param_count_check_min (length parameters) 1)
      (let* p := idx parameters 0 in
       Val (IClear (if beq p x01 then ClearMultiTurns
                    else if beq p x02 then ClearErrors
                    else ClearReserved p)))
  else if beq instr SYNC_READ then
    with_check (param_count_check_min (length parameters) 4)
      (let* a := u16_param parameters 0 2 in
       let* l := u16_param parameters 2 4 in
       let* p := slice_from parameters 4 in Val (ISyncRead a l p))
  else if beq instr SYNC_WRITE then
    with_check (param_count_check_min (length parameters) 4)
      (let* a := u16_param parameters 0 2 in
       let* l := u16_param parameters 2 4 in
       let* p := slice_from parameters 4 in Val (ISyncWrite a l p))
  else if beq instr BULK_READ then Val (Ok (IBulkRead parameters))
  else if beq instr BULK_WRITE then Val (Ok (IBulkWrite parameters))
  else Val (Ok (IUnknown instr parameters)).

(** device.rs:261-335 [TryFrom<InstructionPacket> for Instruction<&\[u8\]>] *)
Definition instruction_try_from (p : packet) : out (result instruction invalid_message) :=
  let* id := pk_id p in
  let* parameters := in_parameters p in
  let* instr := pk_instruction p in
  let* r := parse_instructions instr parameters in
  match r with
  | Err e => Val (Err e)
  | Ok i => Val (Ok (mkInstruction id i))
  end.

(** device.rs:344-383: converting the borrowed data to owned data.  [to_owned]
    copies the bytes. *)
Definition to_owned_instructions (i : instructions) : instructions :=
  match i with
  | IPing => IPing
  | IRead a l => IRead a l
  | IWrite a p => IWrite a p
  | IRegWrite a p => IRegWrite a p
  | IAction => IAction
  | IFactoryReset f => IFactoryReset f
  | IReboot => IReboot
  | IClear c => IClear c
  | ISyncRead a l ids => ISyncRead a l ids
  | ISyncWrite a l p => ISyncWrite a l p
  | IBulkRead p => IBulkRead p
  | IBulkWrite p => IBulkRead p
  | IUnknown i p => IUnknown i p
  end.

(** device.rs:337-386 [TryFrom<InstructionPacket> for Instruction<Vec<u8>>] *)
Definition instruction_try_from_owned (p : packet) : out (result instruction invalid_message) :=
  let* r := instruction_try_from p in
  match r with
  | Err e => Val (Err e)
  | Ok i => Val (Ok (mkInstruction (i_id i) (to_owned_instructions (i_instruction i))))
  end.

(** device.rs:187-198, the loop of [read_raw_instruction_timeout].  Every
    iteration but the last consumes a status packet; [fuel] bounds them
    ([device_fuel] is enough, lemma [device_loop_fuel_irrelevant]). *)
Fixpoint device_loop (fuel : nat) (d : deadline) : M (result packet read_error) :=
  match fuel with
  | O => lift Blocked
  | S fuel' =>
      try_ (fun e => e) (read_packet_deadline d) (fun p =>
      i <- lift (as_instruction p) ;;
      match i with
      | Some i => ret (Ok i)
      | None => device_loop fuel' d
      end)
  end.

Definition device_fuel (s : bus) : nat :=
  S (b_rlen s + script_size (p_script (b_port s))).

(** device.rs:182-199 [read_raw_instruction_timeout] *)
Definition read_raw_instruction_timeout (timeout : duration) : M (result packet read_error) :=
  d <- port_make_deadline timeout ;;
  s <- get ;;
  device_loop (device_fuel s) d.

(** device.rs:143-147 [Device::read] *)
Definition device_read (timeout : duration) : M (result instruction read_error) :=
  try_ (fun e => e) (read_raw_instruction_timeout timeout) (fun p =>
  r <- lift (instruction_try_from p) ;;
  ret (map_err RInvalidMessage r)).

(** device.rs:151-155 [Device::read_owned] *)
Definition device_read_owned (timeout : duration) : M (result instruction read_error) :=
  try_ (fun e => e) (read_raw_instruction_timeout timeout) (fun p =>
  r <- lift (instruction_try_from_owned p) ;;
  ret (map_err RInvalidMessage r)).

(** device.rs:158-169 [Device::write_status] *)
Definition device_write_status (packet_id error : byte) (parameter_count : nat) (f : encoder)
  : M (result unit write_error) := write_status packet_id error parameter_count f.

(** device.rs:172-174 [Device::write_status_error] *)
Definition device_write_status_error (packet_id error : byte) : M (result unit write_error) :=
  device_write_status packet_id error 0 (fun b => Val (b, Ok tt)).

(** device.rs:177-179 [Device::write_status_ok] *)
Definition device_write_status_ok (packet_id : byte) : M (result unit write_error) :=
  device_write_status packet_id x00 0 (fun b => Val (b, Ok tt)).
