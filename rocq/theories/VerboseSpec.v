(** * VerboseSpec: vocabulary for statements about the screen of the tool *)
From Coq Require Import Ascii String.
From Verif Require Import Base Error Packet Bus Client Instructions Spec CallSpec InstructionSpec Text StreamSpec LogModel LogSpec Cli CliOutput
  CliOutputSpec VerboseModel.
Local Open Scope list_scope.

(** What the tool said itself and what the library said. *)
Definition own_lines (es : list entry) : list line :=
  flat_map (fun e => match e with Own x => [x] | Lib _ => [] end) es.
Definition lib_records (es : list entry) : list log_record :=
  flat_map (fun e => match e with Own _ => [] | Lib r => [r] end) es.

(** The lines on a screen that begin with [mark], without it. *)
Definition after (mark : string) (screen : list string) : list string :=
  flat_map (fun t => if String.prefix mark t
                     then [substring (String.length mark) (String.length t - String.length mark) t] else []) screen.

(** The motor id a command is for. *)
Definition target (c : command) : byte :=
  motor_id_raw
    match c with
    | CPing m => m | CReboot m => m
    | CRead8 m _ => m | CRead16 m _ => m | CRead32 m _ => m | CRead m _ _ => m
    | CWrite8 m _ _ => m | CWrite16 m _ _ => m | CWrite32 m _ _ => m | CWrite m _ _ => m
    end.

(** Reads, one after the other, that returned, and the messages they took
    (without their CRC); [p] and [q] are what was left to read before and after. *)
Inductive listened : list item -> list item -> list (list byte) -> Prop :=
| listened_nil : forall p, listened p p []
| listened_read : forall s s1 r g ws q ws', read_story s s1 (Val r) g ws -> listened (pending s1) q ws' ->
    listened (pending s) q (ws ++ ws').

(** The commands that ask for no data. *)
Definition order_only (c : command) : Prop :=
  match c with
  | CReboot _ | CWrite8 _ _ _ | CWrite16 _ _ _ | CWrite32 _ _ _ | CWrite _ _ _ => True
  | _ => False
  end.

(** [m] is a status message (without its CRC), perhaps stuffed, that says [x] when
    it is the answer to a ping. *)
Definition says_ping (m : list byte) (x : result (response ping_data) read_error) : Prop :=
  exists id e ps body, m = header ++ [id] ++ le16 (N.of_nat (List.length body + 2)) ++ body /\
    some_stuffed (STATUS :: e :: ps) body /\ x = judge_ping (id, e, ps).

(** What a scan puts on the screen for the things it found: records of the
    library, then the lines about what these show. *)
Inductive scan_entries (io : io_error -> string) (elapsed : nat -> string)
  : nat -> list (result (response ping_data) read_error) -> list entry -> Prop :=
| scan_entries_nil : forall k, scan_entries io elapsed k [] []
| scan_entries_found : forall k x l records lines es,
    match x with
    | Ok _ | Err (RMotorError _) => exists m, received_in records = [m] /\ says_ping m x
    | Err (RInvalidMessage _) => exists m, received_in records = [m]
    | Err (RBufferFull _) | Err (RIo _) => received_in records = []
    end ->
    item_lines io (elapsed k) x lines -> scan_entries io elapsed (S k) l es ->
    scan_entries io elapsed k (x :: l) (map Lib records ++ map Own lines ++ es).
