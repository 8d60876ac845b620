(** * Completion: the command shell-completion
    (/repo/dynamixel2-cli/src/bin/dynamixel2/main.rs:173-175, 202-231)

    Modelled: which place is chosen, the loop that writes, the file that is
    created, the lines that are logged.  The script itself comes from the crate
    clap_complete and is a parameter.  Paths are those of Unix. *)
From Coq Require Import Ascii String.
From Verif Require Import Base CliOutput.
Local Open Scope list_scope.

(** ** Paths *)

(** [std::path::Component] *)
Inductive component := RootDir | CurDir | ParentDir | Normal (name : list byte).

(** The parts of a path between the separators. *)
Fixpoint segments (path : list byte) : list (list byte) :=
  match path with
  | [] => [[]]
  | c :: rest =>
      if beq c x2f then [] :: segments rest
      else match segments rest with
           | [] => [[c]]
           | s :: l => (c :: s) :: l
           end
  end.

Fixpoint same_bytes (a b : list byte) : bool :=
  match a, b with
  | [], [] => true
  | x :: a', y :: b' => beq x y && same_bytes a' b'
  | _, _ => false
  end.

(** [Components::parse_single_component]: empty parts and "." say nothing. *)
Definition single_component (s : list byte) : option component :=
  if same_bytes s [] then None
  else if same_bytes s [x2e] then None
  else if same_bytes s [x2e; x2e] then Some ParentDir
  else Some (Normal s).
Fixpoint plain_components (l : list (list byte)) : list component :=
  match l with
  | [] => []
  | s :: l' => match single_component s with Some c => c :: plain_components l' | None => plain_components l' end
  end.

(** [Path::components]: a leading separator is the root; a leading "." is kept. *)
Definition components (path : list byte) : list component :=
  match path with
  | [] => []
  | c :: _ =>
      if beq c x2f then RootDir :: plain_components (segments path)
      else match segments path with
           | s :: l => if same_bytes s [x2e] then CurDir :: plain_components l
                       else plain_components (s :: l)
           | [] => []
           end
  end.

Definition same_component (a b : component) : bool :=
  match a, b with
  | RootDir, RootDir => true
  | CurDir, CurDir => true
  | ParentDir, ParentDir => true
  | Normal x, Normal y => same_bytes x y
  | _, _ => false
  end.
Fixpoint same_components (a b : list component) : bool :=
  match a, b with
  | [], [] => true
  | x :: a', y :: b' => same_component x y && same_components a' b'
  | _, _ => false
  end.
(** [Path::eq] *)
Definition path_eq (a b : list byte) : bool := same_components (components a) (components b).

(** ** Writing *)

(** What one call of [write] of the operating system does. *)
Inductive accepts := Takes (n : nat) | Interrupted | Refuses (e : string).

(** [io::Write::write_all]: the text of the error, what was taken, and what the
    system does afterwards.  A system that has no more to say takes everything. *)
Fixpoint write_all_to (sys : list accepts) (buf : list byte) : result unit string * list byte :=
  match buf with
  | [] => (Ok tt, [])
  | _ =>
      match sys with
      | [] => (Ok tt, buf)
      | Takes n :: sys' =>
          match n with
          | O => (Err "failed to write whole buffer"%string, [])
          | _ => let '(r, sent) := write_all_to sys' (skipn n buf) in (r, firstn n buf ++ sent)
          end
      | Interrupted :: sys' => write_all_to sys' buf
      | Refuses e :: _ => (Err e, [])
      end
  end.

(** The part up to the last line break, and the part after it. *)
Fixpoint last_line (buf : list byte) : list byte * list byte :=
  match buf with
  | [] => ([], [])
  | c :: rest =>
      let '(lines, tail) := last_line rest in
      match lines with
      | [] => if beq c x0a then ([c], tail) else ([], c :: tail)
      | _ => (c :: lines, tail)
      end
  end.
(** [StdoutLock::write_all] (a [LineWriter] with an empty buffer): whole lines go
    to the system, the rest stays in memory. *)
Definition stdout_write_all (sys : list accepts) (buf : list byte) : result unit string * list byte :=
  write_all_to sys (fst (last_line buf)).

(** ** The command *)

(** Everything outside of the program: the script that clap_complete makes, the
    error of [File::create], and what the system does with the bytes. *)
Record outside := mkOutside {
  o_script : list byte;
  o_create : result unit string;
  o_sys : list accepts }.

(** Where bytes have gone: to the standard output; to a file, which is new or empty
    before. *)
Record effects := mkEffects {
  e_stdout : list byte;
  e_file : option (list byte * list byte) (* path and contents *) }.

(** [slice::ends_with] *)
Definition ends_with_newline (buf : list byte) : bool :=
  match rev buf with c :: _ => beq c x0a | [] => false end.

(** main.rs:202-231 [write_shell_completion]; [shell] and [shown] are the texts of
    the shell and of the path. *)
Definition write_shell_completion (o : outside) (shell : string) (path : option (list byte)) (shown : string)
  : list line * result unit unit * effects :=
  let buffer := if ends_with_newline (o_script o) then o_script o else o_script o ++ [x0a] in    (* 206-212 *)
  let path := match path with Some p => p | None => [x2d] end in                                (* 214 *)
  if path_eq path [x2d] then                                                                    (* 215 *)
    let debug := (LvDebug, "Writing shell completion for " ++ shell ++ " to stdout")%string in
    let '(r, sent) := stdout_write_all (o_sys o) buffer in                                      (* 217-221 *)
    match r with
    | Ok _ => ([debug], Ok tt, mkEffects sent None)
    | Err e => ([debug; (LvError, "Failed to write to stdout: " ++ e)%string], Err tt, mkEffects sent None)
    end
  else
    let debug := (LvDebug, "Writing shell completion for " ++ shell ++ " to " ++ shown)%string in
    match o_create o with                                                                       (* 224 *)
    | Err e => ([debug; (LvError, "Failed to create " ++ shown ++ ": " ++ e)%string], Err tt, mkEffects [] None)
    | Ok _ =>
        let '(r, sent) := write_all_to (o_sys o) buffer in                                      (* 225-227 *)
        match r with
        | Ok _ => ([debug], Ok tt, mkEffects [] (Some (path, sent)))
        | Err e => ([debug; (LvError, "Failed to write to " ++ shown ++ ": " ++ e)%string], Err tt,
                    mkEffects [] (Some (path, sent)))
        end
    end.
