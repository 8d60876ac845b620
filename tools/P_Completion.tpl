(** * Property C82: shell completions *)
From Coq Require Import Ascii String.
From Verif Require Import Base CliOutput Completion CompletionSpec CompletionTheorems.
Local Open Scope list_scope.

(** ** C82: without a path, or with one that means "-", the script goes to the standard output and nowhere else. *)
@C82_stdout

(** Otherwise it goes to the file and nowhere else. *)
@C82_file

(** A write of two bytes after an interrupted one; the missing line break is added. *)
Example C82_stdout_example :
  write_shell_completion (mkOutside [x61; x62] (Ok tt) [Interrupted; Takes 2]) "bash" None "" =
  ([(LvDebug, "Writing shell completion for bash to stdout")%string], Ok tt, mkEffects [x61; x62; x0a] None).
Proof. exact completion_twice. Qed.

(** A full disk. *)
Example C82_file_example :
  write_shell_completion (mkOutside [x61; x62; x0a] (Ok tt) [Takes 2; Refuses "disk full"]) "zsh" (Some [x66]) "f" =
  ([(LvDebug, "Writing shell completion for zsh to f")%string; (LvError, "Failed to write to f: disk full")%string],
   Err tt, mkEffects [] (Some ([x66], [x61; x62]))).
Proof. exact completion_part. Qed.

(** "f" and "./-" are files, "-/./" is not. *)
Example C82_dash_example : ~ dash [x66] /\ ~ dash [x2e; x2f; x2d] /\ dash [x2d; x2f; x2e; x2f].
Proof. exact completion_not_dash. Qed.
