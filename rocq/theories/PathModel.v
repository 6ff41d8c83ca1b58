(** Model of the directory a runbook's commands are started in: the functions of
    path/filepath that internal/runbook/runbook.go calls. *)
From Coq Require Import String Ascii.
From stdpp Require Import gmap list strings.
From Verif Require Import GoBase GoStrings ShModel.

(** The pieces between the slashes of a name, for the loop of path/filepath's Clean
    (internal/runbook/runbook.go:26). *)
Fixpoint pieces (s : string) : list string :=
  match s with
  | "" => [""]
  | String c s =>
      if decide (c = "/"%char) then "" :: pieces s
      else match pieces s with [] => [String c ""] | x :: l => String c x :: l end
  end.
(** path/filepath, the loop of Clean on Unix, called by Dir, Join and Abs for
    internal/runbook/runbook.go:26 and internal/runbook/runbook.go:50.  Simplification: one
    turn of the loop is one piece, and the buffer is the list of the pieces written, last
    first; [fixed] (dotdot) is how many of them cannot be taken back. *)
Fixpoint clean_loop (rooted : bool) (cs : list string) (out : list string) (fixed : nat) : list string :=
  match cs with
  | [] => out
  | c :: cs =>
      if decide (c = "" ∨ c = ".") then clean_loop rooted cs out fixed
      else if decide (c = "..") then
        if decide (fixed < length out)%nat then clean_loop rooted cs (tail out) fixed
        else if rooted then clean_loop rooted cs out fixed
        else clean_loop rooted cs (".." :: out) (S (length out))
      else clean_loop rooted cs (c :: out) fixed
  end.
(** path/filepath, Clean, as called for internal/runbook/runbook.go:26 and
    internal/runbook/runbook.go:50 *)
Definition clean (s : string) : string :=
  let rooted := has_prefix s "/" in
  let out := reverse (clean_loop rooted (pieces s) [] 0) in
  if rooted then "/" +:+ String.concat "/" out
  else match out with [] => "." | _ => String.concat "/" out end.
(** path/filepath, Dir (internal/runbook/runbook.go:50): what stands before the last slash,
    and the slash. *)
Fixpoint upto_slash (s : string) : string :=
  match s with
  | "" => ""
  | String c r => if contains_byte "/" s then String c (upto_slash r) else ""
  end.
(** path/filepath, Dir, as called in internal/runbook/runbook.go:50, 87, 116 and 135 *)
Definition dir (file : string) : string := clean (upto_slash file).
(** path/filepath, Abs with Join, as called in internal/runbook/runbook.go:26; [wd]: what
    os.Getwd returns, not empty. *)
Definition abs (wd : option string) (path : string) : option string :=
  if has_prefix path "/" then Some (clean path)
  else match wd with Some wd => Some (clean (wd +:+ "/" +:+ path)) | None => None end.
(** internal/runbook/runbook.go:25-29 with internal/runbook/runbook.go:135: the directory
    commands are started in, or [None] for the error. *)
Definition basedir (wd : option string) (file : string) : option string := abs wd (dir file).
