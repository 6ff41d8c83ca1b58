(** Model of which program internal/runbook/sh runs: the part of os/exec that finds it. *)
From Coq Require Import String Ascii.
From stdpp Require Import gmap list strings.
From Verif Require Import GoBase GoStrings ShModel.

(** What os/exec looks at for sh/exec.go:22-28.  [m_cwd]: the directory pgutil is in; [m_path]: its PATH ("" if
    there is none); [m_executable]: whether the file with the absolute name given can be
    executed.  Simplification: one predicate stands for findExecutable (a regular file with
    some x bit) and for execve, and nothing changes in between. *)
Record machine := Machine { m_cwd : string; m_path : string; m_executable : string → bool }.

(** filepath.Join of two names, in LookPath (for sh/exec.go:22).  Simplification: the result is not cleaned. *)
Definition join (dir file : string) : string := dir +:+ "/" +:+ file.
(** The operating system: a name that does not begin with "/" is looked up in the current
    directory, which is cmd.Dir for the command (sh/exec.go:23). *)
Definition at_dir (dir file : string) : string := if has_prefix file "/" then file else join dir file.

(** strings.Split(s, ":"), which filepath.SplitList calls unless s is empty, in
    LookPath (for sh/exec.go:22). *)
Fixpoint split_colon (s : string) : list string :=
  match s with
  | "" => [""]
  | String c s =>
      if decide (c = ":"%char) then "" :: split_colon s
      else match split_colon s with [] => [String c ""] | x :: l => String c x :: l end
  end.
Definition split_list (s : string) : list string := match s with "" => [] | _ => split_colon s end.

(** os/exec, LookPath (Go 1.13, go.mod:32; from 1.19 on, a result that is not absolute is
    an error), called for sh/exec.go:22. *)
Fixpoint search (m : machine) (file : string) (dirs : list string) : option string :=
  match dirs with
  | [] => None
  | dir :: dirs =>
      let path := join (if decide (dir = "") then "." else dir) file in
      if m_executable m (at_dir (m_cwd m) path) then Some path else search m file dirs
  end.
Definition look_path (m : machine) (file : string) : option string :=
  if contains_byte "/" file then
    if m_executable m (at_dir (m_cwd m) file) then Some file else None
  else search m file (split_list (m_path m)).
(** os/exec, Command, which CommandContext calls (sh/exec.go:22): Path, or [None] for
    lookPathErr.  filepath.Base(name) == name: there is no "/" in it, or it is "/". *)
Definition command_path (m : machine) (name : string) : option string :=
  if decide (name = "/") then look_path m name
  else if decide (name = "") then Some name (* Base("") is "." *)
  else if contains_byte "/" name then Some name
  else look_path m name.
(** sh/exec.go:21-29: Run changes into cmd.Dir ([base]: absolute, runbook.go:26) and
    executes Path.  The absolute name of the file that is executed, or [None] if Run
    fails. *)
Definition program_file (m : machine) (base arg0 : string) : option string :=
  match command_path m arg0 with
  | None | Some "" => None
  | Some path => let f := at_dir base path in if m_executable m f then Some f else None
  end.
