(** Model of which program internal/runbook/sh runs, with the names shortened as
    filepath.Join does: [ShLookModel] without its simplification. *)
From Coq Require Import String Ascii.
From stdpp Require Import gmap list strings.
From Verif Require Import GoBase GoStrings ShModel ShLookModel PathModel.

(** filepath.Join of two names that are not empty, in LookPath (for sh/exec.go:22). *)
Definition join_clean (dir file : string) : string := clean (dir +:+ "/" +:+ file).
(** os/exec, LookPath, as [ShLookModel.search] and [ShLookModel.look_path]; called for
    sh/exec.go:22. *)
Fixpoint search_clean (m : machine) (file : string) (dirs : list string) : option string :=
  match dirs with
  | [] => None
  | dir :: dirs =>
      let path := join_clean (if decide (dir = "") then "." else dir) file in
      if m_executable m (at_dir (m_cwd m) path) then Some path else search_clean m file dirs
  end.
Definition look_path_clean (m : machine) (file : string) : option string :=
  if contains_byte "/" file then
    if m_executable m (at_dir (m_cwd m) file) then Some file else None
  else search_clean m file (split_list (m_path m)).
(** os/exec, Command, as [ShLookModel.command_path]; called in sh/exec.go:22. *)
Definition command_path_clean (m : machine) (name : string) : option string :=
  if decide (name = "/") then look_path_clean m name
  else if decide (name = "") then Some name
  else if contains_byte "/" name then Some name
  else look_path_clean m name.
(** sh/exec.go:21-29, as [ShLookModel.program_file]. *)
Definition program_file_clean (m : machine) (base arg0 : string) : option string :=
  match command_path_clean m arg0 with
  | None | Some "" => None
  | Some path => let f := at_dir base path in if m_executable m f then Some f else None
  end.
