(** Model of internal/runbook/sh: Env.Apply, Exec.Check and the environment a
    command is run with. *)
From Coq Require Import String Ascii.
From stdpp Require Import gmap list strings.
From Verif Require Import GoBase GoStrings.

(** env.go:8-12.  A nil map in [Set] behaves as the empty map (range only). *)
Record env := Env { e_allow : list string; e_deny : list string; e_set : gmap string string }.

(** env.go:35-38: the variable an entry is about. *)
Definition entry_key (kv : string) : string :=
  match index_byte "=" kv with
  | Some (S n) => str_take (S n) kv
  | _ => kv
  end.

(** env.go:29: the entry written for a variable of Set. *)
Definition set_entry (key val : string) : string := key +:+ "=" +:+ val.

(** env.go:34-56: the loop over the inherited entries, with [tmp] and [updated]
    as accumulators.  The maps [allow] and [deny] of lines 17-25 are only used
    for their length and for membership, so the lists stand for them. *)
Fixpoint apply_loop (e : env) (environ tmp : list string) (updated : gset string)
    : list string * gset string :=
  match environ with
  | [] => (tmp, updated)
  | kv :: environ =>
      let key := entry_key kv in
      match e_set e !! key with
      | Some val => apply_loop e environ (tmp ++ [set_entry key val]) ({[key]} ∪ updated)
      | None =>
          if decide (e_allow e ≠ []) then
            if decide (key ∈ e_allow e) then apply_loop e environ (tmp ++ [kv]) updated
            else apply_loop e environ tmp updated
          else if decide (e_deny e ≠ []) then
            if decide (key ∈ e_deny e) then apply_loop e environ tmp updated
            else apply_loop e environ (tmp ++ [kv]) updated
          else apply_loop e environ (tmp ++ [kv]) updated
      end
  end.

(** env.go:58-62: the loop over the map [set], in the order [order]. *)
Fixpoint append_missing (e : env) (updated : gset string) (order tmp : list string)
    : list string :=
  match order with
  | [] => tmp
  | key :: order =>
      if decide (key ∈ updated) then append_missing e updated order tmp
      else match e_set e !! key with
           | Some val => append_missing e updated order (tmp ++ [set_entry key val])
           | None => append_missing e updated order tmp
           end
  end.

(** env.go:16-64.  [order] is the iteration order of line 58. *)
Definition env_apply (e : env) (order environ : list string) : list string :=
  let '(tmp, updated) := apply_loop e environ [] ∅ in
  append_missing e updated order tmp.

(** sh/sh.go:80-83 (Start) and sh/exec.go:21-29: the environment given to the command:
    the target's Env is applied to os.Environ() by Start, the task's to the result.
    Everything else about running the command is left out. *)
Definition command_env (target task : env) (order1 order2 os_environ : list string)
    : list string :=
  env_apply task order2 (env_apply target order1 os_environ).

(** sh/exec.go:39-50. [false] stands for the "illegal command" error. *)
Definition validate_arg0 (arg0 : string) : bool :=
  if negb (contains_byte "/" arg0) then true
  else if has_prefix arg0 "/" then true
  else if has_prefix arg0 "./" then true
  else if has_prefix arg0 "../" then true
  else false.

Inductive check_error := TooFewArgs | IllegalCommand (arg0 : string).
(** sh/exec.go:32-37.  [None] stands for nil. *)
Definition exec_check (args : list string) : option check_error :=
  match args with
  | [] => Some TooFewArgs
  | arg0 :: _ => if validate_arg0 arg0 then None else Some (IllegalCommand arg0)
  end.
