(** Model of what Go's os/exec makes of the environment internal/runbook/sh hands it. *)
From Coq Require Import String Ascii.
From stdpp Require Import gmap list strings.
From Verif Require Import GoBase GoStrings ShModel.

(** os/exec, dedupEnvCase (Go 1.13, go.mod:32), called by Cmd.Start with cmd.Env
    (sh/exec.go:24), on Unix, where case matters: the variable an entry is about; none
    without "=". *)
Definition saw_key (kv : string) : option string :=
  (λ n, str_take n kv) <$> index_byte "=" kv.
(** The loop of dedupEnvCase (for sh/exec.go:24): [out] is the result so far, [saw] where in it the entry
    for a variable is. *)
Fixpoint dedup_loop (env out : list string) (saw : gmap string nat) : list string :=
  match env with
  | [] => out
  | kv :: env =>
      match saw_key kv with
      | None => dedup_loop env (out ++ [kv]) saw
      | Some k =>
          match saw !! k with
          | Some i => dedup_loop env (<[i := kv]> out) saw
          | None => dedup_loop env (out ++ [kv]) (<[k := length out]> saw)
          end
      end
  end.
(** sh/exec.go:24-28: cmd.Env is what Env.Apply made (env.go:32, never nil, so os/exec
    does not fall back on its own environment), and Run starts the command with it
    deduplicated.  Simplification: Windows, where case does not matter and SYSTEMROOT is
    added, is left out. *)
Definition process_env (target task : env) (order1 order2 os_environ : list string) : list string :=
  dedup_loop (command_env target task order1 order2 os_environ) [] ∅.
