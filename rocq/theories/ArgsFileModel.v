(** Model of kingpin's words "@FILE" (internal/cli/cli.go:32 parses the line with them): [ArgsModel.next]
    without its simplification. *)
From Coq Require Import String Ascii.
From stdpp Require Import gmap list strings.
From Verif Require Import GoBase GoStrings ArgsModel.

(** bufio.ScanLines, for kingpin's ExpandArgsFromFile (internal/cli/cli.go:32): the lines of a text,
    without the ends of the lines; nothing follows the last end of a line.  Simplification:
    bufio refuses lines of 64 KiB and more. *)
Fixpoint lines_from (acc s : string) : list string :=
  match s with
  | "" => if decide (acc = "") then [] else [acc]
  | String c s => if decide (c = "010"%char) then acc :: lines_from "" s else lines_from (acc +:+ String c "") s
  end.
(** bufio's dropCR, for internal/cli/cli.go:32. *)
Fixpoint drop_cr (s : string) : string :=
  match s with
  | "" => ""
  | String c "" => if decide (c = "013"%char) then "" else s
  | String c s => String c (drop_cr s)
  end.
(** kingpin, ExpandArgsFromFile (internal/cli/cli.go:32), for the content of the file. *)
Definition file_words (text : string) : list string :=
  filter (λ l, has_prefix l "#" = false) (drop_cr <$> lines_from "" text).
(** kingpin, ParseContext.Next (internal/cli/cli.go:32).  A relation, since Next calls itself for the
    words of a file and need not return.  [files]: the content of the files that can be read. *)
Inductive next_at (files : string → option string) (known : list flag) : input → token * input → Prop :=
| at_other i : (∀ name ws, i ≠ Input [] (String "@" name :: ws) false) → next_at files known i (next known i)
| at_bad name ws : name = "" ∨ files name = None →
    next_at files known (Input [] (String "@" name :: ws) false) (TError, Input [] ws false)
| at_file name ws text r : name ≠ "" → files name = Some text →
    next_at files known (Input [] (file_words text ++ ws) false) r →
    next_at files known (Input [] (String "@" name :: ws) false) r.
