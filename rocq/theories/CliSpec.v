(** Specification of the command line: logs, the list of tasks, the graph, output
    files. *)
From Coq Require Import String Ascii.
From stdpp Require Import gmap list strings numbers sorting.
From Verif Require Import GoBase GoStrings GoUtf8 ParserModel CliModel.
Local Open Scope Z_scope.

(** logger.go:17-26, the documentation: which messages a verbosity shows. *)
Inductive shows (verbosity : Z) : level → Prop :=
  | shows_error : shows verbosity Error
  | shows_warn : 1 ≤ verbosity → shows verbosity Warn
  | shows_info : 2 ≤ verbosity → shows verbosity Info
  | shows_debug : 3 ≤ verbosity → shows verbosity Debug.
(** [out] is the trace without the messages not shown. *)
Inductive seen (verbosity : Z) : list event → list shown → Prop :=
  | seen_nil : seen verbosity [] []
  | seen_line l m t out : shows verbosity l → seen verbosity t out → seen verbosity (Log l m :: t) (Line l m :: out)
  | seen_hidden l m t out : ¬ shows verbosity l → seen verbosity t out → seen verbosity (Log l m :: t) out
  | seen_text s t out : seen verbosity t out → seen verbosity (Print s :: t) (Text s :: out).
Inductive logged : list event → list (level * string) → Prop :=
  | logged_nil : logged [] []
  | logged_log l m t out : logged t out → logged (Log l m :: t) ((l, m) :: out)
  | logged_text s t out : logged t out → logged (Print s :: t) out.

(** One line of the list of tasks: the target starts in column [col], counted in
    characters, at least two blanks after the task. *)
Definition blank (s : string) : Prop := ∀ c, has_byte c s → c = " "%char.
Definition list_line (tasks : gmap string string) (col : nat) (task line : string) : Prop :=
  ∃ target gap, tasks !! task = Some target ∧
    line = "  " +:+ task +:+ gap +:+ target +:+ newline ∧ blank gap ∧ (2 ≤ String.length gap)%nat ∧
    length (runes_of ("  " +:+ task +:+ gap)) = col.

(** A file name and its extension: from the last dot of the last element. *)
Definition extension (file stem e : string) : Prop :=
  file = stem +:+ e ∧ ((∃ x, e = String "." x ∧ ¬ has_byte "." x ∧ ¬ has_byte "/" x) ∨
    (e = "" ∧ ∀ a b, file = a +:+ String "." b → has_byte "/" b)).

(** Contract of io.Writer: everything is written, or a part of it with an error. *)
Definition ok_disk (d : disk) : Prop :=
  ∀ p s a ok, put d p s = (a, ok) → (ok = true → a = s) ∧ ∃ b, s = a +:+ b.
(** Everything can be opened and written. *)
Definition good_disk (d : disk) : Prop := (∀ p, may_open d p = true) ∧ ∀ p s, put d p s = (s, true).
(** [w'] is [w] with [s] in the file or on standard output. *)
Definition contains (w : world) (out s : string) (w' : world) : Prop :=
  (out = "-" ∧ w_files w' = w_files w ∧ w_stdout w' = w_stdout w +:+ s) ∨
  (out ≠ "-" ∧ w_files w' = <[out := s]> (w_files w) ∧ w_stdout w' = w_stdout w).

(** The parts of a graph. *)
Definition nodes (l : list call) : list (string * string) :=
  omap (λ c, match c with AddNode g n => Some (g, n) | _ => None end) l.
Definition sources_of (dst : string) (l : list call) : list string :=
  omap (λ c, match c with AddEdge s d => if decide (d = dst) then Some s else None | _ => None end) l.
