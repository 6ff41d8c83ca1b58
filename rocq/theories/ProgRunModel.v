(** runbook run within the process: internal/commands/runbook.go and Run in
    internal/runbook/runbook.go.  ProgModel leaves to its setting what a run comes to;
    here is what it can come to. *)
From Coq Require Import String Ascii.
From stdpp Require Import gmap list strings numbers.
From Verif Require Import GoBase GoStrings ParserModel CliModel ProgModel RunnerModel RunnerSpec EffectsModel FineModel.
Local Open Scope Z_scope.

(** internal/commands/runbook.go:18-20 with internal/runbook/runbook.go:133-146: how
    the run of a runbook can end, and what it has done by then.  Goroutines may get on
    after run has returned, until the process ends, which can be in the middle of a
    task.  A panic ends the process, and so
    does Go if all goroutines are blocked. *)
Inductive book_run (s : setting) (h : host) (file : string) (files : gmap string string)
    : ended → list world_effect → Prop :=
| run_refused e : book_in s file files = Err e → book_run s h file files Fails []
| run_panic : book_in s file files = Panic → book_run s h file files Crashes []
| run_returns b st tr E m p r :
    book_in s file files = Ok b → executes (run_book b h) st tr → fine b h tr E m p → EvReturn r ∈ tr →
    Crash ∉ E → book_run s h file files (ended_if (bool_decide (r = None))) E
| run_crashes b st tr E m p :
    book_in s file files = Ok b → executes (run_book b h) st tr → fine b h tr E m p → Crash ∈ E →
    book_run s h file files Crashes E
| run_blocks b st tr E m p :
    book_in s file files = Ok b → executes (run_book b h) st tr → fine b h tr E m p → stuck (run_book b h) st →
    (∀ q, p q = []) → (∀ r, EvReturn r ∉ tr) → book_run s h file files Crashes E.
(** internal/commands/runbook.go:18-20: the setting's runs are such runs; [did]: what
    they do. *)
Definition faithful (s : setting) (h : host) (did : string → world → list world_effect) : Prop :=
  ∀ file w, book_run s h file (w_files w) (s_run s file w).2 (did file w).
