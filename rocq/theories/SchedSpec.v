(** Specification vocabulary for the scheduler. *)
From stdpp Require Import gmap sets list strings numbers relations.
From Verif Require Import GoBase DagModel DagSpec SchedModel.

(** The pairs (target, task) of an answer. *)
Definition pairs_of (ready : gmap string (list string)) : list (string * string) :=
  map_to_list ready ≫= λ '(q, ts), pair q <$> ts.

(** "t comes after m" as written in the runbook. *)
Definition after (tasks : gmap string task) (t m : string) : Prop :=
  ∃ v, tasks !! t = Some v ∧ m ∈ t_after v.

Definition ok_new_orders (targets : gmap string Z) (tasks : gmap string task) (o : new_orders) : Prop :=
  range_of targets (no_targets o) ∧ range_of tasks (no_tasks o) ∧
  ok_dag_orders (t_after <$> tasks) (no_dag o) ∧ ok_set_ranger (no_next o) ∧
  ok_map_ranger (no_ready o).
Definition ok_next_orders (o : next_orders) : Prop :=
  ok_map_ranger (xo_check o) ∧ ok_set_ranger (xo_next o) ∧ ok_map_ranger (xo_ready o).

(** What an answer of Next hands out. *)
Definition handed_by (r : next_result) : list (string * string) :=
  match r with Ready m => pairs_of m | ErrNoPendingTasks => [] end.

(** All histories of a scheduler: New, then Next with any arguments.
    [completed]: the arguments so far; [handed]: the (target, task) pairs handed out. *)
Inductive sched_history (targets : gmap string Z) (tasks : gmap string task) :
    sched → list string → list (string * string) → Prop :=
| sh_new o s ready :
    ok_new_orders targets tasks o → sched_new o targets tasks = Some (inr (s, ready)) →
    sched_history targets tasks s [] (pairs_of ready)
| sh_next o s s' completed handed t r :
    sched_history targets tasks s completed handed → ok_next_orders o →
    sched_next o s t = (s', r) →
    sched_history targets tasks s' (completed ++ [t]) (handed ++ handed_by r).

(** The histories of a caller that reports each handed out task at most once. *)
Inductive sched_run (targets : gmap string Z) (tasks : gmap string task) :
    sched → list string → list (string * string) → Prop :=
| sr_new o s ready :
    ok_new_orders targets tasks o → sched_new o targets tasks = Some (inr (s, ready)) →
    sched_run targets tasks s [] (pairs_of ready)
| sr_next o s s' completed handed t r :
    sched_run targets tasks s completed handed → ok_next_orders o →
    t ∈ handed.*2 → t ∉ completed →
    sched_next o s t = (s', r) →
    sched_run targets tasks s' (completed ++ [t]) (handed ++ handed_by r).

(** Tasks handed out for target [q] and not yet reported. *)
Definition in_flight (completed : list string) (handed : list (string * string)) (q : string)
    : list string :=
  (filter (λ e, e.1 = q ∧ e.2 ∉ completed) handed).*2.

(** Every task's target exists and has room for at least one task. *)
Definition runnable (targets : gmap string Z) (tasks : gmap string task) : Prop :=
  ∀ t v, tasks !! t = Some v → ∃ n, targets !! t_target v = Some n ∧ (1 ≤ n)%Z.

(** The answers to a sequence of Next calls. *)
Fixpoint answers (s : sched) (calls : list (next_orders * string)) : list next_result :=
  match calls with
  | [] => []
  | (o, t) :: calls' => let '(s', r) := sched_next o s t in r :: answers s' calls'
  end.

(** The target of a task as written in the runbook. *)
Definition target_of (tasks : gmap string task) (t : string) : string :=
  default "" (t_target <$> tasks !! t).
(** The tasks handed out for target [q], in order. *)
Definition handed_to (q : string) (handed : list (string * string)) : list string :=
  (filter (λ e, e.1 = q) handed).*2.
(** Task [t] waits although everything it comes after was reported complete. *)
Definition startable (tasks : gmap string task) (completed : list string)
    (handed : list (string * string)) (t : string) : Prop :=
  t ∈ dom tasks ∧ t ∉ handed.*2 ∧ ∀ m, after tasks t m → m ∈ completed.
