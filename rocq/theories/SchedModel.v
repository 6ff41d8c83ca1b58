(** Model of internal/runbook/scheduler. *)
From stdpp Require Import gmap sets list strings numbers.
From Verif Require Import GoBase DagModel.
Local Open Scope Z_scope.

(** internal/runbook/types/types.go:35-40: the two fields of a task that matter
    here (Message and Config are handled in RunnerModel.v). *)
Record task := Task { t_target : string; t_after : list string }.

(** internal/runbook/scheduler/scheduler.go:13-19.  targetID and taskID are strings. *)
Record sched := Sched {
  s_deps : depgraph;
  s_tasks : gmap string string;
  s_pending : gmap string (list string);
  s_cap : gmap string Z;
  s_len : gmap string Z;
}.

(** internal/runbook/scheduler/errors.go:5 and dag's errors: the error results. *)
Inductive next_result :=
| Ready (r : gmap string (list string))
| ErrNoPendingTasks.

(** scheduler.go:31-35.  [targets] maps a target id to what its
    ConcurrencyLimit() returns (assumed to return the same value on each call:
    the three implementations return a field or a constant).  [order] is the
    order of the range. *)
Definition fill_caps (targets : gmap string Z) (order : list string) : gmap string Z * gmap string Z :=
  foldl (λ '(cap, len) k, (<[ k := default 0 (targets !! k) ]> cap, <[ k := 0 ]> len))
    (∅, ∅) order.

(** scheduler.go:37-44; [tasks !! k] is never absent for a key of the range. *)
Definition fill_tasks (tasks : gmap string task) (order : list string)
    : gmap string string * gmap string (list string) :=
  foldl (λ '(ts, deps) k,
      match tasks !! k with
      | Some v => (<[ k := t_target v ]> ts, <[ k := t_after v ]> deps)
      | None => (ts, deps)
      end) (∅, ∅) order.

(** scheduler.go:100-107; a missing map entry reads as "" resp. the nil slice. *)
Definition fill_pending (tasks : gmap string string) (pending : gmap string (list string))
    (released : list string) : gmap string (list string) :=
  foldl (λ pending tid,
      let qid := default "" (tasks !! tid) in
      <[ qid := default [] (pending !! qid) ++ [tid] ]> pending) pending released.

(** scheduler.go:72-95: one iteration of the loop of buildReady.  [tasks[:n]]
    is copied into a fresh slice, so no aliasing with [tasks[n:]] arises. *)
Definition build_ready_step (cap : gmap string Z)
    (st : gmap string (list string) * gmap string Z * gmap string (list string)) (qid : string)
    : gmap string (list string) * gmap string Z * gmap string (list string) :=
  let '(pending, len, ready) := st in
  let tasks := default [] (pending !! qid) in
  if decide (length tasks < 1)%nat then st
  else
    let targetLen := default 0 (len !! qid) in
    let n := default 0 (cap !! qid) - targetLen in
    if decide (n < 1) then st
    else
      let n := if decide (n > Z.of_nat (length tasks)) then Z.of_nat (length tasks) else n in
      (<[ qid := drop (Z.to_nat n) tasks ]> pending,
       <[ qid := targetLen + n ]> len,
       <[ qid := take (Z.to_nat n) tasks ]> ready).

(** scheduler.go:69-98; [order] is the order of [range s.pending]. *)
Definition build_ready (order : list string) (s : sched) : sched * gmap string (list string) :=
  let '(pending, len, ready) :=
    foldl (build_ready_step (s_cap s)) (s_pending s, s_len s, ∅) order in
  (Sched (s_deps s) (s_tasks s) pending (s_cap s) len, ready).

(** Iteration orders of one call of New: scheduler.go:31, :38, the ranges in
    NewDependencyGraph, dependency.go:65 and scheduler.go:72. *)
Record new_orders := NewOrders {
  no_targets : list string;
  no_tasks : list string;
  no_dag : dag_orders;
  no_next : set_ranger;
  no_ready : map_ranger (list string);
}.

(** scheduler.go:22-53.  [None]: out of fuel in TSort (excluded by a theorem). *)
Definition sched_new (o : new_orders) (targets : gmap string Z) (tasks : gmap string task)
    : option (graph_error + sched * gmap string (list string)) :=
  let '(cap, len) := fill_caps targets (no_targets o) in
  let '(ts, deps) := fill_tasks tasks (no_tasks o) in
  match new_dependency_graph (no_dag o) deps with
  | None => None
  | Some (inl e) => Some (inl e)
  | Some (inr g) =>
    let '(g, released) := dg_next (no_next o) g "" in
    let pending := fill_pending ts ∅ released in
    Some (inr (build_ready (no_ready o pending) (Sched g ts pending cap len)))
  end.

(** scheduler.go:113-119: the loop of noPendingTasks.  It stops at the first
    target with pending tasks and deletes the empty entries met before it. *)
Fixpoint no_pending_loop (order : list string) (pending : gmap string (list string))
    : bool * gmap string (list string) :=
  match order with
  | [] => (true, pending)
  | qid :: order' =>
    match default [] (pending !! qid) with
    | _ :: _ => (false, pending)
    | [] => no_pending_loop order' (delete qid pending)
    end
  end.

(** scheduler.go:109-120 *)
Definition no_pending_tasks (order : list string) (s : sched) : bool * sched :=
  if has_pending (s_deps s) then (false, s)
  else
    let '(b, pending) := no_pending_loop order (s_pending s) in
    (b, Sched (s_deps s) (s_tasks s) pending (s_cap s) (s_len s)).

(** Iteration orders of one call of Next: scheduler.go:113, dependency.go:65,
    scheduler.go:72. *)
Record next_orders := NextOrders {
  xo_check : map_ranger (list string);
  xo_next : set_ranger;
  xo_ready : map_ranger (list string);
}.

(** scheduler.go:56-67 *)
Definition sched_next (o : next_orders) (s : sched) (completed : string) : sched * next_result :=
  let '(b, s) := no_pending_tasks (xo_check o (s_pending s)) s in
  if b then (s, ErrNoPendingTasks)
  else
    let qid := default "" (s_tasks s !! completed) in
    let len := <[ qid := default 0 (s_len s !! qid) - 1 ]> (s_len s) in
    let '(g, released) := dg_next (xo_next o) (s_deps s) completed in
    let pending := fill_pending (s_tasks s) (s_pending s) released in
    let '(s, ready) :=
      build_ready (xo_ready o pending) (Sched g (s_tasks s) pending (s_cap s) len) in
    (s, Ready ready).
