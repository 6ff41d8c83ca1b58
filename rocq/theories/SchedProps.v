(** Property theorems C10-C15 (internal/runbook/scheduler). *)
From stdpp Require Import gmap sets list strings numbers relations.
From Verif Require Import GoBase DagModel DagSpec SchedModel SchedSpec SchedProofs SchedExamples.

(** A run in which everything happens: a task waits for its dependency, a
    target is full, tasks are handed out when room appears. *)
Example sched_run_ex :
  ex_sched ex_targets ex_tasks [] = Some [("q1", "a")] ∧
  ex_sched ex_targets ex_tasks ["a"; "d"; "b"; "c"] =
    Some [("q1", "a"); ("q2", "c"); ("q2", "d"); ("q1", "b"); ("q2", "e")] ∧
  ∃ s, sched_run ex_targets ex_tasks s ["a"; "d"; "b"; "c"]
    [("q1", "a"); ("q2", "c"); ("q2", "d"); ("q1", "b"); ("q2", "e")].
Proof.
  split; [vm_compute; done|]. split; [vm_compute; done|].
  apply ex_sched_spec. vm_compute. done.
Qed.
Example sched_runnable_ex : runnable ex_targets ex_tasks ∧ "" ∉ dom ex_tasks.
Proof.
  split; [|by apply not_elem_of_dom; vm_compute].
  assert (map_Forall (λ _ v, (1 ≤ default 0 (ex_targets !! t_target v))%Z) ex_tasks) as H.
  { apply (bool_decide_unpack _). vm_compute. done. }
  intros t v Hv. specialize (H t v Hv). simpl in H.
  destruct (ex_targets !! t_target v); simpl in H; [eauto|lia].
Qed.

(** ** C10 *)
Theorem sched_dependencies_first targets tasks s completed handed q t m :
  sched_history targets tasks s completed handed → "" ∉ dom tasks →
  (q, t) ∈ handed → after tasks t m → m ∈ completed.
Proof. exact (sched_after_lem targets tasks s completed handed q t m). Qed.
Print Assumptions sched_dependencies_first.

Theorem sched_dependencies_first_refuted :
  ∃ targets tasks s handed q t m,
    sched_run targets tasks s [] handed ∧ (q, t) ∈ handed ∧ after tasks t m.
Proof. exact sched_empty_name_lem. Qed.
Print Assumptions sched_dependencies_first_refuted.

(** ** C11 *)
Theorem sched_limit targets tasks s completed handed q :
  sched_run targets tasks s completed handed →
  (Z.of_nat (length (in_flight completed handed q)) ≤ Z.max 0 (default 0 (targets !! q)))%Z.
Proof. exact (sched_limit_lem targets tasks s completed handed q). Qed.
Print Assumptions sched_limit.

(** ** C12 *)
Theorem sched_once targets tasks s completed handed :
  sched_history targets tasks s completed handed →
  NoDup handed.*2 ∧ ∀ q t, (q, t) ∈ handed → ∃ v, tasks !! t = Some v ∧ t_target v = q.
Proof. exact (sched_once_lem targets tasks s completed handed). Qed.
Print Assumptions sched_once.

(** ** C13 *)
Theorem sched_progress targets tasks s completed handed :
  sched_run targets tasks s completed handed → runnable targets tasks →
  (∃ t, t ∈ dom tasks ∧ t ∉ handed.*2) → ∃ t, t ∈ handed.*2 ∧ t ∉ completed.
Proof. exact (sched_progress_lem targets tasks s completed handed). Qed.
Print Assumptions sched_progress.

Theorem sched_end_exact targets tasks s completed handed o t s' r :
  sched_history targets tasks s completed handed → ok_next_orders o →
  sched_next o s t = (s', r) →
  r = ErrNoPendingTasks ↔ (∀ t, t ∈ dom tasks → t ∈ handed.*2).
Proof. exact (sched_end_lem targets tasks s completed handed o t s' r). Qed.
Print Assumptions sched_end_exact.

Theorem sched_complete targets tasks s completed handed :
  sched_run targets tasks s completed handed → runnable targets tasks →
  (∀ t, t ∈ handed.*2 → t ∈ completed) → handed.*2 ≡ₚ elements (dom tasks).
Proof. exact (sched_complete_lem targets tasks s completed handed). Qed.
Print Assumptions sched_complete.

Theorem sched_bounded targets tasks s completed handed :
  sched_run targets tasks s completed handed → length completed ≤ size (dom tasks).
Proof. exact (sched_bounded_lem targets tasks s completed handed). Qed.
Print Assumptions sched_bounded.

(** ** C14 *)
Theorem sched_new_exact targets tasks o :
  ok_new_orders targets tasks o →
  match sched_new o targets tasks with
  | None => False
  | Some (inl _) => (∃ t m, after tasks t m ∧ m ∉ dom tasks) ∨ (∃ t, tc (after tasks) t t)
  | Some (inr _) => ¬ (∃ t m, after tasks t m ∧ m ∉ dom tasks) ∧ ¬ (∃ t, tc (after tasks) t t)
  end.
Proof. exact (sched_new_exact_lem targets tasks o). Qed.
Print Assumptions sched_new_exact.

(** ** C15 *)
Theorem sched_deterministic targets tasks o1 o2 :
  ok_new_orders targets tasks o1 → ok_new_orders targets tasks o2 →
  match sched_new o1 targets tasks, sched_new o2 targets tasks with
  | Some (inl _), Some (inl _) => True
  | Some (inr (s1, r1)), Some (inr (s2, r2)) =>
    r1 = r2 ∧
    ∀ calls1 calls2, calls1.*2 = calls2.*2 →
      Forall (λ c, ok_next_orders c.1) calls1 → Forall (λ c, ok_next_orders c.1) calls2 →
      answers s1 calls1 = answers s2 calls2
  | _, _ => False
  end.
Proof. exact (sched_deterministic_lem targets tasks o1 o2). Qed.
Print Assumptions sched_deterministic.
Example sched_orders_ex : ok_new_orders ex_targets ex_tasks (ex_new_orders ex_targets ex_tasks) ∧
  ok_next_orders ex_next_orders.
Proof. split; [apply ex_new_orders_ok|apply ex_next_orders_ok]. Qed.

(** ** C76.  The scheduler puts one queue per target behind the dependency graph:
    for each target it hands out the tasks in the order in which the graph
    releases them, and holds one back only while the target is full. *)
Theorem sched_queue_exact targets tasks s completed handed :
  sched_run targets tasks s completed handed →
  ∃ g released, dg_history (t_after <$> tasks) g ("" :: completed) released ∧
    ∀ q, let mine := filter (λ t, target_of tasks t = q) released in
      handed_to q handed `prefix_of` mine ∧
      (handed_to q handed = mine ∨
       Z.of_nat (length (in_flight completed handed q)) = Z.max 0 (default 0 (targets !! q)))%Z.
Proof. exact (sched_queue_lem targets tasks s completed handed). Qed.
Print Assumptions sched_queue_exact.

(** ** C77.  "A task whose prerequisites are complete waits only if its target is
    full", refuted. *)
Theorem sched_no_idle_refuted :
  ∃ targets tasks s handed t,
    sched_run targets tasks s [] handed ∧ runnable targets tasks ∧ "" ∉ dom tasks ∧
    startable tasks [] handed t ∧
    (Z.of_nat (length (in_flight [] handed (target_of tasks t))) <
     default 0 (targets !! target_of tasks t))%Z.
Proof. exact sched_no_idle_refuted_lem. Qed.
Print Assumptions sched_no_idle_refuted.

(** It holds when no task comes after another ... *)
Theorem sched_no_idle_flat_partial targets tasks s completed handed t :
  sched_run targets tasks s completed handed → (∀ t m, ¬ after tasks t m) →
  startable tasks completed handed t →
  Z.of_nat (length (in_flight completed handed (target_of tasks t))) =
  Z.max 0 (default 0%Z (targets !! target_of tasks t)).
Proof. exact (sched_flat_lem targets tasks s completed handed t). Qed.
Print Assumptions sched_no_idle_flat_partial.
Example sched_flat_ex :
  ex_sched ex_targets ex_flat [] = Some [("q2", "a"); ("q2", "b")] ∧
  ex_sched ex_targets ex_flat ["b"] = Some [("q2", "a"); ("q2", "b"); ("q2", "c")].
Proof. vm_compute. done. Qed.

(** ... and in general a call that hands out nothing while a task could be started
    has met a full target among those of the tasks that could be started. *)
Theorem sched_no_idle_partial targets tasks s completed handed o t s' x :
  sched_run targets tasks s completed handed → "" ∉ dom tasks → ok_next_orders o →
  t ∈ handed.*2 → t ∉ completed →
  (sched_next o s t).1 = s' → handed_by (sched_next o s t).2 = [] →
  startable tasks (completed ++ [t]) handed x →
  ∃ y, startable tasks (completed ++ [t]) handed y ∧
    Z.of_nat (length (in_flight (completed ++ [t]) handed (target_of tasks y))) =
    Z.max 0 (default 0%Z (targets !! target_of tasks y)).
Proof. exact (sched_idle_lem targets tasks s completed handed o t s' x). Qed.
Print Assumptions sched_no_idle_partial.
Example sched_idle_ex :
  ex_sched {[ "q1" := 1%Z; "q2" := 1%Z ]} ex_tasks ["a"] = Some [("q1", "a"); ("q2", "c"); ("q1", "b")] ∧
  ex_sched {[ "q1" := 1%Z; "q2" := 1%Z ]} ex_tasks ["a"; "b"] =
    Some [("q1", "a"); ("q2", "c"); ("q1", "b")].
Proof. vm_compute. done. Qed.
