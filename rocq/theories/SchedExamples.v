(** Concrete runbooks and runs, used to show that hypotheses can be met. *)
From stdpp Require Import gmap sets list strings numbers relations.
From Verif Require Import GoBase DagModel DagSpec DepProofs DagExamples SchedModel SchedSpec.

Definition ex_targets : gmap string Z := {[ "q1" := 1%Z; "q2" := 2%Z ]}.
Definition ex_tasks : gmap string task :=
  {[ "a" := Task "q1" []; "b" := Task "q1" ["a"]; "c" := Task "q2" ["a"];
     "d" := Task "q2" ["a"]; "e" := Task "q2" ["a"] ]}.
Definition ex_empty_name : gmap string task := {[ "" := Task "q2" []; "b" := Task "q2" [""] ]}.

Definition ex_new_orders (targets : gmap string Z) (tasks : gmap string task) : new_orders :=
  NewOrders (elements (dom targets)) (elements (dom tasks))
    (ex_orders (t_after <$> tasks)) elements (λ m, elements (dom m)).
Definition ex_next_orders : next_orders :=
  NextOrders (λ m, elements (dom m)) elements (λ m, elements (dom m)).

Lemma ex_new_orders_ok targets tasks : ok_new_orders targets tasks (ex_new_orders targets tasks).
Proof.
  split; [by unfold range_of|]. split; [by unfold range_of|]. split; [apply ex_orders_ok|].
  split; intros X; unfold range_of, range_of_set; done.
Qed.
Lemma ex_next_orders_ok : ok_next_orders ex_next_orders.
Proof. split; [|split]; intros X; unfold range_of, range_of_set; done. Qed.

(** Computing a run. *)
Fixpoint ex_sched_loop (s : sched) (dn : list string) (h : list (string * string)) (cs : list string)
    : option (list (string * string)) :=
  match cs with
  | [] => Some h
  | c :: cs' =>
    if bool_decide (c ∈ h.*2 ∧ c ∉ dn) then
      let '(s', r) := sched_next ex_next_orders s c in
      ex_sched_loop s' (dn ++ [c]) (h ++ handed_by r) cs'
    else None
  end.
Definition ex_sched (targets : gmap string Z) (tasks : gmap string task) (cs : list string)
    : option (list (string * string)) :=
  match sched_new (ex_new_orders targets tasks) targets tasks with
  | Some (inr (s, ready)) => ex_sched_loop s [] (pairs_of ready) cs
  | _ => None
  end.
Lemma ex_sched_loop_spec targets tasks cs h' : ∀ s dn h,
  sched_run targets tasks s dn h → ex_sched_loop s dn h cs = Some h' →
  ∃ s, sched_run targets tasks s (dn ++ cs) h'.
Proof.
  induction cs as [|c cs IH]; intros s dn h H H1.
  - injection H1 as <-. rewrite app_nil_r. eauto.
  - simpl in H1. case_bool_decide as Hc; [|done]. destruct Hc as [Hc1 Hc2].
    destruct (sched_next ex_next_orders s c) as [s' r] eqn:E.
    destruct (IH s' (dn ++ [c]) (h ++ handed_by r)) as [s'' H2]; [|done|].
    + exact (sr_next _ _ _ _ _ _ _ _ _ H ex_next_orders_ok Hc1 Hc2 E).
    + rewrite <-app_assoc in H2. eauto.
Qed.
Lemma ex_sched_spec targets tasks cs h :
  ex_sched targets tasks cs = Some h → ∃ s, sched_run targets tasks s cs h.
Proof.
  unfold ex_sched. destruct (sched_new _ _ _) as [[e|[s ready]]|] eqn:E; [done| |done].
  intros H. apply (ex_sched_loop_spec targets tasks cs h s [] (pairs_of ready)); [|done].
  exact (sr_new _ _ _ _ _ (ex_new_orders_ok _ _) E).
Qed.

Lemma sched_empty_name_lem :
  ∃ targets tasks s handed q t m,
    sched_run targets tasks s [] handed ∧ (q, t) ∈ handed ∧ after tasks t m.
Proof.
  destruct (ex_sched_spec ex_targets ex_empty_name [] [("q2", ""); ("q2", "b")]) as [s Hs].
  { vm_compute. done. }
  exists ex_targets, ex_empty_name, s, [("q2", ""); ("q2", "b")], "q2", "b", "".
  split; [done|]. split; [right; left|]. exists (Task "q2" [""]). split; [done|left].
Qed.

(** A task with no prerequisites is left behind by New although its target has room. *)
Definition ex_skipped : gmap string task :=
  {[ "0" := Task "q1" []; "a" := Task "q2" ["0"]; "b" := Task "q2" []; "c" := Task "q2" [] ]}.
Lemma sched_no_idle_refuted_lem :
  ∃ targets tasks s handed t,
    sched_run targets tasks s [] handed ∧ runnable targets tasks ∧ "" ∉ dom tasks ∧
    startable tasks [] handed t ∧
    (Z.of_nat (length (in_flight [] handed (target_of tasks t))) <
     default 0 (targets !! target_of tasks t))%Z.
Proof.
  destruct (ex_sched_spec ex_targets ex_skipped [] [("q2", "b"); ("q1", "0")]) as [s Hs].
  { vm_compute. done. }
  exists ex_targets, ex_skipped, s, [("q2", "b"); ("q1", "0")], "c".
  split; [done|]. split; [|split; [|split]].
  - assert (map_Forall (λ _ v, (1 ≤ default 0 (ex_targets !! t_target v))%Z) ex_skipped) as H.
    { apply (bool_decide_unpack _). vm_compute. done. }
    intros t v Hv. specialize (H t v Hv). simpl in H.
    destruct (ex_targets !! t_target v); simpl in H; [eauto|lia].
  - by apply not_elem_of_dom; vm_compute.
  - split; [|split].
    + apply elem_of_dom. exists (Task "q2" []). by vm_compute.
    + apply (bool_decide_unpack _). by vm_compute.
    + intros m (v & Hv & Hm). assert (v = Task "q2" []) as ->.
      { assert (ex_skipped !! "c" = Some (Task "q2" [])) as He by (by vm_compute). congruence. }
      by apply elem_of_nil in Hm.
  - by vm_compute.
Qed.
(** Independent tasks, more than fit. *)
Definition ex_flat : gmap string task :=
  {[ "a" := Task "q2" []; "b" := Task "q2" []; "c" := Task "q2" [] ]}.
