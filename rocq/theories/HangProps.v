(** C142: a Handle call that does not return. *)
From stdpp Require Import gmap sets list strings numbers relations.
From Verif Require Import GoBase GoBaseProofs DagModel DagSpec SchedModel SchedSpec SchedProofs
  DagExamples SchedExamples RunnerModel RunnerSpec RunnerInvA RunnerInvT RunnerInvB RunnerProofs
  RunnerLive RunnerExamples HangSpec HangProofs.

(** Whatever has happened, a run goes on without any Handle call returning until
    nothing else is left to happen: the states the theorems below speak of are
    where a run ends up when the Handle calls under way do not return. *)
Theorem run_comes_to_rest inp st tr :
  executes inp st tr →
  ∃ st' evs, executes inp st' (tr ++ evs) ∧ Forall (λ ev, is_return ev = false) evs ∧ still inp st'.
Proof. exact (comes_to_rest_lem inp st tr). Qed.
Print Assumptions run_comes_to_rest.

(** Two tasks on q2, which takes two at a time, one on q1. *)
Definition ex_line : run_input :=
  RunInput {[ "q1" := 1%Z; "q2" := 2%Z ]} all_ok
    {[ "a" := Task "q2" []; "b" := Task "q2" []; "c" := Task "q1" [] ]} all_ok.
Definition ex_line_end : rstate * list event :=
  drive ex_line (ex_actions ex_line two) 12 (run_init two) [].
(** Everything one at a time; b does not end. *)
Definition ex_behind : run_input :=
  RunInput {[ "q1" := 1%Z; "q2" := 1%Z ]} all_ok
    {[ "a" := Task "q1" []; "b" := Task "q1" []; "c" := Task "q1" ["b"];
       "d" := Task "q1" ["a"]; "e" := Task "q2" ["a"] ]} all_ok.
Definition ex_behind_end : rstate * list event :=
  drive ex_behind (ex_actions ex_behind ["q2"; "q1"]) 19 (run_init two) [].

(** What is checked of a trace. *)
Definition quiet (tr : list event) : bool :=
  forallb (λ ev, match ev with EvStartFail _ _ | EvHandled _ _ (Some _) => false | _ => true end) tr.
Lemma quiet_spec tr : quiet tr = true → all_started tr ∧ none_failed tr.
Proof.
  unfold quiet. rewrite forallb_forall. intros H. split.
  - intros q e Hin%elem_of_list_In. by apply H in Hin.
  - intros q t e Hin%elem_of_list_In. by apply H in Hin.
Qed.
Definition unused (q : string) (tr : list event) : bool :=
  forallb (λ ev, match ev with EvHandle q' _ => negb (bool_decide (q' = q)) | _ => true end) tr.
Lemma unused_spec q tr : unused q tr = true → ∀ t, EvHandle q t ∉ tr.
Proof.
  unfold unused. rewrite forallb_forall. intros H t Hin%elem_of_list_In. apply H in Hin.
  by rewrite bool_decide_true in Hin.
Qed.
Definition flat (m : gmap string task) : bool := bool_decide (map_Forall (λ _ v, t_after v = []) m).
Lemma flat_spec m : flat m = true → ∀ t x, ¬ after m t x.
Proof.
  intros H%bool_decide_eq_true t x (v & Hv & Hx). rewrite (H t v Hv) in Hx. by apply elem_of_nil in Hx.
Qed.
Definition positive (lim : gmap string Z) (m : gmap string task) : bool :=
  bool_decide (map_Forall (λ _ v, (1 ≤ default 0 (lim !! t_target v))%Z) m).
Lemma positive_spec lim m : positive lim m = true → runnable lim m.
Proof.
  intros H%bool_decide_eq_true t v Hv. specialize (H t v Hv). simpl in H.
  destruct (lim !! t_target v); simpl in H; [eauto|lia].
Qed.

(** ** C142.  "A task that does not end holds up only its target and the tasks
    that come after it", refuted: tasks of a target that takes several at a time
    block the way to all targets, because there is one queue for all of them and
    a target works on one task at a time.  No task comes after another here. *)
Theorem hang_isolated_refuted :
  ∃ inp st tr t v,
    executes inp st tr ∧ still inp st ∧ all_started tr ∧ none_failed tr ∧
    runnable (ri_limits inp) (ri_tasks inp) ∧ (∀ t m, ¬ after (ri_tasks inp) t m) ∧
    ri_tasks inp !! t = Some v ∧ ri_limits inp !! t_target v = Some 1%Z ∧
    ∀ t', EvHandle (t_target v) t' ∉ tr.
Proof.
  exists ex_line, ex_line_end.1, ex_line_end.2, "c", (Task "q1" []).
  split; [apply drive_sound; [apply ex_actions_ok|]; constructor; by apply range_of_check; vm_compute|].
  split; [by apply stillb_sound; vm_compute|].
  destruct (quiet_spec ex_line_end.2) as [H1 H2]; [by vm_compute|]. split; [done|]. split; [done|].
  split; [by apply positive_spec; vm_compute|]. split; [by apply flat_spec; vm_compute|].
  split; [by vm_compute|]. split; [by vm_compute|]. by apply unused_spec; vm_compute.
Qed.
Print Assumptions hang_isolated_refuted.

(** Refuted as well when every target takes one task at a time: the scheduler
    looks at the entry after one it hands out only at the next completion, and
    if what it handed out waits behind the task that does not end there is none.
    Here everything the idle target's task comes after has completed. *)
Theorem hang_isolated_alone_refuted :
  ∃ inp st tr t v,
    executes inp st tr ∧ still inp st ∧ all_started tr ∧ none_failed tr ∧
    map_Forall (λ _ n, n = 1%Z) (ri_limits inp) ∧ runnable (ri_limits inp) (ri_tasks inp) ∧
    ri_tasks inp !! t = Some v ∧
    (∀ m, after (ri_tasks inp) t m → ∃ q, EvHandled q m None ∈ tr) ∧
    ∀ t', EvHandle (t_target v) t' ∉ tr.
Proof.
  exists ex_behind, ex_behind_end.1, ex_behind_end.2, "e", (Task "q2" ["a"]).
  split; [apply drive_sound; [apply ex_actions_ok|]; constructor; by apply range_of_check; vm_compute|].
  split; [by apply stillb_sound; vm_compute|].
  destruct (quiet_spec ex_behind_end.2) as [H1 H2]; [by vm_compute|]. split; [done|]. split; [done|].
  split; [by apply (bool_decide_unpack _); vm_compute|].
  split; [by apply positive_spec; vm_compute|]. split; [by vm_compute|].
  split; [|by apply unused_spec; vm_compute].
  intros m (v & Hv & Hm). assert (v = Task "q2" ["a"]) as ->.
  { assert (ri_tasks ex_behind !! "e" = Some (Task "q2" ["a"])) as He by (by vm_compute). congruence. }
  apply elem_of_list_singleton in Hm as ->. exists "q1". by apply (bool_decide_unpack _); vm_compute.
Qed.
Print Assumptions hang_isolated_alone_refuted.

(** It holds when every target takes one task at a time and no task comes after
    another: every target not inside a Handle call has done all its tasks. *)
Theorem hang_isolated_partial inp st tr t v :
  executes inp st tr → still inp st → all_started tr → none_failed tr →
  map_Forall (λ _ n, n = 1%Z) (ri_limits inp) → runnable (ri_limits inp) (ri_tasks inp) →
  (∀ t m, ¬ after (ri_tasks inp) t m) →
  ri_tasks inp !! t = Some v → busy tr (t_target v) ∨ EvHandled (t_target v) t None ∈ tr.
Proof.
  intros He Hst Ha Hn Hone Hrun Hflat Hv. eapply hang_isolated_lem; try done.
  intros t' v' Hv'. destruct (Hrun _ _ Hv') as (n & Hl & _). apply elem_of_dom. eauto.
Qed.
Print Assumptions hang_isolated_partial.

(** One target hangs in its first task, the other one has done both of its. *)
Definition ex_apart : run_input :=
  RunInput {[ "q1" := 1%Z; "q2" := 1%Z ]} all_ok
    {[ "a" := Task "q2" []; "b" := Task "q1" []; "c" := Task "q1" [] ]} all_ok.
Definition ex_apart_end : rstate * list event :=
  drive ex_apart (ex_actions ex_apart two) 36 (run_init two) [].
Example hang_isolated_ex :
  ex_apart_end.2 =
    [EvStart "q1"; EvStart "q2"; EvHandle "q1" "b"; EvHandled "q1" "b" None; EvHandle "q1" "c";
     EvHandled "q1" "c" None; EvStop "q1"; EvHandle "q2" "a"] ∧
  executes ex_apart ex_apart_end.1 ex_apart_end.2 ∧ still ex_apart ex_apart_end.1 ∧
  all_started ex_apart_end.2 ∧ none_failed ex_apart_end.2 ∧
  map_Forall (λ _ n, n = 1%Z) (ri_limits ex_apart) ∧
  runnable (ri_limits ex_apart) (ri_tasks ex_apart) ∧ (∀ t m, ¬ after (ri_tasks ex_apart) t m) ∧
  busy ex_apart_end.2 "q2".
Proof.
  assert (executes ex_apart ex_apart_end.1 ex_apart_end.2) as He.
  { apply drive_sound; [apply ex_actions_ok|]. constructor. by apply range_of_check; vm_compute. }
  split; [by vm_compute|]. split; [exact He|].
  split; [by apply stillb_sound; vm_compute|].
  destruct (quiet_spec ex_apart_end.2) as [H1 H2]; [by vm_compute|]. split; [done|]. split; [done|].
  split; [by apply (bool_decide_unpack _); vm_compute|].
  split; [by apply positive_spec; vm_compute|]. split; [by apply flat_spec; vm_compute|].
  apply (busy_handle _ _ _ _ "a" He). by vm_compute.
Qed.
