(** Properties C16-C24: every execution of Run, under every interleaving. *)
From stdpp Require Import gmap sets list strings numbers relations.
From Verif Require Import GoBase DagModel DagSpec SchedModel SchedSpec RunnerModel RunnerSpec
  RunnerProofs RunnerLive RunnerExamples.

Definition good_trace : list event :=
  [EvStart "q1"; EvStart "q2"; EvHandle "q1" "a"; EvHandled "q1" "a" None; EvHandle "q2" "b";
   EvHandled "q2" "b" None; EvHandle "q1" "c"; EvHandled "q1" "c" None; EvStop "q1"; EvStop "q2";
   EvReturn None].
Definition bad_trace : list event :=
  [EvStart "q1"; EvStart "q2"; EvHandle "q1" "a"; EvHandled "q1" "a" None; EvHandle "q2" "b";
   EvHandled "q2" "b" (Some "boom"); EvStop "q1"; EvStop "q2"; EvReturn (Some "boom")].

(** A complete run of three tasks on two targets, and one with a failure. *)
Example good_run : ∃ st, executes ex_good st good_trace ∧ stuck ex_good st.
Proof. apply (ends_sound ex_good two); [by apply range_of_check|by vm_compute]. Qed.
Example bad_run : ∃ st, executes ex_bad st bad_trace ∧ stuck ex_bad st.
Proof. apply (ends_sound ex_bad two); [by apply range_of_check|by vm_compute]. Qed.

(** C16 *)
Theorem run_order inp st tr :
  executes inp st tr →
  NoDup (begun tr) ∧
  (∀ q t, EvHandle q t ∈ tr → ∃ v, ri_tasks inp !! t = Some v ∧ t_target v = q) ∧
  ("" ∉ dom (ri_tasks inp) → ∀ tr1 q t tr2 m,
     tr = tr1 ++ EvHandle q t :: tr2 → tc (after (ri_tasks inp)) t m →
     ∃ q', EvHandled q' m None ∈ tr1).
Proof.
  intros He. split; [by eapply run_once_lem|]. split.
  - intros q t. by eapply run_on_target_lem.
  - intros Hn tr1 q t tr2 m ->. by eapply run_after_lem.
Qed.
Print Assumptions run_order.
(** A task named "" does not hold back the tasks after it. *)
Theorem run_order_refuted : ∃ inp st tr1 tr2,
  executes inp st (tr1 ++ EvHandle "q1" "b" :: tr2) ∧ after (ri_tasks inp) "b" "" ∧
  ¬ ∃ q, EvHandle q "" ∈ tr1.
Proof.
  exists ex_noname, (ex_run ex_noname two).1, [EvStart "q1"; EvStart "q2"],
    [EvHandled "q1" "b" None; EvStop "q1"; EvHandle "q2" ""; EvHandled "q2" "" None; EvStop "q2";
     EvReturn None].
  split; [|split].
  - apply shows_sound; [by apply range_of_check|by vm_compute].
  - exists (Task "q1" [""]). split; [done|by left].
  - intros [q Hq]. set_solver.
Qed.
Print Assumptions run_order_refuted.
Example run_order_example :
  "" ∉ dom (ri_tasks ex_good) ∧ tc (after (ri_tasks ex_good)) "c" "b" ∧
  ∃ tr1 tr2, good_trace = tr1 ++ EvHandle "q1" "c" :: tr2.
Proof.
  split; [apply not_elem_of_dom; by vm_compute|]. split.
  - apply tc_once. exists (Task "q1" ["a"; "b"]). split; [done|]. right. by left.
  - by exists (take 6 good_trace), (drop 7 good_trace).
Qed.

(** C17: for every target the calls begun are those ended, plus at most one. *)
Theorem run_sequential inp st tr q :
  executes inp st tr →
  begun_on q tr = ended_on q tr ∨ ∃ t, begun_on q tr = ended_on q tr ++ [t].
Proof. apply run_sequential_lem. Qed.
Print Assumptions run_sequential.
Example run_sequential_example :
  begun_on "q1" (take 7 good_trace) = ended_on "q1" (take 7 good_trace) ++ ["c"].
Proof. by vm_compute. Qed.

(** C18 *)
Theorem run_success inp st tr :
  executes inp st tr → EvReturn None ∈ tr → well_ordered (ri_tasks inp) →
  ∀ t, t ∈ dom (ri_tasks inp) → ∃ q, EvHandled q t None ∈ tr.
Proof. intros He Hr Hw. by apply (run_success_lem inp st tr). Qed.
Print Assumptions run_success.
(** Without the hypothesis: a task after itself never runs, Run returns nil. *)
Theorem run_success_refuted : ∃ inp st tr t,
  executes inp st tr ∧ EvReturn None ∈ tr ∧ t ∈ dom (ri_tasks inp) ∧
  ¬ ∃ q, EvHandle q t ∈ tr.
Proof.
  exists ex_loop, (ex_run ex_loop ["q1"]).1, [EvStart "q1"; EvStop "q1"; EvReturn None], "a".
  split_and!.
  - apply shows_sound; [by apply range_of_check|by vm_compute].
  - set_solver.
  - apply elem_of_dom. by eexists.
  - intros [q Hq]. set_solver.
Qed.
Print Assumptions run_success_refuted.
Example run_success_example :
  well_ordered (ri_tasks ex_good) ∧ EvReturn None ∈ good_trace ∧ "c" ∈ dom (ri_tasks ex_good).
Proof.
  split; [exact ex_tasks3_well_ordered|]. split; [unfold good_trace; set_solver|].
  apply elem_of_dom. by eexists.
Qed.

(** C19 *)
Theorem run_error inp st tr :
  executes inp st tr →
  (∀ e, EvReturn (Some e) ∈ tr → all_started tr →
     ∃ q t, t ∈ dom (ri_tasks inp) ∧ EvHandled q t (Some e) ∈ tr) ∧
  (∀ q t e, EvHandled q t (Some e) ∈ tr → EvReturn None ∉ tr).
Proof.
  intros He. split; [intros e; by apply (run_error_lem inp st tr)|].
  intros q t e Hev Hr. destruct (run_success_lem inp st tr He Hr) as [_ H]. by apply H in Hev.
Qed.
Print Assumptions run_error.
Example run_error_example : EvReturn (Some "boom") ∈ bad_trace ∧ all_started bad_trace.
Proof. split; [unfold bad_trace; set_solver|]. intros q e. unfold bad_trace. set_solver. Qed.

(** C20: no execution is longer than this bound... *)
Theorem run_terminates inp n st tr :
  executes_in inp n st tr →
  (n ≤ 12 * size (ri_tasks inp) + 5 * size (ri_limits inp) + 14)%nat.
Proof. intros H%run_bounded_lem. lia. Qed.
Print Assumptions run_terminates.
(** ... and an execution that cannot go on has returned, with every goroutine ended. *)
Theorem run_no_deadlock inp st tr :
  executes inp st tr → stuck inp st → limits_ok inp →
  dom (ri_tasks inp) ≠ ∅ → runnable (ri_limits inp) (ri_tasks inp) →
  all_started tr → failures_alone inp → all_finished inp st ∧ ∃ r, EvReturn r ∈ tr.
Proof.
  intros He Hs Hl Hd Hr Ha Hf.
  assert (all_finished inp st) as Hfin by by apply (stuck_finished inp st tr).
  split; [done|]. destruct Hfin as [[r Hm] _]. exists r. by eapply run_returned_ev.
Qed.
Print Assumptions run_no_deadlock.
Theorem run_no_deadlock_empty_refuted : ∃ inp st tr,
  executes inp st tr ∧ stuck inp st ∧ dom (ri_tasks inp) = ∅ ∧
  runnable (ri_limits inp) (ri_tasks inp) ∧ failures_alone inp ∧ all_started tr ∧
  ∀ r, EvReturn r ∉ tr.
Proof.
  destruct (ends_sound ex_none ["q1"] [EvStart "q1"]) as (st & He & Hs);
    [by apply range_of_check|by vm_compute|].
  exists ex_none, st, [EvStart "q1"]. split; [done|]. split; [done|]. split; [apply dom_empty_L|].
  split; [intros t v Hv; simpl in Hv; by apply lookup_empty_Some in Hv|].
  split; [intros t v e Hv; simpl in Hv; by apply lookup_empty_Some in Hv|].
  split; [intros q e; set_solver|]. intros r. set_solver.
Qed.
Print Assumptions run_no_deadlock_empty_refuted.
Theorem run_no_deadlock_failure_refuted : ∃ inp st tr q t e,
  executes inp st tr ∧ stuck inp st ∧ dom (ri_tasks inp) ≠ ∅ ∧
  runnable (ri_limits inp) (ri_tasks inp) ∧ well_ordered (ri_tasks inp) ∧ all_started tr ∧
  EvHandled q t (Some e) ∈ tr ∧ ∀ r, EvReturn r ∉ tr.
Proof.
  set (tr := [EvStart "q1"; EvHandle "q1" "a"; EvHandled "q1" "a" (Some "boom"); EvStop "q1"]).
  destruct (ends_sound ex_hang ["q1"] tr) as (st & He & Hs);
    [by apply range_of_check|by vm_compute|].
  exists ex_hang, st, tr, "q1", "a", "boom". split; [done|]. split; [done|]. split_and!.
  - intros Hd. assert ("a" ∈ dom (ri_tasks ex_hang)) as Ha by (apply elem_of_dom; by eexists).
    rewrite Hd in Ha. set_solver.
  - intros t v Hv. simpl in Hv. apply lookup_insert_Some in Hv as [[<- <-]|[_ Hv]]; [by exists 2%Z|].
    apply lookup_singleton_Some in Hv as [<- <-]. by exists 2%Z.
  - apply (well_ordered_rank _ ex_rank). intros t m (v & Hv & Hm). simpl in Hv.
    apply lookup_insert_Some in Hv as [[<- <-]|[_ Hv]]; [by apply elem_of_nil in Hm|].
    apply lookup_singleton_Some in Hv as [<- <-]. by apply elem_of_nil in Hm.
  - intros q e. unfold tr. set_solver.
  - unfold tr. set_solver.
  - intros r. unfold tr. set_solver.
Qed.
Print Assumptions run_no_deadlock_failure_refuted.
Example run_no_deadlock_example :
  limits_ok ex_bad ∧ dom (ri_tasks ex_bad) ≠ ∅ ∧ runnable (ri_limits ex_bad) (ri_tasks ex_bad) ∧
  well_ordered (ri_tasks ex_bad) ∧ all_started bad_trace ∧ failures_alone ex_bad.
Proof.
  split; [apply ex_limits_ok|]. split.
  { intros Hd. assert ("a" ∈ dom (ri_tasks ex_bad)) as Ha by (apply elem_of_dom; by eexists).
    rewrite Hd in Ha. set_solver. }
  split; [exact ex_tasks3_runnable|]. split; [exact ex_tasks3_well_ordered|].
  split; [intros q e; unfold bad_trace; set_solver|].
  intros t v e Hv He. simpl in *. unfold fails in He. destruct (decide (t = "b")) as [->|]; [|done].
  vm_compute in Hv. by injection Hv as <-.
Qed.

(** C21 *)
Theorem run_channels inp st tr :
  executes inp st tr →
  r_panic st = false ∧
  (limits_ok inp →
   (∀ t, r_main st = MSend t →
      (Z.of_nat (length (ch_buf (r_done st))) < run_capacity inp)%Z) ∧
   (∀ s x l, r_sched st = SSend s (x :: l) →
      (Z.of_nat (length (ch_buf (r_ready st))) < run_capacity inp)%Z) ∧
   (∀ q t e, r_targets st !! q = Some (TSend t e) →
      (Z.of_nat (length (ch_buf (r_ended st))) < run_capacity inp)%Z)).
Proof.
  intros He. split; [by eapply run_no_panic_lem|]. intros Hl. by eapply run_room_lem.
Qed.
Print Assumptions run_channels.
(** A state where a target is about to send on [ended] is reachable. *)
Example run_channels_example :
  ∃ st tr, executes ex_good st tr ∧ r_targets st !! "q1" = Some (TSend "a" None) ∧ limits_ok ex_good.
Proof.
  set (r := drive ex_good (ex_actions ex_good two) 13 (run_init two) []).
  exists r.1, r.2. split; [|split].
  - apply drive_sound; [apply ex_actions_ok|]. constructor. by apply range_of_check.
  - by vm_compute.
  - apply ex_limits_ok.
Qed.

(** C22 *)
Theorem run_stops inp st tr :
  executes inp st tr →
  (∀ tr1 q tr2, tr = tr1 ++ EvStop q :: tr2 →
     begun_on q tr1 = ended_on q tr1 ∧ EvStart q ∈ tr1 ∧
     (∀ t, EvHandle q t ∉ tr2) ∧ (∀ t e, EvHandled q t e ∉ tr2) ∧ EvStop q ∉ tr2) ∧
  (∀ r q, EvReturn r ∈ tr → all_started tr → q ∈ dom (ri_limits inp) → EvStop q ∈ tr).
Proof.
  intros He. split.
  - intros tr1 q tr2 ->. by eapply run_stop_at_lem.
  - intros r q Hr Ha. by eapply run_stopped_lem.
Qed.
Print Assumptions run_stops.
Example run_stops_example :
  EvReturn None ∈ good_trace ∧ all_started good_trace ∧ "q2" ∈ dom (ri_limits ex_good).
Proof.
  split; [unfold good_trace; set_solver|]. split; [intros q e; unfold good_trace; set_solver|].
  apply elem_of_dom. by eexists.
Qed.

(** C23 *)
Theorem run_downstream inp st tr q t e t' q' :
  executes inp st tr → "" ∉ dom (ri_tasks inp) →
  EvHandled q t (Some e) ∈ tr → tc (after (ri_tasks inp)) t' t → EvHandle q' t' ∉ tr.
Proof. intros He Hn Hf Htc. by eapply run_downstream_lem. Qed.
Print Assumptions run_downstream.
Example run_downstream_example :
  "" ∉ dom (ri_tasks ex_bad) ∧ EvHandled "q2" "b" (Some "boom") ∈ bad_trace ∧
  tc (after (ri_tasks ex_bad)) "c" "b".
Proof.
  split; [apply not_elem_of_dom; by vm_compute|]. split; [unfold bad_trace; set_solver|].
  apply tc_once. exists (Task "q1" ["a"; "b"]). split; [done|]. right. by left.
Qed.

(** C24.  Missing: "no task is handled", which is false (below). *)
Theorem run_start_failure_partial inp st tr q e :
  executes inp st tr → EvStartFail q e ∈ tr →
  (∀ r, EvReturn r ∈ tr → r = Some e) ∧ (stuck inp st → EvReturn (Some e) ∈ tr) ∧
  (∀ q' t, EvHandle q' t ∈ tr → EvStart q' ∈ tr ∧ q' ≠ q).
Proof. apply run_start_fail_lem. Qed.
Print Assumptions run_start_failure_partial.
Definition nostart_trace : list event :=
  [EvStart "q1"; EvStartFail "q2" "no"; EvReturn (Some "no"); EvHandle "q1" "a";
   EvHandled "q1" "a" None; EvStop "q1"].
Theorem run_start_failure_refuted : ∃ inp st tr1 tr2 q q' t e,
  executes inp st (tr1 ++ EvReturn (Some e) :: tr2) ∧ EvStartFail q e ∈ tr1 ∧ EvHandle q' t ∈ tr2.
Proof.
  exists ex_nostart, (ex_run ex_nostart two).1, (take 2 nostart_trace), (drop 3 nostart_trace),
    "q2", "q1", "a", "no".
  split; [|split].
  - apply shows_sound; [by apply range_of_check|by vm_compute].
  - simpl. set_solver.
  - simpl. set_solver.
Qed.
Print Assumptions run_start_failure_refuted.
