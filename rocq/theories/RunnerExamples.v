(** Concrete executions of Run, computed. *)
From stdpp Require Import gmap sets list strings numbers relations.
From Verif Require Import GoBase GoBaseProofs DagModel DagSpec SchedModel SchedSpec SchedProofs
  DagExamples SchedExamples RunnerModel RunnerSpec RunnerInvA RunnerInvT RunnerInvB RunnerProofs
  RunnerLive.

Global Instance event_eq_dec : EqDecision event.
Proof. solve_decision. Defined.

Definition ex_router_order : map_ranger target_pc := λ m, elements (dom m).

(** Run with a priority list of actions: at each step the first one enabled. *)
Fixpoint first_step (inp : run_input) (acts : list action) (st : rstate) : option (rstate * option event) :=
  match acts with
  | [] => None
  | a :: acts => match run_step inp a st with Some r => Some r | None => first_step inp acts st end
  end.
Fixpoint drive (inp : run_input) (acts : list action) (fuel : nat) (st : rstate) (tr : list event)
    : rstate * list event :=
  match fuel with
  | O => (st, tr)
  | S n => match first_step inp acts st with
           | Some (st', ev) => drive inp acts n st' (tr ++ option_list ev)
           | None => (st, tr)
           end
  end.

Lemma first_step_sound inp acts st st' ev :
  Forall (ok_action inp) acts → first_step inp acts st = Some (st', ev) → steps_to inp st ev st'.
Proof.
  induction 1 as [|a acts Ha _ IH]; simpl; [done|].
  destruct (run_step inp a st) as [[st1 ev1]|] eqn:Hs; [|done].
  intros [= <- <-]. by exists a.
Qed.
Lemma drive_sound inp acts n : Forall (ok_action inp) acts → ∀ st tr,
  executes inp st tr → executes inp (drive inp acts n st tr).1 (drive inp acts n st tr).2.
Proof.
  intros Ha. induction n as [|n IH]; intros st tr He; simpl; [done|].
  destruct (first_step inp acts st) as [[st' ev]|] eqn:Hs; [|done].
  apply IH. econstructor; [done|]. by eapply first_step_sound.
Qed.

Definition ex_main : action := AMain.
Definition ex_sched (inp : run_input) : action := ASched (default_choice inp).
Definition ex_router : action := ARouter ex_router_order.
Definition ex_actions (inp : run_input) (qs : list string) : list action :=
  ex_main :: ex_sched inp :: ex_router :: (ATarget <$> qs).
Lemma ex_actions_ok inp qs : Forall (ok_action inp) (ex_actions inp qs).
Proof.
  unfold ex_actions. repeat apply Forall_cons_2.
  - done.
  - apply default_choice_ok.
  - intros m. by unfold range_of.
  - apply Forall_fmap, Forall_true. done.
Qed.

(** The result of 300 steps. *)
Definition ex_run (inp : run_input) (order : list string) : rstate * list event :=
  drive inp (ex_actions inp order) 300 (run_init order) [].
Lemma ex_run_executes inp order :
  range_of (ri_limits inp) order → executes inp (ex_run inp order).1 (ex_run inp order).2.
Proof.
  intros Ho. apply drive_sound; [apply ex_actions_ok|]. by constructor.
Qed.

(** A checkable sufficient condition for [stuck]. *)
Definition recv_blocks {A} (c : chan A) : bool :=
  match ch_buf c with [] => negb (ch_closed c) | _ => false end.
Definition target_blocked (tc : gset string) (e : string * target_pc) : bool :=
  match e.2 with
  | TDone => true
  | TRecv => negb (bool_decide (e.1 ∈ tc))
  | _ => false
  end.
Definition stuckb (st : rstate) : bool :=
  match r_main st with
  | MReturned _ => true
  | MLoop | MDrain _ => recv_blocks (r_ended st)
  | _ => false
  end &&
  match r_sched st with
  | SDone => true
  | SRecv _ => recv_blocks (r_done st)
  | _ => false
  end &&
  match r_router st with
  | RDone => true
  | RRecv => recv_blocks (r_ready st)
  | RSend q t =>
    match r_targets st !! q with
    | None => true
    | Some TDone => negb (bool_decide (q ∈ r_tclosed st))
    | _ => false
    end
  | _ => false
  end &&
  forallb (target_blocked (r_tclosed st)) (map_to_list (r_targets st)).

Lemma recv_blocks_spec {A} (c : chan A) : recv_blocks c = true → recv c = RecvBlocks.
Proof.
  unfold recv_blocks, recv. destruct (ch_buf c); [|done]. by destruct (ch_closed c).
Qed.
Lemma stuckb_sound inp st : stuckb st = true → stuck inp st.
Proof.
  unfold stuckb. rewrite !andb_true_iff. intros [[[Hm Hs] Hr] Ht] (ev & st' & a & _ & Hst).
  unfold run_step in Hst. destruct (r_panic st); [done|]. destruct a as [|c|o|q].
  - unfold main_step in Hst. destruct (r_main st); try done;
      rewrite (recv_blocks_spec _ Hm) in Hst; done.
  - unfold sched_step in Hst. destruct (r_sched st); try done.
    rewrite (recv_blocks_spec _ Hs) in Hst. done.
  - unfold router_step in Hst. destruct (r_router st) as [| |q t|l| |]; try done.
    + rewrite (recv_blocks_spec _ Hr) in Hst. done.
    + destruct (r_targets st !! q) as [[]|]; try done.
      destruct (decide (q ∈ r_tclosed st)) as [Hq|]; [|done].
      rewrite bool_decide_true in Hr by done. done.
  - unfold target_step in Hst. destruct (r_targets st !! q) as [pc|] eqn:Hq; [|done].
    apply elem_of_map_to_list in Hq. rewrite forallb_forall in Ht.
    specialize (Ht (q, pc) (proj1 (elem_of_list_In _ _) Hq)). unfold target_blocked in Ht. simpl in Ht.
    destruct pc; try done. destruct (decide (q ∈ r_tclosed st)) as [Hc|]; [|done].
    rewrite bool_decide_true in Ht by done. done.
Qed.

Definition all_ok : string → option go_error := λ _, None.
Definition fails (t : string) (e : go_error) : string → option go_error :=
  λ x, if decide (x = t) then Some e else None.

(** Two targets, three tasks, c after a and b. *)
Definition ex_tasks3 : gmap string task :=
  {[ "a" := Task "q1" []; "b" := Task "q2" []; "c" := Task "q1" ["a"; "b"] ]}.
Definition ex_good : run_input :=
  RunInput {[ "q1" := 2%Z; "q2" := 1%Z ]} all_ok ex_tasks3 all_ok.
(** The same with b failing; q2 takes one task at a time. *)
Definition ex_bad : run_input :=
  RunInput {[ "q1" := 2%Z; "q2" := 1%Z ]} all_ok ex_tasks3 (fails "b" "boom").
(** No tasks. *)
Definition ex_none : run_input := RunInput {[ "q1" := 1%Z ]} all_ok ∅ all_ok.
(** A task after itself. *)
Definition ex_loop : run_input :=
  RunInput {[ "q1" := 1%Z ]} all_ok {[ "a" := Task "q1" ["a"] ]} all_ok.
(** Two tasks on a target of limit two; the first one fails. *)
Definition ex_hang : run_input :=
  RunInput {[ "q1" := 2%Z ]} all_ok {[ "a" := Task "q1" []; "b" := Task "q1" [] ]} (fails "a" "boom").
(** q2 does not start. *)
Definition ex_nostart : run_input :=
  RunInput {[ "q1" := 1%Z; "q2" := 1%Z ]} (fails "q2" "no") {[ "a" := Task "q1" [] ]} all_ok.
(** A task with the empty name. *)
Definition ex_noname : run_input :=
  RunInput {[ "q1" := 1%Z; "q2" := 1%Z ]} all_ok {[ "" := Task "q2" []; "b" := Task "q1" [""] ]} all_ok.

Definition two : list string := ["q1"; "q2"].

(** What the examples need, computed. *)
Definition shows (inp : run_input) (order : list string) (evs : list event) : bool :=
  bool_decide ((ex_run inp order).2 = evs).
Lemma shows_sound inp order evs :
  range_of (ri_limits inp) order → shows inp order evs = true → executes inp (ex_run inp order).1 evs.
Proof.
  intros Ho H. apply bool_decide_eq_true in H. rewrite <-H. by apply ex_run_executes.
Qed.
Definition ends (inp : run_input) (order : list string) (evs : list event) : bool :=
  shows inp order evs && stuckb (ex_run inp order).1.
Lemma ends_sound inp order evs :
  range_of (ri_limits inp) order → ends inp order evs = true →
  ∃ st, executes inp st evs ∧ stuck inp st.
Proof.
  intros Ho [H1 H2]%andb_true_iff. exists (ex_run inp order).1.
  split; [by apply shows_sound|by apply stuckb_sound].
Qed.
Lemma range_of_check {A} (m : gmap string A) (l : list string) :
  bool_decide (l ≡ₚ elements (dom m)) = true → range_of m l.
Proof. intros H. by apply bool_decide_eq_true in H. Qed.

Lemma well_ordered_rank (tasks : gmap string task) (rank : string → nat) :
  (∀ t m, after tasks t m → m ∈ dom tasks ∧ (rank m < rank t)%nat) → well_ordered tasks.
Proof.
  intros H. split; [intros t m Ha; by apply H in Ha as [? _]|].
  assert (∀ t m, tc (after tasks) t m → (rank m < rank t)%nat) as Htc.
  { intros t m Ht. induction Ht as [? ? Ha|? ? ? Ha _ IH]; apply H in Ha as [_ Ha]; lia. }
  intros [t Ht]. apply Htc in Ht. lia.
Qed.
Definition ex_rank (t : string) : nat := if decide (t = "c") then 1 else 0.
Lemma ex_tasks3_well_ordered : well_ordered ex_tasks3.
Proof.
  apply (well_ordered_rank _ ex_rank). intros t m (v & Hv & Hm). unfold ex_tasks3 in *.
  repeat (rewrite lookup_insert_Some in Hv || destruct Hv as [[<- <-]|[? Hv]]); simpl in Hm.
  - by apply elem_of_nil in Hm.
  - by apply elem_of_nil in Hm.
  - apply lookup_singleton_Some in Hv as [<- <-]. simpl in Hm.
    apply elem_of_cons in Hm as [->|Hm%elem_of_list_singleton]; [|subst m];
      (split; [apply (bool_decide_unpack _); by vm_compute|by vm_compute; lia]).
Qed.
Lemma ex_tasks3_runnable : runnable {[ "q1" := 2%Z; "q2" := 1%Z ]} ex_tasks3.
Proof.
  intros t v Hv. unfold ex_tasks3 in Hv.
  repeat (rewrite lookup_insert_Some in Hv || destruct Hv as [[<- <-]|[? Hv]]); simpl.
  - by exists 2%Z.
  - by exists 1%Z.
  - apply lookup_singleton_Some in Hv as [<- <-]. by exists 2%Z.
Qed.
Lemma ex_limits_ok start handle : limits_ok (RunInput {[ "q1" := 2%Z; "q2" := 1%Z ]} start ex_tasks3 handle).
Proof.
  intros q n Hn. simpl in Hn. apply lookup_insert_Some in Hn as [[_ <-]|[_ Hn]]; [lia|].
  apply lookup_singleton_Some in Hn as [_ <-]. lia.
Qed.
