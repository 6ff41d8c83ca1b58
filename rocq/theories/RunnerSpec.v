(** Specification vocabulary for Run: executions and their traces of events. *)
From stdpp Require Import gmap sets list strings numbers relations.
From Verif Require Import GoBase DagModel DagSpec SchedModel SchedSpec RunnerModel.

(** Choices allowed by the Go language: iteration orders enumerate the map. *)
Definition ok_action (inp : run_input) (a : action) : Prop :=
  match a with
  | ASched c => ok_new_orders (ri_limits inp) (ri_tasks inp) (sc_new c) ∧
                ok_next_orders (sc_next c) ∧ ok_map_ranger (sc_range c)
  | ARouter o => ok_map_ranger o
  | _ => True
  end.

(** One step under some choice. *)
Definition steps_to (inp : run_input) (st : rstate) (ev : option event) (st' : rstate) : Prop :=
  ∃ a, ok_action inp a ∧ run_step inp a st = Some (st', ev).

(** [executes inp st tr]: some execution of Run reaches [st], showing [tr]. *)
Inductive executes (inp : run_input) : rstate → list event → Prop :=
| ex_init order : range_of (ri_limits inp) order → executes inp (run_init order) []
| ex_step st ev st' tr :
    executes inp st tr → steps_to inp st ev st' →
    executes inp st' (tr ++ option_list ev).

(** No goroutine can move. *)
Definition stuck (inp : run_input) (st : rstate) : Prop := ¬ ∃ ev st', steps_to inp st ev st'.

(** Limits as the parser guarantees them (C25), or at least not negative. *)
Definition limits_ok (inp : run_input) : Prop :=
  ∀ q n, ri_limits inp !! q = Some n → (0 ≤ n)%Z.
(** The After relation is closed and acyclic. *)
Definition well_ordered (tasks : gmap string task) : Prop :=
  (∀ t m, after tasks t m → m ∈ dom tasks) ∧ ¬ ∃ t, tc (after tasks) t t.

(** Tasks handled (begun) in a trace, and begun minus returned for a target. *)
Definition begun (tr : list event) : list string :=
  omap (λ e, match e with EvHandle _ t => Some t | _ => None end) tr.
Definition begun_on (q : string) (tr : list event) : list string :=
  omap (λ e, match e with EvHandle q' t => if decide (q' = q) then Some t else None | _ => None end) tr.
Definition ended_on (q : string) (tr : list event) : list string :=
  omap (λ e, match e with EvHandled q' t _ => if decide (q' = q) then Some t else None | _ => None end) tr.
Definition all_started (tr : list event) : Prop := ∀ q e, EvStartFail q e ∉ tr.

(** The same executions, counting steps. *)
Inductive executes_in (inp : run_input) : nat → rstate → list event → Prop :=
| exn_init order : range_of (ri_limits inp) order → executes_in inp 0 (run_init order) []
| exn_step n st ev st' tr :
    executes_in inp n st tr → steps_to inp st ev st' →
    executes_in inp (S n) st' (tr ++ option_list ev).

(** Every goroutine of Run has ended. *)
Definition all_finished (inp : run_input) (st : rstate) : Prop :=
  (∃ r, r_main st = MReturned r) ∧ r_sched st = SDone ∧ r_router st = RDone ∧
  map_Forall (λ _ pc, pc = TDone) (r_targets st) ∧ dom (r_targets st) = dom (ri_limits inp).

(** A target whose tasks can fail takes one task at a time. *)
Definition failures_alone (inp : run_input) : Prop :=
  ∀ t v e, ri_tasks inp !! t = Some v → ri_handle inp t = Some e →
    ri_limits inp !! t_target v = Some 1%Z.
