(** Specification vocabulary for C142: a run some of whose Handle calls do not return. *)
From stdpp Require Import gmap sets list strings numbers relations.
From Verif Require Import GoBase DagModel DagSpec SchedModel SchedSpec RunnerModel RunnerSpec.

(** Nothing can happen any more but that a Handle call under way returns. *)
Definition still (inp : run_input) (st : rstate) : Prop :=
  ∀ ev st', steps_to inp st ev st' → ∃ q t e, ev = Some (EvHandled q t e).

(** Target [q] is inside Handle. *)
Definition busy (tr : list event) (q : string) : Prop :=
  ∃ t, EvHandle q t ∈ tr ∧ ∀ q' e, EvHandled q' t e ∉ tr.

(** No task failed. *)
Definition none_failed (tr : list event) : Prop := ∀ q t e, EvHandled q t (Some e) ∉ tr.

(** A return of Handle. *)
Definition is_return (ev : event) : bool := match ev with EvHandled _ _ _ => true | _ => false end.
