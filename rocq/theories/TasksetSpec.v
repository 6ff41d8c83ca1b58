(** Specification of internal/taskset. *)
From Coq Require Import String Ascii.
From stdpp Require Import gmap list strings numbers relations.
From Verif Require Import GoBase GoStrings DemoModel ParserModel ParserSpec TasksetModel.
Local Open Scope Z_scope.

(** Where a task can be. *)
Definition waiting (s : rt_state) : list string :=
  List.concat (rt_queue s) ++ match rt_worker s with Launching ids => ids | _ => [] end.
Definition executing (s : rt_state) : list string :=
  omap (λ j, match j with Executing id => Some id | Sending _ _ => None end) (rt_jobs s).
Definition undelivered (s : rt_state) : list (string * option string) :=
  omap (λ j, match j with Executing _ => None | Sending id r => Some (id, r) end) (rt_jobs s) ++
  match rt_worker s with Delivering id r | DrainDelivering id r => [(id, r)] | _ => [] end ++ rt_results s.
(** No step is possible any more. *)
Definition stuck (n : Z) (s : rt_state) : Prop := ∀ s', ¬ rt_step n s s'.
(** Decoding fills in settings; it does not turn them into another kind, and cannot
    reach Sleep.Seconds, which has no tag. *)
Definition ts_class (x : ts_settings) : string :=
  match x with
  | TsDemo Echo => "echo" | TsDemo Fail => "fail" | TsDemo Rev => "rev" | TsDemo Rot13 => "rot13"
  | TsDemo (Sleep _) => "sleep" | TsPg _ => "pg" | TsSh _ => "sh"
  end.
Definition ok_ts_decoder {C} (dec : ts_decoder C) : Prop :=
  (∀ t raw t', tsd_target dec t raw = Some t' →
    match t, t' with
    | TsDemoTarget _ _, TsDemoTarget _ _ | TsPgTarget, TsPgTarget | TsShTarget, TsShTarget => True
    | _, _ => False
    end) ∧
  (∀ x raw x', tsd_task dec x raw = Some x' →
    ts_class x' = ts_class x ∧ ∀ n, x = TsDemo (Sleep n) → x' = TsDemo (Sleep n)).
(** What the target type of a factory is, and what kinds of tasks it has. *)
Definition ts_target_class (t : ts_target) : ts_factory :=
  match t with TsDemoTarget _ _ => DemoFactory | TsPgTarget => PgFactory | TsShTarget => ShFactory end.
Definition ts_kind (f : ts_factory) (c : string) : string :=
  match f with DemoFactory => c | PgFactory => "pg" | ShFactory => "sh" end.
(** A target is declared by a block, or is the default one. *)
Definition declared {C} (d : ts_doc C) (typ id : string) : Prop :=
  id = "" ∨ ∃ b, b ∈ td_targets d ∧ tb_type b = typ ∧ tb_id b = id.
(** The last block with an id. *)
Definition last_block {C} (l : list (task_block C)) (k : task_block C) : Prop :=
  ∃ l1 l2, l = l1 ++ k :: l2 ∧ kb_id k ∉ (kb_id <$> l2).

(** * What a file means (C82) *)

(** Before the body of its block is read, a demo target has a limit of one and no
    message; a task has no settings. *)
Inductive fresh_ts_target : ts_factory → ts_target → Prop :=
  | fresh_demo : fresh_ts_target DemoFactory (TsDemoTarget 1 "")
  | fresh_pg : fresh_ts_target PgFactory TsPgTarget
  | fresh_sh : fresh_ts_target ShFactory TsShTarget.
Inductive fresh_ts_task : ts_target → string → ts_settings → Prop :=
  | fresh_echo n m : fresh_ts_task (TsDemoTarget n m) "echo" (TsDemo Echo)
  | fresh_fail n m : fresh_ts_task (TsDemoTarget n m) "fail" (TsDemo Fail)
  | fresh_rev n m : fresh_ts_task (TsDemoTarget n m) "rev" (TsDemo Rev)
  | fresh_rot13 n m : fresh_ts_task (TsDemoTarget n m) "rot13" (TsDemo Rot13)
  | fresh_sleep n m : fresh_ts_task (TsDemoTarget n m) "sleep" (TsDemo (Sleep 0))
  | fresh_pg_task c : fresh_ts_task TsPgTarget c (TsPg "")
  | fresh_sh_task c : fresh_ts_task TsShTarget c (TsSh []).
(** A target block stands for the target its body makes of a fresh one. *)
Definition target_block_means {C} (dec : ts_decoder C) (fs : gmap string ts_factory) (b : target_block C) (t : ts_target) : Prop :=
  ∃ f t0, fs !! tb_type b = Some f ∧ fresh_ts_target f t0 ∧ tsd_target dec t0 (tb_config b) = Some t.
(** A task block stands for the task its body makes of a fresh one of its target's. *)
Definition task_block_means {C} (dec : ts_decoder C) (ts : gmap string (gmap string ts_target)) (k : task_block C) (x : ts_task) : Prop :=
  ∃ typ c g t x0 x1, names_target (kb_type k) typ c ∧ ts !! typ = Some g ∧ g !! kb_target k = Some t ∧
    fresh_ts_task t c x0 ∧ tsd_task dec x0 (kb_config k) = Some x1 ∧ x = TsTask (BaseTask [] [] []) x1.
Definition target_key {C} (b : target_block C) : string * string := (tb_type b, tb_id b).
(** The last block of a target. *)
Definition last_target_block {C} (l : list (target_block C)) (b : target_block C) : Prop :=
  ∃ l1 l2, l = l1 ++ b :: l2 ∧ target_key b ∉ (target_key <$> l2).
(** The targets of a file: a group for every registered type, in it what the last
    block of each id stands for, and a fresh default target unless a block names it. *)
Definition means_targets {C} (dec : ts_decoder C) (fs : gmap string ts_factory) (d : ts_doc C) (ts : gmap string (gmap string ts_target)) : Prop :=
  (∀ typ, is_Some (ts !! typ) ↔ is_Some (fs !! typ)) ∧
  ∀ typ g id t, ts !! typ = Some g → (g !! id = Some t ↔
    (∃ b, last_target_block (td_targets d) b ∧ target_key b = (typ, id) ∧ target_block_means dec fs b t) ∨
    (id = "" ∧ (typ, "") ∉ target_key <$> td_targets d ∧ ∃ f, fs !! typ = Some f ∧ fresh_ts_target f t)).
