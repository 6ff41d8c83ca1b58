(** Model of internal/taskset: base.go (RunTasks and task dependencies), the targets
    and tasks of demo, pg and sh, and parser.go.  This package is not used by the
    commands yet. *)
From Coq Require Import String Ascii.
From stdpp Require Import gmap list strings numbers relations.
From Verif Require Import GoBase GoStrings DemoModel ParserModel.
Local Open Scope Z_scope.

(** * RunTasks, base.go:30-67 *)

(** What a task returned: nil or an error. *)
Notation outcome_of_task := (option string).
(** A goroutine started by fn (demo/demo.go:76-88, pg/pg.go:47-59, sh/sh.go:47-59): it
    executes the task, then sends the result to relay. *)
Inductive job :=
  | Executing (id : string)
  | Sending (id : string) (r : outcome_of_task).
(** The goroutine of lines 34-64. *)
Inductive worker :=
  | Selecting                                        (** lines 38-39 *)
  | Launching (ids : list string)                    (** lines 42-46, tasks left *)
  | Delivering (id : string) (r : outcome_of_task)   (** line 51 *)
  | Draining                                         (** line 56 *)
  | DrainDelivering (id : string) (r : outcome_of_task)  (** line 57 *)
  | Gone                                             (** the end of the function *)
  | Crashed.                                         (** a panic *)
(** The channels, with the history of what went in and out.  relay is unbuffered, so
    only whether it is closed matters. *)
Record rt_state := RtState {
  rt_queue : list (list string); rt_queue_closed : bool;
  rt_results : list (string * outcome_of_task); rt_results_closed : bool;
  rt_relay_closed : bool;
  rt_running : Z;
  rt_worker : worker;
  rt_jobs : list job;
  rt_sent : list string;                             (** ids of all batches sent *)
  rt_finished : list (string * outcome_of_task);     (** results of exec *)
  rt_received : list (string * outcome_of_task) }.   (** taken from results *)
(** Lines 31-36.  make panics if the size is negative. *)
Definition rt_start (n : Z) : option rt_state :=
  if bool_decide (0 ≤ n) then Some (RtState [] false [] false false 0 Selecting [] [] [] []) else None.

(** One step, for channels of size [n].  Sending to a full (or unbuffered) channel
    whose receiver waits is the pair of steps, allowed by [n = 0] below. *)
Inductive rt_step (n : Z) : rt_state → rt_state → Prop :=
  (** The caller sends a batch. *)
  | step_send batch q rs rsc rlc run w js sent fin rcv :
      NoDup batch → Z.of_nat (length q) < n →
      rt_step n (RtState q false rs rsc rlc run w js sent fin rcv)
                (RtState (q ++ [batch]) false rs rsc rlc run w js (sent ++ batch) fin rcv)
  (** Unbuffered: directly to the goroutine (line 40). *)
  | step_send0 batch order rs rsc rlc run js sent fin rcv :
      NoDup batch → n = 0 → order ≡ₚ batch →
      rt_step n (RtState [] false rs rsc rlc run Selecting js sent fin rcv)
                (RtState [] false rs rsc rlc run (Launching order) js (sent ++ batch) fin rcv)
  (** The caller closes the queue (once). *)
  | step_close q rs rsc rlc run w js sent fin rcv :
      rt_step n (RtState q false rs rsc rlc run w js sent fin rcv)
                (RtState q true rs rsc rlc run w js sent fin rcv)
  (** The caller receives a result. *)
  | step_receive q qc x rs rsc rlc run w js sent fin rcv :
      rt_step n (RtState q qc (x :: rs) rsc rlc run w js sent fin rcv)
                (RtState q qc rs rsc rlc run w js sent fin (rcv ++ [x]))
  (** Lines 40-42: a batch arrives; the map is ranged over in any order. *)
  | step_take batch order q qc rs rsc rlc run js sent fin rcv :
      order ≡ₚ batch →
      rt_step n (RtState (batch :: q) qc rs rsc rlc run Selecting js sent fin rcv)
                (RtState q qc rs rsc rlc run (Launching order) js sent fin rcv)
  (** Lines 43-45. *)
  | step_launch id ids q qc rs rsc rlc run js sent fin rcv :
      rt_step n (RtState q qc rs rsc rlc run (Launching (id :: ids)) js sent fin rcv)
                (RtState q qc rs rsc rlc (run + 1) (Launching ids) (js ++ [Executing id]) sent fin rcv)
  | step_launched q qc rs rsc rlc run js sent fin rcv :
      rt_step n (RtState q qc rs rsc rlc run (Launching []) js sent fin rcv)
                (RtState q qc rs rsc rlc run Selecting js sent fin rcv)
  (** Lines 47-48: the queue is closed and empty. *)
  | step_closed rs rsc rlc run js sent fin rcv :
      rt_step n (RtState [] true rs rsc rlc run Selecting js sent fin rcv)
                (RtState [] true rs rsc rlc run Draining js sent fin rcv)
  (** The task returns. *)
  | step_finish id r j1 j2 q qc rs rsc rlc run w sent fin rcv :
      rt_step n (RtState q qc rs rsc rlc run w (j1 ++ Executing id :: j2) sent fin rcv)
                (RtState q qc rs rsc rlc run w (j1 ++ Sending id r :: j2) sent (fin ++ [(id, r)]) rcv)
  (** Line 50, line 56: a result passes through relay. *)
  | step_relay id r j1 j2 q qc rs rsc run sent fin rcv :
      rt_step n (RtState q qc rs rsc false run Selecting (j1 ++ Sending id r :: j2) sent fin rcv)
                (RtState q qc rs rsc false run (Delivering id r) (j1 ++ j2) sent fin rcv)
  | step_drain id r j1 j2 q qc rs rsc run sent fin rcv :
      rt_step n (RtState q qc rs rsc false run Draining (j1 ++ Sending id r :: j2) sent fin rcv)
                (RtState q qc rs rsc false run (DrainDelivering id r) (j1 ++ j2) sent fin rcv)
  (** Sending on a closed channel panics. *)
  | step_relay_panic id r j1 j2 q qc rs rsc run w sent fin rcv :
      w ≠ Crashed →
      rt_step n (RtState q qc rs rsc true run w (j1 ++ Sending id r :: j2) sent fin rcv)
                (RtState q qc rs rsc true run Crashed (j1 ++ Sending id r :: j2) sent fin rcv)
  (** Lines 51-52. *)
  | step_deliver id r q qc rs rlc run js sent fin rcv :
      Z.of_nat (length rs) < n →
      rt_step n (RtState q qc rs false rlc run (Delivering id r) js sent fin rcv)
                (RtState q qc (rs ++ [(id, r)]) false rlc (run - 1) Selecting js sent fin rcv)
  | step_deliver0 id r q qc rlc run js sent fin rcv :
      n = 0 →
      rt_step n (RtState q qc [] false rlc run (Delivering id r) js sent fin rcv)
                (RtState q qc [] false rlc (run - 1) Selecting js sent fin (rcv ++ [(id, r)]))
  (** Lines 57-62. *)
  | step_drain_deliver id r q qc rs rlc run js sent fin rcv :
      Z.of_nat (length rs) < n → (rlc = true → 1 ≤ run - 1) →
      rt_step n (RtState q qc rs false rlc run (DrainDelivering id r) js sent fin rcv)
                (RtState q qc (rs ++ [(id, r)]) (bool_decide (run - 1 < 1))
                   (rlc || bool_decide (run - 1 < 1)) (run - 1) Draining js sent fin rcv)
  | step_drain_deliver0 id r q qc rlc run js sent fin rcv :
      n = 0 → (rlc = true → 1 ≤ run - 1) →
      rt_step n (RtState q qc [] false rlc run (DrainDelivering id r) js sent fin rcv)
                (RtState q qc [] (bool_decide (run - 1 < 1))
                   (rlc || bool_decide (run - 1 < 1)) (run - 1) Draining js sent fin (rcv ++ [(id, r)]))
  (** Sending to results after it was closed panics. *)
  | step_deliver_panic id r w q qc rs rlc run js sent fin rcv :
      w = Delivering id r ∨ w = DrainDelivering id r →
      rt_step n (RtState q qc rs true rlc run w js sent fin rcv)
                (RtState q qc rs true rlc run Crashed js sent fin rcv)
  (** Closing relay again panics. *)
  | step_close_panic id r q qc rs rsc run js sent fin rcv :
      run - 1 < 1 →
      rt_step n (RtState q qc rs rsc true run (DrainDelivering id r) js sent fin rcv)
                (RtState q qc rs rsc true run Crashed js sent fin rcv)
  (** Line 56: relay is closed. *)
  | step_gone q qc rs rsc run js sent fin rcv :
      rt_step n (RtState q qc rs rsc true run Draining js sent fin rcv)
                (RtState q qc rs rsc true run Gone js sent fin rcv).
(** A state that can be reached after Start. *)
Definition rt_reachable (n : Z) (s : rt_state) : Prop :=
  ∃ s0, rt_start n = Some s0 ∧ rtc (rt_step n) s0 s.

(** * Tasks *)

(** base.go:9-14.  The field Target is never used. *)
Record base_task := BaseTask { bt_after : list string; bt_provide : list string; bt_require : list string }.
(** base.go:16-22. *)
Definition dependencies (t : base_task) : list string := ((λ id, "task:" +:+ id) <$> bt_after t) ++ bt_require t.
(** base.go:24-26. *)
Definition provides (t : base_task) : list string := bt_provide t.
(** The settings of the task types: demo/*.go, pg/pg.go:63-66, sh/sh.go:63-66. *)
Inductive ts_settings :=
  | TsDemo (x : demo_task)
  | TsPg (sql : string)
  | TsSh (args : list string).
Record ts_task := TsTask { ts_base : base_task; ts_settings_of : ts_settings }.
(** The seconds a sleep task sleeps, after Ready: demo/sleep.go:17-29. *)
Definition ready_seconds (x : ts_settings) : option Z :=
  match x with TsDemo (Sleep n) => Some (if bool_decide (n < 1) then 1 else n) | _ => None end.
(** The targets: demo/demo.go:35-42, pg/pg.go:31-33, sh/sh.go:31-33. *)
Inductive ts_target :=
  | TsDemoTarget (max_concurrency : Z) (str : string)
  | TsPgTarget
  | TsShTarget.
(** The factories: demo.go:21-28, pg.go:20-24, sh.go:20-24. *)
Inductive ts_factory := DemoFactory | PgFactory | ShFactory.
Definition ts_new_target (f : ts_factory) : ts_target :=
  match f with DemoFactory => TsDemoTarget 1 "" | PgFactory => TsPgTarget | ShFactory => TsShTarget end.
(** NewTask: demo.go:45-59, pg.go:36-38, sh.go:36-38. *)
Definition ts_new_task (t : ts_target) (typ : string) : option ts_task :=
  let new x := Some (TsTask (BaseTask [] [] []) x) in
  match t with
  | TsDemoTarget _ _ =>
      if decide (typ = "echo") then new (TsDemo Echo)
      else if decide (typ = "fail") then new (TsDemo Fail)
      else if decide (typ = "rev") then new (TsDemo Rev)
      else if decide (typ = "rot13") then new (TsDemo Rot13)
      else if decide (typ = "sleep") then new (TsDemo (Sleep 0))
      else None
  | TsPgTarget => new (TsPg "")
  | TsShTarget => new (TsSh [])
  end.

(** * parser.go *)

(** Lines 14-36: the blocks of a file.  Config is the remaining body, of any type here
    (TasksetFileModel.v has the bodies of files). *)
Record target_block (C : Type) := TargetBlock { tb_type : string; tb_id : string; tb_config : C }.
Record task_block (C : Type) := TaskBlock {
  kb_type : string; kb_id : string; kb_target : string;
  kb_after : list string; kb_provide : list string; kb_require : list string; kb_config : C }.
Record ts_doc (C : Type) := TsDoc { td_targets : list (target_block C); td_tasks : list (task_block C) }.
Arguments TargetBlock {C}. Arguments tb_type {C}. Arguments tb_id {C}. Arguments tb_config {C}.
Arguments TaskBlock {C}. Arguments kb_type {C}. Arguments kb_id {C}. Arguments kb_target {C}.
Arguments kb_after {C}. Arguments kb_provide {C}. Arguments kb_require {C}. Arguments kb_config {C}.
Arguments TsDoc {C}. Arguments td_targets {C}. Arguments td_tasks {C}.
(** gohcl.DecodeBody into a target or task (lines 95, 127): only fields with an hcl
    tag of the struct itself, so neither the embedded base.Task nor Sleep.Seconds. *)
Record ts_decoder (C : Type) := TsDecoder {
  tsd_target : ts_target → C → option ts_target;
  tsd_task : ts_settings → C → option ts_settings }.
Arguments TsDecoder {C}. Arguments tsd_target {C}. Arguments tsd_task {C}.
Inductive ts_error := BadTargetType | BadTarget | BadTaskType | BadBody.
(** Lines 79-86 (any order of the map gives the same). *)
Definition ts_defaults (fs : gmap string ts_factory) : gmap string (gmap string ts_target) :=
  (λ f, {[ "" := ts_new_target f ]}) <$> fs.
(** Lines 88-102. *)
Fixpoint ts_load_targets {C} (dec : ts_decoder C) (fs : gmap string ts_factory) (l : list (target_block C))
    (ts : gmap string (gmap string ts_target)) : ts_error + gmap string (gmap string ts_target) :=
  match l with
  | [] => inr ts
  | t :: l =>
      match fs !! tb_type t with
      | None => inl BadTargetType
      | Some f =>
          match tsd_target dec (ts_new_target f) (tb_config t) with
          | None => inl BadBody
          | Some x => ts_load_targets dec fs l (<[tb_type t := <[tb_id t := x]> (default ∅ (ts !! tb_type t))]> ts)
          end
      end
  end.
(** Lines 106-132: one task. *)
Definition ts_load_task {C} (dec : ts_decoder C) (ts : gmap string (gmap string ts_target)) (k : task_block C)
    : ts_error + ts_task :=
  let '(target_type, task_type) := split_target (kb_type k) in
  match ts !! target_type with
  | None => inl BadTargetType
  | Some group =>
      match group !! kb_target k with
      | None => inl BadTarget
      | Some t =>
          match ts_new_task t task_type with
          | None => inl BadTaskType
          | Some x =>
              match tsd_task dec (ts_settings_of x) (kb_config k) with
              | None => inl BadBody
              | Some c => inr (TsTask (ts_base x) c)
              end
          end
      end
  end.
(** Lines 104-135. *)
Fixpoint ts_load_tasks {C} (dec : ts_decoder C) (ts : gmap string (gmap string ts_target)) (l : list (task_block C))
    (acc : gmap string ts_task) : ts_error + gmap string ts_task :=
  match l with
  | [] => inr acc
  | k :: l =>
      match ts_load_task dec ts k with
      | inl e => inl e
      | inr x => ts_load_tasks dec ts l (<[kb_id k := x]> acc)
      end
  end.
(** Lines 44-77, once the file is decoded. *)
Definition ts_parse {C} (dec : ts_decoder C) (fs : gmap string ts_factory) (d : ts_doc C)
    : ts_error + (gmap string (gmap string ts_target) * gmap string ts_task) :=
  match ts_load_targets dec fs (td_targets d) (ts_defaults fs) with
  | inl e => inl e
  | inr ts => match ts_load_tasks dec ts (td_tasks d) ∅ with inl e => inl e | inr tasks => inr (ts, tasks) end
  end.
