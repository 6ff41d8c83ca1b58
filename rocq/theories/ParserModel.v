(** Model of internal/runbook/parser/parser.go and of the target and task
    settings it fills in (runbook/pg, runbook/sh, runbook/demo).

    Not modelled: reading the file and evaluating Jsonnet (parser.go:35-48).  A
    document is what json.Decode leaves in the struct of lines 21-32; decoding the
    Config fields is an arbitrary function [decoder] here, and the one of
    encoding/json in JsonParserModel.v. *)
From Coq Require Import String Ascii.
From stdpp Require Import gmap list strings numbers.
From Verif Require Import GoBase GoStrings ShModel DemoModel JsonModel.
Local Open Scope Z_scope.

(** parser.go:22-25.  Config is a json.RawMessage: the value, if there is one. *)
Record target_doc := TargetDoc { td_class : string; td_config : option json }.
(** parser.go:26-31. *)
Record task_doc := TaskDoc {
  kd_after : list string; kd_target : string; kd_message : string; kd_config : option json }.
(** parser.go:21-32.  The map values are pointers: [None] is nil (JSON null). *)
Record doc := Doc { d_targets : gmap string (option target_doc); d_tasks : gmap string (option task_doc) }.

(** runbook/pg/pg.go:23-33, the exported fields. *)
Record pg_settings := PgSettings {
  pgs_concurrency : Z; pgs_host : string; pgs_port : Z; pgs_sslmode : string;
  pgs_username : string; pgs_password : string; pgs_database : string; pgs_retries : Z }.
(** The three classes of target: runbook/pg/pg.go:19-33, runbook/sh/sh.go:22-31,
    runbook/demo/demo.go:19-23. *)
Inductive target :=
  | PgTarget (s : pg_settings)
  | ShTarget (concurrency : Z) (e : env)
  | DemoTgt (str : string).
(** The task configs: runbook/pg/exec.go:11-14, runbook/sh/exec.go:14-19,
    runbook/demo/tasks.go. *)
Inductive task_config :=
  | PgExec (sql : string)
  | ShExec (args : list string) (e : env)
  | DemoConfig (x : demo_task).

(** runbook.go:30-44 with NewTarget of the three packages (pg.go:40-46,
    sh.go:38-47, demo.go:30-35). *)
Definition new_target (class : string) : option target :=
  if decide (class = "pg") then Some (PgTarget (PgSettings 1 "" 0 "" "" "" "" 0))
  else if decide (class = "sh") then Some (ShTarget 1 (Env [] [] ∅))
  else if decide (class = "demo") then Some (DemoTgt "")
  else None.

(** Analyze: pg.go:49-54, sh.go:50-55, demo.go:38-40.  [true] stands for nil. *)
Definition analyze (t : target) : bool :=
  match t with
  | PgTarget s => bool_decide (1 ≤ pgs_concurrency s)
  | ShTarget c _ => bool_decide (1 ≤ c)
  | DemoTgt _ => true
  end.
(** ConcurrencyLimit: pg.go:57-59, sh.go:58-60, demo.go:43-45. *)
Definition concurrency_limit (t : target) : Z :=
  match t with PgTarget s => pgs_concurrency s | ShTarget c _ => c | DemoTgt _ => 1 end.

(** NewTaskConfig: pg.go:70-76, sh.go:71-77, demo.go:56-70. *)
Definition new_task_config (t : target) (class : string) : option task_config :=
  match t with
  | PgTarget _ =>
      if decide (class = "" ∨ class = "exec") then Some (PgExec "") else None
  | ShTarget _ _ =>
      if decide (class = "" ∨ class = "exec") then Some (ShExec [] (Env [] [] ∅)) else None
  | DemoTgt _ =>
      if decide (class = "echo") then Some (DemoConfig Echo)
      else if decide (class = "fail") then Some (DemoConfig Fail)
      else if decide (class = "rev") then Some (DemoConfig Rev)
      else if decide (class = "rot13") then Some (DemoConfig Rot13)
      else if decide (class = "sleep") then Some (DemoConfig (Sleep 0))
      else None
  end.

(** Check: pg/exec.go:21-26, sh/exec.go:32-37, demo/tasks.go.  It may change the
    settings (Sleep); [None] stands for an error. *)
Definition check_config (c : task_config) : option task_config :=
  match c with
  | PgExec sql => if decide (sql = "") then None else Some c
  | ShExec args _ => match exec_check args with None => Some c | Some _ => None end
  | DemoConfig (Sleep n) => Some (DemoConfig (Sleep (sleep_check n)))
  | DemoConfig _ => Some c
  end.

(** json.Decoder.Decode into existing settings (lines 92-98 and 128-134): new
    settings, or an error. *)
Record decoder := Decoder {
  dec_target : target → json → option target;
  dec_config : task_config → json → option task_config }.
(** Lines 91-99 and 127-135: decode only if there is a Config. *)
Definition decode_if {A} (f : A → json → option A) (x : A) (raw : option json) : option A :=
  match raw with None => Some x | Some v => f x v end.

(** types/types.go: Task and Runbook. *)
Record book_task := BookTask {
  b_after : list string; b_target : string; b_message : string; b_config : task_config }.
Record book := Book { bk_targets : gmap string target; bk_tasks : gmap string book_task }.

Inductive parse_error :=
  | InvalidTargetClass | InvalidTarget | InvalidTaskClass | BadConfig | BadSettings.
(** [Panic]: nil pointer dereference. *)
Inductive outcome (A : Type) := Ok (a : A) | Err (e : parse_error) | Panic.
Global Arguments Ok {A}. Global Arguments Err {A}. Global Arguments Panic {A}.

(** parser.go:85-102: one target. *)
Definition load_target (dec : decoder) (w : target_doc) : outcome target :=
  match new_target (td_class w) with
  | None => Err InvalidTargetClass
  | Some t =>
      match decode_if (dec_target dec) t (td_config w) with
      | None => Err BadConfig
      | Some t => if analyze t then Ok t else Err BadSettings
      end
  end.
(** parser.go:83-106.  [order]: the iteration order of line 84. *)
Fixpoint load_targets (dec : decoder) (m : gmap string (option target_doc)) (order : list string)
    (acc : gmap string target) : outcome (gmap string target) :=
  match order with
  | [] => Ok acc
  | id :: order =>
      match m !! id with
      | Some (Some w) =>
          match load_target dec w with
          | Ok t => load_targets dec m order (<[id := t]> acc)
          | Err e => Err e
          | Panic => Panic
          end
      | _ => Panic
      end
  end.

(** parser.go:110-115. *)
Definition split_target (s : string) : string * string :=
  match index_byte "/" s with
  | Some n => (str_take n s, str_drop (n + 1) s)
  | None => (s, "")
  end.
(** parser.go:110-145: one task. *)
Definition load_task (dec : decoder) (targets : gmap string target) (k : task_doc)
    : outcome book_task :=
  let '(target_id, class) := split_target (kd_target k) in
  match targets !! target_id with
  | None => Err InvalidTarget
  | Some t =>
      match new_task_config t class with
      | None => Err InvalidTaskClass
      | Some c =>
          match decode_if (dec_config dec) c (kd_config k) with
          | None => Err BadConfig
          | Some c =>
              match check_config c with
              | None => Err BadSettings
              | Some c => Ok (BookTask (kd_after k) target_id (kd_message k) c)
              end
          end
      end
  end.
(** parser.go:108-148.  [order]: the iteration order of line 109. *)
Fixpoint load_tasks (dec : decoder) (targets : gmap string target)
    (m : gmap string (option task_doc)) (order : list string)
    (acc : gmap string book_task) : outcome (gmap string book_task) :=
  match order with
  | [] => Ok acc
  | id :: order =>
      match m !! id with
      | Some (Some k) =>
          match load_task dec targets k with
          | Ok t => load_tasks dec targets m order (<[id := t]> acc)
          | Err e => Err e
          | Panic => Panic
          end
      | _ => Panic
      end
  end.

(** parser.go:68-80: Parse, once the document is decoded. *)
Definition parse (dec : decoder) (d : doc) (order1 order2 : list string) : outcome book :=
  match load_targets dec (d_targets d) order1 ∅ with
  | Ok targets =>
      match load_tasks dec targets (d_tasks d) order2 ∅ with
      | Ok tasks => Ok (Book targets tasks)
      | Err e => Err e
      | Panic => Panic
      end
  | Err e => Err e
  | Panic => Panic
  end.

(** runbook.go:115-131: List. *)
Definition book_list (b : book) : gmap string string := b_target <$> bk_tasks b.
