(** What parsing a runbook document should establish. *)
From Coq Require Import String Ascii.
From stdpp Require Import gmap list strings numbers.
From Verif Require Import GoBase GoStrings ShModel ShSpec DemoModel JsonModel ParserModel SchedModel RunnerModel.
Local Open Scope Z_scope.

(** "target/class", split at the first slash; without a slash there is no class. *)
Definition names_target (s t c : string) : Prop :=
  (s = t +:+ "/" +:+ c ∧ ¬ has_byte "/" t) ∨ (s = t ∧ c = "" ∧ ¬ has_byte "/" s).

(** The class of a target, and of a task config. *)
Definition target_class (t : target) : string :=
  match t with PgTarget _ => "pg" | ShTarget _ _ => "sh" | DemoTgt _ => "demo" end.
Definition config_class (c : task_config) : string :=
  match c with PgExec _ => "pg" | ShExec _ _ => "sh" | DemoConfig _ => "demo" end.
(** The kind of task, as named in a runbook. *)
Definition config_kind (c : task_config) : string :=
  match c with
  | PgExec _ | ShExec _ _ => "exec"
  | DemoConfig Echo => "echo" | DemoConfig Fail => "fail" | DemoConfig Rev => "rev"
  | DemoConfig Rot13 => "rot13" | DemoConfig (Sleep _) => "sleep"
  end.

(** Decoding fills in fields; it does not turn settings into another kind. *)
Definition ok_decoder (dec : decoder) : Prop :=
  (∀ t raw t', dec_target dec t raw = Some t' → target_class t' = target_class t) ∧
  (∀ c raw c', dec_config dec c raw = Some c' →
     config_class c' = config_class c ∧ config_kind c' = config_kind c).

(** Settings under which a task can be run. *)
Definition good_config (c : task_config) : Prop :=
  match c with
  | PgExec sql => sql ≠ ""
  | ShExec args _ => ∃ a rest, args = a :: rest ∧
      (¬ has_byte "/" a ∨ begins_with "/" a ∨ begins_with "./" a ∨ begins_with "../" a)
  | DemoConfig (Sleep n) => 1 ≤ n
  | DemoConfig _ => True
  end.
Definition good_book (b : book) : Prop :=
  (∀ q t, bk_targets b !! q = Some t → 1 ≤ concurrency_limit t) ∧
  (∀ id v, bk_tasks b !! id = Some v →
     good_config (b_config v) ∧
     ∃ t, bk_targets b !! b_target v = Some t ∧ config_class (b_config v) = target_class t).

(** The document contains a null target or task. *)
Definition has_null (d : doc) : Prop :=
  (∃ q, d_targets d !! q = Some None) ∨ (∃ k, d_tasks d !! k = Some None).

(** What Run is given for a book: runbook.go:144-145 with runner.go.  Whether
    targets start and what the tasks return is up to the environment. *)
Definition run_of (b : book) (start handle : string → option string) : run_input :=
  RunInput (concurrency_limit <$> bk_targets b) start
    ((λ v, Task (b_target v) (b_after v)) <$> bk_tasks b) handle.

(** ** What a document must say to be accepted, and what it then means *)
(** Settings before the Config is looked at. *)
Inductive fresh_target : string → target → Prop :=
  | fresh_pg : fresh_target "pg" (PgTarget (PgSettings 1 "" 0 "" "" "" "" 0))
  | fresh_sh : fresh_target "sh" (ShTarget 1 (Env [] [] ∅))
  | fresh_demo : fresh_target "demo" (DemoTgt "").
(** [fresh_task class kind c]: the settings of a task of the given kind for a target of the given class. *)
Inductive fresh_task : string → string → task_config → Prop :=
  | fresh_pg_exec : fresh_task "pg" "exec" (PgExec "")
  | fresh_pg_default : fresh_task "pg" "" (PgExec "")
  | fresh_sh_exec : fresh_task "sh" "exec" (ShExec [] (Env [] [] ∅))
  | fresh_sh_default : fresh_task "sh" "" (ShExec [] (Env [] [] ∅))
  | fresh_echo : fresh_task "demo" "echo" (DemoConfig Echo)
  | fresh_fail : fresh_task "demo" "fail" (DemoConfig Fail)
  | fresh_rev : fresh_task "demo" "rev" (DemoConfig Rev)
  | fresh_rot13 : fresh_task "demo" "rot13" (DemoConfig Rot13)
  | fresh_sleep : fresh_task "demo" "sleep" (DemoConfig (Sleep 0)).
(** [y] is [x] with the Config's settings, if there is a Config. *)
Definition configured {A} (dec : A → json → option A) (x : A) (raw : option json) (y : A) : Prop :=
  (raw = None ∧ y = x) ∨ ∃ v, raw = Some v ∧ dec x v = Some y.
(** A sleep of less than a second lasts one second; nothing else is adjusted. *)
Definition adjusted (c c' : task_config) : Prop :=
  match c with
  | DemoConfig (Sleep n) => c' = DemoConfig (Sleep (Z.max 1 n))
  | _ => c' = c
  end.
Definition target_means (dec : decoder) (w : target_doc) (t : target) : Prop :=
  ∃ t0, fresh_target (td_class w) t0 ∧ configured (dec_target dec) t0 (td_config w) t ∧
    1 ≤ concurrency_limit t.
Definition task_means (dec : decoder) (targets : gmap string target) (k : task_doc) (v : book_task) : Prop :=
  ∃ kind t c0 c1, names_target (kd_target k) (b_target v) kind ∧ targets !! b_target v = Some t ∧
    fresh_task (target_class t) kind c0 ∧ configured (dec_config dec) c0 (kd_config k) c1 ∧
    adjusted c1 (b_config v) ∧ good_config (b_config v) ∧
    b_after v = kd_after k ∧ b_message v = kd_message k.
(** Entry by entry: every entry of the document is present and means what the result says. *)
Definition entries_mean {W A} (means : W → A → Prop) (m : gmap string (option W)) (r : gmap string A) : Prop :=
  ∀ id, match m !! id, r !! id with
        | Some (Some w), Some a => means w a
        | None, None => True
        | _, _ => False
        end.
