(** What encoding/json makes of a runbook: the structs of internal/runbook that are
    decoded into, with the names of their exported fields (or of their json tags). *)
From Coq Require Import String Ascii.
From stdpp Require Import gmap list strings numbers.
From Verif Require Import GoBase GoStrings ShModel DemoModel JsonModel ParserModel.
Local Open Scope Z_scope.

(** pg/pg.go:23-32. *)
Definition pg_fields : list (string * fld pg_settings) :=
  [("Concurrency", Fld pgs_concurrency (λ s x, PgSettings x (pgs_host s) (pgs_port s) (pgs_sslmode s) (pgs_username s) (pgs_password s) (pgs_database s) (pgs_retries s)) into_int);
   ("Host", Fld pgs_host (λ s x, PgSettings (pgs_concurrency s) x (pgs_port s) (pgs_sslmode s) (pgs_username s) (pgs_password s) (pgs_database s) (pgs_retries s)) into_string);
   ("Port", Fld pgs_port (λ s x, PgSettings (pgs_concurrency s) (pgs_host s) x (pgs_sslmode s) (pgs_username s) (pgs_password s) (pgs_database s) (pgs_retries s)) into_uint16);
   ("sslmode", Fld pgs_sslmode (λ s x, PgSettings (pgs_concurrency s) (pgs_host s) (pgs_port s) x (pgs_username s) (pgs_password s) (pgs_database s) (pgs_retries s)) into_string);
   ("Username", Fld pgs_username (λ s x, PgSettings (pgs_concurrency s) (pgs_host s) (pgs_port s) (pgs_sslmode s) x (pgs_password s) (pgs_database s) (pgs_retries s)) into_string);
   ("Password", Fld pgs_password (λ s x, PgSettings (pgs_concurrency s) (pgs_host s) (pgs_port s) (pgs_sslmode s) (pgs_username s) x (pgs_database s) (pgs_retries s)) into_string);
   ("Database", Fld pgs_database (λ s x, PgSettings (pgs_concurrency s) (pgs_host s) (pgs_port s) (pgs_sslmode s) (pgs_username s) (pgs_password s) x (pgs_retries s)) into_string);
   ("connect_retries", Fld pgs_retries (λ s x, PgSettings (pgs_concurrency s) (pgs_host s) (pgs_port s) (pgs_sslmode s) (pgs_username s) (pgs_password s) (pgs_database s) x) into_int)].
(** sh/env.go:8-12. *)
Definition env_fields : list (string * fld env) :=
  [("Allow", Fld e_allow (λ s x, Env x (e_deny s) (e_set s)) into_strings);
   ("Deny", Fld e_deny (λ s x, Env (e_allow s) x (e_set s)) into_strings);
   ("Set", Fld e_set (λ s x, Env (e_allow s) (e_deny s) x) (into_map (into_string "")))].
(** sh/sh.go:29-30. *)
Definition sh_fields : list (string * fld (Z * env)) :=
  [("Concurrency", Fld fst (λ s x, (x, s.2)) into_int);
   ("Env", Fld snd (λ s x, (s.1, x)) (into_struct env_fields))].
(** demo/demo.go:22. *)
Definition demo_fields : list (string * fld string) :=
  [("String", Fld id (λ _ x, x) into_string)].
(** pg/exec.go:11-14. *)
Definition pg_exec_fields : list (string * fld string) :=
  [("sql", Fld id (λ _ x, x) into_string)].
(** sh/exec.go:14-19. *)
Definition sh_exec_fields : list (string * fld (list string * env)) :=
  [("Args", Fld fst (λ s x, (x, s.2)) into_strings);
   ("Env", Fld snd (λ s x, (s.1, x)) (into_struct env_fields))].
(** demo/tasks.go:92-94. *)
Definition sleep_fields : list (string * fld Z) :=
  [("Seconds", Fld id (λ _ x, x) into_int)].
(** demo/tasks.go:12, 27, 43, 64: structs without fields. *)
Definition no_fields : list (string * fld unit) := [].

(** parser.go:92-98 and 128-134: json.Decode into a target and into a task. *)
Definition json_decoder : decoder := Decoder
  (λ t v, match t with
          | PgTarget s => PgTarget <$> into_struct pg_fields s v
          | ShTarget c e => (λ s, ShTarget s.1 s.2) <$> into_struct sh_fields (c, e) v
          | DemoTgt s => DemoTgt <$> into_struct demo_fields s v
          end)
  (λ c v, match c with
          | PgExec s => PgExec <$> into_struct pg_exec_fields s v
          | ShExec a e => (λ s, ShExec s.1 s.2) <$> into_struct sh_exec_fields (a, e) v
          | DemoConfig (Sleep n) => (λ n, DemoConfig (Sleep n)) <$> into_struct sleep_fields n v
          | DemoConfig x => (λ _, DemoConfig x) <$> into_struct no_fields tt v
          end).

(** parser.go:22-25. *)
Definition target_fields : list (string * fld target_doc) :=
  [("Class", Fld td_class (λ s x, TargetDoc x (td_config s)) into_string);
   ("Config", Fld td_config (λ s x, TargetDoc (td_class s) x) into_raw)].
(** parser.go:26-31. *)
Definition task_fields : list (string * fld task_doc) :=
  [("After", Fld kd_after (λ s x, TaskDoc x (kd_target s) (kd_message s) (kd_config s)) into_strings);
   ("Target", Fld kd_target (λ s x, TaskDoc (kd_after s) x (kd_message s) (kd_config s)) into_string);
   ("Message", Fld kd_message (λ s x, TaskDoc (kd_after s) (kd_target s) x (kd_config s)) into_string);
   ("Config", Fld kd_config (λ s x, TaskDoc (kd_after s) (kd_target s) (kd_message s) x) into_raw)].
(** parser.go:21-32. *)
Definition runbook_fields : list (string * fld doc) :=
  [("Targets", Fld d_targets (λ s x, Doc x (d_tasks s)) (into_map (into_pointer (into_struct target_fields) (TargetDoc "" None))));
   ("Tasks", Fld d_tasks (λ s x, Doc (d_targets s) x) (into_map (into_pointer (into_struct task_fields) (TaskDoc [] "" "" None))))].
(** parser.go:57-66: Decode into a new runbook. *)
Definition decode_runbook (v : json) : option doc := into_struct runbook_fields (Doc ∅ ∅) v.

(** parser.go:51-81: Parse, once Jsonnet gave a value.  An error of the first Decode
    is a BadConfig. *)
Definition parse_json (v : json) (order1 order2 : list string) : outcome book :=
  match decode_runbook v with
  | None => Err BadConfig
  | Some d => parse json_decoder d order1 order2
  end.
