(** What a run of a runbook does to the world: the connections, statements, commands,
    printed lines, pauses and log messages behind the events of RunnerModel.  Start,
    Handle and Stop of the three kinds of target (internal/runbook/pg, sh, demo). *)
From Coq Require Import String Ascii.
From stdpp Require Import gmap list strings numbers.
From Verif Require Import GoBase GoStrings ShModel DemoModel PgModel ParserModel DagModel SchedModel RunnerModel.
Local Open Scope Z_scope.

(** The world around a run.  [h_environ]: os.Environ(); [h_libpq]: what
    pgx.ParseEnvLibpq returns; [h_connects]: for a target, whether its i-th call of
    pgx.Connect succeeds; [h_result]: for a task, what the server or the command
    answers (every task is handled at most once); [h_basedir]: the directory of the
    runbook (runbook.go:24-28, 135).  [h_order_target] and [h_order_task]: the order
    of the loop of env.go:58 in Start of a target and in exec of a task. *)
Record host := Host {
  h_environ : list string;
  h_libpq : option config;
  h_connects : string → Z → bool;
  h_result : string → option string;
  h_basedir : string;
  h_order_target : string → list string;
  h_order_task : string → list string }.

(** What a started target keeps: runbook/pg/pg.go:21 (whether its Conn has a
    connection), sh/sh.go:25, demo/demo.go:22. *)
Inductive live := LivePg (conn : bool) | LiveSh (environ : list string) | LiveDemo (str : string).

(** What a task does.  [Runs]: os/exec with Args, Dir and Env; [Prints]: a write to
    standard output; [Pauses]: time.Sleep, in nanoseconds. *)
Inductive deed :=
  | Says (msg : string)
  | Sends (sql : string)
  | Runs (args : list string) (dir : string) (environ : list string)
  | Prints (s : string)
  | Pauses (ns : Z).
(** What targets and tasks do.  [Crash]: the run-time panic of a nil pointer or of an
    index out of range; it ends the program. *)
Inductive world_effect :=
  | Dials (q : string) (c : config) (i : Z)
  | Rests (q : string) (ms : Z)
  | Closes (q : string)
  | Does (q t : string) (d : deed)
  | Crash.

(** runbook/pg/pg.go:80-91. *)
Definition options_of (s : pg_settings) : options :=
  Options (pgs_host s) (pgs_port s) (pgs_sslmode s) (pgs_username s) (pgs_password s)
    (pgs_database s) (pgs_retries s).
(** int64 arithmetic wraps around. *)
Definition wrap64 (n : Z) : Z := (n + 2 ^ 63) `mod` 2 ^ 64 - 2 ^ 63.
(** demo/tasks.go:97-99: time.Duration(x.Seconds) * time.Second. *)
Definition duration (seconds : Z) : Z := wrap64 (seconds * 1000000000).

(** The calls of a connection attempt, as effects. *)
Definition dialling (q : string) (c : config) (e : conn_event) : world_effect :=
  match e with Attempt i => Dials q c i | PgModel.Sleep ms => Rests q ms end.
(** Start: runbook/pg/pg.go:79-96, sh/sh.go:80-83, demo/demo.go:73-75.  The first
    component is [None] for an error; errors are not told apart. *)
Definition start_target (h : host) (q : string) (t : target) : option live * list world_effect :=
  match t with
  | PgTarget s =>
      match configure (options_of s) (h_libpq h) with
      | None => (None, [])
      | Some c =>
          let '(evs, r) := connect (h_connects h q) (pgs_retries s) in
          (match r with
           | Connected _ => Some (LivePg true)
           | NotConnected _ => None
           | NoConnection => Some (LivePg false)
           end, dialling q c <$> evs)
      end
  | ShTarget _ e => (Some (LiveSh (env_apply e (h_order_target h q) (h_environ h))), [])
  | DemoTgt s => (Some (LiveDemo s), [])
  end.

(** runner.go:174-176. *)
Definition say (q t msg : string) : list world_effect :=
  if decide (msg = "") then [] else [Does q t (Says msg)].
(** runner.go:174-177 and Handle: pg/pg.go:62-67 with pg/exec.go:16-18 and
    internal/pg/pg.go:87-94, sh/sh.go:63-68 with sh/exec.go:21-29, demo/demo.go:48-53
    with demo/tasks.go.  All of it happens at once here; FineModel lets another target
    act between the message and the deed. *)
Definition handle_task (h : host) (q t : string) (lv : live) (v : book_task) : live * list world_effect :=
  match lv, b_config v with
  | LivePg true, PgExec sql => (lv, say q t (b_message v) ++ [Does q t (Sends sql)])
  | LivePg false, PgExec _ => (lv, say q t (b_message v) ++ [Crash])
  | LiveSh environ, ShExec args e =>
      (lv, say q t (b_message v) ++
           match args with
           | [] => [Crash]
           | _ => [Does q t (Runs args (h_basedir h) (env_apply e (h_order_task h t) environ))]
           end)
  | LiveDemo s, DemoConfig x =>
      let d := (munge x (DemoTarget s "")).1 in
      (LiveDemo (d_string d), say q t (b_message v) ++
         match x with
         | DemoModel.Sleep n => [Does q t (Pauses (duration n))]
         | _ => if decide (d_stdout d = "") then [] else [Does q t (Prints (d_stdout d))]
         end)
  | _, _ => (lv, say q t (b_message v))
  end.
(** Stop: runbook/pg/pg.go:99-101 with internal/pg/pg.go:82-84, sh/sh.go:86-88, demo/demo.go:78-80. *)
Definition stop_target (q : string) (lv : live) : list world_effect :=
  match lv with LivePg true => [Closes q] | LivePg false => [Crash] | _ => [] end.

(** The result of Handle: pg.go:62-67, sh.go:63-68, demo.go:48-53, tasks.go:31-33.
    "invalid task" when the config is not one for this kind of target. *)
Definition handle_result (h : host) (t : string) (x : target) (c : task_config) : option string :=
  match x, c with
  | PgTarget _, PgExec _ | ShTarget _ _, ShExec _ _ => h_result h t
  | DemoTgt s, DemoConfig x => if (munge x (DemoTarget s "")).2 then None else Some "fail task executed"
  | _, _ => Some "invalid task"
  end.

(** runbook.go:133-146 with newRunner (runner.go:36-54): Run, for a parsed runbook. *)
Definition run_book (b : book) (h : host) : run_input :=
  RunInput (concurrency_limit <$> bk_targets b)
    (λ q, match bk_targets b !! q with
          | Some t => match (start_target h q t).1 with Some _ => None | None => Some "no connection" end
          | None => None
          end)
    ((λ v, Task (b_target v) (b_after v)) <$> bk_tasks b)
    (λ t, match bk_tasks b !! t with
          | Some v => match bk_targets b !! b_target v with
                      | Some x => handle_result h t x (b_config v)
                      | None => None
                      end
          | None => None
          end).

(** What one event of the runner does, given what the targets keep. *)
Definition act (b : book) (h : host) (m : gmap string live) (e : event) : gmap string live * list world_effect :=
  match e with
  | EvStart q | EvStartFail q _ =>
      match bk_targets b !! q with
      | Some t => let '(r, l) := start_target h q t in
                  (match r with Some lv => <[q := lv]> m | None => m end, l)
      | None => (m, [])
      end
  | EvHandle q t =>
      match m !! q, bk_tasks b !! t with
      | Some lv, Some v => let '(lv, l) := handle_task h q t lv v in (<[q := lv]> m, l)
      | _, _ => (m, [])
      end
  | EvStop q => (m, match m !! q with Some lv => stop_target q lv | None => [] end)
  | EvHandled _ _ _ | EvReturn _ => (m, [])
  end.
(** What an execution does, from its events. *)
Fixpoint acts (b : book) (h : host) (m : gmap string live) (tr : list event) : gmap string live * list world_effect :=
  match tr with
  | [] => (m, [])
  | e :: tr =>
      let '(m, l) := act b h m e in
      let '(m, l') := acts b h m tr in (m, l ++ l')
  end.
Definition effects (b : book) (h : host) (tr : list event) : list world_effect := (acts b h ∅ tr).2.
