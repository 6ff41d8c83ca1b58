(** The process as a whole: main.go, internal/cli and internal/commands, put together
    from the models of the parts.

    Outside the program, and given by a [setting]: the file system and standard output,
    the servers that can be reached, Jsonnet, the encoders of log lines, JSON and
    graphs, the iteration orders of maps, and the execution of a runbook (which
    RunnerModel and EffectsModel describe).  Not modelled: other names of one file
    (links, ./x for x), file descriptors, the text of the usage and of the crash
    report, both of which do not go to files; what is written to standard error. *)
From Coq Require Import String Ascii.
From stdpp Require Import gmap list strings numbers.
From Verif Require Import GoBase GoStrings GoUtf8 DdlModel JsonModel ParserModel JsonParserModel CliModel HclModel
  ArgsModel.
From Verif Require PgModel.
Local Open Scope Z_scope.

(** How a command ends: without an error, with one, or with a panic. *)
Inductive ended := Done | Fails | Crashes.
Record setting := Setting {
  s_build : string;                                   (* main.go:10-15 *)
  s_modules : option (list (string * string));        (* debug.ReadBuildInfo *)
  s_uint : string → option Z;                         (* strconv.ParseUint *)
  s_append : string → bool;                           (* can be opened for appending *)
  s_disk : disk;                                      (* opening for writing, and writing *)
  s_line : string → world → level → string → string;  (* zap: the line for a message *)
  s_chatter : command → list (level * string) * list (level * string);
  s_env : option PgModel.config;                      (* pgx.ParseEnvLibpq *)
  s_reachable : PgModel.config → bool;                (* pgx.Connect *)
  s_version : PgModel.config → PgModel.row_answer string;
  s_server : PgModel.config → PgModel.server;
  s_sorter : PgModel.sorter;
  s_floats : float_parser;
  s_hcl : hcl_lib;
  s_jsonnet : string → gmap string string → option json;
  s_order : nat → ∀ A, gmap string A → list string;   (* map iteration *)
  s_graph : list call → string;                       (* gographviz *)
  s_pretty : bool → json → string;                    (* prettyjson *)
  s_tty : string → bool;                              (* isatty *)
  s_run : string → world → world * ended;             (* runbook.Run *)
  s_complaint : list string → string;                 (* the text of kingpin's error *)
  s_usage : list string → string;                     (* what kingpin prints to standard output *)
  s_error : command → string }.                       (* the text of the error of a command *)

(** * The flags *)

(** What kingpin asks the file system, while these are the files.  A file is
    something that exists and is no directory. *)
Definition outside_of (s : setting) (files : gmap string string) : outside :=
  Outside (s_uint s) (λ f, bool_decide (is_Some (files !! f))) (s_append s).
(** kingpin, OpenFile with O_CREATE|O_APPEND|O_WRONLY (internal/cli/register.go:23-24). *)
Definition opened (f : string) (files : gmap string string) : gmap string string :=
  match files !! f with Some _ => files | None => <[f := ""]> files end.
(** kingpin, Application.setValues as in ArgsModel, with the file that is opened when
    the value of --debug is set. *)
Fixpoint set_all (s : setting) (seen : list string) (es : list element) (v : vars) (files : gmap string string)
    : gmap string string * option vars :=
  match es with
  | [] => (files, Some v)
  | EFlag f x :: es =>
      if bool_decide (f_long f ∈ seen) && negb (is_cumulative f) then (files, None)
      else
        match set_flag (outside_of s files) f x v with
        | None => (files, None)
        | Some v =>
            set_all s (f_long f :: seen) es v (match f_kind f with AOpen => opened x files | _ => files end)
        end
  | EFile var x :: es =>
      match set_file (outside_of s files) var x v with
      | None => (files, None)
      | Some v => set_all s seen es v files
      end
  end.

(** kingpin, ParseContext.Elements when parse returns: what has been recognised up to the
    first mistake, or the end.  Its own flags and the help command do not stop it.  The
    fuel is more than the number of passes there can be (gathered_enough in
    ProgLineProofs). *)
Fixpoint gathered (fuel : nat) (x : context) : list element :=
  match fuel with
  | O => elements x
  | S fuel =>
      match step x with
      | inr x => gathered fuel x
      | inl _ =>
          let '(t, i) := peek (known x) (inp x) in
          match t with
          | TLong _ | TShort _ =>
              match parse_flag (known x) i with
              | inr (f, v, i') =>
                  gathered fuel (Context (known x) (subs x) (files x) (chosen x) i' (elements x ++ [EFlag f v]))
              | inl _ => elements x
              end
          | TArg _ =>
              match chosen x with
              | ShowsUsage => gathered fuel (with_input (next (known x) i).2 x)
              | _ => elements x
              end
          | _ => elements x
          end
      end
  end.
(** kingpin, Application.Parse: the values are set, and so the file of --debug is opened,
    even if there was a mistake or the usage is going to be shown.  Simplification: the
    defaults, which never fail to be set, are left out, as no file depends on them. *)
Definition spilled (s : setting) (modern : bool) (ws : list string) (files : gmap string string) : gmap string string :=
  (set_all s [] (gathered (4 + total ws) (start modern ws)) ∅ files).1.

(** * Logging *)

(** What is appended to a file that is open for appending.  The result of Write is
    dropped by zap. *)
Definition append (d : disk) (f text : string) (w : world) : world :=
  World (<[f := default "" (w_files w !! f) +:+ (put d f text).1]> (w_files w)) (w_stdout w).
(** One message: internal/logger/logger.go:55-77, the tee of the two cores. *)
Definition log (s : setting) (r : request) (w : world) (m : level * string) : world :=
  let w :=
    if enabled (threshold (q_verbosity r)) m.1
    then (write (s_disk s) "-" (s_line s "-" w m.1 m.2) w).1 else w in
  match q_debug r with
  | Some f => if enabled Debug m.1 then append (s_disk s) f (s_line s f w m.1 m.2) w else w
  | None => w
  end.
Definition say (s : setting) (r : request) (l : list (level * string)) (w : world) : world := foldl (log s r) w l.

(** * The commands *)

Definition ended_if (ok : bool) : ended := if ok then Done else Fails.
(** Connections to a server; those of a runbook are left to EffectsModel. *)
Inductive link := Opens (c : PgModel.config) | Closes (c : PgModel.config).

(** internal/commands/ping.go:20-27 and internal/commands/inspect.go:25-32; no
    password and no retries. *)
Definition options_of (c : connection) : PgModel.options :=
  PgModel.Options (host c) (port c) (sslmode c) (username c) "" (dbname c) 0.
(** pg.New (internal/pg/pg.go:34-80) and the deferred Close, around the rest of the
    command.  A Conn without connection makes Close panic. *)
Definition connected (s : setting) (r : request) (c : connection)
    (rest : PgModel.config → world → world * ended) (w : world) : world * ended * list link :=
  match PgModel.configure (options_of c) (s_env s) with
  | None => (w, Fails, [])
  | Some cfg =>
      match (PgModel.connect (λ _, s_reachable s cfg) (PgModel.o_retries (options_of c))).2 with
      | PgModel.Connected _ => (rest cfg w, [Opens cfg; Closes cfg])
      | PgModel.NotConnected _ => (w, Fails, [])
      | PgModel.NoConnection => (w, Crashes, [])
      end
  end.
(** internal/commands/ping.go:33-38 with internal/pg/version.go:4-16.  The result of
    Fprintln is dropped. *)
Definition ping (s : setting) (r : request) (cfg : PgModel.config) (w : world) : world * ended :=
  match PgModel.server_version (s_version s cfg) with
  | PgModel.Got v => ((write (s_disk s) "-" (v +:+ newline) w).1, Done)
  | PgModel.Panicked => (w, Crashes)
  | _ => (w, Fails)
  end.
(** internal/commands/inspect.go:38-56. *)
Definition inspect (s : setting) (output : string) (o : PgModel.inspect_options) (cfg : PgModel.config) (w : world)
    : world * ended :=
  match PgModel.inspect (s_sorter s) (s_floats s) o (s_server s cfg) with
  | PgModel.Got db =>
      let '(w, ok) := inspect_command (s_disk s) output (Some db) (λ db, db_text (s_hcl s) (file_of db)) w in
      (w, ended_if ok)
  | PgModel.Panicked => (w, Crashes)
  | _ => (w, Fails)
  end.
(** internal/runbook/runbook.go:50-57 and 116-123: newParser and Parse.  filepath.Abs
    does not fail. *)
Definition book_in (s : setting) (file : string) (files : gmap string string) : ParserModel.outcome book :=
  match s_jsonnet s file files with
  | None => Err BadConfig
  | Some v =>
      match decode_runbook v with
      | None => Err BadConfig
      | Some d => parse_json v (s_order s 0 _ (d_targets d)) (s_order s 1 _ (d_tasks d))
      end
  end.
(** internal/commands/runbook_list.go:16-38.  The results of the Fprint functions are
    dropped; the lines are written at once here. *)
Definition list_book (s : setting) (file : string) (w : world) : world * ended :=
  match book_in s file (w_files w) with
  | Ok b =>
      let tasks := book_list b in
      ((write (s_disk s) "-" (list_output tasks (s_order s 2 _ tasks)) w).1, Done)
  | Err _ => (w, Fails)
  | Panic => (w, Crashes)
  end.
(** internal/commands/runbook_dot.go:19-38 with internal/runbook/runbook.go:49-83. *)
Definition dot_book (s : setting) (file output : string) (auto : bool) (splines : string) (w : world)
    : world * ended :=
  let output := dot_output file output auto in
  match create (s_disk s) output w with
  | None => (w, Fails)
  | Some w =>
      match book_in s file (w_files w) with
      | Ok b =>
          let g := dot_calls b splines (s_order s 2 _ (bk_targets b)) (s_order s 3 _ (bk_tasks b)) in
          ((write (s_disk s) output (s_graph s g) w).1, Done)
      | Err _ => (w, Fails)
      | Panic => (w, Crashes)
      end
  end.
(** internal/commands/runbook_eval.go:19-43 with internal/runbook/runbook.go:86-112. *)
Definition eval_book (s : setting) (file color output : string) (w : world) : world * ended :=
  let '(w, ok) := eval_command (s_disk s) output color (s_tty s) (s_jsonnet s file) (s_pretty s) w in
  (w, ended_if ok).
(** internal/commands/version.go:20-29.  Line 23 and the loop print to the standard
    output of the process, which is base.Stdout here (main.go:24); fmt pads to 40 and
    35 characters. *)
Definition version_text (s : setting) (verbose : bool) : string :=
  "pgutil " +:+ s_build s +:+ newline +:+
  match s_modules s with
  | Some ms =>
      if verbose then
        newline +:+ String.concat "" ((λ m : string * string, pad_right 40 m.1 +:+ " " +:+ pad_right 35 m.2 +:+ newline) <$> ms)
      else ""
  | None => ""
  end.
Definition version (s : setting) (verbose : bool) (w : world) : world * ended :=
  ((write (s_disk s) "-" (version_text s verbose) w).1, Done).

(** The Run methods. *)
Definition command_run (s : setting) (r : request) (w : world) : world * ended * list link :=
  match q_command r with
  | Ping c => connected s r c (ping s r) w
  | Inspect c output cols checks idx => connected s r c (inspect s output (PgModel.InspectOptions checks cols idx)) w
  | BookList file => (list_book s file w, [])
  | BookDot file output auto splines => (dot_book s file output auto splines w, [])
  | BookEval file color output => (eval_book s file color output w, [])
  | BookRun file => (s_run s file w, [])
  | Version verbose => (version s verbose w, [])
  end.
(** internal/cli/cli.go:36-47.  The first messages are those of
    internal/logger/logger.go:80-84 and internal/cli/cli.go:45; what else the command
    and pgx log is given, in two parts: before and after the command has written its
    output. *)
Definition carry_out (s : setting) (r : request) (w : world) : world * ended * list link :=
  let first :=
    match q_debug r with Some f => [(Info, "logging to: " +:+ f)] | None => [] end ++
    [(Info, "pgutil version=" +:+ s_build s)] in
  let '(before, after) := s_chatter s (q_command r) in
  let '(w, e, ls) := command_run s r (say s r (first ++ before) w) in
  (say s r after w, e, ls).

(** * The process *)

Record process := Process {
  x_status : Z; x_ran : option request; x_world : world; x_links : list link }.
(** main.go:19-20 and 25-26: fmt.Println. *)
Definition complain (s : setting) (text : string) (w : world) : world :=
  (write (s_disk s) "-" (text +:+ newline) w).1.
(** main.go:12-29.  Go ends a process that panics with status 2. *)
Definition program (s : setting) (modern : bool) (ws : list string) (w : world) : process :=
  match steps (4 + total ws) (start modern ws) with
  | None | Some Failed =>
      Process 1 None (complain s (s_complaint s ws) (World (spilled s modern ws (w_files w)) (w_stdout w))) []
  | Some Showed =>
      let w := World (spilled s modern ws (w_files w)) (w_stdout w) in
      if shown (4 + total ws) false (start modern ws)
      then Process 0 None (World (w_files w) (w_stdout w +:+ s_usage s ws)) []
      else Process 1 None (complain s (s_complaint s ws) w) []
  | Some (Matched c k es) =>
      match set_defaults (outside_of s (w_files w)) k (flag_names es) ∅ with
      | None => Process 1 None (complain s (s_complaint s ws) w) []
      | Some v =>
          let '(files, v) := set_all s [] es v (w_files w) in
          let w := World files (w_stdout w) in
          match v with
          | None => Process 1 None (complain s (s_complaint s ws) w) []
          | Some v =>
              let r := request_of c v in
              let '(w, e, ls) := carry_out s r w in
              match e with
              | Done => Process 0 (Some r) w ls
              | Fails => Process 1 (Some r) (complain s (s_error s (q_command r)) w) ls
              | Crashes => Process 2 (Some r) w ls
              end
          end
      end
  end.
