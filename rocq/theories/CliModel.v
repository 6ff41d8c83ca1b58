(** Model of internal/cli, internal/logger, internal/commands and of Dot in
    internal/runbook/runbook.go.

    Not modelled: kingpin (the parsed options are given), the encoding of log lines,
    file descriptors (never closed), symbolic links and other names of one file. *)
From Coq Require Import String Ascii.
From stdpp Require Import gmap list strings numbers.
From Verif Require Import GoBase GoStrings GoUtf8 ParserModel.
Local Open Scope Z_scope.

(** * Logging *)

(** zapcore.Level: the ones with methods in internal/sys/sys.go:20-42. *)
Inductive level := Debug | Info | Warn | Error.
(** Their order in zap. *)
Definition level_value (l : level) : Z :=
  match l with Debug => -1 | Info => 0 | Warn => 1 | Error => 2 end.
(** logger/logger.go:28-38. *)
Definition threshold (verbosity : Z) : level :=
  if bool_decide (3 ≤ verbosity) then Debug
  else if bool_decide (verbosity = 2) then Info
  else if bool_decide (verbosity = 1) then Warn
  else Error.
(** zap: a core writes the messages at its level or above (Level.Enabled). *)
Definition enabled (least l : level) : bool := bool_decide (level_value least ≤ level_value l).

(** What a command does, in order: log, or print to standard output. *)
Inductive event := Log (l : level) (msg : string) | Print (s : string).
(** What appears on standard output; the default log goes there (cli.go:39-41). *)
Inductive shown := Line (l : level) (msg : string) | Text (s : string).
(** Standard output and the debug log.  logger.go:55-77: the tee of the two cores. *)
Definition stdout_of (least : level) (t : list event) : list shown :=
  omap (λ e, match e with
             | Log l m => if enabled least l then Some (Line l m) else None
             | Print s => Some (Text s)
             end) t.
Definition debug_log_of (t : list event) : list (level * string) :=
  omap (λ e, match e with
             | Log l m => if enabled Debug l then Some (l, m) else None
             | Print _ => None
             end) t.
(** cli.go:36-47: the command, preceded by the messages of logger.go:80-84 (the name
    of the debug log, if there is one) and cli.go:45.  [verbose] and [quiet] count
    the flags (register.go:25-28). *)
Definition run_command (version : string) (verbose quiet : nat) (debug : option string) (t : list event)
    : list shown * option (list (level * string)) :=
  let verbosity := 1 + Z.of_nat verbose - Z.of_nat quiet in
  let t := (match debug with Some name => [Log Info ("logging to: " +:+ name)] | None => [] end)
           ++ Log Info ("pgutil version=" +:+ version) :: t in
  (stdout_of (threshold verbosity) t, match debug with Some _ => Some (debug_log_of t) | None => None end).

(** * runbook list *)

(** utf8.RuneCountInString, used by fmt to pad. *)
Definition rune_count (s : string) : nat := length (runes_of s).
Fixpoint blanks (n : nat) : string := match n with O => "" | S n => String " " (blanks n) end.
(** fmt: "%-*s".  A width above a million is refused (fmt/print.go, tooLarge). *)
Definition pad_right (width : nat) (s : string) : string :=
  if bool_decide (1000000 < Z.of_nat width) then "%!(BADWIDTH)" +:+ s
  else s +:+ blanks (width - rune_count s).
Definition newline : string := String (ascii_of_N 10) "".
(** commands/runbook_list.go:22-37.  [order]: the iteration order of line 24. *)
Definition longest_of (order : list string) : nat :=
  foldl (λ longest s, if bool_decide (longest < String.length s)%nat then String.length s else longest) 0%nat order.
Definition list_output (tasks : gmap string string) (order : list string) : string :=
  let longest := longest_of order in
  "Tasks & Targets:" +:+ newline +:+
  String.concat "" ((λ task, "  " +:+ pad_right longest task +:+ "  " +:+ default "" (tasks !! task) +:+ newline)
    <$> sort_strings order).

(** * runbook dot *)

(** path/filepath: Ext, on Unix. *)
Fixpoint ext (s : string) : string :=
  match s with
  | "" => ""
  | String c s' =>
      if decide (ext s' = "") then
        (if bool_decide (c = "."%char) && negb (contains_byte "/" s') then s else "")
      else ext s'
  end.
(** commands/runbook_dot.go:20-28. *)
Definition dot_output (file output : string) (auto : bool) : string :=
  if decide (output ≠ "") then output
  else if auto then str_take (String.length file - String.length (ext file)) file +:+ ".dot"
  else "-".
(** The calls of gographviz in runbook.go:59-79. *)
Inductive call :=
  | AddSubGraph (parent name : string) | AddAttr (graph key value : string)
  | AddNode (graph name : string) | AddEdge (src dst : string).
(** [order1], [order2]: the iteration orders of lines 67 and 73.  NewEscape, SetDir
    and SetName (lines 59-61) take no data from the runbook. *)
Definition dot_calls (b : book) (splines : string) (order1 order2 : list string) : list call :=
  [AddAttr "runbook" "newrank" "true"] ++
  (if decide (splines ≠ "") then [AddAttr "runbook" "splines" splines] else []) ++
  (order1 ≫= λ target, [AddSubGraph "runbook" ("cluster_" +:+ target); AddAttr ("cluster_" +:+ target) "label" target]) ++
  (order2 ≫= λ dst,
    match bk_tasks b !! dst with
    | Some t => AddNode ("cluster_" +:+ b_target t) dst :: ((λ src, AddEdge src dst) <$> b_after t)
    | None => []
    end).

(** * Output files *)

Record world := World { w_files : gmap string string; w_stdout : string }.
(** Which files can be opened for writing, and what becomes of writing a text to a
    file or to standard output (named "-"): how much arrives, and whether the whole
    did. *)
Record disk := Disk { may_open : string → bool; put : string → string → string * bool }.
(** os.OpenFile(output, O_CREATE|O_TRUNC|O_WRONLY) unless the output is "-":
    runbook_dot.go:30-36, runbook_eval.go:25-31, commands/inspect.go:48-54. *)
Definition create (d : disk) (output : string) (w : world) : option world :=
  if decide (output = "-") then Some w
  else if may_open d output then Some (World (<[output := ""]> (w_files w)) (w_stdout w))
  else None.
(** Write to the file just created, or to standard output. *)
Definition write (d : disk) (output text : string) (w : world) : world * bool :=
  let '(arrived, ok) := put d output text in
  (if decide (output = "-") then World (w_files w) (w_stdout w +:+ arrived)
   else World (<[output := default "" (w_files w !! output) +:+ arrived]> (w_files w)) (w_stdout w), ok).
(** commands/runbook_dot.go:19-38 with runbook.go:49-83.  [load] is reading and
    parsing the runbook (and what it imports) from the files; [show] is g.String.
    The result of Write is dropped (runbook.go:81).  The flag is true for nil. *)
Definition dot_command {A} (d : disk) (file output : string) (auto : bool)
    (load : gmap string string → option A) (show : A → string) (w : world) : world * bool :=
  let output := dot_output file output auto in
  match create d output w with
  | None => (w, false)
  | Some w =>
      match load (w_files w) with
      | None => (w, false)
      | Some b => ((write d output (show b) w).1, true)
      end
  end.
(** commands/runbook_eval.go:19-43 with runbook.go:86-112.  [load] includes decoding,
    [show] formatting; [tty] tells whether an output is a terminal. *)
Definition eval_color (color : string) (tty : bool) : bool :=
  if decide (color = "auto") then tty else if decide (color = "true") then true else false.
Definition eval_command {A} (d : disk) (output color : string) (tty : string → bool)
    (load : gmap string string → option A) (show : bool → A → string) (w : world) : world * bool :=
  let output := if decide (output ≠ "") then output else "-" in
  match create d output w with
  | None => (w, false)
  | Some w =>
      match load (w_files w) with
      | None => (w, false)
      | Some b => write d output (show (eval_color color (tty output)) b) w
      end
  end.
(** commands/inspect.go:24-57.  [db]: the result of lines 25-46; [show]: the HCL of
    ddl.go:52-54. *)
Definition inspect_command {A} (d : disk) (output : string) (db : option A) (show : A → string) (w : world)
    : world * bool :=
  match db with
  | None => (w, false)
  | Some db =>
      let output := if decide (output = "") then "-" else output in
      match create d output w with
      | None => (w, false)
      | Some w => write d output (show db) w
      end
  end.
