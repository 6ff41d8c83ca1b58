(** The command line: which words pgutil accepts, and what they mean.

    internal/cli registers the commands, flags and arguments with kingpin
    v2.2.6 (go.mod:29), which reads the words, sets the variables bound to the flags
    and picks the command; main.go runs it and turns the outcome into an exit
    status.  kingpin's source is not in /repo: the definitions that follow its
    parser (marked "kingpin") are part of the trusted base.  Files are an
    environment: which files exist and which can be opened is a parameter. *)
From Coq Require Import String Ascii.
From stdpp Require Import list gmap strings.
From Verif Require Import GoStrings GoUtf8.
Local Open Scope Z_scope.

(** The Go values a flag can be bound to: string, uint16 or int, and bool
    (internal/commands/ping.go:10-16, internal/commands/inspect.go:10-21,
    internal/commands/runbook_dot.go:11-16, internal/commands/runbook_eval.go:12-16).
    An opened file (internal/commands/base.go:13) is known by its name. *)
Inductive fval := VText (s : string) | VNum (z : Z) | VBool (b : bool).
(** The variables of the commands and of the parser, by name; a variable that is
    missing has its zero value (internal/cli/ping.go:8, internal/cli/inspect.go:8,
    internal/cli/runbook.go:15, 22, 36, 48, internal/cli/register.go:17-22). *)
Notation vars := (gmap string fval).

(** The kinds of flag the program registers: StringVar, Uint16Var, EnumVar,
    BoolVar, CounterVar, OpenFileVar (internal/cli/ping.go:10-17,
    register.go:23-28), and kingpin's own flags that print something and end the
    program (--help, --help-long, --help-man, --completion-...). *)
Inductive fkind := AText | APort | AChoice (l : list string) | ASwitch | ACount | AOpen | AExit.
(** A flag: its names, its kind, its Default (internal/cli/runbook.go:43) and the
    variable it is bound to. *)
Record flag := Flag {
  f_long : string; f_short : option ascii; f_kind : fkind; f_default : option string; f_var : string }.
(** The commands: commands.PingCmd, InspectCmd, RunBookListCmd, RunBookDotCmd,
    RunBookEvalCmd, RunBookRunCmd and VersionCmd. *)
Inductive cname := CPing | CInspect | CList | CDot | CEval | CRun | CVersion.
(** What a clause does when it is chosen: become the command (cli.go:51-58 and
    64-71), nothing (cli.go:60-62), or print the usage (kingpin's help command). *)
Inductive action := Becomes (c : cname) | Nothing | ShowsUsage.
(** A command clause: its name and aliases, whether it is the default of its
    parent, its flags, the variables of its required file arguments, its
    subcommands and its action. *)
Inductive cmd := Cmd (names : list string) (default : bool) (flags : list flag) (files : list string)
  (subs : list cmd) (act : action).

(** The names of variables are the Go expressions for them. *)
(** internal/cli/ping.go:10-17 and internal/cli/inspect.go:11-18: the same five flags. *)
Definition connection_flags (c : string) : list flag :=
  [ Flag "host" (Some "h"%char) AText None (c +:+ ".Host");
    Flag "port" (Some "p"%char) APort None (c +:+ ".Port");
    Flag "dbname" (Some "d"%char) AText None (c +:+ ".DBName");
    Flag "username" (Some "U"%char) AText None (c +:+ ".Username");
    Flag "sslmode" None (AChoice ["disable"; "allow"; "prefer"; "require"; "verify-full"]) None
      (c +:+ ".SSLMode") ].
(** internal/cli/ping.go:7-18 *)
Definition ping_clause : cmd :=
  Cmd ["ping"] false (connection_flags "ping") [] [] (Becomes CPing).
(** internal/cli/inspect.go:7-28 *)
Definition inspect_clause : cmd :=
  Cmd ["inspect"] false
    (connection_flags "inspect" ++
     [ Flag "output" (Some "o"%char) AText None "inspect.Output";
       Flag "sort-columns" None ASwitch None "inspect.SortColumns";
       Flag "sort-check-constraints" None ASwitch None "inspect.SortChecks";
       Flag "sort-indexes" None ASwitch None "inspect.SortIndexes" ])
    [] [] (Becomes CInspect).
(** internal/cli/runbook.go:14-19 *)
Definition list_clause : cmd := Cmd ["list"; "ls"] false [] ["list.File"] [] (Becomes CList).
(** internal/cli/runbook.go:21-33 *)
Definition dot_clause : cmd :=
  Cmd ["dot"] false
    [ Flag "output" (Some "o"%char) AText None "dot.Output";
      Flag "" (Some "O"%char) ASwitch None "dot.AutoOut";
      Flag "splines" None (AChoice ["curved"; "line"; "ortho"]) None "dot.Splines" ]
    ["dot.File"] [] (Becomes CDot).
(** internal/cli/runbook.go:35-45 *)
Definition eval_clause : cmd :=
  Cmd ["eval"] false
    [ Flag "color" (Some "c"%char) (AChoice ["auto"; "true"; "false"]) (Some "auto") "eval.Color";
      Flag "output" (Some "o"%char) AText None "eval.Output" ]
    ["eval.File"] [] (Becomes CEval).
(** internal/cli/runbook.go:47-52 *)
Definition run_clause : cmd := Cmd ["run"] true [] ["run.File"] [] (Becomes CRun).
(** internal/cli/runbook.go:11-12 *)
Definition runbook_clause : cmd :=
  Cmd ["runbook"] false [] [] [list_clause; dot_clause; eval_clause; run_clause] Nothing.
(** internal/cli/version.go:11-22; built with a Go older than 1.12
    (version_legacy.go:7-13) the command has no flag. *)
Definition version_clause (modern : bool) : cmd :=
  Cmd ["version"] false
    (if modern then [Flag "long" (Some "l"%char) ASwitch None "version.Verbose"] else [])
    [] [] (Becomes CVersion).
(** internal/cli/register.go:23-28; the others are added by kingpin's New.
    Simplification: all of these are switches that end the program. *)
Definition app_flags : list flag :=
  [ Flag "help" None AExit None ""; Flag "help-long" None AExit None "";
    Flag "help-man" None AExit None ""; Flag "completion-bash" None AExit None "";
    Flag "completion-script-bash" None AExit None ""; Flag "completion-script-zsh" None AExit None "";
    Flag "debug" None AOpen None "base.Debug";
    Flag "quiet" (Some "q"%char) ACount None "parser.brevity";
    Flag "verbose" (Some "v"%char) ACount None "parser.verbosity" ].
(** internal/cli/register.go:30-33; kingpin adds "help" to an application with
    commands. *)
Definition app_commands (modern : bool) : list cmd :=
  [ ping_clause; inspect_clause; runbook_clause; version_clause modern;
    Cmd ["help"] false [] [] [] ShowsUsage ].

(** kingpin, Token: a word or part of one, classified.  A short flag is one byte
    here; kingpin takes one character, but the flags are all of one byte and any
    other is unknown. *)
Inductive token := TArg (s : string) | TLong (n : string) | TShort (c : option ascii) | TError | TEnd.
(** kingpin, ParseContext: tokens pushed back (last first), the words left, and
    whether "--" was seen. *)
Record input := Input { peeked : list token; words : list string; only : bool }.

(** kingpin, flagGroup.long and flagGroup.short: maps, where a flag added later
    replaces one of the same name; the list has the last one added first. *)
Definition find_long (known : list flag) (n : string) : option flag :=
  list_find (λ f, f_long f = n) known ≫= λ x, Some x.2.
Definition find_short (known : list flag) (c : option ascii) : option flag :=
  list_find (λ f, f_short f = c ∧ c ≠ None) known ≫= λ x, Some x.2.
(** kingpin, IsBoolFlag and IsCumulative: switches and counters take no value;
    counters can be repeated. *)
Definition is_switch (f : flag) : bool :=
  match f_kind f with ASwitch | ACount | AExit => true | _ => false end.
Definition is_cumulative (f : flag) : bool := match f_kind f with ACount => true | _ => false end.

(** kingpin, ParseContext.Next.  Simplification: a word "@name" is replaced by
    the lines of that file; here it is an error, so nothing is claimed about it. *)
Definition next (known : list flag) (i : input) : token * input :=
  match peeked i, words i with
  | t :: p, ws => (t, Input p ws (only i))
  | [], [] => (TEnd, i)
  | [], w :: ws =>
      if only i then (TArg w, Input [] ws true) else
      match w with
      | "" => (TArg "", Input [] ws false)
      | String a w1 =>
          if decide (a = "@"%char) then (TError, Input [] ws false)
          else if decide (a ≠ "-"%char) then (TArg w, Input [] ws false)
          else match w1 with
          | "" => (TShort None, Input [] ws false)
          | String b w2 =>
              if decide (b = "-"%char) then
                match w2 with
                | "" =>
                    match ws with
                    | [] => (TEnd, Input [] [] true)
                    | w' :: ws' => (TArg w', Input [] ws' true)
                    end
                | _ =>
                    match index_byte "="%char w2 with
                    | Some n => (TLong (str_take n w2), Input [TArg (str_drop (S n) w2)] ws false)
                    | None => (TLong w2, Input [] ws false)
                    end
                end
              else
                match w2 with
                | "" => (TShort (Some b), Input [] ws false)
                | _ =>
                    match find_short known (Some b) with
                    | Some f =>
                        if is_switch f then (TShort (Some b), Input [] (String "-" w2 :: ws) false)
                        else (TShort (Some b), Input [TArg w2] ws false)
                    | None => (TShort (Some b), Input [] (String "-" w2 :: ws) false)
                    end
                end
          end
      end
  end.
(** kingpin, ParseContext.Push and Peek *)
Definition push (t : token) (i : input) : input := Input (t :: peeked i) (words i) (only i).
Definition peek (known : list flag) (i : input) : token * input :=
  match peeked i with
  | t :: _ => (t, i)
  | [] => let '(t, i') := next known i in (t, push t i')
  end.

(** kingpin, flagGroup.parse, from "context.Next()" on: the flag is known; a
    value is the next token if that is an argument.  [inl]: an error, with the
    input left as kingpin leaves it. *)
Definition flag_value (known : list flag) (t : token) (f : flag) (invert : bool) (i : input)
  : input + (flag * string * input) :=
  let i := (next known i).2 in
  if is_switch f then inr (f, if invert then "false" else "true", i)
  else if invert then inl (push t i)
  else
    let '(t, i) := peek known i in
    match t with
    | TArg s => inr (f, s, (next known i).2)
    | _ => inl (push t i)
    end.
(** kingpin, flagGroup.parse *)
Definition parse_flag (known : list flag) (i : input) : input + (flag * string * input) :=
  let '(t, i) := peek known i in
  match t with
  | TLong n =>
      match find_long known n with
      | Some f => flag_value known t f false i
      | None =>
          if has_prefix n "no-" then
            match find_long known (str_drop 3 n) with
            | Some f => flag_value known t f true i
            | None => inl i
            end
          else inl i
      end
  | TShort c =>
      match find_short known c with
      | Some f => flag_value known t f false i
      | None => inl i
      end
  | _ => inl i
  end.

(** kingpin, ParseContext: the flags known so far, the subcommands of the
    command reached, the arguments it still takes, the command reached, the input
    and what was matched so far. *)
Inductive element := EFlag (f : flag) (v : string) | EFile (var v : string).
Record context := Context {
  known : list flag; subs : list cmd; files : list string; chosen : action;
  inp : input; elements : list element }.
(** kingpin, ParseContext.matchedCmd with mergeFlags and mergeArgs *)
Definition matched (c : cmd) (x : context) : context :=
  match c with
  | Cmd _ _ fs args cs act =>
      Context (fs ++ known x) cs (files x ++ args) act (inp x) (elements x)
  end.
Definition with_input (i : input) (x : context) : context :=
  Context (known x) (subs x) (files x) (chosen x) i (elements x).
(** kingpin, cmdGroup.commands and defaultSubcommand *)
Definition cmd_names (c : cmd) : list string := match c with Cmd ns _ _ _ _ _ => ns end.
Definition cmd_default (c : cmd) : bool := match c with Cmd _ d _ _ _ _ => d end.
Definition find_command (cs : list cmd) (w : string) : option cmd :=
  list_find (λ c, w ∈ cmd_names c) cs ≫= λ x, Some x.2.
Definition default_command (cs : list cmd) : option cmd :=
  list_find (λ c, cmd_default c = true) cs ≫= λ x, Some x.2.

(** What reading the words leads to: an error, the usage (or a completion
    script) printed and the program ended, or the elements matched. *)
Inductive reading := Failed | Showed | Matched (c : cname) (known : list flag) (es : list element).

(** kingpin, parse: one pass through its loop, or what follows the loop: the
    default subcommand is chosen, no word may be left, and a required argument may
    not be missing (execute, validateRequired).  Without a command the usage is
    printed (Parse, ErrCommandNotSpecified).  The words after "help" are not read, as
    its PreAction ends the program whatever they are; at one of kingpin's own flags
    reading stops, and shown says what comes of it. *)
Definition step (x : context) : reading + context :=
  let '(t, i) := peek (known x) (inp x) in
  let x := with_input i x in
  match chosen x with ShowsUsage => inl Showed | _ =>
  match t with
  | TLong _ | TShort _ =>
      match parse_flag (known x) i with
      | inl i' =>
          match default_command (subs x) with
          | Some c => inr (matched c (with_input i' x))
          | None => inl Failed
          end
      | inr (f, v, i') =>
          match f_kind f with
          | AExit => inl Showed
          | _ =>
              inr (Context (known x) (subs x) (files x) (chosen x) i'
                (elements x ++ [EFlag f v]))
          end
      end
  | TArg w =>
      match subs x with
      | [] =>
          match files x with
          | [] => inl Failed
          | a :: rest =>
              inr (Context (known x) [] rest (chosen x) (next (known x) i).2
                (elements x ++ [EFile a w]))
          end
      | cs =>
          match find_command cs w with
          | Some c => inr (matched c (with_input (next (known x) i).2 x))
          | None =>
              match default_command cs with
              | Some c => inr (matched c x)
              | None => inl Failed
              end
          end
      end
  | TError => inl Failed
  | TEnd =>
      let x := match default_command (subs x) with Some c => matched c x | None => x end in
      match chosen x, files x with
      | Becomes c, [] => inl (Matched c (known x) (elements x))
      | Becomes _, _ :: _ => inl Failed
      | _, _ => inl Showed
      end
  end end.
Fixpoint steps (fuel : nat) (x : context) : option reading :=
  match fuel with
  | O => None
  | S fuel => match step x with inl r => Some r | inr x => steps fuel x end
  end.
(** kingpin, Application.Parse: whether the usage is shown.  --help shows it (maybeHelp)
    if there is no mistake in the rest of the line, even if a required argument is
    missing; its other flags (PreAction, or the completion) do so in any case. *)
Fixpoint shown (fuel : nat) (helped : bool) (x : context) : bool :=
  match fuel with
  | O => false
  | S fuel =>
      match step x with
      | inr x => shown fuel helped x
      | inl r =>
          let '(t, i) := peek (known x) (inp x) in
          match chosen x with ShowsUsage => true | _ =>
          match t with
          | TLong _ | TShort _ =>
              match parse_flag (known x) i with
              | inl _ => false
              | inr (f, v, i') =>
                  if decide (f_long f = "help") then
                    shown fuel true
                      (Context (known x) (subs x) (files x) (chosen x) i' (elements x ++ [EFlag f v]))
                  else true
              end
          | TEnd => helped || match r with Showed => true | _ => false end
          | _ => false
          end end
      end
  end.

(** The environment: strconv.ParseUint(s, 0, 16); whether a file exists and is
    not a directory; whether a file can be created or opened for appending. *)
Record outside := Outside {
  parse_uint : string → option Z; is_file : string → bool; can_append : string → bool }.

(** Go's strconv.ParseUint(s, 0, 16), which kingpin's uint16Value calls for --port
    (internal/cli/ping.go:11, internal/cli/inspect.go:12), as of Go 1.13 (go.mod:32);
    the standard library is trusted.
    [saw] in [underscores] is what the last byte was: a digit, an underscore, or
    neither. *)
Definition digit (c : ascii) : option Z :=
  let b := byte_of c in
  if decide (48 ≤ b ≤ 57) then Some (b - 48)
  else if decide (65 ≤ b ≤ 90) then Some (b - 55)
  else if decide (97 ≤ b ≤ 122) then Some (b - 87)
  else None.
Fixpoint digits (base acc : Z) (s : string) : option Z :=
  match s with
  | "" => Some acc
  | String c s =>
      if decide (c = "_"%char) then digits base acc s
      else
        d ← digit c;
        if decide (base ≤ d) then None
        else if decide (65535 < base * acc + d) then None
        else digits base (base * acc + d) s
  end.
Inductive saw := SawDigit | SawUnderscore | SawOther.
Fixpoint underscores (hex : bool) (l : saw) (s : string) : bool :=
  match s with
  | "" => match l with SawUnderscore => false | _ => true end
  | String c s =>
      match digit c with
      | Some d =>
          if decide (d < if hex then 16 else 10) then underscores hex SawDigit s
          else match l with SawUnderscore => false | _ => underscores hex SawOther s end
      | None =>
          if decide (c = "_"%char) then
            match l with SawDigit => underscores hex SawUnderscore s | _ => false end
          else match l with SawUnderscore => false | _ => underscores hex SawOther s end
      end
  end.
(** The base a number is written in, its digits, and what underscoreOK starts
    with. *)
Definition prefixed (s : string) : Z * string * (bool * saw * string) :=
  match s with
  | String c0 s1 =>
      if decide (c0 = "0"%char) then
        match s1 with
        | String c (String d s3 as s2) =>
            if decide (c = "b"%char ∨ c = "B"%char) then (2, s2, (false, SawDigit, s2))
            else if decide (c = "o"%char ∨ c = "O"%char) then (8, s2, (false, SawDigit, s2))
            else if decide (c = "x"%char ∨ c = "X"%char) then (16, s2, (true, SawDigit, s2))
            else (8, s1, (false, SawOther, s))
        | _ => (8, s1, (false, SawOther, s))
        end
      else (10, s, (false, SawOther, s))
  | "" => (10, s, (false, SawOther, s))
  end.
Definition port_number (s : string) : option Z :=
  if decide (s = "") then None else
  let '(base, t, (hex, l, u)) := prefixed s in
  n ← digits base 0 t;
  if underscores hex l u then Some n else None.

(** kingpin, the Set methods of stringValue, uint16Value, enumValue, boolValue,
    counterValue and fileValue *)
Definition set_flag (o : outside) (f : flag) (s : string) (v : vars) : option vars :=
  match f_kind f with
  | AText => Some (<[f_var f := VText s]> v)
  | APort => n ← parse_uint o s; Some (<[f_var f := VNum n]> v)
  | AChoice l => if decide (s ∈ l) then Some (<[f_var f := VText s]> v) else None
  | ASwitch => Some (<[f_var f := VBool (bool_decide (s = "true"))]> v)
  | ACount =>
      Some (<[f_var f := VNum (1 + match v !! f_var f with Some (VNum n) => n | _ => 0 end)]> v)
  | AOpen => if can_append o s then Some (<[f_var f := VText s]> v) else None
  | AExit => Some v
  end.
(** kingpin, fileStatValue.Set with ExistingFile's predicate *)
Definition set_file (o : outside) (var s : string) (v : vars) : option vars :=
  if is_file o s then Some (<[var := VText s]> v) else None.
(** kingpin, Application.setDefaults: flags not given get their default. *)
Definition set_defaults (o : outside) (known : list flag) (given : list string) (v : vars) : option vars :=
  foldr (λ f acc, v ← acc;
    match f_default f with
    | Some d => if decide (f_long f ∈ given) then Some v else set_flag o f d v
    | None => Some v
    end) (Some v) known.
(** kingpin, Application.setValues: elements in order; a flag given before
    must be cumulative. *)
Fixpoint set_values (o : outside) (seen : list string) (es : list element) (v : vars) : option vars :=
  match es with
  | [] => Some v
  | EFlag f s :: es =>
      if bool_decide (f_long f ∈ seen) && negb (is_cumulative f) then None
      else v ← set_flag o f s v; set_values o (f_long f :: seen) es v
  | EFile var s :: es => v ← set_file o var s v; set_values o seen es v
  end.
Definition flag_names (es : list element) : list string :=
  omap (λ e, match e with EFlag f _ => Some (f_long f) | _ => None end) es.

(** kingpin, Application.Parse: the outcome, with the variables as set.  The fuel
    is more than the number of passes there can be (steps_end in ArgsValuesProofs,
    shown_enough in ArgsUsageProofs). *)
Inductive outcome := Refused | Usage | Runs (c : cname) (v : vars).
Definition total (ws : list string) : nat := sum_list (S ∘ String.length <$> ws).
Definition start (modern : bool) (ws : list string) : context :=
  Context app_flags (app_commands modern) [] Nothing (Input [] ws false) [].
Definition parse (modern : bool) (o : outside) (ws : list string) : outcome :=
  match steps (4 + total ws) (start modern ws) with
  | None | Some Failed => Refused
  | Some Showed => if shown (4 + total ws) false (start modern ws) then Usage else Refused
  | Some (Matched c k es) =>
      match set_defaults o k (flag_names es) ∅ ≫= set_values o [] es with
      | Some v => Runs c v
      | None => Refused
      end
  end.

(** The command structs (internal/commands/ping.go:10-16, internal/commands/inspect.go:10-21,
    internal/commands/runbook_list.go:11-13, internal/commands/runbook_dot.go:11-16,
    internal/commands/runbook_eval.go:12-16, internal/commands/runbook.go:8-15,
    internal/commands/version.go:11-17), with the fields flags are bound to. *)
Record connection := Connection {
  host : string; port : Z; dbname : string; username : string; sslmode : string }.
Inductive command :=
| Ping (c : connection)
| Inspect (c : connection) (output : string) (sort_columns sort_checks sort_indexes : bool)
| BookList (file : string)
| BookDot (file output : string) (auto_out : bool) (splines : string)
| BookEval (file color output : string)
| BookRun (file : string)
| Version (verbose : bool).
(** A variable read as the Go type it has; missing means the zero value. *)
Definition text (v : vars) (x : string) : string :=
  match v !! x with Some (VText s) => s | _ => "" end.
Definition num (v : vars) (x : string) : Z := match v !! x with Some (VNum z) => z | _ => 0 end.
Definition truth (v : vars) (x : string) : bool := match v !! x with Some (VBool b) => b | _ => false end.
Definition connection_of (v : vars) (c : string) : connection :=
  Connection (text v (c +:+ ".Host")) (num v (c +:+ ".Port")) (text v (c +:+ ".DBName"))
    (text v (c +:+ ".Username")) (text v (c +:+ ".SSLMode")).
(** internal/cli/cli.go:54 and 67: the struct of the clause that was chosen. *)
Definition command_of (c : cname) (v : vars) : command :=
  match c with
  | CPing => Ping (connection_of v "ping")
  | CInspect =>
      Inspect (connection_of v "inspect") (text v "inspect.Output") (truth v "inspect.SortColumns")
        (truth v "inspect.SortChecks") (truth v "inspect.SortIndexes")
  | CList => BookList (text v "list.File")
  | CDot => BookDot (text v "dot.File") (text v "dot.Output") (truth v "dot.AutoOut") (text v "dot.Splines")
  | CEval => BookEval (text v "eval.File") (text v "eval.Color") (text v "eval.Output")
  | CRun => BookRun (text v "run.File")
  | CVersion => Version (truth v "version.Verbose")
  end.
(** What the program is asked to do: the command, the debug log (none if nil,
    internal/cli/cli.go:38) and base.Verbosity (cli.go:37). *)
Record request := Request { q_command : command; q_debug : option string; q_verbosity : Z }.
(** internal/cli/cli.go:31-49 and 37-42 *)
Definition request_of (c : cname) (v : vars) : request :=
  Request (command_of c v)
    (match v !! "base.Debug" with Some (VText s) => Some s | _ => None end)
    (1 + num v "parser.verbosity" - num v "parser.brevity").

(** How the process ends: its exit status, the request that was carried out, and
    the messages main itself prints, with the stream they go to. *)
Inductive stream := Stdout | Stderr.
Record ending := Ending { e_status : Z; e_ran : option request; e_says : list (stream * string) }.
(** main.go:12-29.  [run] is what the command returns, [complaint] the text of
    kingpin's error.  When the usage is shown kingpin ends the process with 0. *)
Definition main (modern : bool) (o : outside) (complaint : string) (run : request → option string)
    (ws : list string) : ending :=
  match parse modern o ws with
  | Refused => Ending 1 None [(Stdout, complaint)]
  | Usage => Ending 0 None []
  | Runs c v =>
      let r := request_of c v in
      match run r with
      | Some err => Ending 1 (Some r) [(Stdout, err)]
      | None => Ending 0 (Some r) []
      end
  end.
