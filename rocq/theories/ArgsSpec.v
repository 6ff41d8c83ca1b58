(** Specification side of the command line: the ways a command and its settings
    can be written, and the request they amount to.  Stated with the documented
    names of commands and flags; it shares with the model only the names of the
    commands, the structs they are run with and the environment. *)
From Coq Require Import String Ascii.
From stdpp Require Import list gmap strings.
From Verif Require Import GoStrings GoUtf8 ArgsModel.
Local Open Scope Z_scope.

(** Where in a line we are: before the command, after "runbook", or after the
    (sub)command that will run. *)
Inductive place := Top | Book | In (c : cname).
(** The words that lead from one place to another. *)
Inductive leads : place → string → place → Prop :=
| leads_ping : leads Top "ping" (In CPing)
| leads_inspect : leads Top "inspect" (In CInspect)
| leads_runbook : leads Top "runbook" Book
| leads_version : leads Top "version" (In CVersion)
| leads_list : leads Book "list" (In CList)
| leads_ls : leads Book "ls" (In CList)
| leads_dot : leads Book "dot" (In CDot)
| leads_eval : leads Book "eval" (In CEval)
| leads_run : leads Book "run" (In CRun).

(** The flags that take a value, and those that do not, with their one letter
    forms. *)
Definition connecting : list (string * option ascii) :=
  [("host", Some "h"%char); ("port", Some "p"%char); ("dbname", Some "d"%char);
   ("username", Some "U"%char); ("sslmode", None)].
Definition valued (p : place) : list (string * option ascii) :=
  match p with
  | In CPing => connecting
  | In CInspect => ("output", Some "o"%char) :: connecting
  | In CDot => [("output", Some "o"%char); ("splines", None)]
  | In CEval => [("output", Some "o"%char); ("color", Some "c"%char)]
  | _ => []
  end ++ [("debug", None)].
Definition switches (modern : bool) (p : place) : list (string * option ascii) :=
  match p with
  | In CInspect => [("sort-columns", None); ("sort-check-constraints", None); ("sort-indexes", None)]
  | In CDot => [("", Some "O"%char)]
  | In CVersion => if modern then [("long", Some "l"%char)] else []
  | _ => []
  end ++ [("quiet", Some "q"%char); ("verbose", Some "v"%char)].

(** A line is a list of words as typed ([Raw]); understanding one turns it into a
    flag's name ([Name] or [Letter]) or an argument to be taken literally ([Lit]). *)
Inductive word := Raw (s : string) | Lit (s : string) | Name (n : string) | Letter (c : ascii).
Definition plain (w : string) : Prop := ¬ begins_with "-" w ∧ ¬ begins_with "@" w.
Inductive reads (modern : bool) (p : place) : list word → list word → Prop :=
| reads_stop ws : (* after "--" everything is literal *)
    reads modern p (Raw "--" :: (Raw <$> ws)) (Lit <$> ws)
| reads_plain w ws : plain w → reads modern p (Raw w :: ws) (Lit w :: ws)
| reads_name n ws : (* --name *)
    n ≠ "" → ¬ has_byte "="%char n → reads modern p (Raw ("--" +:+ n) :: ws) (Name n :: ws)
| reads_eq n v ws : (* --name=value *)
    ¬ has_byte "="%char n → reads modern p (Raw ("--" +:+ n +:+ "=" +:+ v) :: ws) (Name n :: Lit v :: ws)
| reads_letter c ws : (* -c *)
    c ≠ "-"%char → reads modern p (Raw (String "-" (String c "")) :: ws) (Letter c :: ws)
| reads_joined n c v ws : (* -cvalue *)
    v ≠ "" → (n, Some c) ∈ valued p →
    reads modern p (Raw (String "-" (String c v)) :: ws) (Letter c :: Lit v :: ws)
| reads_cluster n c v ws : (* -cde *)
    v ≠ "" → (n, Some c) ∈ switches modern p →
    reads modern p (Raw (String "-" (String c v)) :: ws) (Letter c :: Raw (String "-" v) :: ws).
(** The value of a flag: the literal that follows. *)
Inductive value_in (modern : bool) (p : place) : list word → string → list word → Prop :=
| value_here v ws : value_in modern p (Lit v :: ws) v ws
| value_read ws ws' v rest : reads modern p ws ws' → value_in modern p ws' v rest → value_in modern p ws v rest.

(** From a place, the words give the flags [i] (name and value), the arguments
    [a] and the command that will run. *)
Inductive says (modern : bool) : place → list word → list (string * string) → list string → cname → Prop :=
| says_end c : says modern (In c) [] [] [] c
| says_read p ws ws' i a c : reads modern p ws ws' → says modern p ws' i a c → says modern p ws i a c
| says_valued p n sh ws v rest i a c :
    (n, sh) ∈ valued p → value_in modern p ws v rest → says modern p rest i a c →
    says modern p (Name n :: ws) ((n, v) :: i) a c
| says_valued_letter p n l ws v rest i a c :
    (n, Some l) ∈ valued p → value_in modern p ws v rest → says modern p rest i a c →
    says modern p (Letter l :: ws) ((n, v) :: i) a c
| says_switch p n sh ws i a c :
    (n, sh) ∈ switches modern p → says modern p ws i a c →
    says modern p (Name n :: ws) ((n, "true") :: i) a c
| says_no p n sh ws i a c :
    (n, sh) ∈ switches modern p → says modern p ws i a c →
    says modern p (Name ("no-" +:+ n) :: ws) ((n, "false") :: i) a c
| says_switch_letter p n l ws i a c :
    (n, Some l) ∈ switches modern p → says modern p ws i a c →
    says modern p (Letter l :: ws) ((n, "true") :: i) a c
| says_arg w ws i a c :
    says modern (In c) ws i a c → says modern (In c) (Lit w :: ws) i (w :: a) c
| says_command p w p' ws i a c :
    leads p w p' → says modern p' ws i a c → says modern p (Lit w :: ws) i a c
| says_default w ws i a c : (* a run book without a subcommand is run *)
    (∀ p, ¬ leads Book w p) → says modern (In CRun) (Lit w :: ws) i a c →
    says modern Book (Lit w :: ws) i a c.

(** How often a flag was given; its value; what it amounts to when it is not
    given. *)
Definition times (i : list (string * string)) (n : string) : nat :=
  length (filter (λ x, x.1 = n) i).
Definition text_is (i : list (string * string)) (n x : string) : Prop :=
  (n, x) ∈ i ∨ times i n = 0%nat ∧ x = "".
Definition choice_is (l : list string) (d : string) (i : list (string * string)) (n x : string) : Prop :=
  ((n, x) ∈ i ∧ x ∈ l) ∨ times i n = 0%nat ∧ x = d.
Definition number_is (o : outside) (i : list (string * string)) (n : string) (z : Z) : Prop :=
  (∃ s, (n, s) ∈ i ∧ parse_uint o s = Some z) ∨ times i n = 0%nat ∧ z = 0.
Definition switch_is (i : list (string * string)) (n : string) (b : bool) : Prop :=
  ((n, "true") ∈ i ∧ b = true) ∨ ((n, "false") ∈ i ∧ b = false) ∨ times i n = 0%nat ∧ b = false.
Definition connection_is (o : outside) (i : list (string * string)) (c : connection) : Prop :=
  text_is i "host" (host c) ∧ number_is o i "port" (port c) ∧ text_is i "dbname" (dbname c) ∧
  text_is i "username" (username c) ∧
  choice_is ["disable"; "allow"; "prefer"; "require"; "verify-full"] "" i "sslmode" (sslmode c).

(** Numbers as they can be written for --port: single underscores may stand between digits
    and behind the prefix. *)
Definition digit_is (c : ascii) (d : Z) : Prop :=
  (byte_of c = 48 + d ∧ 0 ≤ d ≤ 9) ∨ (byte_of c = 65 + (d - 10) ∧ 10 ≤ d ≤ 35) ∨
  (byte_of c = 97 + (d - 10) ∧ 10 ≤ d ≤ 35).
Inductive numeral (base : Z) : string → Z → Prop :=
| numeral_one c d : digit_is c d → d < base → numeral base (String c "") d
| numeral_more s n c d : numeral base s n → digit_is c d → d < base → numeral base (s +:+ String c "") (base * n + d)
| numeral_group s n c d : numeral base s n → digit_is c d → d < base → numeral base (s +:+ String "_" (String c "")) (base * n + d).
Inductive number_text : string → Z → Prop :=
| number_zero : number_text "0" 0
| number_decimal s n : ¬ begins_with "0" s → numeral 10 s n → number_text s n
| number_octal s n : numeral 8 s n → number_text ("0" +:+ s) n
| number_octal_group s n : numeral 8 s n → number_text ("0_" +:+ s) n
| number_base c base s n :
    (c, base) ∈ [("b"%char, 2); ("B"%char, 2); ("o"%char, 8); ("O"%char, 8); ("x"%char, 16); ("X"%char, 16)] →
    ∀ t, t = s ∨ t = String "_" s → numeral base s n → number_text (String "0" (String c t)) n.

(** The command that flags and arguments amount to. *)
Inductive command_is (o : outside) (i : list (string * string)) : list string → cname → command → Prop :=
| is_ping c : connection_is o i c → command_is o i [] CPing (Ping c)
| is_inspect c out cols checks idx :
    connection_is o i c → text_is i "output" out → switch_is i "sort-columns" cols →
    switch_is i "sort-check-constraints" checks → switch_is i "sort-indexes" idx →
    command_is o i [] CInspect (Inspect c out cols checks idx)
| is_list f : is_file o f = true → command_is o i [f] CList (BookList f)
| is_dot f out auto splines :
    is_file o f = true → text_is i "output" out → switch_is i "" auto →
    choice_is ["curved"; "line"; "ortho"] "" i "splines" splines →
    command_is o i [f] CDot (BookDot f out auto splines)
| is_eval f color out :
    is_file o f = true → choice_is ["auto"; "true"; "false"] "auto" i "color" color →
    text_is i "output" out → command_is o i [f] CEval (BookEval f color out)
| is_run f : is_file o f = true → command_is o i [f] CRun (BookRun f)
| is_version b : switch_is i "long" b → command_is o i [] CVersion (Version b).
(** Only -v and -q may be repeated. *)
Definition fits (o : outside) (c : cname) (i : list (string * string)) (a : list string) (r : request) : Prop :=
  (∀ n, n ≠ "quiet" → n ≠ "verbose" → (times i n ≤ 1)%nat) ∧
  match q_debug r with
  | Some f => ("debug", f) ∈ i ∧ can_append o f = true
  | None => times i "debug" = 0%nat
  end ∧
  q_verbosity r = 1 + Z.of_nat (times i "verbose") - Z.of_nat (times i "quiet") ∧
  command_is o i a c (q_command r).

(** How many arguments the command at a place takes. *)
Definition room (p : place) : nat :=
  match p with In CList | In CDot | In CEval | In CRun => 1%nat | _ => 0%nat end.
(** From a place where [k] more arguments are taken, the words ask for the usage: with
    the help command, by one of the flags that show it at once, by naming no command, or
    with --help ([helped]: it has been given) if nothing is wrong with the words.  With
    [astray] a line may go astray as described at [strays] below, or end there. *)
Definition at_once : list string :=
  ["help-long"; "help-man"; "completion-bash"; "completion-script-bash"; "completion-script-zsh"].
Inductive shows (modern astray : bool) : place → nat → bool → list word → Prop :=
| shows_end k helped : shows modern astray Top k helped []
| shows_helped p k : shows modern astray p k true []
| shows_help_command k helped ws : shows modern astray Top k helped (Lit "help" :: ws)
| shows_now p k helped n ws : n ∈ at_once → shows modern astray p k helped (Name n :: ws)
| shows_no_now p k helped n ws : n ∈ at_once → shows modern astray p k helped (Name ("no-" +:+ n) :: ws)
| shows_help p k helped ws :
    shows modern astray p k true ws → shows modern astray p k helped (Name "help" :: ws)
| shows_no_help p k helped ws :
    shows modern astray p k true ws → shows modern astray p k helped (Name "no-help" :: ws)
| shows_read p k helped ws ws' :
    reads modern p ws ws' → shows modern astray p k helped ws' → shows modern astray p k helped ws
| shows_valued p k helped n sh ws v rest :
    (n, sh) ∈ valued p → value_in modern p ws v rest → shows modern astray p k helped rest →
    shows modern astray p k helped (Name n :: ws)
| shows_valued_letter p k helped n l ws v rest :
    (n, Some l) ∈ valued p → value_in modern p ws v rest → shows modern astray p k helped rest →
    shows modern astray p k helped (Letter l :: ws)
| shows_switch p k helped n sh ws :
    (n, sh) ∈ switches modern p → shows modern astray p k helped ws → shows modern astray p k helped (Name n :: ws)
| shows_no p k helped n sh ws :
    (n, sh) ∈ switches modern p → shows modern astray p k helped ws →
    shows modern astray p k helped (Name ("no-" +:+ n) :: ws)
| shows_switch_letter p k helped n l ws :
    (n, Some l) ∈ switches modern p → shows modern astray p k helped ws →
    shows modern astray p k helped (Letter l :: ws)
| shows_arg w ws c k helped :
    shows modern astray (In c) k helped ws → shows modern astray (In c) (S k) helped (Lit w :: ws)
| shows_command p k helped w p' ws :
    leads p w p' → shows modern astray p' (room p') helped ws → shows modern astray p k helped (Lit w :: ws)
| shows_default k helped w ws :
    (∀ p, ¬ leads Book w p) → shows modern astray (In CRun) (room (In CRun)) helped (Lit w :: ws) →
    shows modern astray Book k helped (Lit w :: ws)
| shows_stray k helped ws f rest :
    astray = true → ws = f :: rest ∨ reads modern Book ws (f :: rest) → (∃ n, f = Name n) ∨ (∃ l, f = Letter l) →
    shows modern astray (In CRun) (room (In CRun)) helped (f :: f :: rest) →
    shows modern astray Book k helped (Name "debug" :: ws)
| shows_stray_end k ws :
    astray = true → ws = [] ∨ reads modern Book ws [] → shows modern astray Book k true (Name "debug" :: ws).
(** The line asks for the usage; it does or is mistaken to. *)
Definition asks_usage (modern : bool) (ws : list string) : Prop := shows modern false Top 0 false (Raw <$> ws).
Definition led_to_usage (modern : bool) (ws : list string) : Prop := shows modern true Top 0 false (Raw <$> ws).

(** The line asks for the request. *)
Definition asks (modern : bool) (o : outside) (ws : list string) (r : request) : Prop :=
  ∃ c i a, says modern Top (Raw <$> ws) i a c ∧ fits o c i a r.

(** The exception: after "runbook" and before a subcommand, --debug is not followed by
    a value but by a flag.  Then --debug is forgotten, the flag is given twice, and the
    words are read on as those of run.  [i]: the flags before; [rest]: the words read
    on. *)
Inductive strays (modern : bool) : place → list word → list (string * string) → list word → Prop :=
| strays_here ws f rest :
    ws = f :: rest ∨ reads modern Book ws (f :: rest) → (∃ n, f = Name n) ∨ (∃ l, f = Letter l) →
    strays modern Book (Name "debug" :: ws) [] (f :: f :: rest)
| strays_read p ws ws' i rest : reads modern p ws ws' → strays modern p ws' i rest → strays modern p ws i rest
| strays_valued p n sh ws v ws' i rest :
    (n, sh) ∈ valued p → value_in modern p ws v ws' → strays modern p ws' i rest →
    strays modern p (Name n :: ws) ((n, v) :: i) rest
| strays_valued_letter p n l ws v ws' i rest :
    (n, Some l) ∈ valued p → value_in modern p ws v ws' → strays modern p ws' i rest →
    strays modern p (Letter l :: ws) ((n, v) :: i) rest
| strays_switch p n sh ws i rest :
    (n, sh) ∈ switches modern p → strays modern p ws i rest →
    strays modern p (Name n :: ws) ((n, "true") :: i) rest
| strays_no p n sh ws i rest :
    (n, sh) ∈ switches modern p → strays modern p ws i rest →
    strays modern p (Name ("no-" +:+ n) :: ws) ((n, "false") :: i) rest
| strays_switch_letter p n l ws i rest :
    (n, Some l) ∈ switches modern p → strays modern p ws i rest →
    strays modern p (Letter l :: ws) ((n, "true") :: i) rest
| strays_command p w p' ws i rest :
    leads p w p' → strays modern p' ws i rest → strays modern p (Lit w :: ws) i rest.
(** The line is taken to ask for the request, though it does not. *)
Definition mistaken (modern : bool) (o : outside) (ws : list string) (r : request) : Prop :=
  ∃ i rest j a, strays modern Top (Raw <$> ws) i rest ∧ says modern (In CRun) rest j a CRun ∧
    fits o CRun (i ++ j) a r.
