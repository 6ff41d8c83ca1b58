# Formal model of pgutil: design

The development is in `rocq/theories` (Coq 8.16.1, logical root `Verif`).
It uses the Coq standard library and std++ (finite maps and sets, lists).

## 1. How to read it

* `*Model.v`    executable Gallina transcriptions of the Go code.  Each definition
  cites the file and lines it models and says what it simplifies.  No proofs.
* `*Spec.v`     small specifications that do not mention the model's helpers
  (reachability, "is a cycle", quoted identifier, grammar, ...).
* `*Proofs.v`   the work.
* `*Props.v`    the property theorems, with `Print Assumptions` beneath each and
  `Example`s showing that its hypotheses are met by a non-trivial case.

`MANIFEST.json` maps every property of `properties.jsonl` to its theorems.  Names
ending in `_partial` prove less than the property says, names ending in
`_refuted` prove that the property as stated is false of the code, by a witness
(and the comment says what the witness is).

Go feature -> model:

| Go                      | model                                                        |
|-------------------------|--------------------------------------------------------------|
| string                  | Coq `string` (a sequence of bytes)                           |
| map                     | std++ `gmap`; every `range` over a map whose order could matter takes an explicit iteration order, universally quantified in the theorems |
| slice                   | `list` (aliasing is modelled only where the code relies on it) |
| pointer mutation        | function returning the new value                             |
| error / nil             | sum types; a run-time panic is an explicit outcome           |
| int                     | `Z` (unbounded; sizes in this program are far from 2^63)     |
| recursion, loops        | structural recursion, or fuel with an explicit exhaustion value that a theorem excludes |
| goroutines, channels    | small-step transition system, one step per communication, all interleavings |
| external library call   | oracle (parameter), assumptions listed below                 |

## 2. Plan per property

| Property | Model | Proof |
|---|---|---|
| C01-C04 | `DagModel`: TSort, visit | DFS invariant (white/grey/black), induction on fuel; sorting is canonical so map order vanishes |
| C05, C06 | `DagModel`: NewDirectedGraph and edits | fold invariants; refinement to (nodes, edges) by induction over operation lists |
| C07-C09 | `DagModel`: NewDependencyGraph, Next | invariant "pending is topologically ordered and remaining deps = deps minus completed"; C09 refuted by witness, weaker progress proved |
| C10-C15, C76, C77 | `SchedModel` | invariant over every run (New, then Next on in-flight tasks in any order); C76 gives Next's answer exactly; C77 refuted because of C09 |
| C16-C24 | `RunnerModel`: transition system with goroutines main, scheduler, router, one per target | inductive invariants over reachable states (`RunnerInvA/T/B`), decreasing measure for termination (`RunnerLive`), deadlock witnesses computed |
| C64 | `ParserModel` + `RunnerModel` | composition of C25 and C18-C20 |
| C83-C85 | `JsonModel`: how encoding/json stores a value in a struct; `JsonParserModel`: the structs of the runbook | key matching equals an inductive relation; each field holds the fold of the values given for it; composed with C78 |
| C86-C93 | `EffectsModel`: what Start, Handle and Stop of the three kinds of target do to the world, driven by the events of `RunnerModel` | the state kept by each target follows from the events so far; the effects of an execution split at its events; composed with C16-C22, C30, C49, C79, C83 |
| C25-C28, C78 | `ParserModel`: loadTargets, loadTasks, three target classes | fold invariants, permutation arguments, exact characterisation |
| C29-C32, C62 | `ShModel` | list induction |
| C143 | `ShExecModel` (os/exec's dedupEnv after `ShModel`) | invariant of the loop: where the entry for each variable is, and that it is the last one so far |
| C144 | `ShLookModel` (os/exec's LookPath), `ShCleanModel` (the same with names shortened) | induction on PATH and on its directories; `ShCleanProps`: a walk through a name splits at every point, so empty names and dots can be put back; computed cases refute the rest |
| C145 | `EffectsModel` with `ShExecModel` and `ShLookModel` | every `Runs` of a run is traced to the handling of its task, then C143 and C144 (also with names shortened, `ShCleanRunProps.v`); `ProgShProps.v` states it of the process that a line starts |
| C146 | `PathModel` (path/filepath's Clean, Dir and Abs on the pieces of a name); `PathSpec` has what the operating system does with a name, links included | Clean computes what going up and down in names alone gives (`clean_rooted`, `clean_relative`); without links, or without steps up, a walk through the directories comes to the same place; `ProgPathProps` states it of the process that a line starts |
| C147 | `ArgsFileModel`: kingpin's Next with words `@FILE`, as a relation since it need not return | simulation between reading the line as typed and the line expanded, for every parser that only uses Next and Push; `ArgsFileLineProps` shows kingpin's loop of `ArgsModel` to be such a parser; the file naming itself by induction on the reading; `ArgsFileBadProps`: a name left over is never passed by the grammar of `ArgsSpec` |
| C33, C34, C63, C79 | `DemoModel`: Go's string/rune conversion modelled on bytes (`GoUtf8`) | UTF-8 decode/encode round trip, permutation induction |
| C35-C39 | `DdlModel` | list induction |
| C80, C81 | `DdlModel`; `SqlLex` is a relation giving the tokens PostgreSQL reads in a text | the relation is proved functional, then composed over each ToSQL |
| C40-C47 | `MachineTables` translated mechanically from the generated Go (`tools/ragel2coq.py`), interpreter `MachineModel`, actions `ParseModel` | derivative-based equivalence checker (`Re`, proved sound) against the grammar as regular expression (language, `vm_compute`), labelled-run lemmas (values) |
| C65 | `DdlModel.parse_error` with the machines | `ParseError`: which states are dead |
| C48-C50 | `PgModel`: Connect | case analysis; induction over attempts |
| C51-C54, C66-C68 | `PgModel`: listings and InspectDatabase over a server's answers | induction over row streams with fault positions |
| C94-C106 | `QueryModel`: the SQL the queries use (scanner, syntax, joins, three-valued conditions, subqueries, ORDER BY leaving ties open); `SysModel`: the query texts of `internal/pg`, the system catalogues, scanning of rows | the text reads as the syntax tree (`queries_read`); each tree is evaluated symbolically to "exactly the rows of these objects" (`SysProofs`), then composed with C51-C54, C66-C68; `SysServer` builds a server answering any database, so that hypotheses are met |
| C107-C111 | `DefModel`: how PostgreSQL prints the definitions of foreign keys, checks, triggers and indexes (ruleutils.c), for any names, clauses and expressions; read by the machines of C40-C47 | the machine is walked symbolically over the printed text (`DefProofs`, `DefTrigger`, `DefCheck`, `DefIndex`), giving an equivalence: parsed as r if and only if of this form and r is what it means; `DefDb` composes this with C98 and C101 |
| C112-C116 | `HclModel`: gohcl's encoding and decoding of structs, with the tags of every struct of `internal/ddl`; printing and reading of HCL texts are a parameter | decoding equals what a file says (`HclSpec`, written without the tags) struct by struct; encoding then decoding is the identity; `HclText` is a printer and a reader that meet the assumptions, proved by induction over bodies |
| C55-C57, C69-C71 | `CliModel` | case analysis, sorting lemmas, a file system as a map |
| C119-C122 | `ArgsModel`: the commands and flags registered in `internal/cli`, kingpin's parser as a loop over tokens, setting of variables, main; strconv.ParseUint | `ArgsSpec` says how settings can be written, without tokens or a loop; the loop is proved sound and complete for it by induction on the words (`ArgsProofs`), then the variables (`ArgsValuesProofs`, `ArgsRequestProofs`); the exception of C120 is described in the same terms (`strays`) and proved sound and complete too, and so is which lines show the usage (`shows`, `ArgsUsageProofs`) |
| C123-C133 | `ProgModel`: main as a function from the words, the environment, servers and file system to exit status, files, standard output and connections, composed of the models above; `set_all` opens the --debug file while the flags are set, even (`spilled`) if the line is then refused or shows the usage | `ProgProofs`: every process is a refused line, a usage, or a request carried out (`program_comes`, `program_ran`), with frame lemmas for files; `ProgLineProofs`: every value kingpin finds is the end of a word; `ProgOneProps`: of the flags only --debug opens a file, and a second one is refused first; `ProgOutProps`: the same commands printing to the standard output, which gets nothing else when nothing is logged there; then C119, C101, C114, C83, C56, C71 and C48-C49 are composed |
| C134-C135 | `ProgRunModel`: how a run of a runbook can end within the process (`book_run`): refused, panic, returned, crashed, or blocked for ever, which Go ends with a nonzero status unless a goroutine that is not blocked on a channel is left; the setting's runs are required to be of this kind (`faithful`) | `ProgRunProps`: `program_ran` and C83 give the runbook, C86-C89 and C92-C93 what its executions do, `stuck_finished` that a run without failures does not block |
| C136-C141 | `FineModel`: as `EffectsModel`, but a target does what Handle does step by step between its call and its return, while others do theirs; nothing happens after a crash | `FineProofs`: for each target what has happened and what is pending is what happens in `EffectsModel` (`fine_on`), what is pending belongs to the task last begun (`fine_pending`); with C86-C89; a script is played for the examples |
| C142 | `RunnerModel` | a run at rest but for Handle calls under way: the invariants of C16-C25 say where every task is; every run comes to such a rest because its steps are bounded (C20); two computed runs refute the general claim |
| C58-C60 | `TasksetModel`: RunTasks as transition system | counting invariants, decreasing measure |
| C61, C72-C75, C82 | `TasksetModel`: dependencies, parser | fold invariants, exact characterisation |
| C117, C118 | `TasksetFileModel`: the tags of the parser's structs and of the targets and tasks, gohcl with remaining bodies; composed with `TasksetModel` | C82 with the decoder of gohcl, both sides reduced to what the blocks of the file say (`TasksetFileSpec`) |

Nothing on the list is inexpressible.  Properties whose literal claim is false
of the code get a theorem named `..._refuted` with a witness, and the strongest
true version next to it.

## 3. Trusted base

* Coq's kernel, including its `vm_compute` evaluator, used for finite checks (the
  equivalence checks of the parser machines, concrete witnesses).
* Axioms: none, see section 6.
* The reading of the Go code, cited definition by definition in `*Model.v`.
* For the parsers: `tools/ragel2coq.py`, which turns the generated Go text into
  transition tables.
* The reading of the libraries the code calls, listed in section 5.

## 4. What is modelled

| Package | Modelled | Not modelled |
|---|---|---|
| `internal/dag` | all of it | - |
| `internal/runbook/scheduler` | all of it | - |
| `internal/runbook` (`runner.go`, `runbook.go`) | Run with all its goroutines and channels, Dot, the directory computed from the runbook's name (path/filepath) | log calls except a task's message; Handle is assumed to return, except in C142 |
| `internal/runbook/parser` | Parse from the JSON value on, with encoding/json's decoding into every struct, loadTargets, loadTasks | reading the file, evaluating Jsonnet, the text of the JSON |
| `internal/runbook/sh` | Env, Exec's checks, the arguments, directory and environment of the command, the environment its process gets and the file it runs (os/exec) | what the process does |
| `internal/runbook/demo` | all tasks, with the overflow of Sleep's duration | the timer |
| `internal/runbook/pg` | settings, connecting, what is sent and when the connection is closed | what the server does |
| `internal/ddl` | quoting, every ToSQL, the four generated parsers, collapseWhitespace, parseError, storage parameters, ParseBytes, ParseFile and Write with the tags of every struct | the text of HCL and the evaluation of its expressions; messages |
| `internal/pg` | options, SSL mode, Connect with retries, every List and Describe function given the server's answer, sorting, InspectDatabase, the text of the queries and what PostgreSQL answers to them | ServerVersion and the two SHOW queries' texts; what is printed by pg_get_expr and format_type (any text), and by pg_get_indexdef, pg_get_constraintdef, pg_get_triggerdef except in C107-C111 |
| `internal/cli`, `internal/commands`, `internal/logger`, `internal/sys` | what each command reads, writes and logs, given its options; the command line, main's exit status, and the process as a whole | kingpin's messages, usage and completion, `@file` words except in C147, zap's encoding of a line, closing of files |
| `internal/taskset` | RunTasks, dependencies, targets and tasks, the parser with the tags of every struct | the text of HCL and the evaluation of its expressions; messages |

Simplifications used throughout: `int` is unbounded; memory is unbounded; a
`context` is never cancelled; log calls do nothing, except in C55, C69 and C86; in
C86-C93 what one Handle does happens at once, so that effects of two targets are not interleaved
within a task, and an execution goes on after a crash. C134-C141 do without both.

## 5. What is assumed of libraries

These are parameters or definitions of the models, never axioms.

* Go maps: `range` visits every key once, in any order (quantified over).
* Go channels, `select`, `sync.WaitGroup`: the rules of the language specification;
  `select` picks any ready case.
* `sort.Strings`, `sort.Sort`: insertion sort for short slices (the only case where
  stability matters, C52), otherwise any sorted permutation.
* `unicode/utf8` and string/rune conversions: modelled in `GoUtf8.v`.
* `strings.Index`, `Split`, `TrimSpace`, `regexp` with the pattern `\s+`, `strconv.ParseBool`,
  `ParseInt`, `ParseFloat`: `GoStrings.v`, `DdlModel.v`; floats are the text accepted, not the number.
* `encoding/json` of Go 1.11 with DisallowUnknownFields: `JsonModel.v`, on JSON values instead of their text.
  C25-C28, C64 and C78 hold for any decoder with the condition `ok_decoder` where
  needed (a decoder keeps the kind of value it is given), encoding/json's included.
* hcl for task sets: a parameter `ts_decoder` with the condition `ok_ts_decoder` in C72-C75 and C82, likewise; gohcl in
  `TasksetFileModel.v` meets it (C117, C118).
* hcl for descriptions of databases (C112-C116): gohcl of hcl2 v0.0.0-20191002203319 and gocty in `HclModel.v`; hclwrite, hclsyntax and cty's conversions
  are the parameter `hcl_lib`, with the condition `ok_lib` of `HclSpec.v` where texts are written and read again.
* `os/exec` on Unix as of Go 1.13: removal of duplicate variables (`ShExecModel.v`, C143) and the search for the
  program (`ShLookModel.v`, C144; paths are not cleaned there but are in `ShCleanModel.v`; one predicate says which files can be executed).
* `path/filepath` on Unix (`PathModel.v`, C146), piece by piece instead of byte by byte; os.Getwd is given.  Unix's reading of a name:
  `PathSpec.v`, without permissions and limits on links.
* pgx v3.6.0: a connection attempt succeeds or fails as an oracle says; a query
  yields rows and possibly an error at any point; `Identifier.Sanitize`.
* PostgreSQL's lexer: `SqlLex.v`, after section 4.1 of its manual.
* PostgreSQL's answers to queries (C94-C106): `QueryModel.v`, after chapters 4, 7 and 9 of its manual, for the
  subset the queries use.  A column that is missing or ambiguous, a comparison of values of different
  types and a subquery with two rows make the query fail; ORDER BY leaves ties open.  The syntax tree of a query is related to its
  text by printing it: `reads` says that the tokens of the text are the tokens printed (brackets of AND are not kept, so
  that trees which differ in the grouping of AND read alike; they mean the same).
* PostgreSQL's catalogues: `SysModel.v` has the columns the queries use; the record `sane` of `SysSpec.v` lists what its unique
  indexes and dependencies guarantee.  The catalogues do not change during an inspection.
* PostgreSQL's printing of definitions (C107-C111): `DefModel.v`, after ruleutils.c of versions 9.6 to 15; the words that need
  quotes are a parameter, expressions are any text.
* kingpin v2.2.6 (C119-C122): its parser in `ArgsModel.v`, from memory of its source (it is not in /repo): tokens, interspersed flags,
  default subcommand, setting of defaults and values; checked against the cases of `internal/cli/cli_internal_test.go`.
* zap: a core writes the messages at its level or above.
* gographviz: records the calls made; tabular output: `fmt`'s width rule.

## 6. Assumptions of the theorems

`Print Assumptions` is run beneath every property theorem; each prints `Closed
under the global context`, i.e. no axiom at all.  `tools/assumptions.sh`
recompiles the `*Props.v` files and lists any theorem for which that is not so.
`coqchk` additionally names `Coq.ssr.ssrunder.Under_rel.*`, the sealed module of ssreflect's
`under` tactic, which std++ loads; no theorem depends on it.

## 7. What the proofs say about the code

Found while modelling, each with a theorem or an example.

Graph and scheduler
* `Next` skips the entry after a removed one (C09), so a task that could start may
  wait although its target has room (C77).
* The cycle in an error runs against the direction of the edges (C03); with a node
  named "" it may be reported as empty.
* `New` calls `Next("")`, so a task named "" counts as completed.
* An unknown target has capacity 0.

Runner
* A runbook without tasks blocks forever (C20).
* An error of `scheduler.New` is dropped: Run returns nil and nothing ran (C18).
* A failing task on a target with a limit of at least 2 which has another task
  dispatched blocks forever (C20).
* A task that does not end may leave other targets idle for ever: the next task of a
  busy target with a limit of at least 2 blocks the one queue to all targets, and a
  ready task the scheduler skipped waits for a completion (C142).
* After a failed Start, tasks of targets already started may still run (C24) and their
  connections stay open (C92).
* Negative `connect_retries` crash the run (C90); `connect_retries` leaves connections
  open (C92); a sleep of more than 292 years does not sleep (C91).

Parsers of runbooks and task sets
* `null` for a target or task crashes (C27); `after` is not checked; null in `after`
  or `args` counts as the empty string (C83).
* Keys match regardless of case (and with U+017F for s and U+212A for k); of two
  spellings of one setting one is dropped silently (C85), and of two spellings of
  Config the first may contain anything (C84).
* The commands of a runbook named through a link and `..` start in another directory than the runbook's (C146).
* `pgutil @FILE` never ends if FILE begins with the line `@FILE` (C147).
* Task sets drop `after`, `provides` and `requires` (C73); `seconds` of a sleep cannot
  be given (C75, C118); pg and sh accept any kind of task (C74); the last of several
  blocks with one id wins (C82).  A demo target that is written needs a `string`, and pg and sh targets have no
  settings at all (C118).
* RunTasks never closes its results if nothing runs when the queue is closed (C59),
  does not enforce the limit (C60), and panics on a negative one.

DDL
* A function body containing `$$` ends the quoted body (C81); a table with checks
  but no columns gives a list starting with a comma (C81); ToSQL does not
  determine the object (C36).
* parseError uses the machine's state as an offset (C65).
* `DEFERRABLE` at the end of a definition is rejected (C45); text after a ")" inside a
  CHECK can set its flags (C42); `ON DELETE` with a vertical tab (C44).
* Names must start with an ASCII letter: quoted names, names starting with "_",
  schema-qualified names, NOT VALID, triggers with WHEN or arguments are rejected,
  and one such object fails the whole inspection (C67).
* `id DESC` is parsed as an operator class; Descending is never set.
* autovacuum_vacuum_cost_delay is stored under autovacuum_vacuum_cost_limit (C39, C54);
  ParseBool rejects "on" and "off" (C54); a value is stored even if it is an error.

Database access
* All ConnectRetries+1 attempts are always made and only the last one counts; a
  negative number gives a nil connection and no error (C50).
* PGSSLMODE is ignored when a password is known (C48).
* `rows.Err` is never looked at: a listing cut short is returned as complete (C51).
* SortIndexes and SortChecks have no effect (C52).
* Tables, functions and sequences that the search path does not find are omitted from listings and inspections
  (C95, C96, C101), and so are sequences no column owns (C96).
* Overloaded functions, and foreign keys to one table on the same columns, come in any order, so that two
  inspections of one database can differ (C102); DescribeFunction of an overloaded function describes any one of them (C104).
* DescribeTrigger also finds the internal triggers of foreign keys and then fails on their definition (C106).
* Definitions as PostgreSQL prints them (C107-C111): foreign keys with both ON UPDATE and ON DELETE, DEFERRABLE but not
  INITIALLY DEFERRED, NOT VALID, or with a name that is quoted, qualified or starts with an underscore are rejected, and with
  one of them in view the whole inspection fails; likewise triggers with WHEN, arguments or transition tables and ordinary constraint
  triggers (NOT DEFERRABLE), checks with NO INHERIT or NOT VALID, indexes with COLLATE, NULLS, INCLUDE, WITH or an expression
  after the first key.  A DESC key is described as ascending with an operator class DESC; an index expression can end
  at a `)` in a text, the rest becoming its WHERE clause; a check with the text `) deferrable ` in it is described as deferrable.
* A text that is not UTF-8 is changed when a description is written (C112); the attribute for the vacuum cost delay is
  called `autovacuum_vacuum_cost_limit`, and `autovacuum_vacuum_cost_delay` is refused (C113, C116).
* Parts of a table that does not exist are an empty list, not an error (C103).

Command line
* `-v` mixes log lines into standard output (C69).
* `runbook dot -O` empties a runbook called `*.dot`; dot and eval empty the output
  before the runbook is read (C57); dot drops a write error (C70).
* `pgutil runbook --debug -v FILE` runs FILE, without a debug log and with -v counted twice (C120): kingpin puts the words back
  twice when the default subcommand takes over.  Errors go to standard output (C121).  `-p 010` is port 8 (C122), and `-o -`
  is refused although `-` means standard output to the commands.
* A refused line, or one that asks for the usage, can leave an empty debug log behind, `runbook list --debug=x x` is accepted for a file x that does not exist while
  `runbook list x --debug=x` is refused, and a debug log that is also the output is lost (C123-C125).

## 8. Wrong programs

`tools/mutate.py` applies edits to a copy of the development, rebuilds what depends on
the edited file and reports which theorems fail; a theorem counts as failed if it or a lemma it uses no
longer proves.  `seeded/LOG.jsonl` has one line per edit.  Edits that no theorem
noticed led to C76 and C78-C82 and to stronger statements of C57, C70 and C71.
