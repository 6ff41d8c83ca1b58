{"id": "C01", "title": "Topological sort is a valid dependency order", "statement": "When TSort reports no cycle, its result lists every node of the graph exactly once and nothing else, and every node appears after all nodes it has an edge to.", "quantifier": "every finite directed graph (any number of nodes, any edges, any node names)", "why_tests_cant": "A test can only sort particular graphs; the ordering must hold for every shape and size.", "anchors": ["internal/dag/tsort.go:TSort", "internal/dag/tsort.go:visitor.visit"]}
{"id": "C02", "title": "Cycle detection is exact and terminates", "statement": "TSort terminates on every graph, and it reports a cycle if and only if the graph contains one (some node reaches itself through one or more edges).", "quantifier": "every finite directed graph", "why_tests_cant": "Both directions quantify over all graphs: absence of false alarms and of missed cycles cannot be sampled.", "anchors": ["internal/dag/tsort.go:TSort", "internal/dag/tsort.go:visitor.visit"]}
{"id": "C03", "title": "The reported cycle is a real cycle", "statement": "When TSort reports a cycle on a graph with no node named \"\", the reported list is non-empty, free of repetitions, and closing it up gives edges of the graph between all neighbours (listed against edge direction). The unrestricted claim is false: with a node named \"\" the report can be the empty list.", "quantifier": "every finite directed graph with a cycle", "why_tests_cant": "The list is assembled while unwinding a recursion; only an induction covers every depth and every entry point into the cycle.", "anchors": ["internal/dag/tsort.go:visitor.visit", "internal/dag/errors.go:CircularDependencyError"]}
{"id": "C04", "title": "Graph results do not depend on map iteration order", "statement": "For the same input map, TSort returns the same result and the same cycle report, and NewDirectedGraph / NewDependencyGraph make the same accept/reject decision, for every order in which Go may iterate the maps.", "quantifier": "every graph and every pair of iteration orders", "why_tests_cant": "Go randomises the order per run; a test sees a few of factorially many orders.", "anchors": ["internal/dag/tsort.go:TSort", "internal/dag/directed.go:NewDirectedGraph", "internal/dag/dependency.go:NewDependencyGraph"]}
{"id": "C05", "title": "Graph construction keeps exactly the given nodes and edges", "statement": "NewDirectedGraph succeeds iff every listed edge target is itself a listed node; on success the graph has exactly the given nodes and edges; on failure the error names a listed node together with one of its listed edges that is not a node.", "quantifier": "every map from node names to lists of node names", "why_tests_cant": "An exact iff over all inputs, including duplicates and self edges.", "anchors": ["internal/dag/directed.go:NewDirectedGraph", "internal/dag/errors.go:InvalidEdgeError"]}
{"id": "C06", "title": "Graph edits behave like a set of nodes and a set of edges", "statement": "After any sequence of AddEdge, AddEdges, RemoveEdge and RemoveNode, HasNode and OutDegree answer as a mathematical (nodes, edges) pair edited the obvious way would, and no edge ever leads to a node that is not in the graph.", "quantifier": "every sequence of edit operations from the empty graph or any constructed graph", "why_tests_cant": "The claim ranges over unbounded operation histories.", "anchors": ["internal/dag/directed.go:AddEdge", "internal/dag/directed.go:AddEdges", "internal/dag/directed.go:RemoveEdge", "internal/dag/directed.go:RemoveNode", "internal/dag/directed.go:HasNode", "internal/dag/directed.go:OutDegree", "internal/dag/nodeset.go:NodeSet"]}
{"id": "C07", "title": "A task is released only after all of its dependencies, and only once", "statement": "Whatever sequence of names is passed to DependencyGraph.Next, a task is returned only when every one of its dependencies has been passed to Next before (or in that call), and no task is returned twice.", "quantifier": "every acyclic dependency map and every sequence of Next calls", "why_tests_cant": "Histories are unbounded; a single bad order would start a task too early.", "anchors": ["internal/dag/dependency.go:NewDependencyGraph", "internal/dag/dependency.go:Next"]}
{"id": "C08", "title": "Driving the dependency graph to the end releases every task", "statement": "If the caller starts with Next(x) for a name x that is no task and keeps calling Next with released, not yet completed tasks in any order, the loop ends only when every task was released exactly once, and HasPending is false exactly then.", "quantifier": "every acyclic dependency map and every completion order", "why_tests_cant": "A lost task would show only for particular graph shapes and completion orders.", "anchors": ["internal/dag/dependency.go:Next", "internal/dag/dependency.go:HasPending"]}
{"id": "C09", "title": "Next returns every task that can be started", "statement": "The documented contract that Next returns the tasks that can be started given previously completed tasks: after Next, no unreleased task has all its dependencies completed. (False of the code: a startable task directly behind a returned one is skipped. What holds: a call that returns nothing leaves no startable task behind.)", "quantifier": "every acyclic dependency map and every sequence of Next calls", "why_tests_cant": "The skipped element depends on positions in the internal list; no finite test set covers all arrangements.", "anchors": ["internal/dag/dependency.go:Next"]}
{"id": "C10", "title": "Scheduler releases a task only after its dependencies completed", "statement": "In every run of the scheduler, a task handed out by New or Next has all tasks in its After list among the completions reported so far, provided no task is named \"\". (With a task named \"\" this is false: its dependents are handed out before it completes.)", "quantifier": "every valid runbook and every order in which completions are reported", "why_tests_cant": "Depends on the interleaving of completions of all targets.", "anchors": ["internal/runbook/scheduler/scheduler.go:New", "internal/runbook/scheduler/scheduler.go:Next", "internal/runbook/scheduler/scheduler.go:fillPending"]}
{"id": "C11", "title": "Scheduler never exceeds a target's concurrency limit", "statement": "At every moment, for every target, the number of tasks handed out for it and not yet reported complete is at most the target's ConcurrencyLimit (at most zero for limits below one).", "quantifier": "every runbook, every completion order, every target", "why_tests_cant": "A capacity bug shows only in particular completion orders.", "anchors": ["internal/runbook/scheduler/scheduler.go:buildReady", "internal/runbook/scheduler/scheduler.go:Next"]}
{"id": "C12", "title": "Every task is handed out at most once, to its own target", "statement": "Across New and all Next calls of a run no task is handed out twice, only tasks of the runbook are handed out, and each under the target named in its Target field.", "quantifier": "every runbook and completion order", "why_tests_cant": "Quantifies over all histories.", "anchors": ["internal/runbook/scheduler/scheduler.go:buildReady", "internal/runbook/scheduler/scheduler.go:fillPending"]}
{"id": "C13", "title": "The scheduler never stalls and ends exactly when everything was handed out", "statement": "If every task's target exists and has a limit of at least one, then whenever tasks remain that were not handed out, at least one handed-out task is still in flight; Next answers ErrNoPendingTasks iff every task has been handed out; hence every run in which completions keep arriving hands out every task.", "quantifier": "every valid acyclic runbook and every completion order", "why_tests_cant": "A liveness claim over all graphs, capacities and orders; additionally the graph layer may skip startable tasks, so it is not obvious.", "anchors": ["internal/runbook/scheduler/scheduler.go:Next", "internal/runbook/scheduler/scheduler.go:noPendingTasks", "internal/runbook/scheduler/scheduler.go:buildReady", "internal/dag/dependency.go:Next"]}
{"id": "C14", "title": "Scheduler construction rejects exactly the unexecutable runbooks", "statement": "scheduler.New fails iff some After entry names no task or the After relation has a cycle.", "quantifier": "every set of targets and tasks", "why_tests_cant": "Iff over all inputs.", "anchors": ["internal/runbook/scheduler/scheduler.go:New", "internal/dag/dependency.go:NewDependencyGraph"]}
{"id": "C15", "title": "Scheduler answers do not depend on map iteration order", "statement": "For the same runbook and the same completion sequence, the sets handed out by New and by each Next (per target, in order) are the same for every map iteration order.", "quantifier": "every runbook, completion sequence and family of iteration orders", "why_tests_cant": "Iteration order is randomised by the runtime.", "anchors": ["internal/runbook/scheduler/scheduler.go:New", "internal/runbook/scheduler/scheduler.go:buildReady", "internal/runbook/scheduler/scheduler.go:fillPending", "internal/runbook/scheduler/scheduler.go:noPendingTasks"]}
{"id": "C16", "title": "A runbook task runs at most once, on its target, after everything it depends on succeeded", "statement": "In every execution of Run, under every interleaving of its goroutines, Handle is called at most once per task, on the target the task names, and only after Handle returned without error for every task in its After list (no task named \"\").", "quantifier": "every runbook, every outcome of the tasks, every goroutine schedule", "why_tests_cant": "Concurrent schedules are unbounded and cannot be enumerated by tests.", "anchors": ["internal/runbook/runner.go:run", "internal/runbook/runner.go:startScheduler", "internal/runbook/runner.go:startTargets", "internal/runbook/runner.go:startTargetGoroutine"]}
{"id": "C17", "title": "A target handles one task at a time", "statement": "In every execution, no two Handle calls on the same target overlap, whatever its concurrency setting.", "quantifier": "every runbook and every goroutine schedule", "why_tests_cant": "Mutual exclusion over all schedules.", "anchors": ["internal/runbook/runner.go:startTargetGoroutine"]}
{"id": "C18", "title": "Run reports success only if every task ran successfully", "statement": "If Run returns nil then every task was handled and returned no error. (False as it stands: for a circular or dangling After the scheduler's error is dropped and Run returns nil with nothing run. Proved for every runbook whose After relation is acyclic and closed.)", "quantifier": "every runbook and every goroutine schedule", "why_tests_cant": "Needs all schedules, including completion messages still buffered at shutdown.", "anchors": ["internal/runbook/runner.go:run", "internal/runbook/runner.go:startScheduler", "internal/runbook/scheduler/scheduler.go:New"]}
{"id": "C19", "title": "Run's error is the error of a task that really failed", "statement": "If Run returns an error and every target started, it is the error returned by Handle of some task of the runbook; and if any handled task failed by the time Run returns, Run does not return nil.", "quantifier": "every runbook, outcome assignment and schedule", "why_tests_cant": "Error propagation through three channels under all interleavings.", "anchors": ["internal/runbook/runner.go:run", "internal/runbook/runner.go:startTargetGoroutine"]}
{"id": "C20", "title": "Run terminates without deadlock", "statement": "For every runbook with at least one task, whose After relation is acyclic and closed, with existing targets of limit at least one, Run terminates under every schedule if either no task fails or every limit is one. (False in general: an empty runbook deadlocks, and a failing task on a target of limit two or more can deadlock.)", "quantifier": "every runbook in the stated class and every goroutine schedule, of any length", "why_tests_cant": "Deadlock freedom and termination over all interleavings.", "anchors": ["internal/runbook/runner.go:run", "internal/runbook/runner.go:startScheduler", "internal/runbook/runner.go:startTargets", "internal/runbook/runner.go:startTargetGoroutine"]}
{"id": "C21", "title": "Channel discipline: no panic and no blocking on the buffered channels", "statement": "In every execution no goroutine sends on a closed channel or closes a channel twice, and a send on done, ended or ready never finds its buffer full.", "quantifier": "every runbook and every schedule", "why_tests_cant": "A capacity argument over all reachable states.", "anchors": ["internal/runbook/runner.go:newRunner", "internal/runbook/runner.go:closeDone", "internal/runbook/runner.go:run"]}
{"id": "C22", "title": "Every started target is stopped exactly once, after its last task", "statement": "When Run returns after all targets started, Stop has been called exactly once on every target and never before or during one of its Handle calls.", "quantifier": "every runbook and every schedule", "why_tests_cant": "Ordering property over all schedules.", "anchors": ["internal/runbook/runner.go:startTargetGoroutine", "internal/runbook/runner.go:startTargets"]}
{"id": "C23", "title": "Nothing downstream of a failed task ever runs", "statement": "In every execution, once a task fails, no task that depends on it directly or transitively is ever handled.", "quantifier": "every runbook, failing task and schedule", "why_tests_cant": "Unrelated tasks may still start after the failure, so this needs an invariant rather than a stop flag.", "anchors": ["internal/runbook/runner.go:run", "internal/runbook/scheduler/scheduler.go:Next"]}
{"id": "C24", "title": "A target that fails to start prevents tasks from running", "statement": "If some target's Start fails then Run returns that error and no task is handled. (Only the first half holds: tasks of targets started earlier can still be handled after Run returned.)", "quantifier": "every runbook, failing target, start order and schedule", "why_tests_cant": "Needs the schedules in which other goroutines continue after run returned.", "anchors": ["internal/runbook/runner.go:startTargets", "internal/runbook/runner.go:run"]}
{"id": "C25", "title": "A parsed runbook is well formed", "statement": "If Parse succeeds, every task names an existing target, every target passed Analyze and every task config passed Check; in particular every ConcurrencyLimit is at least one, every pg task has SQL and every sh task has a permitted command, so running them cannot index out of range.", "quantifier": "every decoded runbook document", "why_tests_cant": "Holds for every document, not for sampled ones.", "anchors": ["internal/runbook/parser/parser.go:loadTargets", "internal/runbook/parser/parser.go:loadTasks", "internal/runbook/sh/exec.go:Check", "internal/runbook/pg/exec.go:Check", "internal/runbook/pg/pg.go:Analyze", "internal/runbook/sh/sh.go:Analyze"]}
{"id": "C26", "title": "Parsing does not depend on map iteration order", "statement": "For documents without null entries, whether Parse succeeds and the runbook it returns are the same for every iteration order of the decoded maps (only the choice among several errors may differ).", "quantifier": "every decoded document and every pair of iteration orders", "why_tests_cant": "Randomised iteration.", "anchors": ["internal/runbook/parser/parser.go:loadTargets", "internal/runbook/parser/parser.go:loadTasks"]}
{"id": "C27", "title": "Parsing never crashes on a well-typed document", "statement": "Parse returns a runbook or an error for every JSON document. (False: a null target or task entry dereferences a nil pointer. Proved: it is the only way to crash.)", "quantifier": "every decoded document", "why_tests_cant": "Exhaustiveness over all documents.", "anchors": ["internal/runbook/parser/parser.go:loadTargets", "internal/runbook/parser/parser.go:loadTasks"]}
{"id": "C28", "title": "Task targets are split at the first slash", "statement": "A task's target string t/c selects target t and class c where t is everything before the first slash and c everything after it; without a slash the class is empty.", "quantifier": "every target string", "why_tests_cant": "All strings, including several slashes and leading slashes.", "anchors": ["internal/runbook/parser/parser.go:loadTasks"]}
{"id": "C29", "title": "Env.Set always wins", "statement": "For every variable in Set whose name is well formed, the resulting environment assigns it exactly the configured value, whatever the inherited environment, Allow and Deny say.", "quantifier": "every Env and every inherited environment", "why_tests_cant": "All combinations of lists, duplicates and orders.", "anchors": ["internal/runbook/sh/env.go:Apply"]}
{"id": "C30", "title": "Env.Apply filters exactly as Allow and Deny say", "statement": "An inherited entry whose variable is not in Set survives, unchanged and in its original relative order, iff Allow is non-empty and contains the variable, or Allow is empty and Deny does not contain it; the only other entries in the result are those of Set.", "quantifier": "every Env and every inherited environment", "why_tests_cant": "Exact characterisation over all inputs.", "anchors": ["internal/runbook/sh/env.go:Apply"]}
{"id": "C31", "title": "Env.Apply is idempotent and order independent", "statement": "Applying an Env twice has the same result as applying it once up to the order of added variables, and the result is the same up to that order for every map iteration order (for well formed Set names).", "quantifier": "every Env, environment and iteration order", "why_tests_cant": "Randomised iteration and arbitrary inputs.", "anchors": ["internal/runbook/sh/env.go:Apply", "internal/runbook/sh/sh.go:Start", "internal/runbook/sh/exec.go:exec"]}
{"id": "C32", "title": "Shell commands are restricted to explicit or PATH commands", "statement": "Exec.Check accepts iff there is at least one argument and the command contains no slash or starts with /, ./ or ../.", "quantifier": "every argument list", "why_tests_cant": "All strings.", "anchors": ["internal/runbook/sh/exec.go:Check", "internal/runbook/sh/exec.go:validateArg0"]}
{"id": "C33", "title": "rev and rot13 are involutions", "statement": "Running rev twice or rot13 twice restores the target string, for every valid UTF-8 string. (False for invalid UTF-8, whose bytes are replaced once; from then on it holds.)", "quantifier": "every byte string", "why_tests_cant": "All strings of all lengths, including multi-byte characters.", "anchors": ["internal/runbook/demo/tasks.go:Rev.munge", "internal/runbook/demo/tasks.go:Rot13.munge", "internal/taskset/demo/rev.go:exec", "internal/taskset/demo/rot13.go:exec"]}
{"id": "C34", "title": "Demo tasks commute", "statement": "The final string of a demo target depends only on how many rev and rot13 tasks ran, not on the order in which they ran.", "quantifier": "every byte string and every two orders of the same multiset of tasks", "why_tests_cant": "All permutations and all strings.", "anchors": ["internal/runbook/demo/tasks.go:Rev.munge", "internal/runbook/demo/tasks.go:Rot13.munge"]}
{"id": "C35", "title": "Quoted identifiers are safe and reversible", "statement": "quoteName / Identifier output is one SQL quoted identifier denoting exactly the given name: the SQL lexer's unquoting gives the name back and the token ends exactly at the last character, whatever the name contains; distinct names have distinct quotations.", "quantifier": "every name and every following text", "why_tests_cant": "An injection claim over all strings.", "anchors": ["internal/ddl/util.go:quoteName", "internal/pg/util.go:Identifier"]}
{"id": "C36", "title": "Generated SQL loses no identifying information", "statement": "ToSQL of a primary-key index determines the table, constraint name and key columns; ToSQL of a table determines its name and column names; ToSQL of a trigger determines its name and events. (Partly false: column names are lost when a type or default contains a line break; INSERT, DELETE and TRUNCATE triggers are all written without an event and UPDATE OF columns are dropped; a non-primary index is written as an empty statement; schemas and foreign keys are never written.)", "quantifier": "every pair of definitions", "why_tests_cant": "Injectivity over all values.", "anchors": ["internal/ddl/index.go:ToSQL", "internal/ddl/table.go:ToSQL", "internal/ddl/trigger.go:ToSQL", "internal/ddl/function.go:ToSQL"]}
{"id": "C37", "title": "Whitespace normalisation is canonical", "statement": "collapseWhitespace changes nothing but runs of whitespace, leaves no two adjacent spaces, tabs, newlines, form feeds or carriage returns, and is idempotent; trim removes exactly the surrounding white space.", "quantifier": "every string", "why_tests_cant": "All strings.", "anchors": ["internal/ddl/parser_utils.go:collapseWhitespace", "internal/ddl/parser_utils.go:trim"]}
{"id": "C38", "title": "Parse error rendering points at the offset it was given", "statement": "For every text and offset inside it that is not a line break, Error prints the line containing the offset and a caret below exactly that column; it terminates and never slices out of range for any offset. (At a line break it shows the next line with the caret in column one; and the parsers pass a state number, not an offset.)", "quantifier": "every text and every non-negative offset", "why_tests_cant": "All texts and offsets.", "anchors": ["internal/ddl/parser_utils.go:parseError.Error"]}
{"id": "C39", "title": "Storage parameters are set independently", "statement": "TableStorageParameters.Set changes at most the one field its key names, unknown keys change nothing and give no error, and after a sequence of successful Sets each field holds the value of its last Set.", "quantifier": "every sequence of key/value pairs", "why_tests_cant": "All sequences and values.", "anchors": ["internal/ddl/table_storage_parameters.go:Set"]}
{"id": "C40", "title": "ParseCheck accepts exactly its grammar", "statement": "ParseCheck succeeds iff the text has the documented form: CHECK, a parenthesised body, an optional deferral suffix, surrounding space, with keywords in any case.", "quantifier": "every byte string", "why_tests_cant": "Language equality between the generated automaton and the grammar, over all strings.", "anchors": ["internal/ddl/check_parser.go:ParseCheck", "internal/ddl/check_parser.rl"]}
{"id": "C41", "title": "ParseCheck extracts the whole expression", "statement": "When ParseCheck succeeds, Expression is the trimmed text between the first opening and the last closing parenthesis, and extraction never slices out of range.", "quantifier": "every accepted string", "why_tests_cant": "Arbitrary nesting and content.", "anchors": ["internal/ddl/check_parser.go:ParseCheck", "internal/ddl/check.go:setExpression"]}
{"id": "C42", "title": "ParseCheck deferral flags describe the suffix", "statement": "Deferrable / InitiallyDeferred are set iff the text after the last closing parenthesis says so. (False: matching text inside the expression also sets them. Proved: the exact condition under which they are set.)", "quantifier": "every accepted string", "why_tests_cant": "Requires reasoning about all prefixes the automaton has scanned.", "anchors": ["internal/ddl/check_parser.go:ParseCheck"]}
{"id": "C43", "title": "ParseForeignKey accepts exactly its grammar and extracts its parts", "statement": "ParseForeignKey succeeds iff the text matches the grammar, and the result holds exactly the column names, table, referenced names, match type, actions and deferral flags written in the text, in order.", "quantifier": "every byte string and every decomposition of it according to the grammar", "why_tests_cant": "All lists of identifiers of all lengths, all spacings and cases.", "anchors": ["internal/ddl/foreign_key_parser.go:ParseForeignKey", "internal/ddl/foreign_key_parser.rl", "internal/ddl/foreign_key.go"]}
{"id": "C44", "title": "Foreign key actions are canonical", "statement": "OnDelete and OnUpdate of a parsed foreign key are empty or one of NO ACTION, RESTRICT, CASCADE, SET NULL, SET DEFAULT. (False when the words are separated by a vertical tab; proved otherwise.)", "quantifier": "every accepted string", "why_tests_cant": "All spacings.", "anchors": ["internal/ddl/foreign_key.go:setOnDelete", "internal/ddl/foreign_key.go:setOnUpdate", "internal/ddl/parser_utils.go:collapseWhitespace"]}
{"id": "C45", "title": "A deferrable constraint definition is accepted", "statement": "A foreign key or check definition ending in DEFERRABLE (as PostgreSQL prints it) is accepted with Deferrable set. (False: every such text without trailing white space is rejected unless preceded by NOT.)", "quantifier": "every constraint definition ending in the keyword", "why_tests_cant": "Universal rejection claim over all strings.", "anchors": ["internal/ddl/foreign_key_parser.go:ParseForeignKey", "internal/ddl/check_parser.go:ParseCheck"]}
{"id": "C46", "title": "ParseIndex accepts exactly its grammar, extracts its parts and never crashes", "statement": "ParseIndex succeeds iff the text matches the grammar, with name, table, method, keys (columns or expressions with operator classes, in order), uniqueness and predicate exactly as written; for no input does it index an empty key list.", "quantifier": "every byte string", "why_tests_cant": "All strings, key counts and spacings.", "anchors": ["internal/ddl/index_parser.go:ParseIndex", "internal/ddl/index_parser.rl", "internal/ddl/index.go:setOpClass"]}
{"id": "C47", "title": "ParseTrigger accepts exactly its grammar and extracts its parts", "statement": "ParseTrigger succeeds iff the text matches the grammar, with name, timing, events, update columns, table, deferral, row level and function exactly as written.", "quantifier": "every byte string", "why_tests_cant": "All strings, event lists and spacings.", "anchors": ["internal/ddl/trigger_parser.go:ParseTrigger", "internal/ddl/trigger_parser.rl", "internal/ddl/trigger.go"]}
{"id": "C48", "title": "The SSL mode is honoured", "statement": "With sslmode require or verify-full no connection attempt is made without TLS; with verify-full the certificate and host name are checked; with disable no attempt uses TLS; when a password is known and no mode is given the behaviour is verify-full; unknown modes are rejected before connecting.", "quantifier": "every combination of options and environment", "why_tests_cant": "Security policy over all option combinations.", "anchors": ["internal/pg/pg.go:New", "internal/pg/pg.go:applySSLMode"]}
{"id": "C49", "title": "Explicit options take precedence over the environment", "statement": "Each connection setting is the explicit option when non-empty (non-zero), otherwise the environment's.", "quantifier": "every combination of options and environment", "why_tests_cant": "All combinations.", "anchors": ["internal/pg/pg.go:New"]}
{"id": "C50", "title": "Connecting succeeds as soon as an attempt succeeds", "statement": "New returns a connection if any of its attempts succeeds, opens no more connections than needed, and waits longer after each failure. (All false: all ConnectRetries+1 attempts are always made, only the last one's outcome counts, earlier connections leak, a negative retry count yields no connection and no error, and the waits are 100, 200, 300, 0, 100, 600, 700, ... ms.)", "quantifier": "every retry count and every sequence of attempt outcomes", "why_tests_cant": "All outcome sequences.", "anchors": ["internal/pg/pg.go:New"]}
{"id": "C51", "title": "A listing is complete or an error", "statement": "Each List function either returns one entry per row the server holds, in order, or an error. (False: a failure while fetching rows ends the loop and the rows so far are returned without error. Proved when fetching does not fail.)", "quantifier": "every result set and every position at which fetching, scanning or parsing may fail", "why_tests_cant": "All fault positions.", "anchors": ["internal/pg/check.go:ListChecks", "internal/pg/columns.go:ListColumns", "internal/pg/foreign_key.go:ListForeignKeys", "internal/pg/index.go:ListIndexes", "internal/pg/tables.go:ListTables"]}
{"id": "C52", "title": "Sort options order their listings", "statement": "With the sort options, columns are ordered by name, indexes by schema, table and name, checks by expression, without losing or duplicating entries. (Only columns are; the index order is a no-op within a schema and the sorted checks are discarded.)", "quantifier": "every listing", "why_tests_cant": "All listings and sizes.", "anchors": ["internal/pg/inspect.go:InspectDatabase"]}
{"id": "C53", "title": "Search path entries are split faithfully", "statement": "ListParameters' search path entries joined by commas give back the server's setting.", "quantifier": "every setting string", "why_tests_cant": "All strings.", "anchors": ["internal/pg/parameters.go:ListParameters"]}
{"id": "C54", "title": "Storage parameters read from the server are all applied", "statement": "ListTableStorageParameters splits each option at its first equals sign and applies it; later options for the same key win; an invalid value makes the listing fail.", "quantifier": "every list of option strings", "why_tests_cant": "All lists.", "anchors": ["internal/pg/table_storage_parameters.go:ListTableStorageParameters", "internal/ddl/table_storage_parameters.go:Set"]}
{"id": "C55", "title": "Verbosity selects log levels monotonically", "statement": "A message is shown on the default log iff its level is enabled for verbosity 1 + (-v count) - (-q count): errors always, warnings from 1, info from 2, debug from 3; the debug log receives every message regardless.", "quantifier": "every count of -v and -q and every level", "why_tests_cant": "All counts including negative verbosity.", "anchors": ["internal/logger/logger.go:New", "internal/cli/cli.go:Parse"]}
{"id": "C56", "title": "runbook list prints every task once, sorted and aligned", "statement": "The output lists every task exactly once in byte order with its target, and all targets start in the same column counted in characters, at least two blanks after the task, for every map iteration order, also with non-ASCII names. (For names up to a million bytes, the limit of fmt.)", "quantifier": "every set of tasks and every iteration order", "why_tests_cant": "All sets and orders.", "anchors": ["internal/commands/runbook_list.go:Run", "internal/runbook/runbook.go:List"]}
{"id": "C57", "title": "Output files are chosen and protected sensibly", "statement": "runbook dot -O writes next to the input with extension .dot and never touches the input; a failing command leaves existing output intact. (Both false: an input already named .dot is truncated before it is read, and the output file is truncated before parsing.)", "quantifier": "every file name and file system state", "why_tests_cant": "All names.", "anchors": ["internal/commands/runbook_dot.go:Run", "internal/commands/runbook_eval.go:Run", "internal/commands/inspect.go:Run"]}
{"id": "C58", "title": "Every submitted task yields exactly one result", "statement": "In RunTasks, at every moment the submitted tasks are exactly those waiting, running, finished but undelivered, or delivered; no result is lost, duplicated or invented.", "quantifier": "every sequence of batches and every goroutine schedule", "why_tests_cant": "Conservation over all interleavings.", "anchors": ["internal/taskset/base/base.go:RunTasks"]}
{"id": "C59", "title": "The result channel is closed once all results were delivered", "statement": "After the queue is closed and all submitted tasks finished, results is closed exactly once, after the last result. (False when nothing is running when the close is noticed: results is never closed. Proved otherwise.)", "quantifier": "every sequence of batches and every schedule", "why_tests_cant": "Depends on the race between the last result and the close.", "anchors": ["internal/taskset/base/base.go:RunTasks"]}
{"id": "C60", "title": "MaxConcurrency bounds the running tasks", "statement": "At most MaxConcurrency tasks of a RunTasks target run at a time. (False: every task of a received batch is started at once.)", "quantifier": "every batch and schedule", "why_tests_cant": "All schedules.", "anchors": ["internal/taskset/base/base.go:RunTasks", "internal/taskset/demo/demo.go:Start"]}
{"id": "C61", "title": "Task dependencies keep task and resource names apart", "statement": "Dependencies lists the After tasks tagged with the task: prefix followed by the Require resources, in order, and both lists can be recovered when no resource starts with the prefix.", "quantifier": "every After and Require list", "why_tests_cant": "All lists.", "anchors": ["internal/taskset/base/base.go:Dependencies"]}
{"id": "C62", "title": "The environment of a command is the target's settings overridden by the task's", "statement": "For every well formed variable name, the command of an exec task sees the task's Set value if there is one; otherwise, if the task's Allow/Deny lets the variable through, the target's Set value, or the inherited value if the target lets it through; a variable the task does not let through is not visible at all, even if the target sets it.", "quantifier": "every target Env, task Env and inherited environment", "why_tests_cant": "Two filters composed over arbitrary environments with duplicates and odd entries.", "anchors": ["internal/runbook/sh/sh.go:Start", "internal/runbook/sh/exec.go:exec", "internal/runbook/sh/env.go:Apply"]}
{"id": "C63", "title": "rev reverses characters and rot13 rotates letters", "statement": "For every text, rev yields the text with its characters (not bytes) in reverse order and rot13 moves each ASCII letter 13 places round the alphabet and leaves everything else alone; the result is always valid UTF-8 with as many characters.", "quantifier": "every sequence of Unicode characters, and every byte string", "why_tests_cant": "All strings with one to four byte characters, of even and odd length.", "anchors": ["internal/runbook/demo/tasks.go:Rev.munge", "internal/runbook/demo/tasks.go:Rot13.munge"]}
{"id": "C64", "title": "A runbook that parses runs to completion, in full or with a real error", "statement": "If Parse accepts a document with at least one task, all targets start and failing tasks are only on targets of limit one, then every execution of Run on it ends with Run returned and all goroutines finished; if it returned nil and After is closed and acyclic, every task of the document ran successfully; if it returned an error, that is the error of a task of the document.", "quantifier": "every document Parse accepts, every outcome of its tasks and every goroutine schedule", "why_tests_cant": "Connects what the parser guarantees with what the runner needs, for all documents and schedules.", "anchors": ["internal/runbook/runbook.go:Run", "internal/runbook/parser/parser.go:Parse", "internal/runbook/runner.go:run"]}
{"id": "C65", "title": "A parse error points at the text that could not be parsed", "statement": "The offset in the error of ParseCheck, ParseForeignKey, ParseIndex and ParseTrigger is that of the first byte at which no accepted text is possible any more. (False: it is the number of the automaton's state, 0 whenever such a byte exists. Proved: it is 0 iff no continuation of the text would be accepted.)", "quantifier": "every rejected string", "why_tests_cant": "Quantifies over all continuations of all strings.", "anchors": ["internal/ddl/parser_utils.go:parseError", "internal/ddl/check_parser.go:ParseCheck", "internal/ddl/foreign_key_parser.go:ParseForeignKey", "internal/ddl/index_parser.go:ParseIndex", "internal/ddl/trigger_parser.go:ParseTrigger"]}
{"id": "C66", "title": "Inspection describes the whole database or fails", "statement": "InspectDatabase either returns an error or a description with every schema, function, sequence, table, column, check, foreign key, storage parameter, index and trigger the server holds, each as its row says; it never panics, and it succeeds when every query succeeds and every definition can be read. (Provided no fetch fails half way, see C51.)", "quantifier": "every database contents, every combination of failing queries and rows, every sorting algorithm within sort.Slice's contract", "why_tests_cant": "All contents and fault positions.", "anchors": ["internal/pg/inspect.go:InspectDatabase"]}
{"id": "C67", "title": "One definition outside the parsers' reach makes the whole inspection fail", "statement": "If any listed table has a foreign key or trigger whose definition contains a byte outside letters, digits, _, blanks, comma and parentheses (hence any quoted or schema-qualified name), an index definition with such a name before its first parenthesis, or a check or foreign key whose definition ends in DEFERRABLE (not NOT DEFERRABLE), InspectDatabase returns an error, whatever else the database contains.", "quantifier": "every database, every such definition at every position", "why_tests_cant": "All databases and all definitions.", "anchors": ["internal/pg/inspect.go:InspectDatabase", "internal/ddl/foreign_key_parser.rl", "internal/ddl/index_parser.rl", "internal/ddl/trigger_parser.rl"]}
{"id": "C68", "title": "Describe functions tell absence from failure", "statement": "DescribeTrigger and DescribeFunction return ErrNotFound exactly when the server has no such row; otherwise the description the row's definition gives, or another error; they never panic.", "quantifier": "every server answer and every definition text", "why_tests_cant": "All definition texts.", "anchors": ["internal/pg/triggers.go:DescribeTrigger", "internal/pg/functions.go:DescribeFunction"]}
{"id": "C69", "title": "Standard output carries the command's output only", "statement": "Log messages never mix with what a command writes to standard output. (Proved for verbosity 1 and less when nothing above info level is logged; false with -v: the default log is standard output and at least the version line precedes the output, so `pgutil -v runbook eval` does not print JSON.)", "quantifier": "every command trace and every count of -v and -q", "why_tests_cant": "All commands and flag counts.", "anchors": ["internal/cli/cli.go:Parse", "internal/logger/logger.go:New"]}
{"id": "C70", "title": "Output that could not be written is an error", "statement": "A command that returns nil has written its whole output. (Proved for runbook eval and inspect; false for runbook dot, which drops the result of Write.)", "quantifier": "every file system state and every failure of open and write", "why_tests_cant": "All fault positions.", "anchors": ["internal/runbook/runbook.go:Dot", "internal/runbook/runbook.go:Eval", "internal/commands/inspect.go:Run", "internal/ddl/ddl.go:Write"]}
{"id": "C71", "title": "The graph of a runbook is the runbook's graph", "statement": "runbook dot builds one cluster per target, every task once in its target's cluster (after that cluster), and for every task exactly the edges its after list says, independent of map iteration order up to the order of calls.", "quantifier": "every runbook and every pair of iteration orders", "why_tests_cant": "All runbooks and orders.", "anchors": ["internal/runbook/runbook.go:Dot"]}
{"id": "C72", "title": "A parsed task set is well formed", "statement": "Parse of a taskset gives a group of targets for exactly the registered types, holding the default target and the declared ones, each of its group's type; for every id the task of the last block with that id, of the kind its type names, its target type registered and its target declared. An error from Parse has the reason it names.", "quantifier": "every decoded file, set of factories and settings decoder", "why_tests_cant": "All files.", "anchors": ["internal/taskset/parser/parser.go:Parse", "internal/taskset/parser/parser.go:loadTasks"]}
{"id": "C73", "title": "Declared dependencies reach the parsed task", "statement": "The after, provides and requires lists of a task block are the Dependencies and Provides of the parsed task. (False: they are always empty.)", "quantifier": "every file", "why_tests_cant": "All files.", "anchors": ["internal/taskset/parser/parser.go:loadTasks", "internal/taskset/base/base.go:Dependencies"]}
{"id": "C74", "title": "Unknown task types are rejected", "statement": "Parse rejects a task whose type is not one of its target's. (False for pg and sh, which accept every type; true for demo.)", "quantifier": "every file", "why_tests_cant": "All type names.", "anchors": ["internal/taskset/demo/demo.go:NewTask", "internal/taskset/pg/pg.go:NewTask", "internal/taskset/sh/sh.go:NewTask"]}
{"id": "C75", "title": "A sleep task sleeps as long as configured", "statement": "A demo/sleep task of a taskset sleeps the seconds given in its block. (False: the setting cannot be decoded and it always sleeps one second.)", "quantifier": "every file", "why_tests_cant": "All files.", "anchors": ["internal/taskset/demo/sleep.go:Ready"]}
{"id": "C76", "title": "The scheduler hands tasks out in queue order, up to each target's limit", "statement": "After New and any sequence of Next calls on running tasks, for each target the tasks handed out are exactly the first ones of the queue of tasks the dependency graph has released for it, and a released task is held back only while its target is running as many tasks as its limit allows.", "quantifier": "every runbook, every order of completions", "why_tests_cant": "All histories; a test sees one.", "anchors": ["internal/runbook/scheduler/scheduler.go:Next", "internal/runbook/scheduler/scheduler.go:New"]}
{"id": "C77", "title": "A task that can start is not left waiting", "statement": "Whenever a task's dependencies are complete and its target has room, Next has handed it out. (False: the dependency graph skips the entry after a removed one, so a ready task may idle. True for runbooks without dependencies; in general a call that hands out nothing while a task could start has met a full target among those of the startable tasks.)", "quantifier": "every runbook, every order of completions", "why_tests_cant": "All histories.", "anchors": ["internal/runbook/scheduler/scheduler.go:Next", "internal/dag/dependency.go:Next"]}
{"id": "C78", "title": "Parse accepts exactly the well formed documents and yields what they say", "statement": "Parse returns a runbook iff every target and task entry has a known class and type and decodable settings; the runbook then has exactly the documented targets and tasks, with their settings applied over the defaults, limits adjusted and dependencies as written.", "quantifier": "every document", "why_tests_cant": "All documents, all settings.", "anchors": ["internal/runbook/parser/parser.go:Parse", "internal/runbook/parser/parser.go:loadTasks"]}
{"id": "C79", "title": "A list of demo tasks transforms and prints the text as listed", "statement": "Running a list of demo tasks on a target whose text is well formed leaves as text the original characters, reversed if the number of rev tasks is odd and rotated if the number of rot13 tasks is odd; its output gains one line per echo task, the text at that point, and nothing else. Only fail reports an error, and it changes nothing.", "quantifier": "every list of demo tasks", "why_tests_cant": "All lists and messages.", "anchors": ["internal/runbook/demo/tasks.go:munge"]}
{"id": "C80", "title": "Generated DDL reads as the intended statement", "statement": "PostgreSQL's lexer reads the text of ToSQL as exactly one statement: ALTER TABLE ... ADD PRIMARY KEY with the table, name and key columns; CREATE TABLE with every column's name, type, NOT NULL and DEFAULT and every CHECK; CREATE TRIGGER and CREATE FUNCTION with their parts; whatever characters the quoted names contain, provided the parts copied verbatim read as complete tokens.", "quantifier": "every object, every name", "why_tests_cant": "Names are arbitrary byte strings; tests use harmless ones.", "anchors": ["internal/ddl/index.go:ToSQL", "internal/ddl/table.go:ToSQL", "internal/ddl/trigger.go:ToSQL", "internal/ddl/function.go:ToSQL"]}
{"id": "C81", "title": "Generated DDL is one well formed statement for every object", "statement": "The text of ToSQL never contains a second statement or an empty list item. (False: a function body containing $$ ends the quoted body early and what follows is read as further statements; a table with checks and no columns starts its list with a comma.)", "quantifier": "every object", "why_tests_cant": "All function bodies.", "anchors": ["internal/ddl/function.go:ToSQL", "internal/ddl/table.go:ToSQL"]}
{"id": "C82", "title": "A task set file parses to exactly what its blocks say", "statement": "Parsing a task set file succeeds exactly if every target block names a registered type and its body decodes, and every task block names a registered type, a declared target and a kind of task it has and its body decodes. The result then holds, for every type and id, the target of the last such block with its settings applied to a fresh target (limit 1, no message), a fresh default target per type unless a block names it, and for every id the task of the last block with its settings applied to an empty task. Nothing else is in it.", "quantifier": "every file, every decoder", "why_tests_cant": "All block lists, repeated ids included.", "anchors": ["internal/taskset/parser/parser.go:Parse", "internal/taskset/parser/parser.go:loadExplicitTargets", "internal/taskset/parser/parser.go:loadTasks"]}
{"id": "C83", "title": "A JSON runbook is accepted exactly if every setting in it is right, and then means what it says", "statement": "Let a JSON document (the value Jsonnet gives) give no setting, target or task twice. Parse accepts it exactly if: it is an object with no settings but Targets and Tasks; each target has no settings but Class and Config, a known class, and a Config with that class's settings only, each of the right type (ports 0-65535, integers of 64 bits without fraction or exponent) and a concurrency of at least 1; each task has no settings but After, Target, Message and Config, names a declared target and a kind of task it has, and its Config has that kind's settings only, of the right type. The book then holds each setting's given value, and the default (concurrency 1, otherwise empty) if it is absent or null. Names of settings match regardless of case.", "quantifier": "every JSON document, every order of iterating over its maps", "why_tests_cant": "All documents: any targets and tasks, any combination of settings, values and spellings.", "anchors": ["internal/runbook/parser/parser.go:Parse", "internal/runbook/parser/parser.go:loadTargets", "internal/runbook/parser/parser.go:loadTasks", "internal/runbook/pg/pg.go:Target", "internal/runbook/sh/env.go:Env"]}
{"id": "C84", "title": "A misspelt setting is never ignored", "statement": "If a runbook has a setting the program does not know, at the top, in a target, in a task, in the Config of one, or in an Env, Parse does not accept it.", "quantifier": "every JSON document in which no setting is given twice; at the top and in targets and tasks, every JSON document", "why_tests_cant": "All unknown names at all places.", "anchors": ["internal/runbook/parser/parser.go:Parse", "internal/runbook/parser/parser.go:loadTargets", "internal/runbook/parser/parser.go:loadTasks"]}
{"id": "C85", "title": "Every value given in an accepted runbook is used", "statement": "In an accepted runbook every value given for a setting, other than null, is the value of that setting in the parsed book (a sleep of less than a second becoming one second).", "quantifier": "every JSON document", "why_tests_cant": "All settings of all targets and tasks, with all values.", "anchors": ["internal/runbook/parser/parser.go:Parse", "internal/runbook/parser/parser.go:loadTargets", "internal/runbook/parser/parser.go:loadTasks"]}
{"id": "C86", "title": "A run does exactly what the runbook says", "statement": "In every execution of Run on an accepted runbook, a handled task does, in this order and once: its message if it has one, then its statement on its pg target's connection, its command in the runbook's directory with the environment its target and settings give, or its line or pause; a task that is not handled does nothing and nobody else does anything. If Run returns nil every task has done so. If the runbook is accepted, in order and not empty, and every connection, statement and command succeeds, every execution ends with Run returning nil.", "quantifier": "every accepted runbook, every host, every interleaving", "why_tests_cant": "Quantifies over runbooks, environments and interleavings, and is about what reaches the outside.", "anchors": ["internal/runbook/runbook.go:Run", "internal/runbook/runner.go:run", "internal/runbook/pg/pg.go:Handle", "internal/runbook/sh/exec.go:exec", "internal/runbook/demo/tasks.go:munge"]}
{"id": "C87", "title": "Effects follow the order of the tasks", "statement": "When a task says, sends, runs or prints anything, every task it is after, directly or through others, has done everything it ever does and has succeeded (no task named \"\").", "quantifier": "every runbook without a task named \"\", every host, every interleaving", "why_tests_cant": "Depends on every interleaving of the goroutines.", "anchors": ["internal/runbook/runner.go:run", "internal/runbook/scheduler/scheduler.go:Next"]}
{"id": "C88", "title": "What a demo target prints is certain if its tasks are in sequence", "statement": "If the tasks of a demo target follow one another through after, every successful run prints the same lines: for each echo task the text as changed by the rev and rot13 tasks before it. (Without a sequence two runs of one runbook can print different lines.)", "quantifier": "every accepted runbook, every text including invalid UTF-8, every interleaving", "why_tests_cant": "Depends on every interleaving of the goroutines.", "anchors": ["internal/runbook/demo/demo.go:Handle", "internal/runbook/demo/tasks.go:munge"]}
{"id": "C89", "title": "A pg target connects as configured and is used only while connected", "statement": "Every connection attempt of a run is made with the host, port, user, password, database and SSL mode of its target, or libpq's environment where the target gives none. Every statement of a target with connect_retries of at least 0 comes after a connection attempt of that target that succeeded and before the connection is closed; it is closed at most once, and is closed when Run returns after all targets started.", "quantifier": "every accepted runbook, every host, every interleaving", "why_tests_cant": "Depends on every interleaving and every outcome of connecting.", "anchors": ["internal/runbook/pg/pg.go:Start", "internal/runbook/pg/pg.go:Stop", "internal/pg/pg.go:New"]}
{"id": "C90", "title": "Running an accepted runbook never crashes", "statement": "No run of an accepted runbook dereferences a nil pointer or indexes out of range. (False: with negative connect_retries the first statement, or Stop, uses a connection that is nil. Proved for all others.)", "quantifier": "every accepted runbook, every host, every interleaving", "why_tests_cant": "All runbooks, all interleavings.", "anchors": ["internal/pg/pg.go:New", "internal/pg/pg.go:Exec", "internal/pg/pg.go:Close", "internal/runbook/sh/exec.go:exec"]}
{"id": "C91", "title": "A sleep task of a runbook sleeps as long as configured", "statement": "A handled sleep task pauses for the configured number of seconds. (False above 9223372036 seconds: the duration overflows and may be negative, so that it does not sleep at all. Proved up to that.)", "quantifier": "every accepted runbook, every host, every interleaving", "why_tests_cant": "All numbers of seconds.", "anchors": ["internal/runbook/demo/tasks.go:munge"]}
{"id": "C92", "title": "Every connection a run opens is closed", "statement": "When Run has returned, every connection it opened has been closed. (False: with connect_retries an earlier successful attempt is never closed, and when a target does not start, targets started before it are not stopped. Proved for connect_retries 0 when all targets start: exactly one connection per pg target, closed exactly once.)", "quantifier": "every accepted runbook, every host, every interleaving", "why_tests_cant": "All interleavings and outcomes of connecting.", "anchors": ["internal/pg/pg.go:New", "internal/pg/pg.go:Close", "internal/runbook/runner.go:run"]}
{"id": "C93", "title": "Run reports what really happened", "statement": "For every accepted runbook whose tasks are in order: if Run returns nil then every pg target got its connection, every statement and command was answered without an error and there is no fail task; if Run returns an error after all targets started, it is what the server or command answered to some handled task, or the fail task's.", "quantifier": "every accepted runbook, every host, every interleaving", "why_tests_cant": "All interleavings and all outcomes of statements and commands.", "anchors": ["internal/runbook/runner.go:run", "internal/runbook/pg/pg.go:Handle", "internal/runbook/sh/exec.go:exec", "internal/runbook/demo/tasks.go:munge"]}
{"id": "C94", "title": "ListSchemas lists exactly the user schemas", "statement": "For every database, ListSchemas returns every schema except pg_catalog, information_schema and those PostgreSQL keeps for itself (pg_toast, pg_temp_...), each once, with its owner and comment, ordered by name; and it succeeds whenever the server delivers the answer to its query.", "quantifier": "every content of the system catalogues, every answer order SQL permits, every failure of the server", "why_tests_cant": "All databases; a test has a handful of objects.", "anchors": ["internal/pg/schemas.go:ListSchemas"]}
{"id": "C95", "title": "ListTables lists exactly the tables of the database", "statement": "For every database, ListTables returns every table of the user's schemas, each once, ordered by schema and name. (False: the query asks pg_table_is_visible, so a table whose schema is not in the search path, or that is hidden by a table of the same name in an earlier schema, is silently omitted although ListSchemas lists its schema. Proved: exactly the tables in view.)", "quantifier": "every content of the system catalogues, every search path, every answer order SQL permits", "why_tests_cant": "All databases and search paths; the integration tests use public only.", "anchors": ["internal/pg/tables.go:ListTables"]}
{"id": "C96", "title": "ListSequences lists exactly the sequences of the database", "statement": "For every database, before and since PostgreSQL 10, ListSequences returns every sequence of the user's schemas with its numbers and its owning column. (False: sequences not in view and sequences no column owns are silently omitted. Proved: exactly one entry for each sequence in view per owning column, with the right numbers, on both kinds of server, and it succeeds whenever the server delivers its answers.)", "quantifier": "every content of the system catalogues, both kinds of server, every failure", "why_tests_cant": "All databases; the two server generations take different paths.", "anchors": ["internal/pg/sequence.go:ListSequences"]}
{"id": "C97", "title": "ListColumns lists exactly the table's columns in their order", "statement": "For every database and every schema and table name, ListColumns returns exactly the columns of that table that are not dropped and not system columns, in the order of the table, each with its type, NOT NULL, default and comment; no column of a table of the same name in another schema appears.", "quantifier": "every content of the system catalogues, all names", "why_tests_cant": "All databases; dropped columns, equal names in other schemas.", "anchors": ["internal/pg/columns.go:ListColumns"]}
{"id": "C98", "title": "The parts listed for a table are exactly that table's", "statement": "For every database, schema and table name, ListChecks, ListForeignKeys, ListIndexes, ListTriggers and ListTableStorageParameters return exactly the check constraints, foreign keys, indexes, user triggers and storage options of that table, each once, in a determined order where the query orders them, each parsed from the definition the server gives for that very object. If the server delivers its answer, each listing succeeds exactly if every such definition (or option) can be read.", "quantifier": "every content of the system catalogues, all names", "why_tests_cant": "All databases.", "anchors": ["internal/pg/check.go:ListChecks", "internal/pg/foreign_key.go:ListForeignKeys", "internal/pg/index.go:ListIndexes", "internal/pg/triggers.go:ListTriggers", "internal/pg/table_storage_parameters.go:ListTableStorageParameters"]}
{"id": "C99", "title": "ListFunctions gives every function in view its own entry", "statement": "For every database, ListFunctions returns one entry for each function in view outside the system's schemas, overloaded ones included, with its own owner, language, result and body, ordered by schema and name.", "quantifier": "every content of the system catalogues, every search path", "why_tests_cant": "All databases.", "anchors": ["internal/pg/functions.go:ListFunctions"]}
{"id": "C100", "title": "DescribeTrigger describes the trigger it is asked for", "statement": "For every database and all names, DescribeTrigger answers not found only if the table has no trigger of that name; if it returns a trigger, it is parsed from the definition of the one trigger of that table and name; if there is none, the answer is not found or a failure of the server. A trigger that is there is described, if the server answers, exactly if its definition can be read.", "quantifier": "every content of the system catalogues, all names", "why_tests_cant": "All databases and names.", "anchors": ["internal/pg/triggers.go:DescribeTrigger"]}
{"id": "C101", "title": "InspectDatabase describes the database", "statement": "For every database, if InspectDatabase succeeds then its result is the database: schemas, functions, sequences, and all tables with their columns, constraints, storage options, indexes and triggers, nothing more and nothing less. (False for objects not in view and unowned sequences. Proved for everything in view, with the columns of each table in order unless sorting is asked for.)", "quantifier": "every content of the system catalogues, every search path, both kinds of server, all options, every failure", "why_tests_cant": "All databases.", "anchors": ["internal/pg/inspect.go:InspectDatabase"]}
{"id": "C102", "title": "Inspecting an unchanged database twice gives the same description", "statement": "If the database did not change between two successful inspections, the two results are equal. (False: the queries leave the order of overloaded functions, and of foreign keys to the same table on the same columns, to chance. Proved for databases without such ties.)", "quantifier": "every content of the system catalogues, every answer order SQL permits", "why_tests_cant": "Depends on the order the server happens to choose.", "anchors": ["internal/pg/inspect.go:InspectDatabase", "internal/pg/functions.go:ListFunctions", "internal/pg/foreign_key.go:ListForeignKeys"]}
{"id": "C103", "title": "Listing the parts of a table that does not exist gives nothing", "statement": "For every database, if no relation has that schema and name then ListColumns, ListChecks, ListForeignKeys, ListIndexes, ListTriggers and ListTableStorageParameters return nothing rather than parts of another table, and if the server answers each of them succeeds, so that a caller cannot tell a missing table from an empty one.", "quantifier": "every content of the system catalogues, all names", "why_tests_cant": "All databases and names.", "anchors": ["internal/pg/columns.go:ListColumns", "internal/pg/check.go:ListChecks", "internal/pg/index.go:ListIndexes"]}
{"id": "C104", "title": "DescribeFunction describes the function it is asked for", "statement": "For every database and all names, DescribeFunction answers not found only if there is no function of that name in that schema, and otherwise describes it. (False for overloaded functions: any one of them may be the answer. Proved: it is always one of that name, and never not found if there is one.)", "quantifier": "every content of the system catalogues, all names, every answer order SQL permits", "why_tests_cant": "Depends on the order the server happens to choose.", "anchors": ["internal/pg/functions.go:DescribeFunction"]}
{"id": "C105", "title": "No query of the tool is rejected by a database", "statement": "The texts of the queries are SQL as PostgreSQL reads it, every column they mention exists and is unambiguous, every subquery used as a value has at most one row, and every query has an answer on every database and for all names; the query about pg_sequence on servers that have it.", "quantifier": "every content of the system catalogues, all parameters", "why_tests_cant": "All databases; a query may fail only on unusual contents.", "anchors": ["internal/pg/schemas.go:ListSchemas", "internal/pg/tables.go:ListTables", "internal/pg/sequence.go:ListSequences", "internal/pg/functions.go:DescribeFunction"]}
{"id": "C106", "title": "ListTriggers and DescribeTrigger agree", "statement": "For every database, the triggers DescribeTrigger can find are those ListTriggers lists, and the descriptions are the same. (False: DescribeTrigger also looks at the internal triggers that implement foreign keys, and then fails instead of answering not found. Proved: whatever is listed is described identically, and whatever is described is listed unless its name is that of an internal trigger.)", "quantifier": "every content of the system catalogues, all names", "why_tests_cant": "All databases.", "anchors": ["internal/pg/triggers.go:ListTriggers", "internal/pg/triggers.go:DescribeTrigger"]}
{"id": "C107", "title": "Foreign keys as PostgreSQL prints them are read right or not at all", "statement": "Whatever foreign key PostgreSQL has, and whatever names, actions and clauses its definition has, ParseForeignKey either returns exactly its columns, table, match type, actions and deferrability or an error. It is read if and only if all names are plain and on the search path, at most one of ON UPDATE and ON DELETE is given, without columns, it is not DEFERRABLE without INITIALLY DEFERRED, and not NOT VALID. (That all are read is false.)", "quantifier": "every foreign key definition pg_get_constraintdef can print", "why_tests_cant": "All names and combinations of clauses; tests have a few definitions.", "anchors": ["internal/ddl/foreign_key_parser.go:ParseForeignKey", "internal/pg/foreign_key.go:ListForeignKeys"]}
{"id": "C108", "title": "Triggers as PostgreSQL prints them are read right or not at all", "statement": "Whatever trigger PostgreSQL has, ParseTrigger either returns exactly its name, time, events, columns, table, function, level and deferrability or an error. It is read if and only if all names are plain and on the search path and it has no FROM, NOT DEFERRABLE, transition table, WHEN condition or argument. (That all are read is false: any constraint trigger that is not deferrable is rejected.)", "quantifier": "every trigger definition pg_get_triggerdef can print", "why_tests_cant": "All names and combinations of clauses.", "anchors": ["internal/ddl/trigger_parser.go:ParseTrigger", "internal/pg/triggers.go:ListTriggers"]}
{"id": "C109", "title": "Check constraints as PostgreSQL prints them", "statement": "ParseCheck reads a check constraint of PostgreSQL if and only if it is neither NO INHERIT nor NOT VALID, whatever the expression; it returns the expression up to surrounding white space, and calls it deferrable or deferred only if the expression itself has a closing parenthesis followed by that word. (That it never calls one deferrable is false.)", "quantifier": "every expression", "why_tests_cant": "Expressions are arbitrary texts.", "anchors": ["internal/ddl/check_parser.go:ParseCheck", "internal/pg/check.go:ListChecks"]}
{"id": "C110", "title": "Indexes as PostgreSQL prints them are read right or not at all", "statement": "Whatever index PostgreSQL has, ParseIndex either returns what it is or an error. (False: a DESC key is returned as ascending with an operator class DESC, and an expression with a closing parenthesis in a text can be cut. Proved: exactly which indexes are described right, and if no expression has a closing parenthesis in it, which are accepted, and that DESC is the only thing misread.)", "quantifier": "every index definition pg_get_indexdef can print", "why_tests_cant": "All names, expressions and combinations of clauses.", "anchors": ["internal/ddl/index_parser.go:ParseIndex", "internal/pg/index.go:ListIndexes"]}
{"id": "C111", "title": "Which databases can be inspected", "statement": "If the server answers all queries and index expressions have no closing parenthesis in them, InspectDatabase succeeds if and only if every definition of a foreign key, check, trigger and index of every table in view is of the form of C107 to C110 and every storage option can be applied; and whenever it succeeds, the parts of every table are those its definitions describe. One foreign key with both ON UPDATE and ON DELETE is enough for an inspection to fail.", "quantifier": "every content of the system catalogues with definitions as PostgreSQL prints them, every behaviour of the server", "why_tests_cant": "All databases.", "anchors": ["internal/pg/inspect.go:InspectDatabase"]}
{"id": "C112", "title": "A description of a database that is written can be read again", "statement": "If the texts of a database description are UTF-8 in the normal form cty uses, its integers fit in 64 bits and its floating point numbers are finite, ParseBytes of the file Write produces returns the same description; for other texts it returns the description with each text normalised, nothing else changed.", "quantifier": "every database description, every printer and reader of HCL texts that agree with each other", "why_tests_cant": "All structs and all nestings; the tests write one file.", "anchors": ["internal/ddl/ddl.go:Write", "internal/ddl/ddl.go:ParseBytes"]}
{"id": "C113", "title": "What a file with the description of a database means", "statement": "ParseBytes and ParseFile return a description if and only if the file is valid HCL with known attributes and blocks only, every block has its labels, every required attribute is given, no attribute is given twice, at most one parameters, owned_by and storage_parameters block stands where it may, and every value has or converts to its type; the description then has exactly these values, defaults for what is missing, and blocks in the order of the file.", "quantifier": "every file", "why_tests_cant": "All bodies, all missing, unknown, repeated or ill-typed entries.", "anchors": ["internal/ddl/ddl.go:ParseBytes", "internal/ddl/ddl.go:ParseFile"]}
{"id": "C114", "title": "The file of an inspection describes the database that was inspected", "statement": "When the inspect command succeeds with an output file, ParseFile of that file returns exactly the database InspectDatabase returned (under the conditions of C112, and if a write that reports no error has written everything).", "quantifier": "every answer of the server, every sorting, every content of the file before", "why_tests_cant": "All databases.", "anchors": ["internal/commands/inspect.go:InspectCmd.Run", "internal/ddl/ddl.go:Write", "internal/ddl/ddl.go:ParseFile"]}
{"id": "C115", "title": "Reading and writing a file keeps its meaning", "statement": "Whatever file ParseBytes accepts, writing the result and reading it again gives the same description, and writing once more gives the same text.", "quantifier": "every file whose texts are in normal form", "why_tests_cant": "All files, also those not written by this program.", "anchors": ["internal/ddl/ddl.go:Write", "internal/ddl/ddl.go:ParseBytes"]}
{"id": "C116", "title": "Storage parameters keep their names", "statement": "A table with one storage parameter that Set accepts is written to a file with one attribute of that name and no other, and that attribute is read as the same parameter.", "quantifier": "every parameter Set knows, every value it accepts", "why_tests_cant": "All sixteen parameters with all values.", "anchors": ["internal/ddl/table_storage_parameters.go:Set", "internal/ddl/ddl.go:Write"]}
{"id": "C117", "title": "Exactly which task files are accepted, and what they mean", "statement": "Parser.Parse succeeds if and only if the file is HCL with only target and task blocks, each with two labels; every target is of a registered type with the settings of that type (demo: string, and max_concurrency, 1 if missing; pg and sh: none); every task names a registered target type, a target that is declared or default, and for demo a known kind; and its attributes are target, after, provides, requires and the settings of its type (pg: sql, sh: args). The result then has exactly the targets and tasks of the last block of each name, with the values given, and one fresh default target per type that no block replaces.", "quantifier": "every file, every set of registered factories, any reader of HCL", "why_tests_cant": "All files; the test parses one and looks only at the error.", "anchors": ["internal/taskset/parser/parser.go:Parse", "internal/taskset/demo/demo.go:Target", "internal/taskset/pg/pg.go:Task", "internal/taskset/sh/sh.go:Task"]}
{"id": "C118", "title": "A task file with an unknown or missing setting is refused", "statement": "If Parse accepts a file, no target or task has an attribute its type does not know or any block inside, every explicit demo target has a string, every pg task its sql and every sh task its args, and at the top there are only target and task blocks. So a misspelled setting is never ignored.", "quantifier": "every file, every set of registered factories", "why_tests_cant": "All misspellings in all places.", "anchors": ["internal/taskset/parser/parser.go:Parse", "internal/taskset/demo/sleep.go:Sleep"]}
{"id": "C119", "title": "A command line is carried out as written", "statement": "A line that names a command of pgutil with flags the command has (as --flag value, --flag=value, -f value, -fvalue, combined switches, --no-flag), each at most once except -v and -q, values of the right kind and the arguments the command needs, runs exactly that command with exactly those settings and the defaults for the rest, whatever the order of flags and where they stand, and a line means one thing only.", "quantifier": "every line of words, every environment (which files exist), every outcome of the command", "why_tests_cant": "All lines; the test has a handful.", "anchors": ["internal/cli/register.go:RegisterCommands", "internal/cli/cli.go:Parse", "main.go:main"]}
{"id": "C120", "title": "Nothing is run that the line does not ask for", "statement": "Whenever a command is run, the line asks for that command with those settings: a misspelt flag, a missing value or a superfluous word is refused. (Refuted for runbook: 'pgutil runbook --debug -v FILE' runs FILE, ignores --debug and counts -v twice.)", "quantifier": "every line of words", "why_tests_cant": "All lines, including wrong ones.", "anchors": ["internal/cli/runbook.go:registerRunbook", "internal/cli/cli.go:Parse"]}
{"id": "C121", "title": "Exit status and error messages", "statement": "pgutil ends with status 0 only if the command asked for succeeded or the usage was asked for; otherwise with 1 and exactly one message, the error, on standard error. (Refuted: the message goes to standard output.)", "quantifier": "every line of words, every outcome of the command", "why_tests_cant": "All lines and outcomes.", "anchors": ["main.go:main"]}
{"id": "C122", "title": "The port is the number written", "statement": "With --port or -p the port connected to is the number written (decimal, or 0x, 0b, 0o and 0 for other bases, with single underscores between digits as in Go); above 65535 and anything else the line is refused. (Refuted for the reading as plain decimal: 010 is 8.)", "quantifier": "every text, every line", "why_tests_cant": "All texts.", "anchors": ["internal/cli/ping.go:registerPing"]}
{"id": "C123", "title": "Only named files are touched", "statement": "Apart from the tasks of a runbook that is run, no line makes pgutil change any file but the one given with --debug and the output of the command (-o, or the name -O derives); standard output is only added to. A line that is refused or shows the usage changes no file that exists, and creates at most one, empty, whose name is written in the line.", "quantifier": "every line of words, every state of the file system, every server, every behaviour of the disk", "why_tests_cant": "All lines, file systems, servers and iteration orders, through all packages at once.", "anchors": ["main.go:main", "internal/cli/cli.go", "internal/cli/register.go"]}
{"id": "C124", "title": "The debug log is kept and complete", "statement": "With --debug FILE what FILE contained stays, and behind it every message logged in the course of the command is added, in order, whatever -v and -q say (unless FILE is also the output of the command, which loses it).", "quantifier": "every line, every previous content, every disk, all messages", "why_tests_cant": "All lines, file systems, servers and iteration orders, through all packages at once.", "anchors": ["internal/logger/logger.go", "internal/cli/register.go"]}
{"id": "C125", "title": "The process does what the line asks", "statement": "If the line asks for a command, given the files that exist, that command is carried out with those settings; and if a command is carried out, the line asks for it once the file of --debug is there (run also with the exception of C120). Without a command being carried out the status is 0 exactly if the line asks for the usage (or is mistaken to, C120), else 1; and only a panic of inspect, list, dot or run ends with 2.", "quantifier": "every line, every file system, every outcome of the commands", "why_tests_cant": "All lines, file systems, servers and iteration orders, through all packages at once.", "anchors": ["main.go:main", "internal/cli/cli.go"]}
{"id": "C126", "title": "inspect, from the line to the file", "statement": "If pgutil inspect -o FILE ends with status 0, FILE is read again as a description of the database that was connected to: its schemas, functions and sequences and, of the tables in view (C101), columns, constraints, indexes, triggers and storage parameters, as the system catalogues have them; with --sort-columns the columns of every table in order of their names. Without -o (or with -o -) the same text goes to the standard output and, unless -v is given, nothing else does; no file is changed but the debug log.", "quantifier": "every line, every database, every sorting, any file system", "why_tests_cant": "All lines, file systems, servers and iteration orders, through all packages at once.", "anchors": ["internal/commands/inspect.go", "internal/pg/inspect.go", "internal/ddl/ddl.go"]}
{"id": "C127", "title": "A failed inspect does not harm the previous file", "statement": "If pgutil inspect -o FILE fails because of the options, the connection, a query, a row or a definition that cannot be parsed, FILE is as it was.", "quantifier": "every line, every server, every previous content", "why_tests_cant": "All lines, file systems, servers and iteration orders, through all packages at once.", "anchors": ["internal/commands/inspect.go"]}
{"id": "C128", "title": "ping, from the line to the status", "statement": "pgutil ping ends with status 0 exactly if a server is reached with the options of the line or the environment and answers the version query; unless -v is given, exactly the version and a newline are printed.", "quantifier": "every line, every environment and server", "why_tests_cant": "All lines, file systems, servers and iteration orders, through all packages at once.", "anchors": ["internal/commands/ping.go", "internal/pg/version.go"]}
{"id": "C129", "title": "runbook list, from the line to the output", "statement": "pgutil runbook list FILE ends with status 0 exactly if FILE is a valid runbook, connects to no server and, unless -v is given, prints exactly the sorted list of its tasks, each once, with its target.", "quantifier": "every line, every runbook, every iteration order", "why_tests_cant": "All lines, file systems, servers and iteration orders, through all packages at once.", "anchors": ["internal/commands/runbook_list.go", "internal/runbook/runbook.go"]}
{"id": "C130", "title": "Connections of ping and inspect", "statement": "A process makes at most one connection for ping or inspect and none for other commands (except run); it is closed before the process ends, is made with what the line says before what the environment says, and only over the channels --sslmode allows.", "quantifier": "every line, every environment, every outcome", "why_tests_cant": "All lines, file systems, servers and iteration orders, through all packages at once.", "anchors": ["internal/commands/ping.go", "internal/commands/inspect.go", "internal/pg/pg.go"]}
{"id": "C131", "title": "runbook dot, from the line to the graph", "statement": "pgutil runbook dot FILE with an output that can be written ends with status 0 exactly if FILE is a valid runbook; then the output is a graph with exactly one node for each task, in the cluster of its target, and with edges exactly from the tasks it comes after. Without -o and -O the graph, and unless -v is given nothing else, goes to the standard output.", "quantifier": "every line, every runbook, every iteration order", "why_tests_cant": "All lines, file systems, servers and iteration orders, through all packages at once.", "anchors": ["internal/commands/runbook_dot.go", "internal/runbook/runbook.go:Dot"]}
{"id": "C132", "title": "runbook eval, from the line to the output", "statement": "pgutil runbook eval -o OUT FILE writes to OUT exactly the formatted value Jsonnet gives for FILE, in colour if and only if asked for, or for auto if OUT is a terminal; and connects to nothing. Without -o the value, and unless -v is given nothing else, goes to the standard output.", "quantifier": "every line, every file", "why_tests_cant": "All lines, file systems, servers and iteration orders, through all packages at once.", "anchors": ["internal/commands/runbook_eval.go"]}
{"id": "C133", "title": "version", "statement": "pgutil version always succeeds, connects to nothing and, unless -v is given, prints the line with the version, followed by more only with --verbose.", "quantifier": "every line", "why_tests_cant": "All lines, file systems, servers and iteration orders, through all packages at once.", "anchors": ["internal/commands/version.go"]}
{"id": "C134", "title": "runbook run, from the line to the tasks", "statement": "pgutil runbook run FILE: if FILE is not a valid runbook the status is not 0 and no task does anything. If it is, only its tasks do anything, on their targets; nothing is done by a task before the tasks it comes after have done all they do; if the status is 0 every task has done exactly what its settings say; and if nothing goes wrong outside (and the order is not circular and there is a task) the status is 0.", "quantifier": "every line, file system, document, schedule and behaviour of commands and servers", "why_tests_cant": "All interleavings of the goroutines for all documents, through all packages at once.", "anchors": ["internal/commands/runbook.go", "internal/runbook/runbook.go", "main.go"]}
{"id": "C135", "title": "the status of runbook run", "statement": "For a valid runbook without circular order the status of pgutil runbook run is 0 only if every task succeeded; and if all databases can be reached and there is a task, it is 0 whenever no task fails.", "quantifier": "every line, document, schedule and outside world", "why_tests_cant": "All interleavings and all documents.", "anchors": ["internal/commands/runbook.go", "internal/runbook/runbook.go"]}
{"id": "C136", "title": "tasks under way", "statement": "Whatever other targets do at the same time: at any moment of a run, what a task has done is a beginning of its message followed by what its settings say (for the text its demo target then has), it is all of that once the task has been handled, and nothing is done on a target except by its tasks.", "quantifier": "every runbook, schedule, interleaving of effects and behaviour of commands and servers", "why_tests_cant": "All interleavings of the targets' work, down to the single statement, for all runbooks.", "anchors": ["internal/runbook/runner.go:startTargetGoroutine", "internal/runbook/runner.go:startTargets"]}
{"id": "C137", "title": "complete before the next", "statement": "At any moment of a run, if a task has done anything, if only given its message, every task it comes after, directly or not, has succeeded, has done all it will ever do, and had done so before.", "quantifier": "every runbook, schedule, interleaving of effects and behaviour of commands and servers", "why_tests_cant": "All interleavings of the targets' work, down to the single statement, for all runbooks.", "anchors": ["internal/runbook/runner.go:startTargetGoroutine", "internal/runbook/runner.go:startTargets"]}
{"id": "C138", "title": "one task at a time", "statement": "Between two things a task does, no other task does anything on the same target; on another target it may, so that a message and what it announces need not be next to each other.", "quantifier": "every runbook, schedule, interleaving of effects and behaviour of commands and servers", "why_tests_cant": "All interleavings of the targets' work, down to the single statement, for all runbooks.", "anchors": ["internal/runbook/runner.go:startTargetGoroutine", "internal/runbook/runner.go:startTargets"]}
{"id": "C139", "title": "nothing left when Run returns", "statement": "If all targets were started, then when Run returns no task is under way: each has done all it does, and the connection of every pg target is closed; a connection is used only after it was made and before it is closed. If a target could not be started this is false: Run returns while a task of another target is between its message and its deed.", "quantifier": "every runbook, schedule, interleaving of effects and behaviour of commands and servers", "why_tests_cant": "All interleavings of the targets' work, down to the single statement, for all runbooks.", "anchors": ["internal/runbook/runner.go:startTargetGoroutine", "internal/runbook/runner.go:startTargets"]}
{"id": "C140", "title": "the output of demo targets", "statement": "What a demo target has printed is at any moment a beginning of what its own tasks print in the order they were begun, and all of it when Run returns with all targets started; for tasks in sequence it is the same in every successful run, however the targets interleave.", "quantifier": "every runbook, schedule, interleaving of effects and behaviour of commands and servers", "why_tests_cant": "All interleavings of the targets' work, down to the single statement, for all runbooks.", "anchors": ["internal/runbook/runner.go:startTargetGoroutine", "internal/runbook/runner.go:startTargets"]}
{"id": "C141", "title": "connections left open, exactly", "statement": "When Run returns after all targets were started, a pg target has dialled connect_retries + 1 times and closed one connection, so that as many are left open as dials before the last one succeeded.", "quantifier": "every runbook, schedule, interleaving and behaviour of the server", "why_tests_cant": "Every number of retries and every pattern of successes, in every interleaving.", "anchors": ["internal/pg/pg.go:Connect", "internal/runbook/pg/pg.go:Start", "internal/runbook/pg/pg.go:Stop"]}
{"id": "C142", "title": "A task that does not end holds up nothing but its own target and what comes after it", "statement": "While the Handle of one task does not return (a query waiting for a lock, a command that hangs), every other task whose dependencies are complete and whose target is idle is still begun. (False twice over. A target that takes several tasks at a time works on one only, and its next one blocks the single queue to all targets. And with targets that take one task at a time, the scheduler may have skipped a ready task and looks at it again only at the next completion. True when every target takes one task at a time and no task comes after another.)", "quantifier": "every runbook, schedule and interleaving, every choice of Handle calls that do not return", "why_tests_cant": "A run that never ends cannot be waited for; which tasks starve depends on map order and interleaving.", "anchors": ["internal/runbook/runner.go:startTargets", "internal/runbook/scheduler/scheduler.go:Next", "internal/dag/dependency.go:Next"]}
{"id": "C143", "title": "A command's environment has every variable once, with the right value", "statement": "In the environment the process of an exec task is started with, every well formed variable name has exactly one entry or none: the task's Set value if there is one; else none if the task's Allow/Deny holds the variable back; else the target's Set value if there is one; else none if the target holds it back; else the last value in pgutil's own environment, or none if there is none.", "quantifier": "every target Env, task Env and inherited environment, also with entries for the same variable or without a name, and every map iteration order", "why_tests_cant": "All combinations of filters, values and environments, and every iteration order.", "anchors": ["internal/runbook/sh/exec.go:exec", "internal/runbook/sh/env.go:Apply", "internal/runbook/sh/sh.go:Start"]}
{"id": "C144", "title": "Which program an exec task runs", "statement": "The command of an exec task is the file named if its name is absolute, the file in the runbook's directory if the name begins with ./ or ../, and otherwise the first executable of that name in the directories of PATH. (With pgutil's own PATH, if that holds absolute names only. Refuted for the PATH the command itself is given, which is not looked at, and for relative names in PATH: these are searched from pgutil's directory but run from the runbook's, so that another file may be run than the one found; and for .. behind a symbolic link in PATH, since names are shortened as text.)", "quantifier": "every command line of a task, PATH, directory and set of executable files", "why_tests_cant": "All names, PATHs and file systems; tests run in one directory with one PATH.", "anchors": ["internal/runbook/sh/exec.go:exec", "internal/runbook/sh/exec.go:validateArg0", "internal/runbook/runbook.go:newParser"]}
{"id": "C145", "title": "The process behind every command of a run", "statement": "In every run of an accepted runbook, every command that is started belongs to an exec task of a shell target, has that task's arguments and starts in the runbook's directory; its process sees of each variable exactly what the target's and the task's env settings and pgutil's own environment say (one value or none), and it runs the file its first argument stands for: the absolute name, the file relative to the runbook, or the first one found in PATH.", "quantifier": "every accepted runbook, world around it, scheduling of the run, map iteration order, variable name, PATH with absolute names and set of executable files", "why_tests_cant": "All interleavings of the targets, all environments and file systems; a test observes a few commands of one run.", "anchors": ["internal/runbook/sh/exec.go:exec", "internal/runbook/sh/env.go:Apply", "internal/runbook/sh/sh.go:Start", "internal/runbook/runner.go:run"]}
{"id": "C146", "title": "Commands start beside the runbook", "statement": "However the name of the runbook is written (relative or absolute, with ., .. or doubled slashes) and wherever pgutil is started, every command of a run is started in the directory in which the operating system found the runbook, given by an absolute name without . and .. in it; only a relative name while the current directory cannot be determined is refused. (False when .. follows a symbolic link: names are shortened as text, so that the commands start in another directory.)", "quantifier": "every name of a runbook, current directory, file system, accepted runbook and run", "why_tests_cant": "All spellings of a name and all trees of directories and links; a test tries a few.", "anchors": ["internal/runbook/runbook.go:newParser", "internal/runbook/runbook.go:Run", "internal/runbook/sh/exec.go:exec"]}
{"id": "C147", "title": "A word @FILE stands for the lines of FILE", "statement": "A line with a word @FILE in it is read exactly as the line with the lines of FILE in its place (without comments, which begin with #, and carriage returns at the end of lines; files may name further files; nothing is replaced behind --); if a file cannot be read no command is carried out. (False behind a word like -v-, which is taken for -v --, so that @FILE is then taken literally. A file that begins with its own name makes pgutil run for ever.)", "quantifier": "every line, every content of the files, every parser that reads the line through kingpin's Next and Push", "why_tests_cant": "The expansion happens inside the reading of tokens, interleaved with what the parser knows so far; that it is the same as expanding the line first has to hold for every line, nesting of files and state of the parser, and that it does not end for a file naming itself cannot be observed by a test.", "anchors": ["internal/cli/cli.go:Parse", "main.go:main"]}
