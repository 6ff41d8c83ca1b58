[
 {"property": "C01", "status": "proved", "theorems": ["tsort_sound"], "note": ""},
 {"property": "C02", "status": "proved", "theorems": ["tsort_decides"], "note": "termination = the fuel supplied by the model is never exhausted"},
 {"property": "C03", "status": "proved", "theorems": ["tsort_cycle_real", "tsort_cycle_real_refuted"], "note": "conditional statement proved; the unrestricted claim refuted with a node named the empty string"},
 {"property": "C04", "status": "proved", "theorems": ["tsort_deterministic", "new_directed_graph_deterministic", "new_dependency_graph_deterministic", "dg_next_deterministic"], "note": ""},
 {"property": "C05", "status": "proved", "theorems": ["new_directed_graph_exact", "new_directed_graph_iff"], "note": ""},
 {"property": "C06", "status": "proved", "theorems": ["graph_edits_refine"], "note": ""},
 {"property": "C07", "status": "proved", "theorems": ["dg_release_sound"], "note": ""},
 {"property": "C08", "status": "proved", "theorems": ["dg_drive_complete", "dg_has_pending_exact", "dg_drive_bounded"], "note": ""},
 {"property": "C09", "status": "partial", "theorems": ["dg_next_contract_refuted", "dg_next_contract_partial"], "note": "REFUTED: the documented contract is false of the code (witness in dg_next_contract_refuted); proved what remains true"},
 {"property": "C10", "status": "proved", "theorems": ["sched_dependencies_first", "sched_dependencies_first_refuted"], "note": "conditional statement proved; refuted when a task is named with the empty string"},
 {"property": "C11", "status": "proved", "theorems": ["sched_limit"], "note": ""},
 {"property": "C12", "status": "proved", "theorems": ["sched_once"], "note": ""},
 {"property": "C13", "status": "proved", "theorems": ["sched_progress", "sched_end_exact", "sched_complete", "sched_bounded"], "note": ""},
 {"property": "C14", "status": "proved", "theorems": ["sched_new_exact"], "note": ""},
 {"property": "C15", "status": "proved", "theorems": ["sched_deterministic"], "note": ""},
 {"property": "C16", "status": "proved", "theorems": ["run_order", "run_order_refuted"], "note": "the third part needs no task to be named with the empty string, and is refuted without it"},
 {"property": "C17", "status": "proved", "theorems": ["run_sequential"], "note": ""},
 {"property": "C18", "status": "proved", "theorems": ["run_success", "run_success_refuted"], "note": "conditional statement proved; the unconditional one refuted by a task that comes after itself"},
 {"property": "C19", "status": "proved", "theorems": ["run_error"], "note": ""},
 {"property": "C20", "status": "proved", "theorems": ["run_terminates", "run_no_deadlock", "run_no_deadlock_empty_refuted", "run_no_deadlock_failure_refuted"], "note": "stated class proved (every execution is bounded and can only stop after Run returned); the two excluded classes are shown to deadlock"},
 {"property": "C21", "status": "proved", "theorems": ["run_channels"], "note": ""},
 {"property": "C22", "status": "proved", "theorems": ["run_stops"], "note": ""},
 {"property": "C23", "status": "proved", "theorems": ["run_downstream"], "note": "no task named with the empty string"},
 {"property": "C24", "status": "partial", "theorems": ["run_start_failure_partial", "run_start_failure_refuted"], "note": "REFUTED in part: a task can be handled after Run returned the start error; proved that the error is returned and that no target that did not start handles anything"},
 {"property": "C25", "status": "proved", "theorems": ["parse_well_formed", "json_well_formed"], "note": "for every decoding of the Config fields that keeps the kind of settings, and for encoding/json's"},
 {"property": "C26", "status": "proved", "theorems": ["parse_order_independent", "parse_order_null_refuted"], "note": "with null entries the outcome can depend on the order (refuted)"},
 {"property": "C27", "status": "partial", "theorems": ["parse_no_crash_partial", "parse_no_crash_refuted", "json_no_crash_partial"], "note": "REFUTED: a null target or task entry dereferences nil; proved that nothing else crashes"},
 {"property": "C28", "status": "proved", "theorems": ["parse_faithful", "names_target_functional"], "note": ""},
 {"property": "C29", "status": "proved", "theorems": ["env_set_wins", "env_set_wins_refuted"], "note": "for Env values whose Set names are non-empty and contain no =; refuted otherwise"},
 {"property": "C30", "status": "proved", "theorems": ["env_apply_exact", "env_filter_functional", "env_filter_removes"], "note": ""},
 {"property": "C31", "status": "proved", "theorems": ["env_idempotent", "env_order_independent", "env_idempotent_refuted"], "note": "idempotence holds exactly, for well formed Set names; refuted for an empty name"},
 {"property": "C32", "status": "proved", "theorems": ["exec_check_exact"], "note": ""},
 {"property": "C33", "status": "proved", "theorems": ["demo_involutions", "demo_involutions_refuted"], "note": "valid UTF-8; for other strings the third application equals the first"},
 {"property": "C34", "status": "proved", "theorems": ["demo_commute"], "note": "the whole target state is equal, for any tasks other than echo"},
 {"property": "C35", "status": "proved", "theorems": ["quote_safe", "identifier_safe", "quote_distinct", "identifier_distinct"], "note": "the specification is a lexer for quoted identifiers after the PostgreSQL manual"},
 {"property": "C36", "status": "partial", "theorems": ["sql_determines_partial", "sql_determines_refuted"], "note": "REFUTED as stated (line breaks in column types, trigger events, non-primary indexes, schemas); the partial theorem has what ToSQL does determine"},
 {"property": "C37", "status": "proved", "theorems": ["collapse_canonical", "trim_exact", "collapse_vertical_tab_refuted"], "note": "the vertical tab is white space to trim and the parsers but not to collapseWhitespace"},
 {"property": "C38", "status": "proved", "theorems": ["parse_error_points", "parse_error_newline", "parse_error_total"], "note": ""},
 {"property": "C39", "status": "proved", "theorems": ["storage_independent", "storage_error_refuted"], "note": "an unsuccessful Set still stores a zero or clamped value"},
 {"property": "C40", "status": "proved", "theorems": ["check_grammar"], "note": "generated automaton (transcribed by tools/ragel2coq.py) against the grammar"},
 {"property": "C41", "status": "proved", "theorems": ["check_expression", "check_expression_unique"], "note": ""},
 {"property": "C42", "status": "partial", "theorems": ["check_deferral_partial", "check_deferral_refuted"], "note": "REFUTED as stated: matching text after any closing parenthesis inside the expression sets the flags. Proved: the exact condition; the suffix is never missed; the claim holds when the expression has no closing parenthesis"},
 {"property": "C43", "status": "proved", "theorems": ["foreign_key_grammar", "foreign_key_unambiguous"], "note": "also never crashes"},
 {"property": "C44", "status": "partial", "theorems": ["foreign_key_actions_partial", "foreign_key_actions_refuted"], "note": "REFUTED when the words are separated by a vertical tab; proved for every text without one"},
 {"property": "C45", "status": "partial", "theorems": ["deferrable_rejected_partial", "deferrable_refuted"], "note": "REFUTED: such a text is only accepted after NOT. Proved: the universal rejection, and acceptance with Deferrable set when white space follows"},
 {"property": "C46", "status": "proved", "theorems": ["index_grammar", "index_unambiguous", "index_direction"], "note": "index_direction: DESC is read as an operator class"},
 {"property": "C47", "status": "proved", "theorems": ["trigger_grammar", "trigger_unambiguous"], "note": "also never crashes"},
 {"property": "C48", "status": "proved", "theorems": ["ssl_mode"], "note": "The TLS settings New hands to pgx, for every option and environment; what pgx does with them is the function tries. The environment's PGSSLMODE is overridden when a password is known, as the statement says."},
 {"property": "C49", "status": "proved", "theorems": ["options_precedence"], "note": ""},
 {"property": "C50", "status": "partial", "theorems": ["connect_partial", "connect_refuted"], "note": "REFUTED as stated. connect_partial gives the exact behaviour: all attempts are made, the last one decides, and which waits there are."},
 {"property": "C51", "status": "partial", "theorems": ["listing_partial", "listing_refuted"], "note": "REFUTED for answers cut while fetching (rows.Err is never looked at). listing_partial: exact for all other faults, all ten listings."},
 {"property": "C52", "status": "partial", "theorems": ["sort_partial", "sort_no_effect", "sort_refuted"], "note": "REFUTED for indexes and checks. sort_partial: columns are sorted, nothing is lost. sort_no_effect: up to six indexes of one schema keep the server's order, checks always do."},
 {"property": "C53", "status": "proved", "theorems": ["search_path_split"], "note": "Entries keep the blanks and quotes of the setting, see search_path_example."},
 {"property": "C54", "status": "proved", "theorems": ["storage_listing"], "note": "When fetching does not fail half way, as in C51."},
 {"property": "C55", "status": "proved", "theorems": ["verbosity_levels"], "note": "zap is modelled by its levels; the encoding of lines is not."},
 {"property": "C56", "status": "proved", "theorems": ["list_tasks", "list_width_refuted"], "note": "list_width_refuted: beyond fmt's limit of a million bytes the listing shows %!(BADWIDTH)."},
 {"property": "C57", "status": "partial", "theorems": ["output_files_partial", "output_files_refuted"], "note": "REFUTED as stated: dot -O empties a runbook called *.dot, and dot and eval empty the output before they know that the runbook can be read. output_files_partial: the names chosen, no other file changes, complete output otherwise, inspect opens its output last."},
 {"property": "C58", "status": "proved", "theorems": ["C58_results_conserved", "C58_no_second_result"], "note": "Invariant over every reachable state of the transition system of RunTasks, its job goroutines and the caller; also shows no double close and no send on a closed channel."},
 {"property": "C59", "status": "partial", "theorems": ["C59_results_closed_partial", "C59_closed_after_last", "C59_never_closed", "C59_refuted"], "note": "REFUTED as stated: when every result was received before the queue is closed, results is never closed (for every limit and batch). Proved: after the close every run is finite and everything is received; results is closed only after the last result and stays closed; it is closed if something was running when the close was noticed."},
 {"property": "C60", "status": "partial", "theorems": ["C60_refuted", "C60_buffers_bounded_partial", "C60_negative_panics"], "note": "REFUTED: for every limit and batch a state is reachable in which the whole batch executes. Proved: the limit bounds the two buffers; running tasks are bounded by what was submitted and not received."},
 {"property": "C61", "status": "proved", "theorems": ["C61_dependencies", "C61_recoverable"], "note": "C61_ambiguous shows the condition is needed."},
 {"property": "C62", "status": "proved", "theorems": ["command_env_layers"], "note": "value seen = that of the first entry for the name"},
 {"property": "C63", "status": "proved", "theorems": ["demo_characters", "demo_valid_output"], "note": ""},
 {"property": "C64", "status": "proved", "theorems": ["parsed_runbook_runs", "json_runbook_runs"], "note": ""},
 {"property": "C65", "status": "partial", "theorems": ["error_state_partial", "error_position_refuted"], "note": "REFUTED: the state number is used as offset. Proved: it is 0 iff no continuation is accepted"},
 {"property": "C66", "status": "proved", "theorems": ["inspect_all_or_nothing"], "note": "Under the condition of the statement; listing_refuted shows that it is needed."},
 {"property": "C67", "status": "proved", "theorems": ["inspect_blocked"], "note": ""},
 {"property": "C68", "status": "proved", "theorems": ["describe_found"], "note": ""},
 {"property": "C69", "status": "partial", "theorems": ["clean_output_partial", "clean_output_refuted"], "note": "REFUTED with -v. Proved without."},
 {"property": "C70", "status": "partial", "theorems": ["write_errors_partial", "write_errors_refuted"], "note": "REFUTED for runbook dot. Proved for eval and inspect."},
 {"property": "C71", "status": "proved", "theorems": ["dot_graph"], "note": "The calls of gographviz; its rendering is not modelled."},
 {"property": "C72", "status": "proved", "theorems": ["C72_parsed_task_set", "C72_errors"], "note": "gohcl's decoding of bodies is a parameter; it may fill in settings, not change their kind."},
 {"property": "C73", "status": "partial", "theorems": ["C73_dependencies_dropped", "C73_refuted"], "note": "REFUTED: Dependencies and Provides of every parsed task are empty."},
 {"property": "C74", "status": "partial", "theorems": ["C74_unknown_type_rejected_partial", "C74_refuted"], "note": "REFUTED for pg and sh; proved for demo."},
 {"property": "C75", "status": "partial", "theorems": ["C75_sleep_is_one_second"], "note": "REFUTED: it always sleeps one second, as the field has no hcl tag."},
 {"property": "C76", "status": "proved", "theorems": ["sched_queue_exact"], "note": ""},
 {"property": "C77", "status": "partial", "theorems": ["sched_no_idle_refuted", "sched_no_idle_flat_partial", "sched_no_idle_partial"], "note": "REFUTED because of the skipped entry (C09). Proved without dependencies; in general something runs while tasks remain."},
 {"property": "C78", "status": "proved", "theorems": ["parse_exact"], "note": "Decoding of a settings object is a parameter; see C83 for encoding/json's."},
 {"property": "C79", "status": "proved", "theorems": ["demo_sequence", "demo_only_fail_fails"], "note": ""},
 {"property": "C80", "status": "proved", "theorems": ["index_sql_says", "table_sql_says", "trigger_sql_says", "function_sql_says", "sql_reading_unique"], "note": "The lexer is the token level of the PostgreSQL manual, section 4.1; texts it does not cover have no reading."},
 {"property": "C81", "status": "partial", "theorems": ["function_body_refuted", "table_checks_refuted", "function_sql_says", "table_sql_says"], "note": "REFUTED by both witnesses. The conditions of C80 are what is needed."},
 {"property": "C82", "status": "proved", "theorems": ["C82_task_set_exact"], "note": "hcl decoding of a body is a parameter."},
 {"property": "C83", "status": "proved", "theorems": ["json_exact", "json_limits"], "note": "Jsonnet's evaluation and the text of the JSON are not modelled. json_limits: Run is given the limits the document sets (1 for demo)."},
 {"property": "C84", "status": "proved", "theorems": ["unknown_setting_rejected", "unknown_config_rejected", "unknown_setting_twice_refuted"], "note": "With a Config given in two spellings the first is not looked at (refuted)."},
 {"property": "C85", "status": "partial", "theorems": ["settings_used_partial", "settings_used_refuted"], "note": "REFUTED: of sql and SQL in one Config one is dropped silently; proved where no setting is given twice."},
 {"property": "C86", "status": "proved", "theorems": ["run_does", "successful_run_does_all", "flawless_run", "flawless_json_run"], "note": "For runbooks with connect_retries of at least 0 and sleeps of at most 9223372036 seconds (see C90, C91). What the server or a command does with what it is given is not modelled."},
 {"property": "C87", "status": "proved", "theorems": ["deeds_in_order", "deeds_in_order_refuted"], "note": "The refutation shows that the condition on the name is needed."},
 {"property": "C88", "status": "proved", "theorems": ["demo_output_certain", "demo_output", "demo_output_certain_refuted"], "note": "The refutation shows that the sequence is needed."},
 {"property": "C89", "status": "proved", "theorems": ["connection_configured", "connection_used_while_open"], "note": "pgx is an oracle telling which attempts succeed."},
 {"property": "C90", "status": "partial", "theorems": ["run_never_crashes_partial", "run_never_crashes_refuted"], "note": "REFUTED: negative connect_retries; proved for connect_retries of at least 0."},
 {"property": "C91", "status": "partial", "theorems": ["sleeps_as_told_partial", "sleeps_modulo", "sleeps_as_told_refuted"], "note": "REFUTED: 9223372037 seconds pause for a negative time; proved up to 9223372036. sleeps_modulo: the exact pause for every number, and that this limit is the exact one."},
 {"property": "C92", "status": "partial", "theorems": ["connections_closed_partial", "connections_closed_refuted", "connections_closed_start_refuted", "connections_left_open"], "note": "REFUTED: connect_retries 1 opens two connections and closes one; a target that does not start leaves the others open; proved for connect_retries 0 when all targets start. connections_left_open: exactly how many are left open, for every connect_retries."},
 {"property": "C93", "status": "proved", "theorems": ["success_is_real", "error_is_real"], "note": "For a runbook out of order see C18."},
 {"property": "C94", "status": "proved", "theorems": ["schemas_exact", "queries_read"], "note": "With respect to a model of the SQL subset the queries use and of the catalogues; the texts of the queries are read by the model's scanner and parser."},
 {"property": "C95", "status": "partial", "theorems": ["tables_exact_partial", "tables_refuted"], "note": "REFUTED as stated: tables not visible in the search path are omitted. Proved for tables in view."},
 {"property": "C96", "status": "partial", "theorems": ["sequences_exact_partial", "sequences_refuted", "sequences_listed"], "note": "REFUTED as stated: sequences not in view or not owned by a column are omitted. Proved for the others, on servers before and since 10."},
 {"property": "C97", "status": "proved", "theorems": ["columns_exact"], "note": ""},
 {"property": "C98", "status": "proved", "theorems": ["table_parts_exact", "table_parts_listed"], "note": "The listings succeed exactly if every definition can be read (which ones can: C107-C111). Cut answers: see C51."},
 {"property": "C99", "status": "proved", "theorems": ["functions_exact"], "note": "Functions not in view are omitted, as tables in C95."},
 {"property": "C100", "status": "proved", "theorems": ["describe_trigger_exact", "trigger_described"], "note": "Internal triggers count as triggers of the table, see C106."},
 {"property": "C101", "status": "partial", "theorems": ["inspected_partial", "inspected_refuted"], "note": "REFUTED as stated because of C95 and C96. Proved for what is in view, if the server cuts no answer (C51)."},
 {"property": "C102", "status": "partial", "theorems": ["inspected_twice_partial", "inspected_twice_refuted"], "note": "REFUTED as stated. Proved if no two functions in view share schema and name, no two foreign keys of a table share referenced name and columns, and a sequence has one owner."},
 {"property": "C103", "status": "proved", "theorems": ["absent_table", "absent_table_listed"], "note": ""},
 {"property": "C104", "status": "partial", "theorems": ["describe_function_partial", "describe_function_refuted", "function_described"], "note": "REFUTED as stated for overloaded functions."},
 {"property": "C105", "status": "proved", "theorems": ["queries_answer", "queries_read"], "note": ""},
 {"property": "C106", "status": "partial", "theorems": ["listed_described_partial", "described_listed_refuted", "described_listed"], "note": "REFUTED as stated. Proved from list to description, and back for triggers that are not internal."},
 {"property": "C107", "status": "proved", "theorems": ["foreign_key_printed", "foreign_key_printed_refuted"], "note": "The companion shows that not all are read."},
 {"property": "C108", "status": "proved", "theorems": ["trigger_printed", "trigger_printed_refuted"], "note": "The companion shows that not all are read."},
 {"property": "C109", "status": "proved", "theorems": ["check_printed", "check_printed_refuted"], "note": "The companion shows a check described as deferrable."},
 {"property": "C110", "status": "partial", "theorems": ["index_printed_partial", "index_printed_refuted", "index_printed_rejects"], "note": "REFUTED as stated. Proved: exactly which indexes are described right; what is accepted if no expression has a closing parenthesis in it."},
 {"property": "C111", "status": "proved", "theorems": ["inspected_definitions", "inspected_definitions_refuted"], "note": "The companion is the failing inspection of an ordinary database."},
 {"property": "C112", "status": "proved", "theorems": ["written_again", "written_again_refuted"], "note": "The companion shows that a text that is not UTF-8 is changed. hclwrite and hclsyntax are parameters that are assumed to agree (record ok_lib); a printer and a reader for which this is proved are in HclText.v, and they produce testdata/expected.hcl."},
 {"property": "C113", "status": "proved", "theorems": ["file_meaning", "parse_file_meaning", "file_meaning_unique", "unknown_refused"], "note": "On the contents of files; reading their text is a parameter."},
 {"property": "C114", "status": "proved", "theorems": ["inspected_file"], "note": ""},
 {"property": "C115", "status": "proved", "theorems": ["rewritten"], "note": ""},
 {"property": "C116", "status": "proved", "theorems": ["storage_name_kept"], "note": ""},
 {"property": "C117", "status": "proved", "theorems": ["task_file_exact"], "note": "for any reader of HCL texts; stated with the attributes and blocks of the file, without the tags"},
 {"property": "C118", "status": "proved", "theorems": ["unknown_setting_refused"], "note": ""},
 {"property": "C119", "status": "proved", "theorems": ["line_carried_out", "flag_order_irrelevant", "line_one_meaning"], "note": "the ways to write a line are the relation says of ArgsSpec.v; kingpin's parser is part of the trusted base"},
 {"property": "C120", "status": "partial", "theorems": ["nothing_unasked_partial", "mistake_runs", "nothing_unasked_refuted"], "note": "REFUTED for a runbook run without subcommand when --debug has no value. nothing_unasked_partial is exact: a request is carried out iff the line asks for it or goes astray in this way (strays in ArgsSpec.v)."},
 {"property": "C121", "status": "partial", "theorems": ["exit_status_partial", "usage_exact", "help_enough_refuted", "errors_to_stderr_refuted"], "note": "REFUTED: messages go to standard output, and a line with --help in it is refused if a later word is wrong; proved: status, number and text of messages, and exactly which lines show the usage, with the exception of C120 as described there."},
 {"property": "C122", "status": "proved", "theorems": ["port_as_written", "port_numbers", "leading_zero_refuted"], "note": "a leading zero means octal (companion refutation)"},
 {"property": "C123", "status": "proved", "theorems": ["only_named_files", "refused_line_refuted", "usage_creates_refuted", "one_file_created"], "note": "the refutations: a refused line, or one that asks for the usage, can leave an empty file"},
 {"property": "C124", "status": "proved", "theorems": ["debug_log_kept", "debug_log_refuted"], "note": "every line is complete if the disk takes it; the refutation: a log that is also the output is lost"},
 {"property": "C125", "status": "proved", "theorems": ["process_does_what_is_asked", "word_order_refuted"], "note": "the refutation: since --debug creates its file, the order of the words can matter"},
 {"property": "C126", "status": "proved", "theorems": ["inspect_end_to_end", "inspect_printed"], "note": "composes C119, C101 and C114 through the whole process; inspect_end_to_end: output to a file other than the debug log; inspect_printed: to the standard output"},
 {"property": "C127", "status": "proved", "theorems": ["inspect_failure_keeps_file"], "note": "the disk takes what is written"},
 {"property": "C128", "status": "proved", "theorems": ["ping_end_to_end"], "note": ""},
 {"property": "C129", "status": "proved", "theorems": ["list_end_to_end"], "note": "the runbook is not the debug log, and names nothing twice"},
 {"property": "C130", "status": "proved", "theorems": ["own_connection_closed"], "note": ""},
 {"property": "C131", "status": "proved", "theorems": ["dot_end_to_end", "dot_printed"], "note": "dot_end_to_end: to a file, dot_printed: to the standard output; the runbook is neither the output nor the debug log"},
 {"property": "C132", "status": "proved", "theorems": ["eval_end_to_end", "eval_printed"], "note": "eval_end_to_end: to a file, eval_printed: to the standard output; the runbook is neither the output nor the debug log"},
 {"property": "C133", "status": "proved", "theorems": ["version_end_to_end"], "note": ""},
 {"property": "C134", "status": "proved", "theorems": ["run_end_to_end"], "note": "Assumes the documents give no setting twice, sleeps that do not overflow and connect_retries not negative (C90, C91); order also that no task is named \"\" (C16)."},
 {"property": "C135", "status": "proved", "theorems": ["run_status"], "note": ""},
 {"property": "C136", "status": "proved", "theorems": ["tasks_progress"], "note": "FineProps"},
 {"property": "C137", "status": "proved", "theorems": ["complete_before"], "note": "For runbooks without a task named \"\" (C16, deeds_in_order_refuted)."},
 {"property": "C138", "status": "proved", "theorems": ["one_task_at_a_time", "one_task_at_a_time_refuted"], "note": "The second theorem shows that another target may come between."},
 {"property": "C139", "status": "proved", "theorems": ["nothing_left", "used_while_open", "nothing_left_refuted"], "note": "nothing_left_refuted: Run returns in the middle of a task if a target could not be started. The extra connections of C89 (retries) are not closed."},
 {"property": "C140", "status": "proved", "theorems": ["demo_output_anyway", "demo_output_same"], "note": "demo_output_same for runbooks without a task named \"\"."},
 {"property": "C141", "status": "proved", "theorems": ["connections_left_open"], "note": "For connect_retries of at least 0; C90 has what happens below."},
 {"property": "C142", "status": "partial", "theorems": ["hang_isolated_partial", "hang_isolated_refuted", "hang_isolated_alone_refuted", "run_comes_to_rest"], "note": "REFUTED in general: with a target of limit 2 the router blocks on a busy target while tasks for others queue behind (hang_isolated_refuted); with limits of 1 a ready task skipped by the dependency graph waits for a completion that never comes (hang_isolated_alone_refuted). Proved when all limits are 1 and no task comes after another. run_comes_to_rest: every run reaches such a state without any further Handle returning."},
 {"property": "C143", "status": "proved", "theorems": ["process_env_exact"], "note": "os/exec's removal of duplicates is modelled from the Go standard library, on Unix."},
 {"property": "C144", "status": "partial", "theorems": ["program_found", "own_path_refuted", "relative_path_refuted", "program_found_shortened", "shortened_path_refuted"], "note": "REFUTED for the command's own PATH, for relative names in PATH and for .. behind a link in PATH; proved with pgutil's own PATH when it holds absolute names (program_found on names as they are joined; program_found_shortened: with names cleaned as filepath.Join does the same file is run, if no .. is in PATH)."},
 {"property": "C145", "status": "proved", "theorems": ["run_commands", "run_line_commands", "run_commands_shortened"], "note": "run_line_commands states it of the whole process, from the command line and the runbook's text on. The environment part for names without = that are not empty; PATH (pgutil's) holding absolute names. run_commands_shortened: the same file with names shortened as filepath.Join does, if no .. is in PATH."},
 {"property": "C146", "status": "partial", "theorems": ["base_directory_partial", "base_directory_straight", "commands_beside", "base_directory_refuted", "run_line_beside"], "note": "REFUTED when .. follows a symbolic link (base_directory_refuted). Proved if there are no links, or if neither the runbook's name nor that of the current directory has .. in it. run_line_beside states it of the whole process, from the command line and the text of the runbook on."},
 {"property": "C147", "status": "partial", "theorems": ["at_file_partial", "at_file_line_partial", "at_file_unread", "at_file_itself", "at_file_hangs", "at_file_refuted"], "note": "REFUTED behind words like -v- (at_file_refuted). Proved for lines without such words: the line is carried out (with the same values), refused or answered with the usage exactly as the expanded line is (at_file_line_partial), and no command is carried out if a file cannot be read (at_file_unread). A file naming itself is never read to its end (at_file_itself, at_file_hangs). kingpin v2.2.6 and bufio.ScanLines are modelled from memory of their source; lines of 64 KiB and more, which bufio refuses, are read."}
]
