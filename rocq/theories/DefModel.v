(** How PostgreSQL writes the definitions that internal/pg asks for and internal/ddl
    parses: pg_get_constraintdef, pg_get_triggerdef and pg_get_indexdef
    (src/backend/utils/adt/ruleutils.c, PostgreSQL 9.6 to 15).  This is not code of
    pgutil; the lines of /repo cited are the places that ask for the text and the
    places that parse it.  Left out: tablespaces and the PERIOD, NOT ENFORCED and
    NULLS NOT DISTINCT clauses of later versions, operator class parameters, exclusion
    constraints. *)
From Coq Require Import String Ascii.
From stdpp Require Import list strings numbers.
From Verif Require Import GoStrings GoUtf8 DdlModel.
Local Open Scope Z_scope.

(** quote_identifier: a name is written as it is if it starts with a small letter or
    an underscore, has only small letters, digits and underscores, and is not a word
    with a special meaning ([reserved]: the keywords that are not "unreserved").
    Part of every text of internal/pg/index.go:9, internal/pg/check.go:8, internal/pg/foreign_key.go:8, internal/pg/triggers.go:10. *)
Definition small_code (z : Z) : bool := (97 <=? z) && (z <=? 122).
Definition safe_first (c : ascii) : bool := small_code (byte_of c) || (byte_of c =? 95).
Definition safe_later (c : ascii) : bool :=
  safe_first c || ((48 <=? byte_of c) && (byte_of c <=? 57)).
Definition safe_name (n : string) : bool :=
  match n with
  | "" => false
  | String c r => safe_first c && forallb safe_later (list_ascii_of_string r)
  end.
Definition printed_name (reserved : string → bool) (n : string) : string :=
  if safe_name n && negb (reserved n) then n else quote_name n.
(** generate_relation_name, generate_function_name, generate_collation_name,
    get_opclass_name: the schema is written if the name alone does not mean this object
    under the search path of the session (internal/pg/index.go:9, internal/pg/foreign_key.go:8, internal/pg/triggers.go:10). *)
Record named := Named { nm_schema : string; nm_name : string; nm_visible : bool }.
Definition printed_named (reserved : string → bool) (o : named) : string :=
  (if nm_visible o then "" else printed_name reserved (nm_schema o) +:+ ".") +:+
  printed_name reserved (nm_name o).
(** decompile_column_index_array and the loops like it: names separated by a comma
    and a space (internal/pg/foreign_key.go:8, internal/pg/triggers.go:10). *)
Definition printed_names (reserved : string → bool) (l : list string) : string :=
  String.concat ", " (printed_name reserved <$> l).

(** pg_get_constraintdef_worker, CONSTRAINT_FOREIGN: the text internal/pg/foreign_key.go:8 asks for,
    parsed at internal/pg/foreign_key.go:44. *)
Inductive match_kind := MatchSimple | MatchFull | MatchPartial.
Inductive fk_action := NoAction | Restrict | Cascade | SetNull | SetDefault.
Record fk_shape := FkShape {
  fs_columns : list string; fs_table : named; fs_referenced : list string; fs_match : match_kind;
  fs_update : fk_action; fs_delete : fk_action; fs_delete_columns : list string;
  fs_deferrable : bool; fs_deferred : bool; fs_valid : bool }.
(** The words for the actions (internal/pg/foreign_key.go:8). *)
Definition action_text (a : fk_action) : string :=
  match a with
  | NoAction => "" | Restrict => "RESTRICT" | Cascade => "CASCADE"
  | SetNull => "SET NULL" | SetDefault => "SET DEFAULT"
  end.
(** An action is written unless it is NO ACTION (internal/pg/foreign_key.go:8). *)
Definition printed_action (what : string) (a : fk_action) : string :=
  match a with NoAction => "" | _ => " ON " +:+ what +:+ " " +:+ action_text a end.
(** MATCH is written unless it is SIMPLE (internal/pg/foreign_key.go:8). *)
Definition printed_match (k : match_kind) : string :=
  match k with MatchSimple => "" | MatchFull => " MATCH FULL" | MatchPartial => " MATCH PARTIAL" end.
(** The end of every constraint definition (internal/pg/foreign_key.go:8). *)
Definition printed_options (deferrable deferred valid : bool) : string :=
  (if deferrable then " DEFERRABLE" else "") +:+ (if deferred then " INITIALLY DEFERRED" else "") +:+
  (if valid then "" else " NOT VALID").
(** The whole definition; MATCH and the actions in PostgreSQL's order, ON UPDATE first
    (internal/pg/foreign_key.go:8). *)
Definition printed_fk (reserved : string → bool) (f : fk_shape) : string :=
  "FOREIGN KEY (" +:+ printed_names reserved (fs_columns f) +:+ ") REFERENCES " +:+
  printed_named reserved (fs_table f) +:+ "(" +:+ printed_names reserved (fs_referenced f) +:+ ")" +:+
  printed_match (fs_match f) +:+ printed_action "UPDATE" (fs_update f) +:+
  printed_action "DELETE" (fs_delete f) +:+
  match fs_delete_columns f with
  | [] => ""
  | l => " (" +:+ printed_names reserved l +:+ ")"
  end +:+
  printed_options (fs_deferrable f) (fs_deferred f) (fs_valid f).

(** pg_get_constraintdef_worker, CONSTRAINT_CHECK: the text internal/pg/check.go:8 asks for, parsed
    at internal/pg/check.go:42.  The expression is already a text here. *)
Record check_shape := CheckShape { cs_expression : string; cs_no_inherit : bool; cs_valid : bool }.
(** The whole definition; checks are never deferrable (internal/pg/check.go:8). *)
Definition printed_check (c : check_shape) : string :=
  "CHECK (" +:+ cs_expression c +:+ ")" +:+ (if cs_no_inherit c then " NO INHERIT" else "") +:+
  (if cs_valid c then "" else " NOT VALID").

(** pg_get_triggerdef_worker with pretty-printing: the text internal/pg/triggers.go:10 and 24 ask
    for, parsed at internal/pg/triggers.go:53 and 85. *)
Inductive trigger_time := Before | After | InsteadOf.
Record trigger_shape := TriggerShape {
  ts_name : string; ts_time : trigger_time;
  ts_insert : bool; ts_delete : bool; ts_update : option (list string); ts_truncate : bool;
  ts_table : named;
  (* For a constraint trigger: FROM, DEFERRABLE, INITIALLY DEFERRED. *)
  ts_constraint : option (option named * bool * bool);
  ts_old_table : option string; ts_new_table : option string;
  ts_each_row : bool; ts_when : option string; ts_function : named; ts_arguments : list string }.
(** The words for the time (internal/pg/triggers.go:10). *)
Definition time_text (t : trigger_time) : string :=
  match t with Before => "BEFORE" | After => "AFTER" | InsteadOf => "INSTEAD OF" end.
(** The events, in PostgreSQL's order (internal/pg/triggers.go:10). *)
Definition printed_events (reserved : string → bool) (t : trigger_shape) : list string :=
  (if ts_insert t then ["INSERT"] else []) ++ (if ts_delete t then ["DELETE"] else []) ++
  match ts_update t with
  | None => []
  | Some [] => ["UPDATE"]
  | Some l => ["UPDATE OF " +:+ printed_names reserved l]
  end ++ (if ts_truncate t then ["TRUNCATE"] else []).
(** simple_quote_literal, with standard_conforming_strings on (internal/pg/triggers.go:10). *)
Definition squote : ascii := of_byte 39.
Fixpoint double_squotes (s : string) : string :=
  match s with
  | "" => ""
  | String c s => if decide (c = squote) then String c (String c (double_squotes s)) else String c (double_squotes s)
  end.
(** ... in single quotes: an argument of the function (internal/pg/triggers.go:10). *)
Definition printed_literal (s : string) : string := String squote (double_squotes s +:+ String squote "").
(** What constraint triggers have more (internal/pg/triggers.go:10). *)
Definition printed_constraint (reserved : string → bool) (c : option (option named * bool * bool)) : string :=
  match c with
  | None => ""
  | Some (from, deferrable, deferred) =>
      match from with None => "" | Some r => "FROM " +:+ printed_named reserved r +:+ " " end +:+
      (if deferrable then "" else "NOT ") +:+ "DEFERRABLE INITIALLY " +:+
      (if deferred then "DEFERRED " else "IMMEDIATE ")
  end.
(** Transition tables (internal/pg/triggers.go:10). *)
Definition printed_transition (reserved : string → bool) (old new : option string) : string :=
  match old, new with
  | None, None => ""
  | _, _ => "REFERENCING " +:+
      match old with None => "" | Some n => "OLD TABLE AS " +:+ printed_name reserved n +:+ " " end +:+
      match new with None => "" | Some n => "NEW TABLE AS " +:+ printed_name reserved n +:+ " " end
  end.
(** [word]: FUNCTION since PostgreSQL 11, PROCEDURE before (internal/pg/triggers.go:10). *)
Inductive function_word := FunctionWord | ProcedureWord.
Definition word_text (w : function_word) : string :=
  match w with FunctionWord => "FUNCTION" | ProcedureWord => "PROCEDURE" end.
(** The whole definition (internal/pg/triggers.go:10). *)
Definition printed_trigger (reserved : string → bool) (word : function_word) (t : trigger_shape) : string :=
  "CREATE " +:+ (match ts_constraint t with None => "" | Some _ => "CONSTRAINT " end) +:+ "TRIGGER " +:+
  printed_name reserved (ts_name t) +:+ " " +:+ time_text (ts_time t) +:+ " " +:+
  String.concat " OR " (printed_events reserved t) +:+
  " ON " +:+ printed_named reserved (ts_table t) +:+ " " +:+
  printed_constraint reserved (ts_constraint t) +:+
  printed_transition reserved (ts_old_table t) (ts_new_table t) +:+
  (if ts_each_row t then "FOR EACH ROW " else "FOR EACH STATEMENT ") +:+
  match ts_when t with None => "" | Some e => "WHEN (" +:+ e +:+ ") " end +:+
  "EXECUTE " +:+ word_text word +:+ " " +:+ printed_named reserved (ts_function t) +:+
  "(" +:+ String.concat ", " (printed_literal <$> ts_arguments t) +:+ ")".

(** pg_get_indexdef_worker with pretty-printing and all columns: the text internal/pg/index.go:9
    asks for, parsed at internal/pg/index.go:48.  A key is a column, an expression that looks like
    a function call (the name and the text in parentheses) or another expression;
    expressions are already texts. *)
Inductive key_source := KeyColumn (c : string) | KeyCall (f : named) (arguments : string) | KeyExpression (e : string).
Inductive nulls := NullsDefault | NullsFirst | NullsLast.
Record key_shape := KeyShape {
  ks_source : key_source; ks_collation : option named; ks_class : option named;
  ks_descending : bool; ks_nulls : nulls }.
Record index_shape := IndexShape {
  is_name : string; is_unique : bool; is_only : bool; is_table : named; is_method : string;
  is_keys : list key_shape; is_include : list string; is_options : string; is_where : option string }.
(** A key: what it is on (internal/pg/index.go:9). *)
Definition printed_source (reserved : string → bool) (s : key_source) : string :=
  match s with
  | KeyColumn c => printed_name reserved c
  | KeyCall f a => printed_named reserved f +:+ "(" +:+ a +:+ ")"
  | KeyExpression e => "(" +:+ e +:+ ")"
  end.
(** ... and collation, operator class and order (internal/pg/index.go:9). *)
Definition printed_key (reserved : string → bool) (k : key_shape) : string :=
  printed_source reserved (ks_source k) +:+
  match ks_collation k with None => "" | Some c => " COLLATE " +:+ printed_named reserved c end +:+
  match ks_class k with None => "" | Some c => " " +:+ printed_named reserved c end +:+
  (if ks_descending k then " DESC" else "") +:+
  match ks_nulls k with NullsDefault => "" | NullsFirst => " NULLS FIRST" | NullsLast => " NULLS LAST" end.
(** The whole definition (internal/pg/index.go:9). *)
Definition printed_index (reserved : string → bool) (i : index_shape) : string :=
  "CREATE " +:+ (if is_unique i then "UNIQUE " else "") +:+ "INDEX " +:+ printed_name reserved (is_name i) +:+
  " ON " +:+ (if is_only i then "ONLY " else "") +:+ printed_named reserved (is_table i) +:+
  " USING " +:+ printed_name reserved (is_method i) +:+
  " (" +:+ String.concat ", " (printed_key reserved <$> is_keys i) +:+ ")" +:+
  match is_include i with [] => "" | l => " INCLUDE (" +:+ printed_names reserved l +:+ ")" end +:+
  (if decide (is_options i = "") then "" else " WITH (" +:+ is_options i +:+ ")") +:+
  match is_where i with None => "" | Some e => " WHERE " +:+ e end.
