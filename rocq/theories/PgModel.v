(** internal/pg: connecting, the List functions and InspectDatabase.  The server is
    an argument: what it answers to every query. *)
From Coq Require Import String Ascii.
From stdpp Require Import gmap list strings numbers.
From Verif Require Import GoBase GoStrings GoUtf8 DdlModel MachineModel ParseModel.
Local Open Scope Z_scope.

(** * Connecting *)

(** crypto/tls.Config, the two fields the code sets. *)
Record tls_config := Tls { tls_server_name : string; tls_insecure : bool }.
(** pgx.ConnConfig, the fields the code sets.  [c_tls] absent means nil. *)
Record config := Config {
  c_host : string; c_port : Z; c_user : string; c_password : string; c_database : string;
  c_tls : option tls_config; c_use_fallback : bool; c_fallback_tls : option tls_config }.
(** pg.go:14-25, without the logger. *)
Record options := Options {
  o_host : string; o_port : Z; o_sslmode : string; o_username : string; o_password : string;
  o_database : string; o_retries : Z }.
(** pg.go:125-130. *)
Definition first_of_string (a b : string) : string := if decide (a = "") then b else a.
(** pg.go:132-137. *)
Definition first_of_uint16 (a b : Z) : Z := if decide (a = 0) then b else a.
(** The three assignments of every case of applySSLMode. *)
Definition with_tls (c : config) (fb : bool) (t f : option tls_config) : config :=
  Config (c_host c) (c_port c) (c_user c) (c_password c) (c_database c) t fb f.
(** pg.go:97-123; [None]: "invalid sslmode". *)
Definition apply_ssl_mode (c : config) (mode : string) : option config :=
  if decide (mode = "disable") then Some (with_tls c false None None)
  else if decide (mode = "allow") then Some (with_tls c true None (Some (Tls "" true)))
  else if decide (mode = "prefer") then Some (with_tls c true (Some (Tls "" true)) None)
  else if decide (mode = "require") then Some (with_tls c false (Some (Tls "" true)) None)
  else if decide (mode = "verify-full") then Some (with_tls c false (Some (Tls (c_host c) false)) None)
  else None.
(** pg.go:35-56: the configuration New connects with.  [env] is the result of
    pgx.ParseEnvLibpq, [None] its error; the result is [None] when New returns an
    error before connecting.  The logger is left out. *)
Definition configure (o : options) (env : option config) : option config :=
  match env with
  | None => None
  | Some e =>
      let c := Config (first_of_string (o_host o) (c_host e)) (first_of_uint16 (o_port o) (c_port e))
        (first_of_string (o_username o) (c_user e)) (first_of_string (o_password o) (c_password e))
        (first_of_string (o_database o) (c_database e)) (c_tls e) (c_use_fallback e) (c_fallback_tls e) in
      let mode := if bool_decide (o_sslmode o = "" ∧ c_password c ≠ "") then "verify-full" else o_sslmode o in
      if decide (mode = "") then Some c else apply_ssl_mode c mode
  end.
(** pgx.Connect (a dependency): the ways in which it may talk to the server, in
    order.  The first is with TLSConfig, nil meaning without TLS; only if that fails
    and UseFallbackTLS is set, there is a second with FallbackTLSConfig. *)
Definition tries (c : config) : list (option tls_config) :=
  c_tls c :: (if c_use_fallback c then [c_fallback_tls c] else []).

(** What New does while connecting: a call of pgx.Connect, or time.Sleep, in
    milliseconds. *)
Inductive conn_event := Attempt (i : Z) | Sleep (ms : Z).
(** What New returns: a connection (the one of that attempt), an error (the one of
    that attempt), or a Conn without connection and no error. *)
Inductive connected := Connected (i : Z) | NotConnected (i : Z) | NoConnection.
(** pg.go:62-79: the loop from [retries], [n] rounds being left; [ok i] tells whether
    attempt [i] succeeds, [last] is the current value of conn.  "2^retries" is an
    exclusive or.  Machine integers are not modelled (a retry count near 2^63). *)
Fixpoint retry (ok : Z → bool) (limit : Z) (n : nat) (retries delay : Z) (last : connected) :
    list conn_event * connected :=
  match n with
  | O => ([], last)
  | S n =>
      if ok retries then
        let '(t, r) := retry ok limit n (retries + 1) delay (Connected retries) in
        (Attempt retries :: t, r)
      else if decide (retries < limit) then
        let '(t, r) := retry ok limit n (retries + 1) (Z.lxor 2 retries * 100) NoConnection in
        (Attempt retries :: Sleep delay :: t, r)
      else ([Attempt retries], NotConnected retries)
  end.
Definition connect (ok : Z → bool) (limit : Z) : list conn_event * connected :=
  retry ok limit (Z.to_nat (limit + 1)) 0 100 NoConnection.

(** * Queries *)

(** What a Query and the loop over its rows get from the server: an error, or rows
    ([None]: Scan fails on it) after which Next returns false; [cut]: it does so
    because of a failure, which rows.Err() would tell. *)
Inductive answer (R : Type) := Refused | Rows (l : list (option R)) (cut : bool).
Arguments Refused {R}. Arguments Rows {R}.
(** QueryRow and Scan. *)
Inductive row_answer (R : Type) := NoRow | RowFailed | Row (r : R).
Arguments NoRow {R}. Arguments RowFailed {R}. Arguments Row {R}.
(** The results of the functions of this package. *)
Inductive result (A : Type) := Got (a : A) | Failed | NotFound | Panicked.
Arguments Got {A}. Arguments Failed {A}. Arguments NotFound {A}. Arguments Panicked {A}.
(** "if err != nil { return nil, err }" after a call. *)
Global Instance result_bind : MBind result := λ A B f r,
  match r with Got a => f a | Failed => Failed | NotFound => NotFound | Panicked => Panicked end.

(** The loop "for rows.Next() { Scan; convert; append }" and what follows it, which
    is the same in all List functions: check.go:32-53, columns.go:40-59,
    foreign_key.go:34-55, functions.go:88-116, index.go:37-60, schemas.go:29-48,
    sequence.go:114-159 and 171-203, tables.go:34-54, triggers.go:76-96.
    None of them calls rows.Err(). *)
Fixpoint scan {R A} (conv : R → outcome A) (l : list (option R)) : result (list A) :=
  match l with
  | [] => Got []
  | None :: _ => Failed
  | Some r :: l =>
      match conv r with
      | Parsed a => (x ← scan conv l; Got (a :: x))
      | ParseError _ => Failed
      | Crash => Panicked
      end
  end.
Definition collect {R A} (conv : R → outcome A) (a : answer R) : result (list A) :=
  match a with Refused => Failed | Rows l _ => scan conv l end.
Definition map_outcome {A B} (f : A → B) (o : outcome A) : outcome B :=
  match o with Parsed a => Parsed (f a) | ParseError cs => ParseError cs | Crash => Crash end.

(** util.go:6-11. *)
Definition nullable (s : option string) : string := match s with None => "" | Some s => s end.

(** internal/ddl/database.go:22-26. *)
Record schema := Schema { sc_name : string; sc_owner : string; sc_comment : string }.
(** internal/ddl/sequence.go:4-24. *)
Record sequence := Sequence {
  sq_schema : string; sq_name : string; sq_owner : string; sq_comment : string; sq_type : string;
  sq_start : Z; sq_minimum : Z; sq_maximum : Z; sq_increment : Z; sq_cache : Z; sq_cycle : bool;
  sq_owned_schema : string; sq_owned_table : string; sq_owned_column : string }.

(** The columns of the queries, as scanned. *)
Record schema_row := SchemaRow { sr_name : option string; sr_owner : option string; sr_comment : option string }.
Record table_row := TableRow {
  tr_schema : option string; tr_name : option string; tr_owner : option string; tr_comment : option string }.
Record column_row := ColumnRow {
  cr_name : string; cr_type : string; cr_not_null : bool; cr_default : option string; cr_comment : option string }.
Record function_row := FunctionRow {
  fr_schema : option string; fr_name : option string; fr_owner : option string; fr_comment : option string;
  fr_returns : option string; fr_language : option string; fr_definition : option string }.
Record owner_row := OwnerRow { or_schema : option string; or_table : option string; or_column : option string }.
Record sequence_row := SequenceRow {
  qr_schema : option string; qr_name : option string; qr_owner : option string; qr_comment : option string;
  qr_owned : owner_row }.
Record details_row := DetailsRow {
  dr_start : Z; dr_minimum : Z; dr_maximum : Z; dr_increment : Z; dr_cache : Z; dr_cycle : bool }.
Record named_def := NamedDef { nd_name : string; nd_def : string }.
Record index_row := IndexRow { xr_name : string; xr_primary : bool; xr_def : string }.

(** schemas.go:29-42. *)
Definition schema_of (r : schema_row) : outcome schema :=
  Parsed (Schema (nullable (sr_name r)) (nullable (sr_owner r)) (nullable (sr_comment r))).
Definition list_schemas (a : answer schema_row) : result (list schema) := collect schema_of a.
(** tables.go:34-48. *)
Definition table_of (r : table_row) : outcome table :=
  Parsed (Table (nullable (tr_schema r)) (nullable (tr_name r)) (nullable (tr_owner r)) (nullable (tr_comment r)) [] [] []).
Definition list_tables (a : answer table_row) : result (list table) := collect table_of a.
(** columns.go:40-53. *)
Definition column_of (r : column_row) : outcome column :=
  Parsed (Column (cr_name r) (cr_type r) (cr_not_null r) (nullable (cr_default r)) (nullable (cr_comment r))).
Definition list_columns (a : answer column_row) : result (list column) := collect column_of a.
(** functions.go:88-111. *)
Definition func_of (r : function_row) : func :=
  Func (nullable (fr_schema r)) (nullable (fr_name r)) (nullable (fr_owner r)) (nullable (fr_comment r))
    (nullable (fr_returns r)) (nullable (fr_language r)) (nullable (fr_definition r)).
Definition list_functions (a : answer function_row) : result (list func) := collect (λ r, Parsed (func_of r)) a.
(** check.go:32-48. *)
Definition check_of (r : named_def) : outcome check :=
  map_outcome (λ c, Check (nd_name r) (ck_expression c) (ck_deferrable c) (ck_deferred c)) (parse_check (nd_def r)).
Definition list_checks (a : answer named_def) : result (list check) := collect check_of a.
(** foreign_key.go:34-50. *)
Definition fk_set_name (s : string) (fk : foreign_key) : foreign_key :=
  ForeignKey s (fk_table fk) (fk_columns fk) (fk_referenced fk) (fk_match fk)
    (fk_on_delete fk) (fk_on_update fk) (fk_deferrable fk) (fk_deferred fk).
Definition foreign_key_of (r : named_def) : outcome foreign_key :=
  map_outcome (fk_set_name (nd_name r)) (parse_foreign_key (nd_def r)).
Definition list_foreign_keys (a : answer named_def) : result (list foreign_key) := collect foreign_key_of a.
(** index.go:37-55.  The name of the row is only logged. *)
Definition index_of (schema : string) (r : index_row) : outcome index :=
  map_outcome (λ i, Index schema (ix_table i) (ix_name i) (xr_primary r) (ix_unique i) (ix_using i) (ix_where i) (ix_keys i))
    (parse_index (xr_def r)).
Definition list_indexes (schema : string) (a : answer index_row) : result (list index) := collect (index_of schema) a.
(** triggers.go:76-92.  The name of the row is only logged. *)
Definition tg_set_schema (s : string) (t : trigger) : trigger :=
  Trigger s (tg_table t) (tg_name t) (tg_function t) (tg_when t) (tg_constraint t) (tg_deferrable t) (tg_deferred t)
    (tg_each_row t) (tg_delete t) (tg_insert t) (tg_truncate t) (tg_update t) (tg_columns t).
Definition trigger_of (schema : string) (r : named_def) : outcome trigger :=
  map_outcome (tg_set_schema schema) (parse_trigger (nd_def r)).
Definition list_triggers (schema : string) (a : answer named_def) : result (list trigger) := collect (trigger_of schema) a.

(** triggers.go:37-61. *)
Definition describe_trigger (schema : string) (a : row_answer string) : result trigger :=
  match a with
  | NoRow => NotFound
  | RowFailed => Failed
  | Row def =>
      match parse_trigger def with
      | Parsed t => Got (tg_set_schema schema t)
      | ParseError _ => Failed
      | Crash => Panicked
      end
  end.
(** functions.go:45-74.  Schema and name of the row are not asked for. *)
Definition describe_function (schema name : string) (a : row_answer function_row) : result func :=
  match a with
  | NoRow => NotFound
  | RowFailed => Failed
  | Row r => Got (Func schema name (nullable (fr_owner r)) (nullable (fr_comment r)) (nullable (fr_returns r))
               (nullable (fr_language r)) (nullable (fr_definition r)))
  end.
(** A single row whose absence has no special meaning. *)
Definition single {R} (a : row_answer R) : result R :=
  match a with NoRow => Failed | RowFailed => Failed | Row r => Got r end.
(** version.go:4-16. *)
Definition server_version (a : row_answer string) : result string := single a.

(** sequence.go:114-153 (pg). *)
Definition sequence_of (r : sequence_row * (option string * details_row)) : outcome sequence :=
  let '(q, (ty, d)) := r in
  Parsed (Sequence (nullable (qr_schema q)) (nullable (qr_name q)) (nullable (qr_owner q)) (nullable (qr_comment q))
    (nullable ty) (dr_start d) (dr_minimum d) (dr_maximum d) (dr_increment d) (dr_cache d) (dr_cycle d)
    (nullable (or_schema (qr_owned q))) (nullable (or_table (qr_owned q))) (nullable (or_column (qr_owned q)))).
(** sequence.go:171-199 (pg). *)
Definition old_sequence_of (r : sequence_row) : outcome sequence :=
  Parsed (Sequence (nullable (qr_schema r)) (nullable (qr_name r)) (nullable (qr_owner r)) (nullable (qr_comment r))
    "bigint" 0 0 0 0 0 false
    (nullable (or_schema (qr_owned r))) (nullable (or_table (qr_owned r))) (nullable (or_column (qr_owned r)))).
(** sequence.go:205-234 (pg): the second query, one for each sequence.  [details]
    answers the query about the relation of the given SQL name. *)
Fixpoint add_details (details : string → row_answer details_row) (l : list sequence) : result (list sequence) :=
  match l with
  | [] => Got []
  | q :: l =>
      d ← single (details (identifier [sq_schema q; sq_name q]));
      x ← add_details details l;
      Got (Sequence (sq_schema q) (sq_name q) (sq_owner q) (sq_comment q) (sq_type q)
             (dr_start d) (dr_minimum d) (dr_maximum d) (dr_increment d) (dr_cache d) (dr_cycle d)
             (sq_owned_schema q) (sq_owned_table q) (sq_owned_column q) :: x)
  end.
(** sequence.go:88-103 (pg). *)
Definition list_sequences (has_view : row_answer bool)
    (new : answer (sequence_row * (option string * details_row))) (old : answer sequence_row)
    (details : string → row_answer details_row) : result (list sequence) :=
  single has_view ≫= λ view : bool,
  if view then collect sequence_of new
  else (l ← collect old_sequence_of old; add_details details l).

(** strings.Split for a one byte separator. *)
Fixpoint split_byte (c : ascii) (s : string) : list string :=
  match s with
  | "" => [""]
  | String d s =>
      if decide (d = c) then "" :: split_byte c s
      else match split_byte c s with x :: l => String d x :: l | [] => [String d ""] end
  end.
(** internal/ddl/database.go:16-19. *)
Record settings := Settings { pa_search_path : list string; pa_timezone : string }.
(** parameters.go:10-32. *)
Definition list_parameters (search_path timezone : row_answer string) : result settings :=
  s ← single search_path; t ← single timezone; Got (Settings (split_byte "," s) t).

(** table_storage_parameters.go:40-45: strings.SplitN(tmp, "=", 2). *)
Definition split_option (s : string) : string * string :=
  match index_byte "=" s with
  | Some i => (str_take i s, str_drop (S i) s)
  | None => (s, "")
  end.
(** table_storage_parameters.go:32-50. *)
Fixpoint set_options (pf : float_parser) (p : storage) (l : list (option string)) : result storage :=
  match l with
  | [] => Got p
  | None :: _ => Failed
  | Some s :: l =>
      let '(k, v) := split_option s in
      let '(p', ok) := storage_set pf p k v in
      if ok then set_options pf p' l else Failed
  end.
(** table_storage_parameters.go:20-55. *)
Definition list_storage (pf : float_parser) (a : answer string) : result storage :=
  match a with Refused => Failed | Rows l _ => set_options pf ∅ l end.

(** * InspectDatabase *)

(** inspect.go:9-13; nil options are all false (inspect.go:18-20). *)
Record inspect_options := InspectOptions { io_sort_checks : bool; io_sort_columns : bool; io_sort_indexes : bool }.
(** What the server answers.  Queries about a table depend on its schema and name
    only: the catalogues do not change during the inspection. *)
Record server := Server {
  sv_search_path : row_answer string; sv_timezone : row_answer string;
  sv_schemas : answer schema_row; sv_functions : answer function_row;
  sv_has_view : row_answer bool; sv_sequences : answer (sequence_row * (option string * details_row));
  sv_old_sequences : answer sequence_row; sv_details : string → row_answer details_row;
  sv_tables : answer table_row;
  sv_columns : string → string → answer column_row; sv_checks : string → string → answer named_def;
  sv_foreign_keys : string → string → answer named_def; sv_storage : string → string → answer string;
  sv_indexes : string → string → answer index_row; sv_triggers : string → string → answer named_def }.
(** internal/ddl/database.go:4-13.  A table comes with its storage parameters. *)
Record database := Database {
  db_parameters : settings; db_schemas : list schema; db_functions : list func; db_sequences : list sequence;
  db_tables : list (table * storage); db_indexes : list index; db_triggers : list trigger }.
(** sort.Slice with a comparison of two elements. *)
Definition sorter := ∀ A, (A → A → bool) → list A → list A.
(** inspect.go:79-83. *)
Definition column_less (a b : column) : bool := String.ltb (co_name a) (co_name b).
(** inspect.go:63-68. *)
Definition index_less (a b : index) : bool :=
  String.ltb (ix_schema a) (ix_schema b) && String.ltb (ix_table a) (ix_table b) && String.ltb (ix_name a) (ix_name b).
(** inspect.go:74-130: the table completed, and what is added to db.Indexes and
    db.Triggers.  inspect.go:90-97: append copies the checks before they are sorted,
    and the sorted slice is not used, so that SortChecks does nothing. *)
Definition inspect_table (srt : sorter) (pf : float_parser) (o : inspect_options) (sv : server) (t : table) :
    result ((table * storage) * list index * list trigger) :=
  cols ← list_columns (sv_columns sv (tb_schema t) (tb_name t));
  let cols := if io_sort_columns o then srt _ column_less cols else cols in
  checks ← list_checks (sv_checks sv (tb_schema t) (tb_name t));
  fks ← list_foreign_keys (sv_foreign_keys sv (tb_schema t) (tb_name t));
  params ← list_storage pf (sv_storage sv (tb_schema t) (tb_name t));
  ixs ← list_indexes (tb_schema t) (sv_indexes sv (tb_schema t) (tb_name t));
  tgs ← list_triggers (tb_schema t) (sv_triggers sv (tb_schema t) (tb_name t));
  Got ((Table (tb_schema t) (tb_name t) (tb_owner t) (tb_comment t) cols
          (tb_checks t ++ checks) (tb_foreign_keys t ++ fks), params), ixs, tgs).
(** inspect.go:55-59. *)
Fixpoint inspect_each (srt : sorter) (pf : float_parser) (o : inspect_options) (sv : server) (l : list table) :
    result (list (table * storage) * list index * list trigger) :=
  match l with
  | [] => Got ([], [], [])
  | t :: l =>
      x ← inspect_table srt pf o sv t;
      y ← inspect_each srt pf o sv l;
      Got (x.1.1 :: y.1.1, x.1.2 ++ y.1.2, x.2 ++ y.2)
  end.
(** inspect.go:16-72. *)
Definition inspect (srt : sorter) (pf : float_parser) (o : inspect_options) (sv : server) : result database :=
  params ← list_parameters (sv_search_path sv) (sv_timezone sv);
  schemas ← list_schemas (sv_schemas sv);
  functions ← list_functions (sv_functions sv);
  sequences ← list_sequences (sv_has_view sv) (sv_sequences sv) (sv_old_sequences sv) (sv_details sv);
  tables ← list_tables (sv_tables sv);
  x ← inspect_each srt pf o sv tables;
  Got (Database params schemas functions sequences x.1.1
         (if io_sort_indexes o then srt _ index_less x.1.2 else x.1.2) x.2).
