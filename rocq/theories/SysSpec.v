(** Specification of the queries of internal/pg: which objects of a database each
    listing is about. *)
From Coq Require Import String Ascii.
From stdpp Require Import gmap list strings numbers sorting.
From Verif Require Import GoBase GoStrings DdlModel MachineModel ParseModel PgModel PgSpec QueryModel SysModel.
Local Open Scope Z_scope.

(** * Databases *)

(** What PostgreSQL's unique indexes and dependencies guarantee about its catalogues. *)
Record sane (sy : system) : Prop := {
  sane_ns_oid : NoDup (ns_oid <$> sy_namespaces sy);
  sane_ns_name : NoDup (ns_name <$> sy_namespaces sy);
  sane_rel_oid : NoDup (rel_oid <$> sy_classes sy);
  sane_rel_name : NoDup ((λ c, (rel_namespace c, rel_name c)) <$> sy_classes sy);
  sane_att : NoDup ((λ a, (att_rel a, att_num a)) <$> sy_attributes sy);
  sane_def : NoDup ((λ d, (def_rel d, def_num d)) <$> sy_attrdefs sy);
  sane_ind : NoDup (ind_index <$> sy_indexes sy);
  sane_con : NoDup (con_oid <$> sy_constraints sy);
  sane_con_name : NoDup ((λ r, (con_rel r, con_name r)) <$> sy_constraints sy);
  sane_trig : NoDup (trig_oid <$> sy_triggers sy);
  sane_trig_name : NoDup ((λ t, (trig_rel t, trig_name t)) <$> sy_triggers sy);
  sane_proc : NoDup (proc_oid <$> sy_procs sy);
  sane_lang : NoDup (lang_oid <$> sy_languages sy);
  sane_seq l : sy_sequences sy = Some l → NoDup (seq_rel <$> l);
  sane_dep : NoDup (sy_depends sy);
  (** The schema of a relation or function, the language of a function, the relation
      of an index and the referenced table of a foreign key exist. *)
  sane_rel_ns c : c ∈ sy_classes sy → ∃ n, n ∈ sy_namespaces sy ∧ ns_oid n = rel_namespace c;
  sane_proc_ns p : p ∈ sy_procs sy → ∃ n, n ∈ sy_namespaces sy ∧ ns_oid n = proc_namespace p;
  sane_proc_lang p : p ∈ sy_procs sy → ∃ l, l ∈ sy_languages sy ∧ lang_oid l = proc_lang p;
  sane_ind_rel i : i ∈ sy_indexes sy → ∃ c, c ∈ sy_classes sy ∧ rel_oid c = ind_index i;
  sane_con_frel r : r ∈ sy_constraints sy → con_type r = "f" → ∃ c, c ∈ sy_classes sy ∧ rel_oid c = con_frel r;
  (** An index is in the schema of its table. *)
  sane_ind_ns i c d : i ∈ sy_indexes sy → c ∈ sy_classes sy → d ∈ sy_classes sy →
    rel_oid c = ind_index i → rel_oid d = ind_rel i → rel_namespace c = rel_namespace d;
  (** There is pg_catalog.pg_class; pg_catalog.pg_sequence is there since 10, with a row
      for each sequence. *)
  sane_catalog : ∃ n c, n ∈ sy_namespaces sy ∧ c ∈ sy_classes sy ∧ ns_name n = "pg_catalog" ∧
    rel_namespace c = ns_oid n ∧ rel_name c = "pg_class";
  sane_view : (∃ n c, n ∈ sy_namespaces sy ∧ c ∈ sy_classes sy ∧ ns_name n = "pg_catalog" ∧
    rel_namespace c = ns_oid n ∧ rel_name c = "pg_sequence") ↔ is_Some (sy_sequences sy);
  sane_seq_rel l c : sy_sequences sy = Some l → c ∈ sy_classes sy → rel_kind c = "S" →
    ∃ s, s ∈ l ∧ seq_rel s = rel_oid c;
  (** The collation orders texts. *)
  sane_text_refl x : sy_text_le sy x x = true;
  sane_text_trans x y z : sy_text_le sy x y = true → sy_text_le sy y z = true → sy_text_le sy x z = true;
  sane_text_total x y : sy_text_le sy x y = true ∨ sy_text_le sy y x = true;
  sane_text_anti x y : sy_text_le sy x y = true → sy_text_le sy y x = true → x = y }.

(** Relation [c] is in schema [n]. *)
Definition rel_in (sy : system) (n : pg_namespace) (c : pg_class) : Prop :=
  n ∈ sy_namespaces sy ∧ c ∈ sy_classes sy ∧ rel_namespace c = ns_oid n.
(** Relation [oid] is the one called [t] in schema [s]. *)
Definition is_relation (sy : system) (s t : string) (oid : Z) : Prop :=
  ∃ n c, rel_in sy n c ∧ ns_name n = s ∧ rel_name c = t ∧ rel_oid c = oid.
(** The search path finds the relation by its name alone: its schema is in the path,
    and no schema before it has a relation of that name. *)
Definition in_view (sy : system) (c : pg_class) : Prop :=
  ∃ before after, sy_path sy = before ++ rel_namespace c :: after ∧
    ∀ d, d ∈ sy_classes sy → rel_name d = rel_name c → rel_namespace d ∉ before.
(** The same for a function, by its name and arguments. *)
Definition function_in_view (sy : system) (p : pg_proc) : Prop :=
  ∃ before after, sy_path sy = before ++ proc_namespace p :: after ∧
    ∀ q, q ∈ sy_procs sy → proc_name q = proc_name p → proc_args q = proc_args p → proc_namespace q ∉ before.

(** * Listings *)

(** [l] has an entry for exactly the objects in [P], each once, in this order. *)
Definition lists_exactly {A B} (P : A → Prop) (before : A → A → Prop) (entry : A → B → Prop) (l : list B) : Prop :=
  ∃ objects, (∀ a, a ∈ objects ↔ P a) ∧ NoDup objects ∧ StronglySorted before objects ∧ Forall2 entry objects l.

(** The server answers the query from its catalogues; it may refuse, and rows may fail
    to be scanned.  [all]: nothing of the kind happens. *)
Definition replies {R} (scan : list value → option R) (sy : system) (q : query) (ps : list string) (a : answer R) : Prop :=
  ∃ rows, yields (store_of sy) (VText <$> ps) q rows ∧
    (a = Refused ∨ ∃ l, a = Rows l false ∧ Forall2 (λ o r, o = None ∨ o = scan r) l rows).
Definition replies_all {R} (scan : list value → option R) (sy : system) (q : query) (ps : list string) (a : answer R) : Prop :=
  ∃ rows, yields (store_of sy) (VText <$> ps) q rows ∧ a = Rows (scan <$> rows) false.
(** The rows the server has for a query, as scanned. *)
Definition has_rows {R} (scan : list value → option R) (sy : system) (q : query) (ps : list string) (held : list R) : Prop :=
  ∃ rows, yields (store_of sy) (VText <$> ps) q rows ∧ scan <$> rows = Some <$> held.
(** The first row of the answer, or none. *)
Definition replies_row {R} (scan : list value → option R) (sy : system) (q : query) (ps : list string) (a : row_answer R) : Prop :=
  ∃ rows, yields (store_of sy) (VText <$> ps) q rows ∧
    (a = RowFailed ∨ (rows = [] ∧ a = NoRow) ∨ (∃ r rows' x, rows = r :: rows' ∧ scan r = Some x ∧ a = Row x)).

(** Schemas users make: not information_schema, not pg_... *)
Definition user_schema (n : pg_namespace) : Prop :=
  ns_name n ≠ "information_schema" ∧ ∀ x, ns_name n ≠ "pg_" +:+ x.
Definition schema_for (sy : system) (n : pg_namespace) (s : schema) : Prop :=
  schema_entry (SchemaRow (Some (ns_name n)) (Some (sy_user sy (ns_owner n))) (sy_comment sy "pg_namespace" (ns_oid n))) s.
Definition schemas_of (sy : system) (l : list schema) : Prop :=
  lists_exactly (λ n, n ∈ sy_namespaces sy ∧ user_schema n) (λ a b, str_le (ns_name a) (ns_name b)) (schema_for sy) l.

(** Order by two names. *)
Definition by_names (a b : string * string) : Prop := (a.1 ≠ b.1 ∧ str_le a.1 b.1) ∨ (a.1 = b.1 ∧ str_le a.2 b.2).
(** Ordinary and partitioned tables outside the schemas of the system. *)
Definition user_table (n : pg_namespace) (c : pg_class) : Prop :=
  (rel_kind c = "r" ∨ rel_kind c = "p" ∨ rel_kind c = "") ∧ ns_name n ≠ "pg_catalog" ∧
  ns_name n ≠ "information_schema" ∧ ∀ x, ns_name n ≠ "pg_toast" +:+ x.
Definition table_for (sy : system) (nc : pg_namespace * pg_class) (t : table) : Prop :=
  table_entry (TableRow (Some (ns_name nc.1)) (Some (rel_name nc.2)) (Some (sy_user sy (rel_owner nc.2)))
    (sy_comment sy "pg_class" (rel_oid nc.2))) t.
(** The tables that are in view. *)
Definition tables_of (sy : system) (l : list table) : Prop :=
  lists_exactly (λ nc, rel_in sy nc.1 nc.2 ∧ user_table nc.1 nc.2 ∧ in_view sy nc.2)
    (λ a b, by_names (ns_name a.1, rel_name a.2) (ns_name b.1, rel_name b.2)) (table_for sy) l.

(** The default of a column. *)
Definition default_of (sy : system) (a : pg_attribute) (o : option string) : Prop :=
  (att_has_default a = true ∧ ∃ d, d ∈ sy_attrdefs sy ∧ def_rel d = att_rel a ∧ def_num d = att_num a ∧
     o = Some (sy_expr sy (def_bin d) (def_rel d))) ∨
  ((att_has_default a = false ∨ ∀ d, d ∈ sy_attrdefs sy → def_rel d = att_rel a → def_num d ≠ att_num a) ∧ o = None).
Definition column_for (sy : system) (a : pg_attribute) (c : column) : Prop :=
  ∃ o, default_of sy a o ∧
    column_entry (ColumnRow (att_name a) (sy_type_name sy (att_type a) (Some (att_typmod a))) (att_not_null a) o
      (sy_col_comment sy (att_rel a) (att_num a))) c.
Definition columns_of (sy : system) (s t : string) (l : list column) : Prop :=
  lists_exactly (λ a, a ∈ sy_attributes sy ∧ is_relation sy s t (att_rel a) ∧ 0 < att_num a ∧ att_dropped a = false)
    (λ a b, att_num a ≤ att_num b) (column_for sy) l.

(** Check constraints, in the order of their names. *)
Definition checks_of (sy : system) (s t : string) (l : list check) : Prop :=
  lists_exactly (λ r, r ∈ sy_constraints sy ∧ is_relation sy s t (con_rel r) ∧ con_type r = "c")
    (λ a b, str_le (con_name a) (con_name b))
    (λ r, check_entry (NamedDef (con_name r) (sy_constraintdef sy (con_oid r) true))) l.
(** Foreign keys, in the order of the names of the tables they refer to, then of their
    columns. *)
Inductive ints_before : list Z → list Z → Prop :=
  | before_nil b : ints_before [] b
  | before_less x y a b : x < y → ints_before (x :: a) (y :: b)
  | before_same x a b : ints_before a b → ints_before (x :: a) (x :: b).
Definition foreign_key_before (sy : system) (a b : pg_constraint) : Prop :=
  ∃ ca cb, ca ∈ sy_classes sy ∧ cb ∈ sy_classes sy ∧ rel_oid ca = con_frel a ∧ rel_oid cb = con_frel b ∧
    ((rel_name ca ≠ rel_name cb ∧ str_le (rel_name ca) (rel_name cb)) ∨
     (rel_name ca = rel_name cb ∧ ints_before (con_key a) (con_key b))).
Definition foreign_keys_of (sy : system) (s t : string) (l : list foreign_key) : Prop :=
  lists_exactly (λ r, r ∈ sy_constraints sy ∧ is_relation sy s t (con_rel r) ∧ con_type r = "f") (foreign_key_before sy)
    (λ r, foreign_key_entry (NamedDef (con_name r) (sy_constraintdef sy (con_oid r) false))) l.
(** Indexes: the primary key first, then the other unique ones, each by name. *)
Definition indexes_of (sy : system) (s t : string) (l : list index) : Prop :=
  lists_exactly (λ ic, ic.1 ∈ sy_indexes sy ∧ is_relation sy s t (ind_rel ic.1) ∧ ic.2 ∈ sy_classes sy ∧ rel_oid ic.2 = ind_index ic.1)
    (λ a b, (ind_primary a.1 = true ∧ ind_primary b.1 = false) ∨
       (ind_primary a.1 = ind_primary b.1 ∧ ind_unique a.1 = true ∧ ind_unique b.1 = false) ∨
       (ind_primary a.1 = ind_primary b.1 ∧ ind_unique a.1 = ind_unique b.1 ∧ str_le (rel_name a.2) (rel_name b.2)))
    (λ ic, index_entry s (IndexRow (rel_name ic.2) (ind_primary ic.1) (sy_indexdef sy (ind_index ic.1)))) l.
(** Triggers users make, by name. *)
Definition triggers_of (sy : system) (s t : string) (l : list trigger) : Prop :=
  lists_exactly (λ g, g ∈ sy_triggers sy ∧ is_relation sy s t (trig_rel g) ∧ trig_internal g = false)
    (λ a b, str_le (trig_name a) (trig_name b))
    (λ g, trigger_entry s (NamedDef (trig_name g) (sy_triggerdef sy (trig_oid g)))) l.
(** The storage options of the table: all of them, as texts, in the order of the
    collation. *)
Definition options_of_table (sy : system) (s t : string) (l : list string) : Prop :=
  ∃ held, StronglySorted (λ a b, sy_text_le sy a b = true) l ∧ l ≡ₚ held ∧
    ((∃ n c, rel_in sy n c ∧ ns_name n = s ∧ rel_name c = t ∧ held = default [] (rel_options c)) ∨
     ((∀ oid, ¬ is_relation sy s t oid) ∧ held = [])).

(** Functions outside the schemas of the system. *)
Definition function_for (sy : system) (np : pg_namespace * pg_proc) (f : func) : Prop :=
  ∃ g, g ∈ sy_languages sy ∧ lang_oid g = proc_lang np.2 ∧
    function_entry (FunctionRow (Some (ns_name np.1)) (Some (proc_name np.2)) (Some (sy_user sy (proc_owner np.2)))
      (sy_comment sy "pg_proc" (proc_oid np.2)) (sy_result sy (proc_oid np.2)) (Some (lang_name g)) (Some (proc_src np.2))) f.
Definition proc_in (sy : system) (n : pg_namespace) (p : pg_proc) : Prop :=
  n ∈ sy_namespaces sy ∧ p ∈ sy_procs sy ∧ proc_namespace p = ns_oid n.
Definition functions_of (sy : system) (l : list func) : Prop :=
  lists_exactly (λ np, proc_in sy np.1 np.2 ∧ ns_name np.1 ≠ "pg_catalog" ∧ ns_name np.1 ≠ "information_schema" ∧
      function_in_view sy np.2)
    (λ a b, by_names (ns_name a.1, proc_name a.2) (ns_name b.1, proc_name b.2)) (function_for sy) l.

(** Sequences: those owned by a column.  Two kinds of dependencies on a column make it
    the owner: automatic (OWNED BY, serial) and internal (identity columns). *)
Record owned := Owned {
  ow_ns : pg_namespace; ow_rel : pg_class; ow_dep : pg_depend;
  ow_owner_ns : pg_namespace; ow_owner_rel : pg_class; ow_column : pg_attribute }.
Definition user_sequence (n : pg_namespace) (c : pg_class) : Prop :=
  rel_kind c = "S" ∧ ns_name n ≠ "pg_catalog" ∧ ns_name n ≠ "information_schema" ∧ ∀ x, ns_name n ≠ "pg_toast" +:+ x.
Definition owned_sequence (sy : system) (o : owned) : Prop :=
  rel_in sy (ow_ns o) (ow_rel o) ∧ user_sequence (ow_ns o) (ow_rel o) ∧ in_view sy (ow_rel o) ∧
  rel_in sy (ow_owner_ns o) (ow_owner_rel o) ∧
  ow_column o ∈ sy_attributes sy ∧ att_rel (ow_column o) = rel_oid (ow_owner_rel o) ∧
  ow_dep o ∈ sy_depends sy ∧ (dep_type (ow_dep o) = "a" ∨ dep_type (ow_dep o) = "i") ∧
  is_relation sy "pg_catalog" "pg_class" (dep_class (ow_dep o)) ∧
  is_relation sy "pg_catalog" "pg_class" (dep_ref_class (ow_dep o)) ∧
  dep_obj (ow_dep o) = rel_oid (ow_rel o) ∧ dep_ref_obj (ow_dep o) = rel_oid (ow_owner_rel o) ∧
  dep_ref_sub (ow_dep o) = att_num (ow_column o).
Definition owned_row (sy : system) (o : owned) : sequence_row :=
  SequenceRow (Some (ns_name (ow_ns o))) (Some (rel_name (ow_rel o))) (Some (sy_user sy (rel_owner (ow_rel o))))
    (sy_comment sy "pg_class" (rel_oid (ow_rel o)))
    (OwnerRow (Some (ns_name (ow_owner_ns o))) (Some (rel_name (ow_owner_rel o))) (Some (att_name (ow_column o)))).
Definition sequence_details (s : pg_sequence) : details_row :=
  DetailsRow (seq_start s) (seq_min s) (seq_max s) (seq_inc s) (seq_cache s) (seq_cycle s).
(** Since 10 the numbers are in pg_sequence, before in the sequence itself. *)
Definition sequence_for (sy : system) (o : owned) (q : sequence) : Prop :=
  match sy_sequences sy with
  | Some l => ∃ s, s ∈ l ∧ seq_rel s = rel_oid (ow_rel o) ∧
      sequence_entry (owned_row sy o, (Some (sy_type_name sy (seq_typ s) None), sequence_details s)) q
  | None => sequence_head (owned_row sy o) q ∧ sq_type q = "bigint" ∧ details_entry (sy_old_details sy (rel_oid (ow_rel o))) q
  end.
Definition sequences_of (sy : system) (l : list sequence) : Prop :=
  lists_exactly (owned_sequence sy)
    (λ a b, by_names (ns_name (ow_ns a), rel_name (ow_rel a)) (ns_name (ow_ns b), rel_name (ow_rel b))) (sequence_for sy) l.

(** * Inspection *)

(** Before 10 the numbers of a sequence are read from the sequence itself, by its
    quoted name. *)
Definition reads_details (sy : system) (details : string → row_answer details_row) : Prop :=
  ∀ n c, rel_in sy n c → rel_kind c = "S" →
    answers_row (sy_old_details sy (rel_oid c)) (details (identifier [ns_name n; rel_name c])).
(** The rows the server has for the queries of an inspection. *)
Record catalog_of (sy : system) (ct : catalog) : Prop := {
  of_schemas : has_rows scan_schema sy list_schemas_query [] (ct_schemas ct);
  of_functions : has_rows scan_function sy list_functions_query [] (ct_functions ct);
  of_view : has_rows scan_bool sy has_sequences_view_query [] [ct_view ct];
  of_sequences : is_Some (sy_sequences sy) → has_rows scan_sequence sy list_sequences_query [] (ct_sequences ct);
  of_old_sequences : has_rows scan_old_sequence sy list_sequences_pre10_query [] (ct_old_sequences ct);
  of_tables : has_rows scan_table sy list_tables_query [] (ct_tables ct);
  of_columns s t : has_rows scan_column sy list_columns_query [s; t] (ct_columns ct s t);
  of_checks s t : has_rows scan_named sy list_checks_query [s; t] (ct_checks ct s t);
  of_foreign_keys s t : has_rows scan_named sy list_foreign_keys_query [s; t] (ct_foreign_keys ct s t);
  of_storage s t : has_rows scan_text sy list_table_storage_parameters_query [s; t] (ct_storage ct s t);
  of_indexes s t : has_rows scan_index sy list_indexes_query [s; t] (ct_indexes ct s t);
  of_triggers s t : has_rows scan_named sy list_triggers_query [s; t] (ct_triggers ct s t) }.
(** A server with these catalogues: it may refuse to answer, and rows may fail to be
    scanned. *)
Definition served (sy : system) (sv : server) : Prop :=
  ∃ ct, catalog_of sy ct ∧ serves ct sv ∧ reads_details sy (sv_details sv).
(** The description of a table. *)
Definition table_details (pf : float_parser) (sy : system) (nc : pg_namespace * pg_class) (t : table * storage) : Prop :=
  table_for sy nc (Table (tb_schema t.1) (tb_name t.1) (tb_owner t.1) (tb_comment t.1) [] [] []) ∧
  (∃ cols, columns_of sy (ns_name nc.1) (rel_name nc.2) cols ∧ tb_columns t.1 ≡ₚ cols) ∧
  checks_of sy (ns_name nc.1) (rel_name nc.2) (tb_checks t.1) ∧
  foreign_keys_of sy (ns_name nc.1) (rel_name nc.2) (tb_foreign_keys t.1) ∧
  ∃ l, options_of_table sy (ns_name nc.1) (rel_name nc.2) l ∧ storage_entries pf l t.2.
(** The description of a database: its tables in view, with their indexes and
    triggers, and the other objects. *)
Definition database_of (pf : float_parser) (sy : system) (db : database) : Prop :=
  schemas_of sy (db_schemas db) ∧ functions_of sy (db_functions db) ∧ sequences_of sy (db_sequences db) ∧
  lists_exactly (λ nc, rel_in sy nc.1 nc.2 ∧ user_table nc.1 nc.2 ∧ in_view sy nc.2)
    (λ a b, by_names (ns_name a.1, rel_name a.2) (ns_name b.1, rel_name b.2)) (table_details pf sy) (db_tables db) ∧
  (∃ ixs, Forall2 (λ t, indexes_of sy (tb_schema t.1) (tb_name t.1)) (db_tables db) ixs ∧ db_indexes db ≡ₚ List.concat ixs) ∧
  (∃ tgs, Forall2 (λ t, triggers_of sy (tb_schema t.1) (tb_name t.1)) (db_tables db) tgs ∧ db_triggers db = List.concat tgs).
(** Nothing in the database is left to chance by the order of the listings: functions
    in view have different names, and so do the tables foreign keys of a table refer to,
    or else the columns. *)
Definition untied (sy : system) : Prop :=
  (∀ n p n' p', proc_in sy n p → proc_in sy n' p' → function_in_view sy p → function_in_view sy p' →
     ns_name n ≠ "pg_catalog" → ns_name n ≠ "information_schema" →
     ns_name n = ns_name n' → proc_name p = proc_name p' → p = p') ∧
  (∀ r r' c c', r ∈ sy_constraints sy → r' ∈ sy_constraints sy → con_type r = "f" → con_type r' = "f" →
     con_rel r = con_rel r' → c ∈ sy_classes sy → c' ∈ sy_classes sy → rel_oid c = con_frel r → rel_oid c' = con_frel r' →
     rel_name c = rel_name c' → con_key r = con_key r' → r = r') ∧
  (∀ o o', owned_sequence sy o → owned_sequence sy o' → ow_rel o = ow_rel o' → o = o').
