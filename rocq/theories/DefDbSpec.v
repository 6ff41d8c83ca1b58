(** Databases whose definitions are written as PostgreSQL writes them. *)
From Coq Require Import String Ascii.
From stdpp Require Import gmap list strings numbers sorting.
From Verif Require Import GoBase GoStrings DdlModel DdlSpec MachineModel ParseModel ParseSpec PgModel PgSpec QueryModel SysModel SysSpec
  DefModel DefSpec.
Local Open Scope Z_scope.

(** What the definitions in the catalogues say. *)
Record shapes := Shapes {
  sh_fk : Z → fk_shape; sh_check : Z → check_shape; sh_trigger : Z → trigger_shape; sh_index : Z → index_shape }.
(** The server prints them. *)
Record prints (reserved : string → bool) (word : function_word) (sy : system) (sh : shapes) : Prop := {
  prints_fk r : r ∈ sy_constraints sy → con_type r = "f" →
    sy_constraintdef sy (con_oid r) false = printed_fk reserved (sh_fk sh (con_oid r));
  prints_check r : r ∈ sy_constraints sy → con_type r = "c" →
    sy_constraintdef sy (con_oid r) true = printed_check (sh_check sh (con_oid r));
  prints_trigger g : g ∈ sy_triggers sy → trig_internal g = false →
    sy_triggerdef sy (trig_oid g) = printed_trigger reserved word (sh_trigger sh (trig_oid g));
  prints_index i : i ∈ sy_indexes sy →
    sy_indexdef sy (ind_index i) = printed_index reserved (sh_index sh (ind_index i)) }.

(** The objects of a table. *)
Definition fk_of_table (sy : system) (s t : string) (r : pg_constraint) : Prop :=
  r ∈ sy_constraints sy ∧ is_relation sy s t (con_rel r) ∧ con_type r = "f".
Definition check_of_table (sy : system) (s t : string) (r : pg_constraint) : Prop :=
  r ∈ sy_constraints sy ∧ is_relation sy s t (con_rel r) ∧ con_type r = "c".
Definition trigger_of_table (sy : system) (s t : string) (g : pg_trigger) : Prop :=
  g ∈ sy_triggers sy ∧ is_relation sy s t (trig_rel g) ∧ trig_internal g = false.
Definition index_of_table (sy : system) (s t : string) (i : pg_index) : Prop :=
  i ∈ sy_indexes sy ∧ is_relation sy s t (ind_rel i).

(** ... with the relation it is. *)
Definition named_index (sy : system) (s t : string) (ic : pg_index * pg_class) : Prop :=
  index_of_table sy s t ic.1 ∧ ic.2 ∈ sy_classes sy ∧ rel_oid ic.2 = ind_index ic.1.
Definition index_first (a b : pg_index * pg_class) : Prop :=
  (ind_primary a.1 = true ∧ ind_primary b.1 = false) ∨
  (ind_primary a.1 = ind_primary b.1 ∧ ind_unique a.1 = true ∧ ind_unique b.1 = false) ∨
  (ind_primary a.1 = ind_primary b.1 ∧ ind_unique a.1 = ind_unique b.1 ∧ str_le (rel_name a.2) (rel_name b.2)).

(** The descriptions say what the definitions say. *)
Definition fk_said (sh : shapes) (r : pg_constraint) (fk : foreign_key) : Prop :=
  fk_name fk = con_name r ∧
  ForeignKey "" (fk_table fk) (fk_columns fk) (fk_referenced fk) (fk_match fk) (fk_on_delete fk) (fk_on_update fk)
    (fk_deferrable fk) (fk_deferred fk) = fk_meaning (sh_fk sh (con_oid r)).
Definition check_said (sh : shapes) (r : pg_constraint) (c : check) : Prop :=
  ck_name c = con_name r ∧ trimmed (cs_expression (sh_check sh (con_oid r))) (ck_expression c) ∧
  (ck_deferrable c = true ↔ looks_deferrable (cs_expression (sh_check sh (con_oid r)))) ∧
  (ck_deferred c = true ↔ looks_deferred (cs_expression (sh_check sh (con_oid r)))).
Definition trigger_said (sh : shapes) (s : string) (g : pg_trigger) (t : trigger) : Prop :=
  tg_schema t = s ∧
  Trigger "" (tg_table t) (tg_name t) (tg_function t) (tg_when t) (tg_constraint t) (tg_deferrable t) (tg_deferred t)
    (tg_each_row t) (tg_delete t) (tg_insert t) (tg_truncate t) (tg_update t) (tg_columns t) =
  trigger_meaning (sh_trigger sh (trig_oid g)).
Definition index_said (what : index_shape → index → Prop) (sh : shapes) (s : string) (i : pg_index) (x : index) : Prop :=
  ix_schema x = s ∧ ix_primary x = ind_primary i ∧
  what (sh_index sh (ind_index i)) (Index "" (ix_table x) (ix_name x) false (ix_unique x) (ix_using x) (ix_where x) (ix_keys x)).

(** Every definition of the tables in view can be read. *)
Definition all_readable (reserved : string → bool) (sy : system) (sh : shapes) : Prop :=
  ∀ n c, rel_in sy n c → user_table n c → in_view sy c →
  (∀ r, fk_of_table sy (ns_name n) (rel_name c) r → readable_fk reserved (sh_fk sh (con_oid r))) ∧
  (∀ r, check_of_table sy (ns_name n) (rel_name c) r → readable_check (sh_check sh (con_oid r))) ∧
  (∀ g, trigger_of_table sy (ns_name n) (rel_name c) g → readable_trigger reserved (sh_trigger sh (trig_oid g))) ∧
  (∀ i, index_of_table sy (ns_name n) (rel_name c) i → accepted_index reserved (sh_index sh (ind_index i))).
(** No index expression has a closing parenthesis in it. *)
Definition simple_indexes (sy : system) (sh : shapes) : Prop :=
  ∀ i, i ∈ sy_indexes sy → Forall (λ k, simple_source (ks_source k)) (is_keys (sh_index sh (ind_index i))).
(** The storage options of the tables in view have names and values of the types they
    must have. *)
Definition options_applicable (pf : float_parser) (sy : system) : Prop :=
  ∀ n c o kv, rel_in sy n c → user_table n c → in_view sy c → o ∈ default [] (rel_options c) → option_text o kv → applicable pf kv.
(** A server that answers everything. *)
Definition serves_whole (sy : system) (sv : server) : Prop :=
  ∃ ct, catalog_of sy ct ∧ serves_all ct sv ∧ reads_details sy (sv_details sv).
(** A database described right: the parts of each table are those its definitions
    describe. *)
Definition said (reserved : string → bool) (sy : system) (sh : shapes) (db : database) : Prop :=
  Forall (λ t : table * storage,
    lists_exactly (fk_of_table sy (tb_schema t.1) (tb_name t.1)) (foreign_key_before sy) (fk_said sh) (tb_foreign_keys t.1) ∧
    lists_exactly (check_of_table sy (tb_schema t.1) (tb_name t.1)) (λ a b, str_le (con_name a) (con_name b)) (check_said sh) (tb_checks t.1))
    (db_tables db) ∧
  (∃ tgs, Forall2 (λ (t : table * storage) l, lists_exactly (trigger_of_table sy (tb_schema t.1) (tb_name t.1))
     (λ a b, str_le (trig_name a) (trig_name b)) (trigger_said sh (tb_schema t.1)) l) (db_tables db) tgs ∧
     db_triggers db = List.concat tgs) ∧
  ∃ ixs, Forall2 (λ (t : table * storage) l, lists_exactly (named_index sy (tb_schema t.1) (tb_name t.1)) index_first
     (λ ic, index_said (read_as reserved) sh (tb_schema t.1) ic.1) l) (db_tables db) ixs ∧
     db_indexes db ≡ₚ List.concat ixs.
