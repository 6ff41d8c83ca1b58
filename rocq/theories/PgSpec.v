(** Specification of internal/pg: SSL modes, retries, listings, inspection. *)
From Coq Require Import String Ascii.
From stdpp Require Import gmap list strings numbers sorting.
From Verif Require Import GoStrings GoUtf8 DdlModel DdlSpec MachineModel ParseModel ParseGrammar ParseSpec PgModel.
Local Open Scope Z_scope.

(** * Connecting *)

(** What may be agreed with the server in one attempt: no TLS, TLS with any
    certificate, TLS with a certificate valid for a host. *)
Inductive channel := Plain | AnyCertificate | ValidFor (host : string).
Definition channel_of (t : option tls_config) : channel :=
  match t with
  | None => Plain
  | Some t => if tls_insecure t then AnyCertificate else ValidFor (tls_server_name t)
  end.
(** The table of libpq's documentation: what each mode allows, in order. *)
Inductive allowed (host : string) : string → list channel → Prop :=
  | allowed_disable : allowed host "disable" [Plain]
  | allowed_allow : allowed host "allow" [Plain; AnyCertificate]
  | allowed_prefer : allowed host "prefer" [AnyCertificate; Plain]
  | allowed_require : allowed host "require" [AnyCertificate]
  | allowed_verify_full : allowed host "verify-full" [ValidFor host].
(** The mode in force: the one given, or verify-full if none is given and a password
    is known. *)
Definition mode_in_force (o : options) (e : config) (m : string) : Prop :=
  (o_sslmode o ≠ "" ∧ m = o_sslmode o) ∨
  (o_sslmode o = "" ∧ (o_password o ≠ "" ∨ c_password e ≠ "") ∧ m = "verify-full").

(** The wait after the failure of attempt [i], given which attempts succeed. *)
Definition wait_after (ok : Z → bool) (i w : Z) : Prop :=
  (w = 100 ∧ ∀ j, 0 ≤ j < i → ok j = true) ∨
  (∃ j, 0 ≤ j < i ∧ ok j = false ∧ (∀ k, j < k < i → ok k = true) ∧ w = 100 * Z.lxor 2 j).
Definition attempts (t : list conn_event) : list Z :=
  omap (λ e, match e with Attempt i => Some i | Sleep _ => None end) t.
Definition waits (t : list conn_event) : list Z :=
  omap (λ e, match e with Attempt _ => None | Sleep w => Some w end) t.

(** * Listings *)

(** The answer [a] comes from a server that holds the rows [held]: the query is
    refused, or the rows are delivered, all or (if cut) the first ones, some of them
    possibly failing to scan. *)
Definition delivers {R} (o : option R) (r : R) : Prop := o = None ∨ o = Some r.
Inductive answers {R} (held : list R) : answer R → Prop :=
  | answers_refused : answers held Refused
  | answers_rows l : Forall2 delivers l held → answers held (Rows l false)
  | answers_cut l rest first : held = first ++ rest → Forall2 delivers l first → answers held (Rows l true).
(** Not cut. *)
Definition whole {R} (a : answer R) : Prop := match a with Refused => True | Rows _ cut => cut = false end.
(** Everything arrives. *)
Definition arrives {R} (held : list R) (a : answer R) : Prop := a = Rows (Some <$> held) false.

(** A nullable text. *)
Definition text (o : option string) (s : string) : Prop := o = Some s ∨ (o = None ∧ s = "").
Definition schema_entry (r : schema_row) (s : schema) : Prop :=
  text (sr_name r) (sc_name s) ∧ text (sr_owner r) (sc_owner s) ∧ text (sr_comment r) (sc_comment s).
Definition table_entry (r : table_row) (t : table) : Prop :=
  text (tr_schema r) (tb_schema t) ∧ text (tr_name r) (tb_name t) ∧ text (tr_owner r) (tb_owner t) ∧
  text (tr_comment r) (tb_comment t) ∧ tb_columns t = [] ∧ tb_checks t = [] ∧ tb_foreign_keys t = [].
Definition column_entry (r : column_row) (c : column) : Prop :=
  co_name c = cr_name r ∧ co_type c = cr_type r ∧ co_not_null c = cr_not_null r ∧
  text (cr_default r) (co_default c) ∧ text (cr_comment r) (co_comment c).
Definition function_entry (r : function_row) (f : func) : Prop :=
  text (fr_schema r) (fn_schema f) ∧ text (fr_name r) (fn_name f) ∧ text (fr_owner r) (fn_owner f) ∧
  text (fr_comment r) (fn_comment f) ∧ text (fr_returns r) (fn_returns f) ∧
  text (fr_language r) (fn_language f) ∧ text (fr_definition r) (fn_definition f).
(** Constraints, indexes and triggers: as the definition in the row reads, with the
    name or the schema added. *)
Definition check_entry (r : named_def) (c : check) : Prop :=
  ck_name c = nd_name r ∧
  parse_check (nd_def r) = Parsed (Check "" (ck_expression c) (ck_deferrable c) (ck_deferred c)).
Definition foreign_key_entry (r : named_def) (fk : foreign_key) : Prop :=
  fk_name fk = nd_name r ∧
  foreign_key_syntax (nd_def r) (ForeignKey "" (fk_table fk) (fk_columns fk) (fk_referenced fk) (fk_match fk)
    (fk_on_delete fk) (fk_on_update fk) (fk_deferrable fk) (fk_deferred fk)).
Definition index_entry (schema : string) (r : index_row) (i : index) : Prop :=
  ix_schema i = schema ∧ ix_primary i = xr_primary r ∧
  index_syntax (xr_def r) (Index "" (ix_table i) (ix_name i) false (ix_unique i) (ix_using i) (ix_where i) (ix_keys i)).
Definition trigger_entry (schema : string) (r : named_def) (t : trigger) : Prop :=
  tg_schema t = schema ∧
  trigger_syntax (nd_def r) (Trigger "" (tg_table t) (tg_name t) (tg_function t) (tg_when t) (tg_constraint t)
    (tg_deferrable t) (tg_deferred t) (tg_each_row t) (tg_delete t) (tg_insert t) (tg_truncate t) (tg_update t)
    (tg_columns t)).
Definition details_entry (d : details_row) (q : sequence) : Prop :=
  sq_start q = dr_start d ∧ sq_minimum q = dr_minimum d ∧ sq_maximum q = dr_maximum d ∧
  sq_increment q = dr_increment d ∧ sq_cache q = dr_cache d ∧ sq_cycle q = dr_cycle d.
Definition sequence_head (r : sequence_row) (q : sequence) : Prop :=
  text (qr_schema r) (sq_schema q) ∧ text (qr_name r) (sq_name q) ∧ text (qr_owner r) (sq_owner q) ∧
  text (qr_comment r) (sq_comment q) ∧ text (or_schema (qr_owned r)) (sq_owned_schema q) ∧
  text (or_table (qr_owned r)) (sq_owned_table q) ∧ text (or_column (qr_owned r)) (sq_owned_column q).
Definition sequence_entry (r : sequence_row * (option string * details_row)) (q : sequence) : Prop :=
  sequence_head r.1 q ∧ text r.2.1 (sq_type q) ∧ details_entry r.2.2 q.
(** Servers before 10: a second row for each sequence, from the relation of that
    name. *)
Definition old_sequence_entry (details : string → row_answer details_row) (r : sequence_row) (q : sequence) : Prop :=
  sequence_head r q ∧ sq_type q = "bigint" ∧
  ∃ d, details (identifier [sq_schema q; sq_name q]) = Row d ∧ details_entry d q.

(** A listing that gives one entry per row held, in order, unless something goes
    wrong: then an error. *)
Definition lists {R A} (entry : R → A → Prop) (f : answer R → result (list A)) : Prop :=
  ∀ held a, answers held a → whole a →
    (∀ l, f a = Got l ↔ arrives held a ∧ Forall2 entry held l) ∧
    (f a = Failed ∨ ∃ l, f a = Got l).

(** * Search path and storage parameters *)

(** [l] is [s] cut at its commas. *)
Definition comma_list (s : string) (l : list string) : Prop :=
  s = String.concat "," l ∧ l ≠ [] ∧ Forall (λ x, ¬ has_byte "," x) l.
(** A storage option: a name and what follows the first equals sign. *)
Definition option_text (s : string) (kv : string * string) : Prop :=
  ¬ has_byte "=" kv.1 ∧ (s = kv.1 +:+ String "=" kv.2 ∨ (s = kv.1 ∧ kv.2 = "")).
(** An option that can be applied. *)
Definition applicable (pf : float_parser) (kv : string * string) : Prop :=
  ∀ field k, (kv.1, field, k) ∈ parameters → ∃ x, says pf k kv.2 x.
(** The parameters after applying options in order: the last one for each key
    counts. *)
Definition applied (pf : float_parser) (l : list (string * string)) (p : storage) : Prop :=
  (∀ key field k, (key, field, k) ∈ parameters →
    (key ∉ l.*1 ∧ p !! field = None) ∨
    (∃ v x l1 l2, l = l1 ++ (key, v) :: l2 ∧ key ∉ l2.*1 ∧ says pf k v x ∧ p !! field = Some x)) ∧
  (∀ field, (∀ key k, (key, field, k) ∉ parameters) → p !! field = None).
Definition storage_entries (pf : float_parser) (held : list string) (p : storage) : Prop :=
  ∃ l, Forall2 option_text held l ∧ Forall (applicable pf) l ∧ applied pf l p.

(** * Sorting *)

Definition strict_weak_order {A} (less : A → A → bool) : Prop :=
  (∀ a, less a a = false) ∧
  (∀ a b c, less a b = true → less b c = true → less a c = true) ∧
  (∀ a b c, less a b = false → less b c = false → less a c = false).
(** Insertion sort as sort.Slice does it: each element in turn moves left as long as
    it is less than its neighbour.  [done] is the sorted part, last element first. *)
Fixpoint move_left {A} (less : A → A → bool) (x : A) (done : list A) : list A :=
  match done with
  | [] => [x]
  | y :: done => if less x y then y :: move_left less x done else x :: y :: done
  end.
Definition insertion_sort {A} (less : A → A → bool) (l : list A) : list A :=
  rev (foldl (λ done x, move_left less x done) [] l).
(** The contract of sort.Slice.  Short slices are sorted by insertion in all
    versions of Go (up to 6 elements; up to 12 since Go 1.19). *)
Definition ok_sorter (srt : sorter) : Prop :=
  ∀ A (less : A → A → bool) l,
    srt A less l ≡ₚ l ∧
    (strict_weak_order less → StronglySorted (λ a b, less b a = false) (srt A less l)) ∧
    ((length l ≤ 6)%nat → srt A less l = insertion_sort less l).

(** * Inspection *)

(** What the server holds. *)
Record catalog := Catalog {
  ct_search_path : string; ct_timezone : string;
  ct_schemas : list schema_row; ct_functions : list function_row;
  ct_view : bool; ct_sequences : list (sequence_row * (option string * details_row));
  ct_old_sequences : list sequence_row;
  ct_tables : list table_row;
  ct_columns : string → string → list column_row; ct_checks : string → string → list named_def;
  ct_foreign_keys : string → string → list named_def; ct_storage : string → string → list string;
  ct_indexes : string → string → list index_row; ct_triggers : string → string → list named_def }.
Definition answers_row {R} (r : R) (a : row_answer R) : Prop := a = Row r ∨ a = RowFailed.
(** The server answers from the catalogue, with failures but without cut answers. *)
Record serves (ct : catalog) (sv : server) : Prop := {
  serves_search_path : answers_row (ct_search_path ct) (sv_search_path sv);
  serves_timezone : answers_row (ct_timezone ct) (sv_timezone sv);
  serves_schemas : answers (ct_schemas ct) (sv_schemas sv) ∧ whole (sv_schemas sv);
  serves_functions : answers (ct_functions ct) (sv_functions sv) ∧ whole (sv_functions sv);
  serves_view : answers_row (ct_view ct) (sv_has_view sv);
  serves_sequences : answers (ct_sequences ct) (sv_sequences sv) ∧ whole (sv_sequences sv);
  serves_old_sequences : answers (ct_old_sequences ct) (sv_old_sequences sv) ∧ whole (sv_old_sequences sv);
  serves_tables : answers (ct_tables ct) (sv_tables sv) ∧ whole (sv_tables sv);
  serves_columns s t : answers (ct_columns ct s t) (sv_columns sv s t) ∧ whole (sv_columns sv s t);
  serves_checks s t : answers (ct_checks ct s t) (sv_checks sv s t) ∧ whole (sv_checks sv s t);
  serves_foreign_keys s t : answers (ct_foreign_keys ct s t) (sv_foreign_keys sv s t) ∧ whole (sv_foreign_keys sv s t);
  serves_storage s t : answers (ct_storage ct s t) (sv_storage sv s t) ∧ whole (sv_storage sv s t);
  serves_indexes s t : answers (ct_indexes ct s t) (sv_indexes sv s t) ∧ whole (sv_indexes sv s t);
  serves_triggers s t : answers (ct_triggers ct s t) (sv_triggers sv s t) ∧ whole (sv_triggers sv s t) }.
(** The description of one table. *)
Definition table_described (pf : float_parser) (ct : catalog) (r : table_row) (t : table * storage) : Prop :=
  table_entry r (Table (tb_schema t.1) (tb_name t.1) (tb_owner t.1) (tb_comment t.1) [] [] []) ∧
  (∃ cols, Forall2 column_entry (ct_columns ct (tb_schema t.1) (tb_name t.1)) cols ∧ tb_columns t.1 ≡ₚ cols) ∧
  Forall2 check_entry (ct_checks ct (tb_schema t.1) (tb_name t.1)) (tb_checks t.1) ∧
  Forall2 foreign_key_entry (ct_foreign_keys ct (tb_schema t.1) (tb_name t.1)) (tb_foreign_keys t.1) ∧
  storage_entries pf (ct_storage ct (tb_schema t.1) (tb_name t.1)) t.2.
(** The description of a database. *)
Definition described (pf : float_parser) (ct : catalog) (details : string → row_answer details_row) (db : database) : Prop :=
  comma_list (ct_search_path ct) (pa_search_path (db_parameters db)) ∧
  pa_timezone (db_parameters db) = ct_timezone ct ∧
  Forall2 schema_entry (ct_schemas ct) (db_schemas db) ∧
  Forall2 function_entry (ct_functions ct) (db_functions db) ∧
  (if ct_view ct then Forall2 sequence_entry (ct_sequences ct) (db_sequences db)
   else Forall2 (old_sequence_entry details) (ct_old_sequences ct) (db_sequences db)) ∧
  Forall2 (table_described pf ct) (ct_tables ct) (db_tables db) ∧
  (∃ ixs, Forall2 (λ t l, Forall2 (index_entry (tb_schema t.1)) (ct_indexes ct (tb_schema t.1) (tb_name t.1)) l)
            (db_tables db) ixs ∧ db_indexes db ≡ₚ List.concat ixs) ∧
  (∃ tgs, Forall2 (λ t l, Forall2 (trigger_entry (tb_schema t.1)) (ct_triggers ct (tb_schema t.1) (tb_name t.1)) l)
            (db_tables db) tgs ∧ db_triggers db = List.concat tgs).
(** Nothing goes wrong on the way. *)
Record serves_all (ct : catalog) (sv : server) : Prop := {
  all_search_path : sv_search_path sv = Row (ct_search_path ct);
  all_timezone : sv_timezone sv = Row (ct_timezone ct);
  all_schemas : arrives (ct_schemas ct) (sv_schemas sv);
  all_functions : arrives (ct_functions ct) (sv_functions sv);
  all_view : sv_has_view sv = Row (ct_view ct);
  all_sequences : arrives (ct_sequences ct) (sv_sequences sv);
  all_old_sequences : arrives (ct_old_sequences ct) (sv_old_sequences sv);
  all_details x : ∃ d, sv_details sv x = Row d;
  all_tables : arrives (ct_tables ct) (sv_tables sv);
  all_columns s t : arrives (ct_columns ct s t) (sv_columns sv s t);
  all_checks s t : arrives (ct_checks ct s t) (sv_checks sv s t);
  all_foreign_keys s t : arrives (ct_foreign_keys ct s t) (sv_foreign_keys sv s t);
  all_storage s t : arrives (ct_storage ct s t) (sv_storage sv s t);
  all_indexes s t : arrives (ct_indexes ct s t) (sv_indexes sv s t);
  all_triggers s t : arrives (ct_triggers ct s t) (sv_triggers sv s t) }.
(** Every definition about the listed tables can be read. *)
Definition readable (pf : float_parser) (ct : catalog) : Prop :=
  ∀ r s t, r ∈ ct_tables ct → text (tr_schema r) s → text (tr_name r) t →
    (∀ d, d ∈ ct_checks ct s t → ∃ c, check_entry d c) ∧
    (∀ d, d ∈ ct_foreign_keys ct s t → ∃ fk, foreign_key_entry d fk) ∧
    (∀ d kv, d ∈ ct_storage ct s t → option_text d kv → applicable pf kv) ∧
    (∀ d, d ∈ ct_indexes ct s t → ∃ i, index_entry s d i) ∧
    (∀ d, d ∈ ct_triggers ct s t → ∃ g, trigger_entry s d g).
