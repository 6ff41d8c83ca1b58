(** What a file with the description of a database says, and what is assumed of the text
    of HCL.  Written from the examples in internal/ddl/testdata and the documentation of
    hcl2, without the tags of the model. *)
From Coq Require Import String Ascii.
From stdpp Require Import gmap list strings numbers.
From Verif Require Import DdlModel PgModel HclModel.
Local Open Scope Z_scope.

(** * The meaning of a file *)

Definition given (b : body) (n : string) (v : hval) : Prop := (n, v) ∈ b_attrs b.
Definition missing (b : body) (n : string) : Prop := ∀ v, (n, v) ∉ b_attrs b.
(** The blocks of a type, in order. *)
Fixpoint those (n : string) (l : list (string * block)) : list block :=
  match l with [] => [] | (m, x) :: l => if decide (m = n) then x :: those n l else those n l end.
(** Only these attributes, each at most once, and only blocks of these types. *)
Definition only (b : body) (attrs types : list string) : Prop :=
  NoDup (b_attrs b).*1 ∧ (∀ n v, (n, v) ∈ b_attrs b → n ∈ attrs) ∧ (∀ n x, (n, x) ∈ b_blocks b → n ∈ types).

Definition in_range (z : Z) : Prop := -2^63 ≤ z < 2^63.

Section says.
  Variable L : hcl_lib.

  (** A value as a text, a truth value, a number, texts: itself, or converted. *)
  Definition as_text (v : hval) (s : string) : Prop :=
    match v with HNull => False | HText t => s = t | v => hl_as_text L v = Some s end.
  Definition as_bool (v : hval) (x : bool) : Prop :=
    match v with HNull => False | HBool t => x = t | v => hl_as_bool L v = Some x end.
  Definition as_number (v : hval) (m : Z) (e : nat) : Prop :=
    match v with HNull => False | HNumber m' e' => m = m' ∧ e = e' | v => hl_as_number L v = Some (m, e) end.
  Definition as_int (v : hval) (z : Z) : Prop := as_number v z 0 ∧ in_range z.
  Definition as_texts (v : hval) (l : list string) : Prop :=
    match v with HNull => l = [] | HList vs => Forall2 as_text vs l | _ => False end.
  Definition as_value (k : kind) (v : hval) (x : option value) : Prop :=
    match v with
    | HNull => x = None
    | _ =>
        match k with
        | KInt => ∃ z, as_int v z ∧ x = Some (VInt z)
        | KBool => ∃ t, as_bool v t ∧ x = Some (VBool t)
        | KFloat => ∃ m e f, as_number v m e ∧ hl_float L m e = Some f ∧ x = Some (VFloat f)
        end
    end.

  (** An attribute that must be there, and one with a default. *)
  Definition must {T} (as_ : hval → T → Prop) (b : body) (n : string) (x : T) : Prop := ∃ v, given b n v ∧ as_ v x.
  Definition may {T} (as_ : hval → T → Prop) (d : T) (b : body) (n : string) (x : T) : Prop :=
    must as_ b n x ∨ missing b n ∧ x = d.
  Notation text_in := (may as_text "").
  Notation flag_in := (may as_bool false).
  Notation int_in := (may as_int 0).
  Notation texts_in := (may as_texts []).
  (** All blocks of a type; the only block of a type, if any. *)
  Definition each {B} (says : block → B → Prop) (b : body) (n : string) (l : list B) : Prop :=
    Forall2 says (those n (b_blocks b)) l.
  Definition at_most_one {B} (says : block → B → Prop) (b : body) (n : string) (o : option B) : Prop :=
    match o with
    | None => those n (b_blocks b) = []
    | Some y => ∃ x, those n (b_blocks b) = [x] ∧ says x y
    end.

  Definition parameters_say (x : block) (s : settings) : Prop :=
    x.1 = [] ∧ only x.2 ["search_path"; "timezone"] [] ∧
    texts_in x.2 "search_path" (pa_search_path s) ∧ text_in x.2 "timezone" (pa_timezone s).
  Definition schema_says (x : block) (s : schema) : Prop :=
    x.1 = [sc_name s] ∧ only x.2 ["owner"; "comment"] [] ∧
    text_in x.2 "owner" (sc_owner s) ∧ text_in x.2 "comment" (sc_comment s).
  Definition function_says (x : block) (f : func) : Prop :=
    x.1 = [fn_schema f; fn_name f] ∧ only x.2 ["owner"; "comment"; "returns"; "language"; "definition"] [] ∧
    text_in x.2 "owner" (fn_owner f) ∧ text_in x.2 "comment" (fn_comment f) ∧
    must as_text x.2 "returns" (fn_returns f) ∧ must as_text x.2 "language" (fn_language f) ∧
    must as_text x.2 "definition" (fn_definition f).
  Definition owned_by_says (x : block) (o : seq_owner) : Prop :=
    x.1 = [] ∧ only x.2 ["schema"; "table"; "column"] [] ∧
    must as_text x.2 "schema" (so_schema o) ∧ must as_text x.2 "table" (so_table o) ∧
    must as_text x.2 "column" (so_column o).
  Definition sequence_says (x : block) (q : seq_file) : Prop :=
    x.1 = [sf_schema q; sf_name q] ∧
    only x.2 ["owner"; "comment"; "data_type"; "start"; "minimum"; "maximum"; "increment"; "cache"; "cycle"]
      ["owned_by"] ∧
    text_in x.2 "owner" (sf_owner q) ∧ text_in x.2 "comment" (sf_comment q) ∧
    text_in x.2 "data_type" (sf_type q) ∧ int_in x.2 "start" (sf_start q) ∧
    int_in x.2 "minimum" (sf_minimum q) ∧ int_in x.2 "maximum" (sf_maximum q) ∧
    int_in x.2 "increment" (sf_increment q) ∧ int_in x.2 "cache" (sf_cache q) ∧
    flag_in x.2 "cycle" (sf_cycle q) ∧ at_most_one owned_by_says x.2 "owned_by" (sf_owned q).
  Definition column_says (x : block) (c : column) : Prop :=
    x.1 = [co_name c] ∧ only x.2 ["type"; "not_null"; "default"; "comment"] [] ∧
    must as_text x.2 "type" (co_type c) ∧ flag_in x.2 "not_null" (co_not_null c) ∧
    text_in x.2 "default" (co_default c) ∧ text_in x.2 "comment" (co_comment c).
  Definition check_says (x : block) (c : check) : Prop :=
    x.1 = [] ∧ only x.2 ["name"; "expression"; "deferrable"; "initially_deferred"] [] ∧
    text_in x.2 "name" (ck_name c) ∧ must as_text x.2 "expression" (ck_expression c) ∧
    flag_in x.2 "deferrable" (ck_deferrable c) ∧ flag_in x.2 "initially_deferred" (ck_deferred c).
  Definition foreign_key_says (x : block) (f : foreign_key) : Prop :=
    x.1 = [fk_table f] ∧
    only x.2 ["name"; "columns"; "referenced"; "match"; "on_delete"; "on_update"; "deferrable"; "initially_deferred"]
      [] ∧
    text_in x.2 "name" (fk_name f) ∧ must as_texts x.2 "columns" (fk_columns f) ∧
    must as_texts x.2 "referenced" (fk_referenced f) ∧ text_in x.2 "match" (fk_match f) ∧
    text_in x.2 "on_delete" (fk_on_delete f) ∧ text_in x.2 "on_update" (fk_on_update f) ∧
    flag_in x.2 "deferrable" (fk_deferrable f) ∧ flag_in x.2 "initially_deferred" (fk_deferred f).
  (** The settings of a table: attribute, field, type. *)
  Definition known_storage : list (string * string * kind) :=
    [("fillfactor", "Fillfactor", KInt); ("parallel_workers", "ParallelWorkers", KInt);
     ("autovacuum_enabled", "AutovacuumEnabled", KBool);
     ("autovacuum_vacuum_threshold", "AutovacuumVacuumThreshold", KInt);
     ("autovacuum_vacuum_scale_factor", "AutovacuumVacuumScaleFactor", KFloat);
     ("autovacuum_analyze_threshold", "AutovacuumAnalyzeThreshold", KInt);
     ("autovacuum_analyze_scale_factor", "AutovacuumAnalyzeScaleFactor", KFloat);
     ("autovacuum_vacuum_cost_limit", "AutovacuumVacuumCostDelay", KInt);
     ("autovacuum_freeze_min_age", "AutovacuumFreezeMinAge", KInt);
     ("autovacuum_freeze_max_age", "AutovacuumFreezeMaxAge", KInt);
     ("autovacuum_freeze_table_age", "AutovacuumFreezeTableAge", KInt);
     ("autovacuum_multixact_freeze_min_age", "AutovacuumMultixactFreezeMinAge", KInt);
     ("autovacuum_multixact_freeze_max_age", "AutovacuumMultixactFreezeMaxAge", KInt);
     ("autovacuum_multixact_freeze_table_age", "AutovacuumMultixactFreezeTableAge", KInt);
     ("log_autovacuum_min_duration", "LogAutovacuumMinDuration", KInt);
     ("user_catalog_table", "UserCatalogTable", KBool)].
  Definition storage_says (x : block) (p : storage) : Prop :=
    x.1 = [] ∧ only x.2 known_storage.*1.*1 [] ∧
    (∀ n f k, (n, f, k) ∈ known_storage → may (as_value k) None x.2 n (p !! f)) ∧
    (∀ f, f ∉ known_storage.*1.*2 → p !! f = None).
  Definition table_says (x : block) (t : table * option storage) : Prop :=
    x.1 = [tb_schema t.1; tb_name t.1] ∧
    only x.2 ["owner"; "comment"] ["column"; "check"; "foreign_key"; "storage_parameters"] ∧
    text_in x.2 "owner" (tb_owner t.1) ∧ text_in x.2 "comment" (tb_comment t.1) ∧
    each column_says x.2 "column" (tb_columns t.1) ∧ each check_says x.2 "check" (tb_checks t.1) ∧
    each foreign_key_says x.2 "foreign_key" (tb_foreign_keys t.1) ∧
    at_most_one storage_says x.2 "storage_parameters" t.2.
  Definition key_says (x : block) (k : index_key) : Prop :=
    x.1 = [] ∧ only x.2 ["column"; "expression"; "opclass"; "descending"] [] ∧
    text_in x.2 "column" (ik_column k) ∧ text_in x.2 "expression" (ik_expression k) ∧
    text_in x.2 "opclass" (ik_opclass k) ∧ flag_in x.2 "descending" (ik_descending k).
  Definition index_says (x : block) (i : index) : Prop :=
    x.1 = [ix_schema i; ix_table i; ix_name i] ∧ only x.2 ["primary"; "unique"; "using"; "where"] ["key"] ∧
    flag_in x.2 "primary" (ix_primary i) ∧ flag_in x.2 "unique" (ix_unique i) ∧
    text_in x.2 "using" (ix_using i) ∧ text_in x.2 "where" (ix_where i) ∧ each key_says x.2 "key" (ix_keys i).
  Definition trigger_says (x : block) (t : trigger) : Prop :=
    x.1 = [tg_schema t; tg_table t; tg_name t] ∧
    only x.2 ["function"; "when"; "constraint"; "deferrable"; "initially_deferred"; "for_each_row"; "delete";
              "insert"; "truncate"; "update"; "columns"] [] ∧
    must as_text x.2 "function" (tg_function t) ∧ must as_text x.2 "when" (tg_when t) ∧
    flag_in x.2 "constraint" (tg_constraint t) ∧ flag_in x.2 "deferrable" (tg_deferrable t) ∧
    flag_in x.2 "initially_deferred" (tg_deferred t) ∧ flag_in x.2 "for_each_row" (tg_each_row t) ∧
    flag_in x.2 "delete" (tg_delete t) ∧ flag_in x.2 "insert" (tg_insert t) ∧
    flag_in x.2 "truncate" (tg_truncate t) ∧ flag_in x.2 "update" (tg_update t) ∧
    texts_in x.2 "columns" (tg_columns t).
  (** The whole file. *)
  Definition file_says (b : body) (d : db_file) : Prop :=
    only b [] ["parameters"; "schema"; "function"; "sequence"; "table"; "index"; "trigger"] ∧
    at_most_one parameters_say b "parameters" (df_parameters d) ∧
    each schema_says b "schema" (df_schemas d) ∧ each function_says b "function" (df_functions d) ∧
    each sequence_says b "sequence" (df_sequences d) ∧ each table_says b "table" (df_tables d) ∧
    each index_says b "index" (df_indexes d) ∧ each trigger_says b "trigger" (df_triggers d).
End says.

(** * Writing *)

(** The texts of a database, changed by a function. *)
Section change.
  Variable n : string → string.
  Definition change_settings (s : settings) : settings := Settings (n <$> pa_search_path s) (n (pa_timezone s)).
  Definition change_schema (s : schema) : schema := Schema (n (sc_name s)) (n (sc_owner s)) (n (sc_comment s)).
  Definition change_func (f : func) : func :=
    Func (n (fn_schema f)) (n (fn_name f)) (n (fn_owner f)) (n (fn_comment f)) (n (fn_returns f))
      (n (fn_language f)) (n (fn_definition f)).
  Definition change_owner (o : seq_owner) : seq_owner :=
    SeqOwner (n (so_schema o)) (n (so_table o)) (n (so_column o)).
  Definition change_seq (q : seq_file) : seq_file :=
    SeqFile (n (sf_schema q)) (n (sf_name q)) (n (sf_owner q)) (n (sf_comment q)) (n (sf_type q)) (sf_start q)
      (sf_minimum q) (sf_maximum q) (sf_increment q) (sf_cache q) (sf_cycle q) (change_owner <$> sf_owned q).
  Definition change_column (c : column) : column :=
    Column (n (co_name c)) (n (co_type c)) (co_not_null c) (n (co_default c)) (n (co_comment c)).
  Definition change_check (c : check) : check :=
    Check (n (ck_name c)) (n (ck_expression c)) (ck_deferrable c) (ck_deferred c).
  Definition change_fk (f : foreign_key) : foreign_key :=
    ForeignKey (n (fk_name f)) (n (fk_table f)) (n <$> fk_columns f) (n <$> fk_referenced f) (n (fk_match f))
      (n (fk_on_delete f)) (n (fk_on_update f)) (fk_deferrable f) (fk_deferred f).
  Definition change_table (t : table * option storage) : table * option storage :=
    (Table (n (tb_schema t.1)) (n (tb_name t.1)) (n (tb_owner t.1)) (n (tb_comment t.1))
       (change_column <$> tb_columns t.1) (change_check <$> tb_checks t.1) (change_fk <$> tb_foreign_keys t.1), t.2).
  Definition change_key (k : index_key) : index_key :=
    IndexKey (n (ik_column k)) (n (ik_expression k)) (n (ik_opclass k)) (ik_descending k).
  Definition change_index (i : index) : index :=
    Index (n (ix_schema i)) (n (ix_table i)) (n (ix_name i)) (ix_primary i) (ix_unique i) (n (ix_using i))
      (n (ix_where i)) (change_key <$> ix_keys i).
  Definition change_trigger (t : trigger) : trigger :=
    Trigger (n (tg_schema t)) (n (tg_table t)) (n (tg_name t)) (n (tg_function t)) (n (tg_when t))
      (tg_constraint t) (tg_deferrable t) (tg_deferred t) (tg_each_row t) (tg_delete t) (tg_insert t)
      (tg_truncate t) (tg_update t) (n <$> tg_columns t).
  Definition change_db (d : db_file) : db_file :=
    DbFile (change_settings <$> df_parameters d) (change_schema <$> df_schemas d) (change_func <$> df_functions d)
      (change_seq <$> df_sequences d) (change_table <$> df_tables d) (change_index <$> df_indexes d)
      (change_trigger <$> df_triggers d).
  (** The same for what is in a file. *)
  Fixpoint change_value (v : hval) : hval :=
    match v with HText s => HText (n s) | HList l => HList (change_value <$> l) | v => v end.
  Fixpoint change_body (b : body) : body :=
    let '(Body a l) := b in
    Body ((λ p : string * hval, (p.1, change_value p.2)) <$> a)
      ((λ x : string * block, (x.1, (n <$> x.2.1, change_body x.2.2))) <$> l).
End change.

(** Every text of a database satisfies P. *)
Section every.
  Variable P : string → Prop.
  Definition every_settings (s : settings) : Prop := Forall P (pa_timezone s :: pa_search_path s).
  Definition every_schema (s : schema) : Prop := Forall P [sc_name s; sc_owner s; sc_comment s].
  Definition every_func (f : func) : Prop :=
    Forall P [fn_schema f; fn_name f; fn_owner f; fn_comment f; fn_returns f; fn_language f; fn_definition f].
  Definition every_seq (q : seq_file) : Prop :=
    Forall P [sf_schema q; sf_name q; sf_owner q; sf_comment q; sf_type q] ∧
    ∀ o, sf_owned q = Some o → Forall P [so_schema o; so_table o; so_column o].
  Definition every_column (c : column) : Prop := Forall P [co_name c; co_type c; co_default c; co_comment c].
  Definition every_check (c : check) : Prop := Forall P [ck_name c; ck_expression c].
  Definition every_fk (f : foreign_key) : Prop :=
    Forall P ([fk_name f; fk_table f; fk_match f; fk_on_delete f; fk_on_update f] ++ fk_columns f ++ fk_referenced f).
  Definition every_table (t : table * option storage) : Prop :=
    Forall P [tb_schema t.1; tb_name t.1; tb_owner t.1; tb_comment t.1] ∧ Forall every_column (tb_columns t.1) ∧
    Forall every_check (tb_checks t.1) ∧ Forall every_fk (tb_foreign_keys t.1).
  Definition every_index (i : index) : Prop :=
    Forall P [ix_schema i; ix_table i; ix_name i; ix_using i; ix_where i] ∧
    Forall (λ k, Forall P [ik_column k; ik_expression k; ik_opclass k]) (ix_keys i).
  Definition every_trigger (t : trigger) : Prop :=
    Forall P ([tg_schema t; tg_table t; tg_name t; tg_function t; tg_when t] ++ tg_columns t).
  Definition every_text (d : db_file) : Prop :=
    (∀ s, df_parameters d = Some s → every_settings s) ∧ Forall every_schema (df_schemas d) ∧
    Forall every_func (df_functions d) ∧ Forall every_seq (df_sequences d) ∧ Forall every_table (df_tables d) ∧
    Forall every_index (df_indexes d) ∧ Forall every_trigger (df_triggers d).
End every.

(** What Go's types ensure: integers of 64 bits, and storage parameters that are fields of the
    struct, of their types. *)
Definition typed_storage (finite : string → Prop) (p : storage) : Prop :=
  ∀ f v, p !! f = Some v →
    ∃ n k, (n, f, k) ∈ known_storage ∧
      match k, v with
      | KInt, VInt z => in_range z
      | KBool, VBool _ => True
      | KFloat, VFloat x => finite x
      | _, _ => False
      end.
Definition typed_db (finite : string → Prop) (d : db_file) : Prop :=
  Forall (λ q, Forall in_range [sf_start q; sf_minimum q; sf_maximum q; sf_increment q; sf_cache q])
    (df_sequences d) ∧
  Forall (λ t : table * option storage, ∀ p, t.2 = Some p → typed_storage finite p) (df_tables d).

(** ** The database of an inspection as a description: owners of sequences and storage parameters
    are always there. *)
Definition sequence_kept (q : sequence) (s : seq_file) : Prop :=
  sf_schema s = sq_schema q ∧ sf_name s = sq_name q ∧ sf_owner s = sq_owner q ∧ sf_comment s = sq_comment q ∧
  sf_type s = sq_type q ∧ sf_start s = sq_start q ∧ sf_minimum s = sq_minimum q ∧ sf_maximum s = sq_maximum q ∧
  sf_increment s = sq_increment q ∧ sf_cache s = sq_cache q ∧ sf_cycle s = sq_cycle q ∧
  ∃ o, sf_owned s = Some o ∧ so_schema o = sq_owned_schema q ∧ so_table o = sq_owned_table q ∧
    so_column o = sq_owned_column q.
Definition database_kept (db : database) (d : db_file) : Prop :=
  df_parameters d = Some (db_parameters db) ∧ df_schemas d = db_schemas db ∧ df_functions d = db_functions db ∧
  Forall2 sequence_kept (db_sequences db) (df_sequences d) ∧
  Forall2 (λ x y : _ * _, y.1 = x.1 ∧ y.2 = Some x.2) (db_tables db) (df_tables d) ∧
  df_indexes d = db_indexes db ∧ df_triggers d = db_triggers db.

(** * The text of HCL *)

(** Names that need no quotes. *)
Definition is_word (s : string) : Prop :=
  s ≠ "" ∧ ∀ c, c ∈ list_ascii_of_string s → c = "_"%char ∨ (97 ≤ nat_of_ascii c ≤ 122)%nat.
Section good.
  Variable good : string → Prop.
  Fixpoint good_value (v : hval) : Prop :=
    match v with
    | HText s => good s
    | HNumber m e => e = 0%nat ∨ m mod 10 ≠ 0
    | HList l => foldr (λ v P, good_value v ∧ P) True l
    | HOther => False
    | _ => True
    end.
  Fixpoint good_body (b : body) : Prop :=
    let '(Body a l) := b in
    NoDup a.*1 ∧ Forall (λ p : string * hval, is_word p.1 ∧ good_value p.2) a ∧
    foldr (λ (x : string * block) P, (is_word x.1 ∧ Forall good x.2.1 ∧ good_body x.2.2) ∧ P) True l.
End good.
(** What is assumed of hclwrite and hclsyntax: a body made of words and of texts that are
    [good] is read as it was printed, with its texts changed by [n] (cty.StringVal normalises a
    text, and what is not UTF-8 is replaced when it is quoted).  Of cty and float64: a
    [finite] number is not changed by writing it as a decimal, and every number that is read is
    finite. *)
Record ok_lib (L : hcl_lib) (n : string → string) (good finite : string → Prop) : Prop := OkLib {
  ok_print : ∀ b, good_body good b → hl_read L (hl_print L b) = Some (change_body n b);
  ok_float : ∀ f, finite f → let '(m, e) := hl_decimal L f in
    hl_float L m e = Some f ∧ (e = 0%nat ∨ m mod 10 ≠ 0);
  ok_back : ∀ m e f, hl_float L m e = Some f → finite f }.
