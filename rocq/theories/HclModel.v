(** Model of the HCL side of internal/ddl: ParseBytes, ParseFile and Write, with the
    tags of every struct.  hcl2's package gohcl (EncodeIntoBody, DecodeBody) is
    modelled on the contents of files; hclwrite, hclsyntax and cty's conversions are
    parameters. *)
From Coq Require Import String Ascii.
From stdpp Require Import gmap list strings numbers.
From Verif Require Import GoStrings DdlModel PgModel.
Local Open Scope Z_scope.

(** * The contents of a file *)

(** The constants of cty, v1.1.0, that occur.  [HNumber m e] is m / 10^e, where m is not
    a multiple of 10 unless e is 0; [HOther] is any other value, an object for one. *)
Inductive hval :=
  HNull | HText (s : string) | HBool (b : bool) | HNumber (m : Z) (e : nat) | HList (l : list hval) | HOther.
(** A body: attributes with their values, and blocks with their types and labels.  The
    order between attributes and blocks is left out. *)
Inductive body := Body (attrs : list (string * hval)) (blocks : list (string * (list string * body))).
Definition block := (list string * body)%type.
Definition b_attrs (b : body) := let '(Body a _) := b in a.
Definition b_blocks (b : body) := let '(Body _ l) := b in l.

(** Printing a body (hclwrite), and reading one (hclparse) with every expression
    evaluated: None if there is any diagnostic.  The last five: cty's decimal for a
    float64 and back (None if out of range), and its conversion of a value of one type to another. *)
Record hcl_lib := HclLib {
  hl_print : body → string;
  hl_read : string → option body;
  hl_decimal : string → Z * nat;
  hl_float : Z → nat → option string;
  hl_as_text : hval → option string;
  hl_as_bool : hval → option bool;
  hl_as_number : hval → option (Z * nat) }.

(** * gohcl *)

(** What gohcl knows of a field of a struct A from its tag: label, attr or optional,
    block.  [write]: what becomes of the field (None or []: left out); [read]: the effect of
    reading it. *)
Inductive field (A : Type) : Type :=
  | FLabel (name : string) (get : A → string) (set : string → A → A)
  | FAttr (name : string) (required : bool) (write : A → option hval) (read : hval → option (A → A))
  | FBlock (name : string) (many : bool) (write : A → list block) (read : list block → option (A → A)).
Arguments FLabel {A}. Arguments FAttr {A}. Arguments FBlock {A}.

Section gohcl.
  Context {A : Type}.
  Implicit Types (fs : list (field A)) (a : A).

  (** gohcl/schema.go, getFieldTags: attributes and blocks are kept in maps from names to
      fields, where the last field of a name wins. *)
  Definition same_key (f g : field A) : bool :=
    match f, g with
    | FAttr n _ _ _, FAttr m _ _ _ => bool_decide (n = m)
    | FBlock n _ _ _, FBlock m _ _ _ => bool_decide (n = m)
    | _, _ => false
    end.
  Fixpoint live fs : list (field A) :=
    match fs with
    | [] => []
    | f :: fs => if existsb (same_key f) fs then live fs else f :: live fs
    end.
  Definition attr_names fs : list string := omap (λ f, match f with FAttr n _ _ _ => Some n | _ => None end) fs.
  Definition block_names fs : list string := omap (λ f, match f with FBlock n _ _ _ => Some n | _ => None end) fs.
  Definition label_count fs : nat := length (List.filter (λ f, match f with FLabel _ _ _ => true | _ => false end) fs).

  (** gohcl/encode.go, EncodeAsBlock and populateBody: attributes and blocks in the order of
      the struct. *)
  Definition encode fs a : block :=
    (omap (λ f, match f with FLabel _ g _ => Some (g a) | _ => None end) fs,
     Body (omap (λ f, match f with FAttr n _ w _ => pair n <$> w a | _ => None end) (live fs))
          (concat ((λ f, match f with FBlock n _ w _ => pair n <$> w a | _ => [] end) <$> live fs))).

  (** hclsyntax/structure.go, Body.Content: no attribute and no block may be left over,
      and a block needs its labels.  That no attribute is given twice is checked by the
      parser. *)
  Definition content_ok fs (x : block) : bool :=
    bool_decide (length x.1 = label_count fs) &&
    bool_decide (NoDup (b_attrs x.2).*1) &&
    bool_decide (Forall (λ n, n ∈ attr_names fs) (b_attrs x.2).*1) &&
    bool_decide (Forall (λ n, n ∈ block_names fs) (b_blocks x.2).*1).
  Definition of_type (n : string) (b : body) : list block :=
    (List.filter (λ x, bool_decide (x.1 = n)) (b_blocks b)).*2.
  (** gohcl/decode.go, decodeBodyToStruct: one field. *)
  Definition decode_field (b : body) (f : field A) : option (A → A) :=
    match f with
    | FLabel _ _ _ => Some id
    | FAttr n required _ r =>
        match assoc (b_attrs b) n with
        | Some v => r v
        | None => if required then None else Some id
        end
    | FBlock n many _ r =>
        let l := of_type n b in if many || bool_decide (length l ≤ 1)%nat then r l else None
    end.
  (** gohcl/decode.go, decodeBlockToValue. *)
  Fixpoint set_labels fs (l : list string) a : A :=
    match fs with
    | [] => a
    | FLabel _ _ set :: fs => match l with x :: l => set_labels fs l (set x a) | [] => a end
    | _ :: fs => set_labels fs l a
    end.
  (** The struct is filled in although there are diagnostics, but ParseBytes and ParseFile
      drop it then. *)
  Definition decode fs (zero : A) (x : block) : option A :=
    if content_ok fs x then
      effects ← mapM (decode_field x.2) (live fs);
      Some (set_labels fs x.1 (foldl (λ a f, f a) zero effects))
    else None.
End gohcl.

(** ** Fields *)

(** gocty, ToCtyValue and FromCtyValue for a Go type: writing (None: a nil pointer, left
    out by populateBody) and reading. *)
Record codec (T : Type) := Codec { c_write : T → option hval; c_read : hval → option T }.
Arguments Codec {T}. Arguments c_write {T}. Arguments c_read {T}.

Definition min_int64 : Z := -9223372036854775808.
Definition max_int64 : Z := 9223372036854775807.
Definition fits (z : Z) : bool := bool_decide (min_int64 ≤ z ≤ max_int64).

Section codecs.
  Variable L : hcl_lib.

  (** string, bool and int64 or int: null is refused. *)
  Definition text_codec : codec string :=
    Codec (λ s, Some (HText s))
      (λ v, match v with HNull => None | HText s => Some s | v => hl_as_text L v end).
  Definition bool_codec : codec bool :=
    Codec (λ b, Some (HBool b))
      (λ v, match v with HNull => None | HBool b => Some b | v => hl_as_bool L v end).
  Definition number (v : hval) : option (Z * nat) :=
    match v with HNull => None | HNumber m e => Some (m, e) | v => hl_as_number L v end.
  Definition int_codec : codec Z :=
    Codec (λ z, Some (HNumber z 0))
      (λ v, p ← number v; if bool_decide (p.2 = 0%nat) && fits p.1 then Some p.1 else None).
  (** []string.  A nil slice is written as null, an empty one as []; both are the empty list here
      (null is read as a nil slice, [] as an empty one). *)
  Definition texts_codec : codec (list string) :=
    Codec (λ l, Some (match l with [] => HNull | _ => HList (HText <$> l) end))
      (λ v, match v with HNull => Some [] | HList l => mapM (c_read text_codec) l | _ => None end).
  (** *int, *bool and *float64: a nil pointer is left out, null is read as nil. *)
  Definition value_hval (x : value) : hval :=
    match x with
    | VInt z => HNumber z 0 | VBool b => HBool b
    | VFloat f => let '(m, e) := hl_decimal L f in HNumber m e
    end.
  Definition value_codec (k : kind) : codec (option value) :=
    Codec (λ x, value_hval <$> x)
      (λ v, match v with
            | HNull => Some None
            | v => Some <$>
                match k with
                | KInt => VInt <$> c_read int_codec v
                | KBool => VBool <$> c_read bool_codec v
                | KFloat => p ← number v; VFloat <$> hl_float L p.1 p.2
                end
            end).
End codecs.

(** A field of any of these types with the kind attr or optional. *)
Definition attr {A T} (n : string) (required : bool) (c : codec T) (get : A → T) (set : T → A → A) : field A :=
  FAttr n required (λ a, c_write c (get a)) (λ v, set <$> c_read c v).
(** A field with the kind block: a slice of pointers, or one pointer. *)
Definition blocks {A B} (n : string) (fs : list (field B)) (zero : B) (get : A → list B) (set : list B → A → A)
    : field A :=
  FBlock n true (λ a, encode fs <$> get a) (λ l, set <$> mapM (decode fs zero) l).
Definition block_ptr {A B} (n : string) (fs : list (field B)) (zero : B) (get : A → option B)
    (set : option B → A → A) : field A :=
  FBlock n false (λ a, match get a with Some b => [encode fs b] | None => [] end)
    (λ l, match l with [] => Some (set None) | x :: _ => set ∘ Some <$> decode fs zero x end).

(** * The structs of internal/ddl *)

(** internal/ddl/sequence.go:4-24, with OwnedBy a pointer (PgModel.v has the structs that ListSequences
    makes, where it never is nil). *)
Record seq_owner := SeqOwner { so_schema : string; so_table : string; so_column : string }.
Record seq_file := SeqFile {
  sf_schema : string; sf_name : string; sf_owner : string; sf_comment : string; sf_type : string;
  sf_start : Z; sf_minimum : Z; sf_maximum : Z; sf_increment : Z; sf_cache : Z; sf_cycle : bool;
  sf_owned : option seq_owner }.
(** internal/ddl/database.go:4-13, with pointers to Parameters and StorageParameters that may be nil. *)
Record db_file := DbFile {
  df_parameters : option settings; df_schemas : list schema; df_functions : list func;
  df_sequences : list seq_file; df_tables : list (table * option storage); df_indexes : list index;
  df_triggers : list trigger }.
(** The database an inspection returns, as such a struct. *)
Definition seq_of (q : sequence) : seq_file :=
  SeqFile (sq_schema q) (sq_name q) (sq_owner q) (sq_comment q) (sq_type q) (sq_start q) (sq_minimum q)
    (sq_maximum q) (sq_increment q) (sq_cache q) (sq_cycle q)
    (Some (SeqOwner (sq_owned_schema q) (sq_owned_table q) (sq_owned_column q))).
Definition file_of (d : database) : db_file :=
  DbFile (Some (db_parameters d)) (db_schemas d) (db_functions d) (seq_of <$> db_sequences d)
    ((λ t, (t.1, Some t.2)) <$> db_tables d) (db_indexes d) (db_triggers d).

Section structs.
  Variable L : hcl_lib.
  Notation text := (text_codec L). Notation texts := (texts_codec L).
  Notation boolean := (bool_codec L). Notation int := (int_codec L).

  (** internal/ddl/database.go:16-19. *)
  Definition settings_fields : list (field settings) :=
    [attr "search_path" false texts pa_search_path (λ x s, Settings x (pa_timezone s));
     attr "timezone" false text pa_timezone (λ x s, Settings (pa_search_path s) x)].
  Definition settings_zero : settings := Settings [] "".

  (** internal/ddl/database.go:22-26. *)
  Definition schema_fields : list (field schema) :=
    [FLabel "name" sc_name (λ x s, Schema x (sc_owner s) (sc_comment s));
     attr "owner" false text sc_owner (λ x s, Schema (sc_name s) x (sc_comment s));
     attr "comment" false text sc_comment (λ x s, Schema (sc_name s) (sc_owner s) x)].
  Definition schema_zero : schema := Schema "" "" "".

  (** internal/ddl/function.go:6-15. *)
  Definition func_fields : list (field func) :=
    [FLabel "schema" fn_schema (λ x '(Func a b c d e f g), Func x b c d e f g);
     FLabel "name" fn_name (λ x '(Func a b c d e f g), Func a x c d e f g);
     attr "owner" false text fn_owner (λ x '(Func a b c d e f g), Func a b x d e f g);
     attr "comment" false text fn_comment (λ x '(Func a b c d e f g), Func a b c x e f g);
     attr "returns" true text fn_returns (λ x '(Func a b c d e f g), Func a b c d x f g);
     attr "language" true text fn_language (λ x '(Func a b c d e f g), Func a b c d e x g);
     attr "definition" true text fn_definition (λ x '(Func a b c d e f g), Func a b c d e f x)].
  Definition func_zero : func := Func "" "" "" "" "" "" "".

  (** internal/ddl/sequence.go:20-24. *)
  Definition owner_fields : list (field seq_owner) :=
    [attr "schema" true text so_schema (λ x '(SeqOwner a b c), SeqOwner x b c);
     attr "table" true text so_table (λ x '(SeqOwner a b c), SeqOwner a x c);
     attr "column" true text so_column (λ x '(SeqOwner a b c), SeqOwner a b x)].
  Definition owner_zero : seq_owner := SeqOwner "" "" "".

  (** internal/ddl/sequence.go:4-18. *)
  Definition seq_fields : list (field seq_file) :=
    [FLabel "schema" sf_schema (λ x '(SeqFile a b c d e f g h i j k l), SeqFile x b c d e f g h i j k l);
     FLabel "name" sf_name (λ x '(SeqFile a b c d e f g h i j k l), SeqFile a x c d e f g h i j k l);
     attr "owner" false text sf_owner (λ x '(SeqFile a b c d e f g h i j k l), SeqFile a b x d e f g h i j k l);
     attr "comment" false text sf_comment (λ x '(SeqFile a b c d e f g h i j k l), SeqFile a b c x e f g h i j k l);
     attr "data_type" false text sf_type (λ x '(SeqFile a b c d e f g h i j k l), SeqFile a b c d x f g h i j k l);
     attr "start" false int sf_start (λ x '(SeqFile a b c d e f g h i j k l), SeqFile a b c d e x g h i j k l);
     attr "minimum" false int sf_minimum (λ x '(SeqFile a b c d e f g h i j k l), SeqFile a b c d e f x h i j k l);
     attr "maximum" false int sf_maximum (λ x '(SeqFile a b c d e f g h i j k l), SeqFile a b c d e f g x i j k l);
     attr "increment" false int sf_increment
       (λ x '(SeqFile a b c d e f g h i j k l), SeqFile a b c d e f g h x j k l);
     attr "cache" false int sf_cache (λ x '(SeqFile a b c d e f g h i j k l), SeqFile a b c d e f g h i x k l);
     attr "cycle" false boolean sf_cycle (λ x '(SeqFile a b c d e f g h i j k l), SeqFile a b c d e f g h i j x l);
     block_ptr "owned_by" owner_fields owner_zero sf_owned
       (λ x '(SeqFile a b c d e f g h i j k l), SeqFile a b c d e f g h i j k x)].
  Definition seq_zero : seq_file := SeqFile "" "" "" "" "" 0 0 0 0 0 false None.

  (** internal/ddl/table.go:20-26. *)
  Definition column_fields : list (field column) :=
    [FLabel "name" co_name (λ x '(Column a b c d e), Column x b c d e);
     attr "type" true text co_type (λ x '(Column a b c d e), Column a x c d e);
     attr "not_null" false boolean co_not_null (λ x '(Column a b c d e), Column a b x d e);
     attr "default" false text co_default (λ x '(Column a b c d e), Column a b c x e);
     attr "comment" false text co_comment (λ x '(Column a b c d e), Column a b c d x)].
  Definition column_zero : column := Column "" "" false "" "".

  (** internal/ddl/check.go:4-9. *)
  Definition check_fields : list (field check) :=
    [attr "name" false text ck_name (λ x '(Check a b c d), Check x b c d);
     attr "expression" true text ck_expression (λ x '(Check a b c d), Check a x c d);
     attr "deferrable" false boolean ck_deferrable (λ x '(Check a b c d), Check a b x d);
     attr "initially_deferred" false boolean ck_deferred (λ x '(Check a b c d), Check a b c x)].
  Definition check_zero : check := Check "" "" false false.

  (** internal/ddl/foreign_key.go:4-16. *)
  Definition fk_fields : list (field foreign_key) :=
    [attr "name" false text fk_name (λ x '(ForeignKey a b c d e f g h i), ForeignKey x b c d e f g h i);
     FLabel "table" fk_table (λ x '(ForeignKey a b c d e f g h i), ForeignKey a x c d e f g h i);
     attr "columns" true texts fk_columns (λ x '(ForeignKey a b c d e f g h i), ForeignKey a b x d e f g h i);
     attr "referenced" true texts fk_referenced (λ x '(ForeignKey a b c d e f g h i), ForeignKey a b c x e f g h i);
     attr "match" false text fk_match (λ x '(ForeignKey a b c d e f g h i), ForeignKey a b c d x f g h i);
     attr "on_delete" false text fk_on_delete (λ x '(ForeignKey a b c d e f g h i), ForeignKey a b c d e x g h i);
     attr "on_update" false text fk_on_update (λ x '(ForeignKey a b c d e f g h i), ForeignKey a b c d e f x h i);
     attr "deferrable" false boolean fk_deferrable (λ x '(ForeignKey a b c d e f g h i), ForeignKey a b c d e f g x i);
     attr "initially_deferred" false boolean fk_deferred
       (λ x '(ForeignKey a b c d e f g h i), ForeignKey a b c d e f g h x)].
  Definition fk_zero : foreign_key := ForeignKey "" "" [] [] "" "" "" false false.

  (** internal/ddl/table_storage_parameters.go:7-22: the name in the tag, the field and its type. *)
  Definition storage_tags : list (string * (string * kind)) :=
    [("fillfactor", ("Fillfactor", KInt));
     ("parallel_workers", ("ParallelWorkers", KInt));
     ("autovacuum_enabled", ("AutovacuumEnabled", KBool));
     ("autovacuum_vacuum_threshold", ("AutovacuumVacuumThreshold", KInt));
     ("autovacuum_vacuum_scale_factor", ("AutovacuumVacuumScaleFactor", KFloat));
     ("autovacuum_analyze_threshold", ("AutovacuumAnalyzeThreshold", KInt));
     ("autovacuum_analyze_scale_factor", ("AutovacuumAnalyzeScaleFactor", KFloat));
     ("autovacuum_vacuum_cost_limit", ("AutovacuumVacuumCostDelay", KInt));
     ("autovacuum_freeze_min_age", ("AutovacuumFreezeMinAge", KInt));
     ("autovacuum_freeze_max_age", ("AutovacuumFreezeMaxAge", KInt));
     ("autovacuum_freeze_table_age", ("AutovacuumFreezeTableAge", KInt));
     ("autovacuum_multixact_freeze_min_age", ("AutovacuumMultixactFreezeMinAge", KInt));
     ("autovacuum_multixact_freeze_max_age", ("AutovacuumMultixactFreezeMaxAge", KInt));
     ("autovacuum_multixact_freeze_table_age", ("AutovacuumMultixactFreezeTableAge", KInt));
     ("log_autovacuum_min_duration", ("LogAutovacuumMinDuration", KInt));
     ("user_catalog_table", ("UserCatalogTable", KBool))].
  (** The same as fields (the struct is a map from fields to values here, see DdlModel.v). *)
  Definition storage_field (t : string * (string * kind)) : field storage :=
    attr t.1 false (value_codec L t.2.2) (λ p : storage, p !! t.2.1)
      (λ x (p : storage), partial_alter (λ _, x) t.2.1 p).
  Definition storage_fields : list (field storage) := storage_field <$> storage_tags.
  Definition storage_zero : storage := ∅.

  (** internal/ddl/table.go:6-17. *)
  Definition table_fields : list (field (table * option storage)) :=
    [FLabel "schema" (λ t, tb_schema t.1) (λ x '(Table a b c d e f g, s), (Table x b c d e f g, s));
     FLabel "name" (λ t, tb_name t.1) (λ x '(Table a b c d e f g, s), (Table a x c d e f g, s));
     attr "owner" false text (λ t, tb_owner t.1) (λ x '(Table a b c d e f g, s), (Table a b x d e f g, s));
     attr "comment" false text (λ t, tb_comment t.1) (λ x '(Table a b c d e f g, s), (Table a b c x e f g, s));
     blocks "column" column_fields column_zero (λ t, tb_columns t.1)
       (λ x '(Table a b c d e f g, s), (Table a b c d x f g, s));
     blocks "check" check_fields check_zero (λ t, tb_checks t.1)
       (λ x '(Table a b c d e f g, s), (Table a b c d e x g, s));
     blocks "foreign_key" fk_fields fk_zero (λ t, tb_foreign_keys t.1)
       (λ x '(Table a b c d e f g, s), (Table a b c d e f x, s));
     block_ptr "storage_parameters" storage_fields storage_zero snd (λ x '(t, s), (t, x))].
  Definition table_zero : table * option storage := (Table "" "" "" "" [] [] [], None).

  (** internal/ddl/index.go:20-25. *)
  Definition key_fields : list (field index_key) :=
    [attr "column" false text ik_column (λ x '(IndexKey a b c d), IndexKey x b c d);
     attr "expression" false text ik_expression (λ x '(IndexKey a b c d), IndexKey a x c d);
     attr "opclass" false text ik_opclass (λ x '(IndexKey a b c d), IndexKey a b x d);
     attr "descending" false boolean ik_descending (λ x '(IndexKey a b c d), IndexKey a b c x)].
  Definition key_zero : index_key := IndexKey "" "" "" false.

  (** internal/ddl/index.go:6-17. *)
  Definition index_fields : list (field index) :=
    [FLabel "schema" ix_schema (λ x '(Index a b c d e f g h), Index x b c d e f g h);
     FLabel "table" ix_table (λ x '(Index a b c d e f g h), Index a x c d e f g h);
     FLabel "name" ix_name (λ x '(Index a b c d e f g h), Index a b x d e f g h);
     attr "primary" false boolean ix_primary (λ x '(Index a b c d e f g h), Index a b c x e f g h);
     attr "unique" false boolean ix_unique (λ x '(Index a b c d e f g h), Index a b c d x f g h);
     attr "using" false text ix_using (λ x '(Index a b c d e f g h), Index a b c d e x g h);
     attr "where" false text ix_where (λ x '(Index a b c d e f g h), Index a b c d e f x h);
     blocks "key" key_fields key_zero ix_keys (λ x '(Index a b c d e f g h), Index a b c d e f g x)].
  Definition index_zero : index := Index "" "" "" false false "" "" [].

  (** internal/ddl/trigger.go:6-24. *)
  Definition trigger_fields : list (field trigger) :=
    [FLabel "schema" tg_schema (λ x '(Trigger a b c d e f g h i j k l m n), Trigger x b c d e f g h i j k l m n);
     FLabel "table" tg_table (λ x '(Trigger a b c d e f g h i j k l m n), Trigger a x c d e f g h i j k l m n);
     FLabel "name" tg_name (λ x '(Trigger a b c d e f g h i j k l m n), Trigger a b x d e f g h i j k l m n);
     attr "function" true text tg_function
       (λ x '(Trigger a b c d e f g h i j k l m n), Trigger a b c x e f g h i j k l m n);
     attr "when" true text tg_when (λ x '(Trigger a b c d e f g h i j k l m n), Trigger a b c d x f g h i j k l m n);
     attr "constraint" false boolean tg_constraint
       (λ x '(Trigger a b c d e f g h i j k l m n), Trigger a b c d e x g h i j k l m n);
     attr "deferrable" false boolean tg_deferrable
       (λ x '(Trigger a b c d e f g h i j k l m n), Trigger a b c d e f x h i j k l m n);
     attr "initially_deferred" false boolean tg_deferred
       (λ x '(Trigger a b c d e f g h i j k l m n), Trigger a b c d e f g x i j k l m n);
     attr "for_each_row" false boolean tg_each_row
       (λ x '(Trigger a b c d e f g h i j k l m n), Trigger a b c d e f g h x j k l m n);
     attr "delete" false boolean tg_delete
       (λ x '(Trigger a b c d e f g h i j k l m n), Trigger a b c d e f g h i x k l m n);
     attr "insert" false boolean tg_insert
       (λ x '(Trigger a b c d e f g h i j k l m n), Trigger a b c d e f g h i j x l m n);
     attr "truncate" false boolean tg_truncate
       (λ x '(Trigger a b c d e f g h i j k l m n), Trigger a b c d e f g h i j k x m n);
     attr "update" false boolean tg_update
       (λ x '(Trigger a b c d e f g h i j k l m n), Trigger a b c d e f g h i j k l x n);
     attr "columns" false texts tg_columns
       (λ x '(Trigger a b c d e f g h i j k l m n), Trigger a b c d e f g h i j k l m x)].
  Definition trigger_zero : trigger := Trigger "" "" "" "" "" false false false false false false false false [].

  (** internal/ddl/database.go:4-13. *)
  Definition db_fields : list (field db_file) :=
    [block_ptr "parameters" settings_fields settings_zero df_parameters
       (λ x '(DbFile a b c d e f g), DbFile x b c d e f g);
     blocks "schema" schema_fields schema_zero df_schemas (λ x '(DbFile a b c d e f g), DbFile a x c d e f g);
     blocks "function" func_fields func_zero df_functions (λ x '(DbFile a b c d e f g), DbFile a b x d e f g);
     blocks "sequence" seq_fields seq_zero df_sequences (λ x '(DbFile a b c d e f g), DbFile a b c x e f g);
     blocks "table" table_fields table_zero df_tables (λ x '(DbFile a b c d e f g), DbFile a b c d x f g);
     blocks "index" index_fields index_zero df_indexes (λ x '(DbFile a b c d e f g), DbFile a b c d e x g);
     blocks "trigger" trigger_fields trigger_zero df_triggers (λ x '(DbFile a b c d e f g), DbFile a b c d e f x)].
  Definition db_zero : db_file := DbFile None [] [] [] [] [] [].

  (** ddl.go:18-32.  The file name is only used in messages.  None: an error. *)
  Definition parse_bytes (src : string) : option db_file :=
    b ← hl_read L src; decode db_fields db_zero ([], b).
  (** ddl.go:35-49, given the files that can be read. *)
  Definition parse_file (files : gmap string string) (name : string) : option db_file :=
    src ← files !! name; b ← hl_read L src; decode db_fields db_zero ([], b).
  (** ddl.go:52-57: the text passed to w.Write, whose error is returned. *)
  Definition db_text (d : db_file) : string := hl_print L (encode db_fields d).2.
End structs.
