(** The queries of internal/pg and the system catalogues of a PostgreSQL server they
    are about. *)
From Coq Require Import String Ascii.
From stdpp Require Import list strings numbers sorting.
From Verif Require Import GoBase GoStrings DdlModel PgModel QueryModel.
Local Open Scope Z_scope.

(** * System catalogues *)

(** The columns the queries use (PostgreSQL manual, "System Catalogs").  PostgreSQL is
    a dependency. *)
Record pg_namespace := PgNamespace { ns_oid : Z; ns_name : string; ns_owner : Z }.
Record pg_class := PgClass {
  rel_oid : Z; rel_name : string; rel_namespace : Z; rel_kind : string; rel_owner : Z;
  rel_options : option (list string) }.
Record pg_attribute := PgAttribute {
  att_rel : Z; att_num : Z; att_name : string; att_type : Z; att_typmod : Z; att_not_null : bool;
  att_has_default : bool; att_dropped : bool }.
Record pg_attrdef := PgAttrdef { def_rel : Z; def_num : Z; def_bin : string }.
Record pg_index := PgIndex { ind_index : Z; ind_rel : Z; ind_primary : bool; ind_unique : bool }.
Record pg_constraint := PgConstraint {
  con_oid : Z; con_name : string; con_type : string; con_rel : Z; con_frel : Z; con_key : list Z }.
Record pg_trigger := PgTrigger { trig_oid : Z; trig_rel : Z; trig_name : string; trig_internal : bool }.
Record pg_proc := PgProc {
  proc_oid : Z; proc_name : string; proc_namespace : Z; proc_owner : Z; proc_lang : Z; proc_src : string;
  proc_args : list Z }.
Record pg_language := PgLanguage { lang_oid : Z; lang_name : string }.
Record pg_sequence := PgSequence {
  seq_rel : Z; seq_typ : Z; seq_start : Z; seq_min : Z; seq_max : Z; seq_inc : Z; seq_cache : Z; seq_cycle : bool }.
Record pg_depend := PgDepend {
  dep_class : Z; dep_obj : Z; dep_ref_class : Z; dep_ref_obj : Z; dep_ref_sub : Z; dep_type : string }.
(** The catalogues, the schemas of the search path in effect, and what the functions
    of the server answer.  Servers before 10 have no pg_sequence; there, a sequence
    is a table with a single row ([sy_old_details]). *)
Record system := System {
  sy_namespaces : list pg_namespace; sy_classes : list pg_class; sy_attributes : list pg_attribute;
  sy_attrdefs : list pg_attrdef; sy_indexes : list pg_index; sy_constraints : list pg_constraint;
  sy_triggers : list pg_trigger; sy_procs : list pg_proc; sy_languages : list pg_language;
  sy_sequences : option (list pg_sequence); sy_old_details : Z → details_row; sy_depends : list pg_depend;
  sy_path : list Z;
  sy_user : Z → string; sy_comment : string → Z → option string; sy_col_comment : Z → Z → option string;
  sy_type_name : Z → option Z → string; sy_expr : string → Z → string;
  sy_indexdef : Z → string; sy_constraintdef : Z → bool → string; sy_triggerdef : Z → string;
  sy_result : Z → option string; sy_text_le : string → string → bool }.

(** Rows by column name.  The columns of type "char" are read as texts. *)
Definition namespace_row (n : pg_namespace) : row :=
  [("oid", VInt (ns_oid n)); ("nspname", VName (ns_name n)); ("nspowner", VInt (ns_owner n))].
Definition class_row (c : pg_class) : row :=
  [("oid", VInt (rel_oid c)); ("relname", VName (rel_name c)); ("relnamespace", VInt (rel_namespace c));
   ("relkind", VText (rel_kind c)); ("relowner", VInt (rel_owner c));
   ("reloptions", match rel_options c with None => VNull | Some l => VTexts l end)].
Definition attribute_row (a : pg_attribute) : row :=
  [("attrelid", VInt (att_rel a)); ("attnum", VInt (att_num a)); ("attname", VName (att_name a));
   ("atttypid", VInt (att_type a)); ("atttypmod", VInt (att_typmod a)); ("attnotnull", VBool (att_not_null a));
   ("atthasdef", VBool (att_has_default a)); ("attisdropped", VBool (att_dropped a))].
Definition attrdef_row (d : pg_attrdef) : row :=
  [("adrelid", VInt (def_rel d)); ("adnum", VInt (def_num d)); ("adbin", VText (def_bin d))].
Definition index_row_of (i : pg_index) : row :=
  [("indexrelid", VInt (ind_index i)); ("indrelid", VInt (ind_rel i)); ("indisprimary", VBool (ind_primary i));
   ("indisunique", VBool (ind_unique i))].
Definition constraint_row (r : pg_constraint) : row :=
  [("oid", VInt (con_oid r)); ("conname", VName (con_name r)); ("contype", VText (con_type r));
   ("conrelid", VInt (con_rel r)); ("confrelid", VInt (con_frel r)); ("conkey", VInts (con_key r))].
Definition trigger_row (t : pg_trigger) : row :=
  [("oid", VInt (trig_oid t)); ("tgrelid", VInt (trig_rel t)); ("tgname", VName (trig_name t));
   ("tgisinternal", VBool (trig_internal t))].
Definition proc_row (p : pg_proc) : row :=
  [("oid", VInt (proc_oid p)); ("proname", VName (proc_name p)); ("pronamespace", VInt (proc_namespace p));
   ("proowner", VInt (proc_owner p)); ("prolang", VInt (proc_lang p)); ("prosrc", VText (proc_src p))].
Definition language_row (l : pg_language) : row := [("oid", VInt (lang_oid l)); ("lanname", VName (lang_name l))].
Definition sequence_row_of (s : pg_sequence) : row :=
  [("seqrelid", VInt (seq_rel s)); ("seqtypid", VInt (seq_typ s)); ("seqstart", VInt (seq_start s));
   ("seqmin", VInt (seq_min s)); ("seqmax", VInt (seq_max s)); ("seqincrement", VInt (seq_inc s));
   ("seqcache", VInt (seq_cache s)); ("seqcycle", VBool (seq_cycle s))].
Definition depend_row (d : pg_depend) : row :=
  [("classid", VInt (dep_class d)); ("objid", VInt (dep_obj d)); ("refclassid", VInt (dep_ref_class d));
   ("refobjid", VInt (dep_ref_obj d)); ("refobjsubid", VInt (dep_ref_sub d)); ("deptype", VText (dep_type d))].

(** pg_table_is_visible: no relation of the same name comes first in the search path.
    Of an unknown relation it is NULL. *)
Definition table_visible (sy : system) (oid : Z) : option bool :=
  '(_, c) ← list_find (λ c, rel_oid c = oid) (sy_classes sy);
  Some (bool_decide (head (filter (λ ns, List.Exists (λ d, rel_namespace d = ns ∧ rel_name d = rel_name c) (sy_classes sy))
                             (sy_path sy)) = Some (rel_namespace c))).
(** pg_function_is_visible: the same for the name and the types of the arguments. *)
Definition function_visible (sy : system) (oid : Z) : option bool :=
  '(_, p) ← list_find (λ p, proc_oid p = oid) (sy_procs sy);
  Some (bool_decide (head (filter (λ ns, List.Exists (λ q, proc_namespace q = ns ∧ proc_name q = proc_name p ∧
                                                   proc_args q = proc_args p) (sy_procs sy))
                             (sy_path sy)) = Some (proc_namespace p))).
(** The cast to regclass of "schema.name", without quotes. *)
Definition regclass (sy : system) (s : string) : option Z :=
  i ← index_byte "." s;
  '(_, n) ← list_find (λ n, ns_name n = str_take i s) (sy_namespaces sy);
  '(_, c) ← list_find (λ c, rel_namespace c = ns_oid n ∧ rel_name c = str_drop (S i) s) (sy_classes sy);
  Some (rel_oid c).

Definition nullable_text (o : option string) : value := match o with None => VNull | Some s => VText s end.
(** The functions of pg_catalog, by the values of their arguments. *)
Definition functions (sy : system) : list (string * (list value → option value)) :=
  [("format_type", λ l, match l with
      | [VInt t; VInt m] => Some (VText (sy_type_name sy t (Some m)))
      | [VInt t; VNull] => Some (VText (sy_type_name sy t None))
      | _ => None end);
   ("pg_get_userbyid", λ l, match l with [VInt o] => Some (VName (sy_user sy o)) | _ => None end);
   ("obj_description", λ l, match l with
      | [VInt o; VText cat] => Some (nullable_text (sy_comment sy cat o)) | _ => None end);
   ("col_description", λ l, match l with
      | [VInt r; VInt n] => Some (nullable_text (sy_col_comment sy r n)) | _ => None end);
   ("pg_get_expr", λ l, match l with [VText b; VInt r] => Some (VText (sy_expr sy b r)) | _ => None end);
   ("pg_table_is_visible", λ l, match l with [VInt o] => Some (of_truth (table_visible sy o)) | _ => None end);
   ("pg_function_is_visible", λ l, match l with [VInt o] => Some (of_truth (function_visible sy o)) | _ => None end);
   ("pg_get_indexdef", λ l, match l with [VInt o; VInt 0; VBool true] => Some (VText (sy_indexdef sy o)) | _ => None end);
   ("pg_get_constraintdef", λ l, match l with
      | [VInt o] => Some (VText (sy_constraintdef sy o false))
      | [VInt o; VBool b] => Some (VText (sy_constraintdef sy o b))
      | _ => None end);
   ("pg_get_triggerdef", λ l, match l with [VInt o; VBool true] => Some (VText (sy_triggerdef sy o)) | _ => None end);
   ("pg_get_function_result", λ l, match l with [VInt o] => Some (nullable_text (sy_result sy o)) | _ => None end);
   ("regclass", λ l, match l with [VText s] => VInt <$> regclass sy s | _ => None end)].
(** All but format_type are strict: NULL if an argument is NULL. *)
Definition call (sy : system) (f : string) (args : list value) : option value :=
  g ← assoc f (functions sy);
  if bool_decide (f ≠ "format_type") && existsb (λ v, match v with VNull => true | _ => false end) args
  then Some VNull else g args.
(** The tables of pg_catalog. *)
Definition tables (sy : system) : list (string * option (list row)) :=
  [("pg_namespace", Some (map namespace_row (sy_namespaces sy)));
   ("pg_class", Some (map class_row (sy_classes sy)));
   ("pg_attribute", Some (map attribute_row (sy_attributes sy)));
   ("pg_attrdef", Some (map attrdef_row (sy_attrdefs sy)));
   ("pg_index", Some (map index_row_of (sy_indexes sy)));
   ("pg_constraint", Some (map constraint_row (sy_constraints sy)));
   ("pg_trigger", Some (map trigger_row (sy_triggers sy)));
   ("pg_proc", Some (map proc_row (sy_procs sy)));
   ("pg_language", Some (map language_row (sy_languages sy)));
   ("pg_sequence", map sequence_row_of <$> sy_sequences sy);
   ("pg_depend", Some (map depend_row (sy_depends sy)))].
Definition store_of (sy : system) : store :=
  Store (λ s t, if decide (s = "pg_catalog") then t ← assoc t (tables sy); t else None)
    (λ s f l, if decide (s = Some "pg_catalog") then call sy f l else None)
    (sy_text_le sy).

(** * The queries *)

(** Each query twice: its text in the code, and the query it reads as
    (QueryModel.reads; proved in SysProofs.v). *)
Definition pg (f : string) (args : list expr) : expr := Call (Some "pg_catalog") f args.
Definition cat (e : expr) : string → expr * option (form * string) := λ l, (e, Some (AsQuoted, l)).
Definition bare (e : expr) : expr * option (form * string) := (e, None).
Definition tab (alias table : string) (on : expr) : bool * string * string * string * expr :=
  (false, "pg_catalog", table, alias, on).
Definition outer_tab (alias table : string) (on : expr) : bool * string * string * string * expr :=
  (true, "pg_catalog", table, alias, on).
Fixpoint all (e : expr) (l : list expr) : expr := match l with [] => e | x :: l => all (And e x) l end.
Definition asc (e : expr) : expr * bool := (e, false).
Definition desc (e : expr) : expr * bool := (e, true).
Definition eq (a b : expr) : expr := Cmp CEq a b.
Definition ne (a b : expr) : expr := Cmp CNe a b.

(** schemas.go:5-15. *)
Definition list_schemas_text : string := "
SELECT
  n.nspname AS ""Name""
, pg_catalog.pg_get_userbyid(n.nspowner) AS ""Owner""
, pg_catalog.obj_description(n.oid, 'pg_namespace') AS ""Comment""
FROM
  pg_catalog.pg_namespace n
WHERE n.nspname !~ '^pg_'
  AND n.nspname <> 'information_schema'
ORDER BY ""Name""
".
(** schemas.go:5-15, read. *)
Definition list_schemas_query : query :=
  Select [cat (Col "n" "nspname") "Name"; cat (pg "pg_get_userbyid" [Col "n" "nspowner"]) "Owner";
      cat (pg "obj_description" [Col "n" "oid"; Str "pg_namespace"]) "Comment"]
    "pg_catalog" "pg_namespace" "n" []
    (Some (all (Cmp CNotMatch (Col "n" "nspname") (Str "^pg_")) [ne (Col "n" "nspname") (Str "information_schema")]))
    [asc (Out "Name")].

(** tables.go:5-20. *)
Definition list_tables_text : string := "
SELECT
  n.nspname as ""Schema""
, c.relname as ""Name""
, pg_catalog.pg_get_userbyid(c.relowner) as ""Owner""
, pg_catalog.obj_description(c.oid, 'pg_class') as ""Comment""
FROM pg_catalog.pg_class c
LEFT JOIN pg_catalog.pg_namespace n
  ON n.oid = c.relnamespace
WHERE c.relkind IN ('r','p','')
  AND n.nspname <> 'pg_catalog'
  AND n.nspname <> 'information_schema'
  AND n.nspname !~ '^pg_toast'
  AND pg_catalog.pg_table_is_visible(c.oid)
ORDER BY ""Schema"", ""Name""
".
(** tables.go:5-20, read. *)
Definition list_tables_query : query :=
  Select [cat (Col "n" "nspname") "Schema"; cat (Col "c" "relname") "Name";
      cat (pg "pg_get_userbyid" [Col "c" "relowner"]) "Owner";
      cat (pg "obj_description" [Col "c" "oid"; Str "pg_class"]) "Comment"]
    "pg_catalog" "pg_class" "c"
    [outer_tab "n" "pg_namespace" (eq (Col "n" "oid") (Col "c" "relnamespace"))]
    (Some (all (In (Col "c" "relkind") [Str "r"; Str "p"; Str ""])
      [ne (Col "n" "nspname") (Str "pg_catalog"); ne (Col "n" "nspname") (Str "information_schema");
       Cmp CNotMatch (Col "n" "nspname") (Str "^pg_toast"); pg "pg_table_is_visible" [Col "c" "oid"]]))
    [asc (Out "Schema"); asc (Out "Name")].

(** columns.go:5-26. *)
Definition list_columns_text : string := "
SELECT
  a.attname AS ""Name""
, pg_catalog.format_type(a.atttypid, a.atttypmod) AS ""Type""
, a.attnotnull as ""NotNull""
, (SELECT pg_catalog.pg_get_expr(d.adbin, d.adrelid)
   FROM pg_catalog.pg_attrdef d
   WHERE d.adrelid = a.attrelid
     AND d.adnum = a.attnum
     AND a.atthasdef) as ""Default""
, pg_catalog.col_description(a.attrelid, a.attnum) as ""Comment""
FROM pg_catalog.pg_namespace n
JOIN pg_catalog.pg_class c
  ON c.relnamespace = n.oid
JOIN pg_catalog.pg_attribute a
  ON a.attrelid = c.oid
WHERE n.nspname = $1
  AND c.relname = $2
  AND a.attnum > 0
  AND NOT a.attisdropped
ORDER BY a.attnum
".
(** columns.go:5-26, read. *)
Definition list_columns_query : query :=
  Select [cat (Col "a" "attname") "Name"; cat (pg "format_type" [Col "a" "atttypid"; Col "a" "atttypmod"]) "Type";
      cat (Col "a" "attnotnull") "NotNull";
      cat (Scalar (Select [bare (pg "pg_get_expr" [Col "d" "adbin"; Col "d" "adrelid"])]
        "pg_catalog" "pg_attrdef" "d" []
        (Some (all (eq (Col "d" "adrelid") (Col "a" "attrelid")) [eq (Col "d" "adnum") (Col "a" "attnum"); Col "a" "atthasdef"]))
        [])) "Default";
      cat (pg "col_description" [Col "a" "attrelid"; Col "a" "attnum"]) "Comment"]
    "pg_catalog" "pg_namespace" "n"
    [tab "c" "pg_class" (eq (Col "c" "relnamespace") (Col "n" "oid"));
     tab "a" "pg_attribute" (eq (Col "a" "attrelid") (Col "c" "oid"))]
    (Some (all (eq (Col "n" "nspname") (Param 1))
      [eq (Col "c" "relname") (Param 2); Cmp CGt (Col "a" "attnum") (Num 0); Not (Col "a" "attisdropped")]))
    [asc (Col "a" "attnum")].

(** index.go:5-23. *)
Definition list_indexes_text : string := "
SELECT
  c2.relname
, i.indisprimary
, pg_catalog.pg_get_indexdef(i.indexrelid, 0, true)
FROM pg_catalog.pg_namespace n
JOIN pg_catalog.pg_class c
  ON c.relnamespace = n.oid
JOIN pg_catalog.pg_index i
  ON i.indrelid = c.oid
JOIN pg_catalog.pg_class c2
  ON c2.oid = i.indexrelid
WHERE n.nspname = $1
  AND c.relname = $2
ORDER BY
  i.indisprimary DESC
, i.indisunique DESC
, c2.relname
".
(** index.go:5-23, read. *)
Definition list_indexes_query : query :=
  Select [bare (Col "c2" "relname"); bare (Col "i" "indisprimary");
      bare (pg "pg_get_indexdef" [Col "i" "indexrelid"; Num 0; TrueLit])]
    "pg_catalog" "pg_namespace" "n"
    [tab "c" "pg_class" (eq (Col "c" "relnamespace") (Col "n" "oid"));
     tab "i" "pg_index" (eq (Col "i" "indrelid") (Col "c" "oid"));
     tab "c2" "pg_class" (eq (Col "c2" "oid") (Col "i" "indexrelid"))]
    (Some (all (eq (Col "n" "nspname") (Param 1)) [eq (Col "c" "relname") (Param 2)]))
    [desc (Col "i" "indisprimary"); desc (Col "i" "indisunique"); asc (Col "c2" "relname")].

(** check.go:5-18. *)
Definition list_checks_text : string := "
SELECT
  r.conname
, pg_catalog.pg_get_constraintdef(r.oid, true)
FROM pg_catalog.pg_namespace n
JOIN pg_catalog.pg_class c
  ON c.relnamespace = n.oid
JOIN pg_catalog.pg_constraint r
  ON r.conrelid = c.oid
WHERE n.nspname = $1
  AND c.relname = $2
  AND r.contype = 'c'
ORDER BY 1;
".
(** check.go:5-18, read. *)
Definition list_checks_query : query :=
  Select [bare (Col "r" "conname"); bare (pg "pg_get_constraintdef" [Col "r" "oid"; TrueLit])]
    "pg_catalog" "pg_namespace" "n"
    [tab "c" "pg_class" (eq (Col "c" "relnamespace") (Col "n" "oid"));
     tab "r" "pg_constraint" (eq (Col "r" "conrelid") (Col "c" "oid"))]
    (Some (all (eq (Col "n" "nspname") (Param 1)) [eq (Col "c" "relname") (Param 2); eq (Col "r" "contype") (Str "c")]))
    [asc (Num 1)].

(** foreign_key.go:5-20. *)
Definition list_foreign_keys_text : string := "
SELECT
  t.conname
, pg_catalog.pg_get_constraintdef(t.oid) as condef
FROM pg_catalog.pg_namespace n
JOIN pg_catalog.pg_class c1
  ON c1.relnamespace = n.oid
JOIN pg_catalog.pg_constraint t
  ON t.conrelid = c1.oid
JOIN pg_catalog.pg_class c2
  ON c2.oid = t.confrelid
WHERE n.nspname = $1
  AND c1.relname = $2
  AND t.contype = 'f'
ORDER BY c2.relname, t.conkey;
".
(** foreign_key.go:5-20, read. *)
Definition list_foreign_keys_query : query :=
  Select [bare (Col "t" "conname"); (pg "pg_get_constraintdef" [Col "t" "oid"], Some (AsWord, "condef"))]
    "pg_catalog" "pg_namespace" "n"
    [tab "c1" "pg_class" (eq (Col "c1" "relnamespace") (Col "n" "oid"));
     tab "t" "pg_constraint" (eq (Col "t" "conrelid") (Col "c1" "oid"));
     tab "c2" "pg_class" (eq (Col "c2" "oid") (Col "t" "confrelid"))]
    (Some (all (eq (Col "n" "nspname") (Param 1)) [eq (Col "c1" "relname") (Param 2); eq (Col "t" "contype") (Str "f")]))
    [asc (Col "c2" "relname"); asc (Col "t" "conkey")].

(** triggers.go:8-19. *)
Definition describe_trigger_text : string := "
SELECT
  pg_catalog.pg_get_triggerdef(t.oid, true)
FROM pg_catalog.pg_namespace n
JOIN pg_catalog.pg_class c
  ON c.relnamespace = n.oid
JOIN pg_catalog.pg_trigger t
  ON t.tgrelid = c.oid
WHERE n.nspname = $1
  AND c.relname = $2
  AND t.tgname = $3
".
(** triggers.go:8-19, read. *)
Definition describe_trigger_query : query :=
  Select [bare (pg "pg_get_triggerdef" [Col "t" "oid"; TrueLit])]
    "pg_catalog" "pg_namespace" "n"
    [tab "c" "pg_class" (eq (Col "c" "relnamespace") (Col "n" "oid"));
     tab "t" "pg_trigger" (eq (Col "t" "tgrelid") (Col "c" "oid"))]
    (Some (all (eq (Col "n" "nspname") (Param 1)) [eq (Col "c" "relname") (Param 2); eq (Col "t" "tgname") (Param 3)]))
    [].

(** triggers.go:21-34. *)
Definition list_triggers_text : string := "
SELECT
  t.tgname
, pg_catalog.pg_get_triggerdef(t.oid, true)
FROM pg_catalog.pg_namespace n
JOIN pg_catalog.pg_class c
  ON c.relnamespace = n.oid
JOIN pg_catalog.pg_trigger t
  ON t.tgrelid = c.oid
WHERE n.nspname = $1
  AND c.relname = $2
  AND NOT t.tgisinternal
ORDER BY 1;
".
(** triggers.go:21-34, read. *)
Definition list_triggers_query : query :=
  Select [bare (Col "t" "tgname"); bare (pg "pg_get_triggerdef" [Col "t" "oid"; TrueLit])]
    "pg_catalog" "pg_namespace" "n"
    [tab "c" "pg_class" (eq (Col "c" "relnamespace") (Col "n" "oid"));
     tab "t" "pg_trigger" (eq (Col "t" "tgrelid") (Col "c" "oid"))]
    (Some (all (eq (Col "n" "nspname") (Param 1)) [eq (Col "c" "relname") (Param 2); Not (Col "t" "tgisinternal")]))
    [asc (Num 1)].

(** functions.go:8-22. *)
Definition describe_function_text : string := "
SELECT
  pg_catalog.pg_get_userbyid(p.proowner) as ""Owner""
, pg_catalog.obj_description(p.oid, 'pg_proc') as ""Comment""
, pg_catalog.pg_get_function_result(p.oid) as ""Returns""
, l.lanname as ""Language""
, p.prosrc as ""Definition""
FROM pg_catalog.pg_proc p
LEFT JOIN pg_catalog.pg_namespace n
  ON n.oid = p.pronamespace
LEFT JOIN pg_catalog.pg_language l
  ON l.oid = p.prolang
WHERE n.nspname = $1
  AND p.proname = $2
".
(** functions.go:8-22, read. *)
Definition describe_function_query : query :=
  Select [cat (pg "pg_get_userbyid" [Col "p" "proowner"]) "Owner";
      cat (pg "obj_description" [Col "p" "oid"; Str "pg_proc"]) "Comment";
      cat (pg "pg_get_function_result" [Col "p" "oid"]) "Returns"; cat (Col "l" "lanname") "Language";
      cat (Col "p" "prosrc") "Definition"]
    "pg_catalog" "pg_proc" "p"
    [outer_tab "n" "pg_namespace" (eq (Col "n" "oid") (Col "p" "pronamespace"));
     outer_tab "l" "pg_language" (eq (Col "l" "oid") (Col "p" "prolang"))]
    (Some (all (eq (Col "n" "nspname") (Param 1)) [eq (Col "p" "proname") (Param 2)]))
    [].

(** functions.go:24-42. *)
Definition list_functions_text : string := "
SELECT
  n.nspname as ""Schema""
, p.proname as ""Name""
, pg_catalog.pg_get_userbyid(p.proowner) as ""Owner""
, pg_catalog.obj_description(p.oid, 'pg_proc') as ""Comment""
, pg_catalog.pg_get_function_result(p.oid) as ""Returns""
, l.lanname as ""Language""
, p.prosrc as ""Definition""
FROM pg_catalog.pg_proc p
LEFT JOIN pg_catalog.pg_namespace n
  ON n.oid = p.pronamespace
LEFT JOIN pg_catalog.pg_language l
  ON l.oid = p.prolang
WHERE pg_catalog.pg_function_is_visible(p.oid)
  AND n.nspname <> 'pg_catalog'
  AND n.nspname <> 'information_schema'
ORDER BY ""Schema"", ""Name""
".
(** functions.go:24-42, read. *)
Definition list_functions_query : query :=
  Select [cat (Col "n" "nspname") "Schema"; cat (Col "p" "proname") "Name";
      cat (pg "pg_get_userbyid" [Col "p" "proowner"]) "Owner";
      cat (pg "obj_description" [Col "p" "oid"; Str "pg_proc"]) "Comment";
      cat (pg "pg_get_function_result" [Col "p" "oid"]) "Returns"; cat (Col "l" "lanname") "Language";
      cat (Col "p" "prosrc") "Definition"]
    "pg_catalog" "pg_proc" "p"
    [outer_tab "n" "pg_namespace" (eq (Col "n" "oid") (Col "p" "pronamespace"));
     outer_tab "l" "pg_language" (eq (Col "l" "oid") (Col "p" "prolang"))]
    (Some (all (pg "pg_function_is_visible" [Col "p" "oid"])
      [ne (Col "n" "nspname") (Str "pg_catalog"); ne (Col "n" "nspname") (Str "information_schema")]))
    [asc (Out "Schema"); asc (Out "Name")].

(** sequence.go:5-14. *)
Definition has_sequences_view_text : string := "
SELECT EXISTS (
  SELECT 1
  FROM pg_catalog.pg_class c
  JOIN pg_catalog.pg_namespace n
    ON n.oid = c.relnamespace
  WHERE n.nspname = 'pg_catalog'
    AND c.relname = 'pg_sequence'
)
".
(** sequence.go:5-14, read. *)
Definition has_sequences_view_query : query :=
  Only (Exists (Select [bare (Num 1)] "pg_catalog" "pg_class" "c"
    [tab "n" "pg_namespace" (eq (Col "n" "oid") (Col "c" "relnamespace"))]
    (Some (all (eq (Col "n" "nspname") (Str "pg_catalog")) [eq (Col "c" "relname") (Str "pg_sequence")])) [])).

(** sequence.go:16-54. *)
Definition list_sequences_text : string := "
SELECT
  n.nspname as ""Schema""
, c.relname as ""Name""
, pg_catalog.pg_get_userbyid(c.relowner) as ""Owner""
, pg_catalog.obj_description(c.oid, 'pg_class') as ""Comment""
, pg_catalog.format_type(s.seqtypid, NULL) AS ""Type""
, s.seqstart AS ""Start""
, s.seqmin AS ""Minimum""
, s.seqmax AS ""Maximum""
, s.seqincrement AS ""Increment""
, s.seqcache AS ""Cache""
, s.seqcycle ""Cycle""
, n2.nspname
, c2.relname
, a2.attname
FROM pg_catalog.pg_class c
JOIN pg_catalog.pg_namespace n
  ON n.oid = c.relnamespace
JOIN pg_catalog.pg_sequence s
  ON s.seqrelid = c.oid
LEFT JOIN pg_catalog.pg_depend d
  ON d.objid = c.oid
JOIN pg_catalog.pg_class c2
  ON c2.oid = d.refobjid
JOIN pg_catalog.pg_namespace n2
  ON n2.oid = c2.relnamespace
JOIN pg_catalog.pg_attribute a2
  ON (a2.attrelid = c2.oid AND a2.attnum = d.refobjsubid)
WHERE c.relkind = 'S'
  AND n.nspname <> 'pg_catalog'
  AND n.nspname <> 'information_schema'
  AND n.nspname !~ '^pg_toast'
  AND pg_catalog.pg_table_is_visible(c.oid)
  AND d.classid='pg_catalog.pg_class'::pg_catalog.regclass
  AND d.refclassid='pg_catalog.pg_class'::pg_catalog.regclass
  AND d.deptype IN ('a', 'i')
ORDER BY ""Schema"", ""Name""
".
(** sequence.go:16-54, read. *)
Definition list_sequences_query : query :=
  Select [cat (Col "n" "nspname") "Schema"; cat (Col "c" "relname") "Name";
      cat (pg "pg_get_userbyid" [Col "c" "relowner"]) "Owner";
      cat (pg "obj_description" [Col "c" "oid"; Str "pg_class"]) "Comment";
      cat (pg "format_type" [Col "s" "seqtypid"; Null]) "Type"; cat (Col "s" "seqstart") "Start";
      cat (Col "s" "seqmin") "Minimum"; cat (Col "s" "seqmax") "Maximum"; cat (Col "s" "seqincrement") "Increment";
      cat (Col "s" "seqcache") "Cache"; (Col "s" "seqcycle", Some (Bare, "Cycle"));
      bare (Col "n2" "nspname"); bare (Col "c2" "relname"); bare (Col "a2" "attname")]
    "pg_catalog" "pg_class" "c"
    [tab "n" "pg_namespace" (eq (Col "n" "oid") (Col "c" "relnamespace"));
     tab "s" "pg_sequence" (eq (Col "s" "seqrelid") (Col "c" "oid"));
     outer_tab "d" "pg_depend" (eq (Col "d" "objid") (Col "c" "oid"));
     tab "c2" "pg_class" (eq (Col "c2" "oid") (Col "d" "refobjid"));
     tab "n2" "pg_namespace" (eq (Col "n2" "oid") (Col "c2" "relnamespace"));
     tab "a2" "pg_attribute" (Paren (And (eq (Col "a2" "attrelid") (Col "c2" "oid"))
       (eq (Col "a2" "attnum") (Col "d" "refobjsubid"))))]
    (Some (all (eq (Col "c" "relkind") (Str "S"))
      [ne (Col "n" "nspname") (Str "pg_catalog"); ne (Col "n" "nspname") (Str "information_schema");
       Cmp CNotMatch (Col "n" "nspname") (Str "^pg_toast"); pg "pg_table_is_visible" [Col "c" "oid"];
       eq (Col "d" "classid") (Cast (Str "pg_catalog.pg_class") "pg_catalog" "regclass");
       eq (Col "d" "refclassid") (Cast (Str "pg_catalog.pg_class") "pg_catalog" "regclass");
       In (Col "d" "deptype") [Str "a"; Str "i"]]))
    [asc (Out "Schema"); asc (Out "Name")].

(** sequence.go:56-85. *)
Definition list_sequences_pre10_text : string := "
SELECT
  n.nspname as ""Schema""
, c.relname as ""Name""
, pg_catalog.pg_get_userbyid(c.relowner) as ""Owner""
, pg_catalog.obj_description(c.oid, 'pg_class') as ""Comment""
, n2.nspname
, c2.relname
, a2.attname
FROM pg_catalog.pg_class c
JOIN pg_catalog.pg_namespace n
  ON n.oid = c.relnamespace
LEFT JOIN pg_catalog.pg_depend d
  ON d.objid = c.oid
JOIN pg_catalog.pg_class c2
  ON c2.oid = d.refobjid
JOIN pg_catalog.pg_namespace n2
  ON n2.oid = c2.relnamespace
JOIN pg_catalog.pg_attribute a2
  ON (a2.attrelid = c2.oid AND a2.attnum = d.refobjsubid)
WHERE c.relkind = 'S'
  AND n.nspname <> 'pg_catalog'
  AND n.nspname <> 'information_schema'
  AND n.nspname !~ '^pg_toast'
  AND pg_catalog.pg_table_is_visible(c.oid)
  AND d.classid='pg_catalog.pg_class'::pg_catalog.regclass
  AND d.refclassid='pg_catalog.pg_class'::pg_catalog.regclass
  AND d.deptype IN ('a', 'i')
ORDER BY ""Schema"", ""Name""
".
(** sequence.go:56-85, read. *)
Definition list_sequences_pre10_query : query :=
  Select [cat (Col "n" "nspname") "Schema"; cat (Col "c" "relname") "Name";
      cat (pg "pg_get_userbyid" [Col "c" "relowner"]) "Owner";
      cat (pg "obj_description" [Col "c" "oid"; Str "pg_class"]) "Comment";
      bare (Col "n2" "nspname"); bare (Col "c2" "relname"); bare (Col "a2" "attname")]
    "pg_catalog" "pg_class" "c"
    [tab "n" "pg_namespace" (eq (Col "n" "oid") (Col "c" "relnamespace"));
     outer_tab "d" "pg_depend" (eq (Col "d" "objid") (Col "c" "oid"));
     tab "c2" "pg_class" (eq (Col "c2" "oid") (Col "d" "refobjid"));
     tab "n2" "pg_namespace" (eq (Col "n2" "oid") (Col "c2" "relnamespace"));
     tab "a2" "pg_attribute" (Paren (And (eq (Col "a2" "attrelid") (Col "c2" "oid"))
       (eq (Col "a2" "attnum") (Col "d" "refobjsubid"))))]
    (Some (all (eq (Col "c" "relkind") (Str "S"))
      [ne (Col "n" "nspname") (Str "pg_catalog"); ne (Col "n" "nspname") (Str "information_schema");
       Cmp CNotMatch (Col "n" "nspname") (Str "^pg_toast"); pg "pg_table_is_visible" [Col "c" "oid"];
       eq (Col "d" "classid") (Cast (Str "pg_catalog.pg_class") "pg_catalog" "regclass");
       eq (Col "d" "refclassid") (Cast (Str "pg_catalog.pg_class") "pg_catalog" "regclass");
       In (Col "d" "deptype") [Str "a"; Str "i"]]))
    [asc (Out "Schema"); asc (Out "Name")].

(** table_storage_parameters.go:9-17. *)
Definition list_table_storage_parameters_text : string := "
SELECT UNNEST(c.reloptions)
FROM pg_catalog.pg_namespace n
JOIN pg_catalog.pg_class c
  ON c.relnamespace = n.oid
WHERE n.nspname = $1
  AND c.relname = $2
ORDER BY 1;
".
(** table_storage_parameters.go:9-17, read. *)
Definition list_table_storage_parameters_query : query :=
  Select [bare (Call None "unnest" [Col "c" "reloptions"])]
    "pg_catalog" "pg_namespace" "n" [tab "c" "pg_class" (eq (Col "c" "relnamespace") (Col "n" "oid"))]
    (Some (all (eq (Col "n" "nspname") (Param 1)) [eq (Col "c" "relname") (Param 2)]))
    [asc (Num 1)].

(** * Rows.Scan *)

(** pgx's Scan (a dependency) into a *string variable that is a pointer, a string, an
    int64 and a bool. *)
Definition to_nullable (v : value) : option (option string) :=
  match v with VNull => Some None | VName s | VText s => Some (Some s) | _ => None end.
Definition to_string (v : value) : option string := match v with VName s | VText s => Some s | _ => None end.
Definition to_int (v : value) : option Z := match v with VInt n => Some n | _ => None end.
Definition to_bool (v : value) : option bool := match v with VBool b => Some b | _ => None end.
(** schemas.go:32. *)
Definition scan_schema (r : list value) : option schema_row :=
  match r with
  | [a; b; c] => a ← to_nullable a; b ← to_nullable b; c ← to_nullable c; Some (SchemaRow a b c)
  | _ => None
  end.
(** tables.go:37. *)
Definition scan_table (r : list value) : option table_row :=
  match r with
  | [a; b; c; d] => a ← to_nullable a; b ← to_nullable b; c ← to_nullable c; d ← to_nullable d; Some (TableRow a b c d)
  | _ => None
  end.
(** columns.go:44-46. *)
Definition scan_column (r : list value) : option column_row :=
  match r with
  | [a; b; c; d; e] =>
      a ← to_string a; b ← to_string b; c ← to_bool c; d ← to_nullable d; e ← to_nullable e; Some (ColumnRow a b c d e)
  | _ => None
  end.
(** index.go:41. *)
Definition scan_index (r : list value) : option index_row :=
  match r with
  | [a; b; c] => a ← to_string a; b ← to_bool b; c ← to_string c; Some (IndexRow a b c)
  | _ => None
  end.
(** check.go:35, foreign_key.go:37, triggers.go:78. *)
Definition scan_named (r : list value) : option named_def :=
  match r with [a; b] => a ← to_string a; b ← to_string b; Some (NamedDef a b) | _ => None end.
(** triggers.go:43, table_storage_parameters.go:34. *)
Definition scan_text (r : list value) : option string := match r with [a] => to_string a | _ => None end.
(** functions.go:92-95. *)
Definition scan_function (r : list value) : option function_row :=
  match r with
  | [a; b; c; d; e; f; g] =>
      a ← to_nullable a; b ← to_nullable b; c ← to_nullable c; d ← to_nullable d; e ← to_nullable e;
      f ← to_nullable f; g ← to_nullable g; Some (FunctionRow a b c d e f g)
  | _ => None
  end.
(** functions.go:51-53. *)
Definition scan_described (r : list value) : option function_row :=
  match r with
  | [c; d; e; f; g] =>
      c ← to_nullable c; d ← to_nullable d; e ← to_nullable e;
      f ← to_nullable f; g ← to_nullable g; Some (FunctionRow None None c d e f g)
  | _ => None
  end.
(** sequence.go:94. *)
Definition scan_bool (r : list value) : option bool := match r with [a] => to_bool a | _ => None end.
(** sequence.go:123-129. *)
Definition scan_sequence (r : list value) : option (sequence_row * (option string * details_row)) :=
  match r with
  | [a; b; c; d; e; f; g; h; i; j; k; l; m; n] =>
      a ← to_nullable a; b ← to_nullable b; c ← to_nullable c; d ← to_nullable d; e ← to_nullable e;
      f ← to_int f; g ← to_int g; h ← to_int h; i ← to_int i; j ← to_int j; k ← to_bool k;
      l ← to_nullable l; m ← to_nullable m; n ← to_nullable n;
      Some (SequenceRow a b c d (OwnerRow l m n), (e, DetailsRow f g h i j k))
  | _ => None
  end.
(** sequence.go:177-180. *)
Definition scan_old_sequence (r : list value) : option sequence_row :=
  match r with
  | [a; b; c; d; l; m; n] =>
      a ← to_nullable a; b ← to_nullable b; c ← to_nullable c; d ← to_nullable d;
      l ← to_nullable l; m ← to_nullable m; n ← to_nullable n; Some (SequenceRow a b c d (OwnerRow l m n))
  | _ => None
  end.
