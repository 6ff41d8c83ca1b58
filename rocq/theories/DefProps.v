(** Properties of the parsers of internal/ddl on the definitions PostgreSQL writes, and
    of inspections of databases with such definitions. *)
From Coq Require Import String Ascii.
From stdpp Require Import gmap list strings numbers sorting.
From Verif Require Import GoBase GoStrings GoStringsProofs DdlModel DdlSpec MachineModel ParseModel ParseSpec PgModel PgSpec PgProofs
  QueryModel SysModel SysSpec SysListing SysInspect SysServer SysExamples SysProps
  DefModel DefSpec DefProofs DefTrigger DefCheck DefIndex DefDbSpec DefDb.
Local Open Scope Z_scope.

(** Some of the words PostgreSQL quotes. *)
Definition some_reserved (n : string) : bool := bool_decide (n ∈ ["user"; "order"; "select"; "table"; "desc"]).
Lemma plain_by reserved n c r : printed_name reserved n = n → n = String c r → c ≠ "_"%char → c ≠ dquote → plain_name reserved n.
Proof.
  intros H E H1 H2. destruct (safe_name_plain reserved n) as [[_ K]|[x [[K _]|[K _]]]]; [done|..]; rewrite H, E in K; congruence.
Qed.
Ltac plain := by eapply plain_by.

(** * Foreign keys *)

(** C107: a foreign key is read as what it is, or not at all; it is read exactly if
    its names are plain and on the search path, at most one of ON UPDATE and ON DELETE
    is given (and no columns with it), and it is not deferrable without being
    INITIALLY DEFERRED, nor NOT VALID. *)
Theorem foreign_key_printed reserved f r :
  parse_foreign_key (printed_fk reserved f) = Parsed r ↔ readable_fk reserved f ∧ r = fk_meaning f.
Proof. apply fk_reads. Qed.
Print Assumptions foreign_key_printed.
Definition to_users (update delete : fk_action) (deferrable deferred : bool) : fk_shape :=
  FkShape ["who"; "shop_2"] (Named "public" "users" true) ["id"; "shop"] MatchFull update delete [] deferrable deferred true.
Example foreign_key_printed_example : readable_fk some_reserved (to_users NoAction SetNull true true) ∧
  printed_fk some_reserved (to_users NoAction SetNull true true) =
    "FOREIGN KEY (who, shop_2) REFERENCES users(id, shop) MATCH FULL ON DELETE SET NULL DEFERRABLE INITIALLY DEFERRED" ∧
  parse_foreign_key (printed_fk some_reserved (to_users NoAction SetNull true true)) =
    Parsed (ForeignKey "" "users" ["who"; "shop_2"] ["id"; "shop"] "FULL" "SET NULL" "" true true).
Proof.
  split; [|split; reflexivity]. split_and!; try done; try (by left);
    repeat (apply list.Forall_cons; split); try (by apply list.Forall_nil); try done; try (split; [done|]); plain.
Qed.
(** Not all are read: with both ON UPDATE and ON DELETE, DEFERRABLE but initially
    immediate, NOT VALID, in another schema, with a capital letter, an initial
    underscore or a reserved word for a name.  An error is reported. *)
Theorem foreign_key_printed_refuted : ∃ reserved f,
  printed_fk reserved f = "FOREIGN KEY (who, shop_2) REFERENCES users(id, shop) MATCH FULL ON UPDATE CASCADE ON DELETE CASCADE" ∧
  (∃ c, parse_foreign_key (printed_fk reserved f) = ParseError c) ∧
  Forall (λ f, ∃ c, parse_foreign_key (printed_fk reserved f) = ParseError c)
    [to_users NoAction NoAction true false;
     FkShape ["who"] (Named "public" "users" true) ["id"] MatchSimple NoAction NoAction [] false false false;
     FkShape ["who"] (Named "app" "users" false) ["id"] MatchSimple NoAction NoAction [] false false true;
     FkShape ["userId"] (Named "public" "users" true) ["id"] MatchSimple NoAction NoAction [] false false true;
     FkShape ["_id"] (Named "public" "users" true) ["id"] MatchSimple NoAction NoAction [] false false true;
     FkShape ["order"] (Named "public" "users" true) ["id"] MatchSimple NoAction NoAction [] false false true].
Proof.
  exists some_reserved, (to_users Cascade Cascade false false). split; [reflexivity|]. split; [by eexists|].
  repeat (apply list.Forall_cons; split); try (by apply list.Forall_nil); by eexists.
Qed.
Print Assumptions foreign_key_printed_refuted.

(** * Triggers *)

(** C108: the same for triggers.  They are read exactly if their names are plain and on
    the search path, they are not constraint triggers with FROM or NOT DEFERRABLE (the
    default), and have no transition tables, WHEN condition or arguments. *)
Theorem trigger_printed reserved word t r :
  parse_trigger (printed_trigger reserved word t) = Parsed r ↔ readable_trigger reserved t ∧ r = trigger_meaning t.
Proof. apply trigger_reads. Qed.
Print Assumptions trigger_printed.
Definition on_users (events : bool) (constraint : option (option named * bool * bool)) (when : option string) (args : list string) : trigger_shape :=
  TriggerShape "watch" After events true (Some ["name"; "mail"]) false (Named "public" "users" true) constraint None None true when
    (Named "public" "note" true) args.
Example trigger_printed_example : readable_trigger some_reserved (on_users true (Some (None, true, false)) None []) ∧
  printed_trigger some_reserved FunctionWord (on_users true (Some (None, true, false)) None []) =
    "CREATE CONSTRAINT TRIGGER watch AFTER INSERT OR DELETE OR UPDATE OF name, mail ON users DEFERRABLE INITIALLY IMMEDIATE FOR EACH ROW EXECUTE FUNCTION note()" ∧
  parse_trigger (printed_trigger some_reserved FunctionWord (on_users true (Some (None, true, false)) None [])) =
    Parsed (Trigger "" "users" "watch" "note" "AFTER" true true false true true true false true ["name"; "mail"]).
Proof.
  split; [|split; reflexivity]. split_and!; try done; try (by left).
  - plain.
  - intros l [= <-]. repeat (apply list.Forall_cons; split); try (by apply list.Forall_nil); plain.
  - split; [done|plain].
  - by intros from d1 d2 [= <- <- _].
  - split; [done|plain].
Qed.
Theorem trigger_printed_refuted : ∃ reserved word t,
  printed_trigger reserved word t =
    "CREATE TRIGGER watch AFTER INSERT OR DELETE OR UPDATE OF name, mail ON users FOR EACH ROW EXECUTE FUNCTION note('users')" ∧
  (∃ c, parse_trigger (printed_trigger reserved word t) = ParseError c) ∧
  Forall (λ t, ∃ c, parse_trigger (printed_trigger reserved word t) = ParseError c)
    [on_users true (Some (None, false, false)) None [];
     on_users true (Some (Some (Named "public" "orders" true), true, true)) None [];
     on_users false None (Some "old.* IS DISTINCT FROM new.*") [];
     TriggerShape "watch" After true false None false (Named "public" "users" true) None None (Some "added") false None (Named "public" "note" true) [];
     TriggerShape "watch" After true false None false (Named "app" "users" false) None None None false None (Named "public" "note" true) [];
     TriggerShape "watch" After true false None false (Named "public" "users" true) None None None false None (Named "app" "note" false) []].
Proof.
  exists some_reserved, FunctionWord, (on_users true None None ["users"]). split; [reflexivity|]. split; [by eexists|].
  repeat (apply list.Forall_cons; split); try (by apply list.Forall_nil); by eexists.
Qed.
Print Assumptions trigger_printed_refuted.

(** * Checks *)

(** C109: a check constraint is read exactly if it is neither NO INHERIT nor NOT VALID.
    Its expression is read, up to white space around it. *)
Theorem check_printed k :
  ((∃ c, parse_check (printed_check k) = Parsed c) ↔ readable_check k) ∧
  (∀ c, parse_check (printed_check k) = Parsed c → trimmed (cs_expression k) (ck_expression c) ∧
     (** PostgreSQL's checks are never deferrable; they are described as such only if the
         expression looks like it *)
     (ck_deferrable c = true ↔ looks_deferrable (cs_expression k)) ∧
     (ck_deferred c = true ↔ looks_deferred (cs_expression k))).
Proof. split; [apply check_accepted|]. intros c H. by apply check_reads in H as [_ H]. Qed.
Print Assumptions check_printed.
Example check_printed_example :
  parse_check (printed_check (CheckShape "length(name) > (2 * 3)" false true)) = Parsed (Check "" "length(name) > (2 * 3)" false false) ∧
  readable_check (CheckShape "length(name) > (2 * 3)" false true) ∧
  ∃ c, parse_check (printed_check (CheckShape "a > 0" true true)) = ParseError c.
Proof. split; [reflexivity|]. split; [done|]. by eexists. Qed.
(** No check constraint is deferrable, but one is described as such. *)
Theorem check_printed_refuted : ∃ k c, printed_check k = "CHECK (note <> '(x) deferrable ?'::text)" ∧
  parse_check (printed_check k) = Parsed c ∧ ck_deferrable c = true.
Proof. exists (CheckShape "note <> '(x) deferrable ?'::text" false true). eexists. split; [reflexivity|]. split; [reflexivity|]. reflexivity. Qed.
Print Assumptions check_printed_refuted.

(** * Indexes *)

(** C110: an index is described as what it is exactly if its names are plain and on the
    search path, it has no DESC, NULLS FIRST or LAST, COLLATE, INCLUDE, WITH or ONLY, its
    expressions have no closing parenthesis inside and only the first key is an
    expression.  Missing: other indexes may be described wrongly ([index_printed_refuted]). *)
Theorem index_printed_partial reserved i :
  ((∃ x, parse_index (printed_index reserved i) = Parsed x ∧ index_means reserved i x) ↔ readable_index reserved i) ∧
  (** if no expression has a closing parenthesis inside, the only thing read wrongly is
      descending order *)
  (Forall (λ k, simple_source (ks_source k)) (is_keys i) → ∀ x,
     parse_index (printed_index reserved i) = Parsed x ↔ accepted_index reserved i ∧ read_as reserved i x).
Proof.
  split; [apply index_exact|]. intros H x. rewrite (index_accepts _ _ _ H). unfold accepted_index. naive_solver.
Qed.
Print Assumptions index_printed_partial.
Definition users_index (keys : list key_shape) (wh : option string) : index_shape :=
  IndexShape "users_key" true false (Named "public" "users" true) "btree" keys [] "" wh.
Definition name_key (descending : bool) : key_shape := KeyShape (KeyColumn "name") None None descending NullsDefault.
Definition lower_key : key_shape :=
  KeyShape (KeyCall (Named "pg_catalog" "lower" true) "mail") None (Some (Named "pg_catalog" "text_pattern_ops" true)) false NullsDefault.
Example index_printed_example : readable_index some_reserved (users_index [lower_key; name_key false] (Some "id > 5")) ∧
  printed_index some_reserved (users_index [lower_key; name_key false] (Some "id > 5")) =
    "CREATE UNIQUE INDEX users_key ON users USING btree (lower(mail) text_pattern_ops, name) WHERE id > 5" ∧
  parse_index (printed_index some_reserved (users_index [lower_key; name_key false] (Some "id > 5"))) =
    Parsed (Index "" "users" "users_key" false true "btree" "id > 5"
      [IndexKey "" "lower(mail)" "text_pattern_ops" false; IndexKey "name" "" "" false]).
Proof.
  split; [|split; reflexivity]. split_and!; try done.
  - split_and!; try done; try plain. split; [done|plain].
  - repeat (apply list.Forall_cons; split); [..|by apply list.Forall_nil].
    + split_and!; try done.
      * split; [split; [done|plain]|]. intros H%contains_byte_spec. done.
      * intros c [= <-]. split; [done|plain].
    + split_and!; try done. plain.
  - repeat (apply list.Forall_cons; split); [..|by apply list.Forall_nil]. done.
Qed.
(** Descending order is read as an operator class called DESC and ascending order; an
    expression can end early, at a closing parenthesis in a text. *)
Theorem index_printed_refuted : ∃ reserved i j x y,
  printed_index reserved i = "CREATE UNIQUE INDEX users_key ON users USING btree (name DESC)" ∧
  parse_index (printed_index reserved i) = Parsed x ∧ ix_keys x = [IndexKey "name" "" "DESC" false] ∧
  ¬ index_means reserved i x ∧
  printed_index reserved j = "CREATE UNIQUE INDEX users_key ON users USING btree (f('a)) WHERE b'))" ∧
  parse_index (printed_index reserved j) = Parsed y ∧ ix_keys y = [IndexKey "" "f('a)" "" false] ∧ ix_where y = "b'))" ∧
  ¬ index_means reserved j y.
Proof.
  exists some_reserved, (users_index [name_key true] None),
    (users_index [KeyShape (KeyCall (Named "public" "f" true) "'a)) WHERE b'") None None false NullsDefault] None).
  eexists _, _. split; [reflexivity|]. split; [vm_compute; reflexivity|]. split; [reflexivity|].
  split; [intros (w & _ & E); discriminate|]. split; [reflexivity|]. split; [vm_compute; reflexivity|].
  split; [reflexivity|]. split; [reflexivity|]. intros (w & _ & E). discriminate.
Qed.
Print Assumptions index_printed_refuted.
(** Other indexes are not read at all. *)
Theorem index_printed_rejects : ∃ reserved,
  Forall (λ i, ∃ c, parse_index (printed_index reserved i) = ParseError c)
    [users_index [KeyShape (KeyColumn "name") None None true NullsLast] None;
     users_index [KeyShape (KeyColumn "name") (Some (Named "pg_catalog" "C" true)) None false NullsDefault] None;
     users_index [name_key false; lower_key] None;
     users_index [KeyShape (KeyExpression "abs(id) + 1") None None false NullsDefault] None;
     IndexShape "users_key" true false (Named "public" "users" true) "btree" [name_key false] ["mail"] "" None;
     IndexShape "users_key" true false (Named "public" "users" true) "btree" [name_key false] [] "fillfactor='70'" None;
     IndexShape "users_key" true true (Named "public" "users" true) "btree" [name_key false] [] "" None;
     IndexShape "users_key" true false (Named "app" "users" false) "btree" [name_key false] [] "" None].
Proof.
  exists some_reserved. repeat (apply list.Forall_cons; split); try (by apply list.Forall_nil); eexists; vm_compute; reflexivity.
Qed.
Print Assumptions index_printed_rejects.

(** * Inspections *)

(** C111: from a server that answers all, an inspection gets a description exactly if every
    definition about the tables in view can be read, and every storage option be
    applied; and then the description says what the definitions say (except that
    DESC is taken for an operator class). *)
Theorem inspected_definitions srt pf o reserved word sy sh sv :
  sane sy → ok_sorter srt → prints reserved word sy sh → simple_indexes sy sh →
  (serves_whole sy sv →
     ((∃ db, inspect srt pf o sv = Got db) ↔ all_readable reserved sy sh ∧ options_applicable pf sy) ∧
     (inspect srt pf o sv = Failed ↔ ¬ (all_readable reserved sy sh ∧ options_applicable pf sy))) ∧
  (** this is a need, and the description right, whatever else the server may do *)
  (∀ db, served sy sv → inspect srt pf o sv = Got db → all_readable reserved sy sh ∧ options_applicable pf sy ∧ said reserved sy sh db).
Proof.
  intros Hs Hsrt Hp Hi.
  assert (Hg : ∀ db, served sy sv → inspect srt pf o sv = Got db → all_readable reserved sy sh ∧ options_applicable pf sy ∧ said reserved sy sh db).
  { intros db Hsv Hdb. destruct (inspected_partial srt pf o sy sv db Hs Hsrt Hsv Hdb) as [Hd _].
    destruct (inspected_said reserved word sy sh Hp Hs Hi pf db Hd) as (H1 & H2 & H3). done. }
  split; [|done]. intros (ct & Hct & Hall & Hd).
  assert (Hsv : served sy sv) by (exists ct; split_and!; [done|by apply serves_all_serves|done]).
  assert (Hiff : (∃ db, inspect srt pf o sv = Got db) ↔ all_readable reserved sy sh ∧ options_applicable pf sy).
  { split.
    - intros [db Hdb]. by destruct (Hg db Hsv Hdb) as (H1 & H2 & _).
    - intros [H1 H2]. eapply inspect_complete; [done|]. by apply (readable_from reserved word sy sh Hp Hs Hi). }
  split; [done|]. rewrite <- Hiff. split.
  - intros E [db Hdb]. by rewrite E in Hdb.
  - intros Hn. destruct (inspect_total srt pf o sv) as [E|E]; done.
Qed.
Print Assumptions inspected_definitions.
(** A database: the one of the other examples. *)
Definition usual_shapes (by_user : fk_shape) : shapes :=
  Shapes (λ _, by_user) (λ _, CheckShape "name <> ''::text" false true)
    (λ _, TriggerShape "watch" Before true false None false (Named "public" "users" true) None None None true None (Named "public" "f" true) [])
    (λ oid, if decide (oid = 203)
            then IndexShape "users_pkey" true false (Named "public" "users" true) "btree" [KeyShape (KeyColumn "id") None None false NullsDefault] [] "" None
            else IndexShape "orders_who" false false (Named "public" "orders" true) "btree" [KeyShape (KeyColumn "who") None None false NullsDefault] [] "" None).
Definition plain_by_user : fk_shape :=
  FkShape ["who"] (Named "public" "users" true) ["id"] MatchSimple NoAction NoAction [] false false true.
Definition both_by_user : fk_shape :=
  FkShape ["who"] (Named "public" "users" true) ["id"] MatchSimple Cascade Cascade [] false false true.
Definition set_constraintdef (sy : system) (f : Z → bool → string) : system :=
  System (sy_namespaces sy) (sy_classes sy) (sy_attributes sy) (sy_attrdefs sy) (sy_indexes sy) (sy_constraints sy) (sy_triggers sy)
    (sy_procs sy) (sy_languages sy) (sy_sequences sy) (sy_old_details sy) (sy_depends sy) (sy_path sy) (sy_user sy) (sy_comment sy)
    (sy_col_comment sy) (sy_type_name sy) (sy_expr sy) (sy_indexdef sy) f (sy_triggerdef sy) (sy_result sy) (sy_text_le sy).
(** The same with ON UPDATE CASCADE ON DELETE CASCADE. *)
Definition cascading : system := set_constraintdef usual (λ oid b,
  if decide (oid = 501) then "FOREIGN KEY (who) REFERENCES users(id) ON UPDATE CASCADE ON DELETE CASCADE" else sy_constraintdef usual oid b).

Ltac each H := repeat (apply elem_of_cons in H as [->|H]); [..|by apply elem_of_nil in H].
Lemma usual_prints : prints some_reserved ProcedureWord usual (usual_shapes plain_by_user).
Proof.
  constructor.
  - intros r Hr Ht. each Hr; try done.
  - intros r Hr Ht. each Hr; try done.
  - intros g Hg Ht. each Hg; try done.
  - intros i Hj. each Hj; done.
Qed.
Lemma cascading_prints : prints some_reserved ProcedureWord cascading (usual_shapes both_by_user).
Proof.
  constructor.
  - intros r Hr Ht. each Hr; try done.
  - intros r Hr Ht. each Hr; try done.
  - intros g Hg Ht. each Hg; try done.
  - intros i Hj. each Hj; done.
Qed.
Lemma usual_simple f : simple_indexes usual (usual_shapes f) ∧ simple_indexes cascading (usual_shapes f).
Proof. split; intros i Hj; each Hj; (apply list.Forall_cons; split; [done|by apply list.Forall_nil]). Qed.
Lemma cascading_sane : sane cascading.
Proof. apply sane_by; [|done]. apply (bool_decide_unpack _). by vm_compute. Qed.
(** The server answers also about sequences that do not exist. *)
Definition whole_server (sy : system) : server :=
  let sv := server_from sy "public" "UTC" in
  Server (sv_search_path sv) (sv_timezone sv) (sv_schemas sv) (sv_functions sv) (sv_has_view sv) (sv_sequences sv) (sv_old_sequences sv)
    (λ x, match sv_details sv x with Row d => Row d | _ => Row (DetailsRow 0 0 0 0 0 false) end)
    (sv_tables sv) (sv_columns sv) (sv_checks sv) (sv_foreign_keys sv) (sv_storage sv) (sv_indexes sv) (sv_triggers sv).
Lemma whole_serves sy : sane sy → sy_classes sy = sy_classes usual → sy_namespaces sy = sy_namespaces usual →
  sy_old_details sy = sy_old_details usual → serves_whole sy (whole_server sy).
Proof.
  intros Hs E1 E2 E3. exists (catalog_from sy "public" "UTC"). split; [by apply catalog_from_of|]. split.
  - constructor; try reflexivity; try (intros; reflexivity). intros x. simpl. unfold whole_server. simpl.
    destruct (details_from sy x); by eexists.
  - intros n c (H1 & H2 & H3) Hk. simpl. unfold details_from. rewrite E1, E2, E3 in *.
    each H2; try done; each H1; try done; by left.
Qed.
Example inspected_definitions_example : sane usual ∧ prints some_reserved ProcedureWord usual (usual_shapes plain_by_user) ∧
  simple_indexes usual (usual_shapes plain_by_user) ∧ serves_whole usual (whole_server usual) ∧
  all_readable some_reserved usual (usual_shapes plain_by_user) ∧ options_applicable no_floats usual.
Proof.
  destruct all_sane as (Hu & _).
  assert (H : serves_whole usual (whole_server usual)) by (by apply whole_serves).
  split; [done|]. split; [apply usual_prints|]. split; [apply usual_simple|]. split; [done|].
  destruct (inspected_definitions (@insertion_sort) no_floats (InspectOptions false false false) _ _ _ _ (whole_server usual)
    Hu (@insertion_sort_ok) usual_prints (proj1 (usual_simple _))) as [K _].
  apply (proj1 (proj1 (K H))).
  assert (match inspect (@insertion_sort) no_floats (InspectOptions false false false) (whole_server usual) with Got _ => true | _ => false end = true) as E by (vm_compute; reflexivity).
  destruct (inspect _ _ _ _) as [db| | |]; try done. by exists db.
Qed.
(** One foreign key with two actions, and there is no description. *)
Theorem inspected_definitions_refuted : ∃ sy sv, sane sy ∧ serves_whole sy sv ∧
  (∃ r, r ∈ sy_constraints sy ∧ con_type r = "f" ∧
     sy_constraintdef sy (con_oid r) false = "FOREIGN KEY (who) REFERENCES users(id) ON UPDATE CASCADE ON DELETE CASCADE") ∧
  ∀ srt pf o sv', ok_sorter srt → served sy sv' → inspect srt pf o sv' = Failed.
Proof.
  pose proof cascading_sane as Hs. exists cascading, (whole_server cascading). split; [done|]. split; [by apply whole_serves|].
  split. { exists (PgConstraint 501 "by_user" "f" 201 200 [2]). split; [|done]. apply (elem_of_list_lookup_2 _ 1%nat). reflexivity. }
  intros srt pf o sv' Hsrt Hsv. destruct (inspect_total srt pf o sv') as [E|[db E]]; [done|]. exfalso.
  destruct (inspected_definitions srt pf o _ _ _ _ sv' Hs Hsrt cascading_prints (proj2 (usual_simple _))) as [_ K].
  destruct (K db Hsv E) as [Ha _].
  set (n := PgNamespace 2 "public" 10). set (c := PgClass 201 "orders" 2 "r" 11 None).
  assert (Hin : rel_in cascading n c).
  { split; [apply (elem_of_list_lookup_2 _ 1%nat); reflexivity|split; [apply (elem_of_list_lookup_2 _ 3%nat); reflexivity|done]]. }
  destruct (Ha n c) as [Hfk _]; [done| | |].
  - split; [by left|]. split_and!; try done.
  - exists [1], []. split; [done|]. intros d Hd En.
    assert (HF : Forall (λ d, rel_name d = "orders" → rel_namespace d ∉ [1]) (sy_classes cascading)) by (apply (bool_decide_unpack _); by vm_compute).
    rewrite Forall_forall in HF. by apply HF.
  - destruct (Hfk (PgConstraint 501 "by_user" "f" 201 200 [2])) as (_ & _ & _ & _ & _ & [?|?] & _); [|done|done].
    split; [apply (elem_of_list_lookup_2 _ 1%nat); reflexivity|]. split; [|done]. by exists n, c.
Qed.
Print Assumptions inspected_definitions_refuted.
