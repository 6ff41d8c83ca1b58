(** Properties of the listings of internal/pg, and of InspectDatabase, with respect to
    the catalogues of the database. *)
From Coq Require Import String Ascii.
From stdpp Require Import gmap list strings numbers sorting.
From Verif Require Import GoBase GoStrings DdlModel DdlSpec MachineModel ParseModel ParseGrammar ParseSpec PgModel PgSpec PgProofs
  QueryModel QueryProofs SysModel SysSpec SysProofs SysListing SysInspect SysServer SysExamples.
Local Open Scope Z_scope.

(** * The texts of the queries *)

(** The text of each query in the code reads as the query the theorems are about. *)
Ltac read := (left; vm_compute; reflexivity) || (right; vm_compute; reflexivity).
Theorem queries_read :
  reads list_schemas_text list_schemas_query ∧ reads list_tables_text list_tables_query ∧
  reads list_columns_text list_columns_query ∧ reads list_indexes_text list_indexes_query ∧
  reads list_checks_text list_checks_query ∧ reads list_foreign_keys_text list_foreign_keys_query ∧
  reads describe_trigger_text describe_trigger_query ∧ reads list_triggers_text list_triggers_query ∧
  reads describe_function_text describe_function_query ∧ reads list_functions_text list_functions_query ∧
  reads has_sequences_view_text has_sequences_view_query ∧ reads list_sequences_text list_sequences_query ∧
  reads list_sequences_pre10_text list_sequences_pre10_query ∧
  reads list_table_storage_parameters_text list_table_storage_parameters_query.
Proof. repeat split; read. Qed.
Print Assumptions queries_read.

Lemma from_all {R} (scan : list value → option R) sy q ps :
  yields (store_of sy) (VText <$> ps) q (answered sy q ps) →
  replies_all scan sy q ps (Rows (scan <$> answered sy q ps) false).
Proof. intros H. by eexists. Qed.

(** * Schemas and tables *)

(** C94. *)
Theorem schemas_exact sy a : sane sy →
  (replies scan_schema sy list_schemas_query [] a → ∀ l, list_schemas a = Got l → schemas_of sy l) ∧
  (replies_all scan_schema sy list_schemas_query [] a → ∃ l, list_schemas a = Got l ∧ schemas_of sy l).
Proof.
  intros Hs. assert (H : replies scan_schema sy list_schemas_query [] a → ∀ l, list_schemas a = Got l → schemas_of sy l).
  { intros Ha l Hl. eapply (listing_exact _ _ _ _ _ _ _ _ _ _ (schemas_give sy Hs)); [|apply list_schemas_ok|done|done]. by intros n r x _ -> ?. }
  split; [done|]. intros Ha. destruct (listing_total _ _ _ _ _ _ _ schema_entry _ (schemas_give sy Hs) a list_schemas_ok) as [l Hl]; [|done|].
  - intros n r _ _. eexists (Schema _ _ _). split_and!; apply text_nullable.
  - exists l. split; [done|]. apply H; [by apply all_replies|done].
Qed.
Print Assumptions schemas_exact.
Example schemas_example : sane usual ∧ replies_all scan_schema usual list_schemas_query [] (Rows (scan_schema <$> answered usual list_schemas_query []) false) ∧
  list_schemas (Rows (scan_schema <$> answered usual list_schemas_query []) false) = Got [Schema "app" "me" ""; Schema "public" "postgres" ""].
Proof.
  destruct all_sane as (Hu & _). split; [done|]. split; [by apply from_all, schemas_answered|by vm_compute].
Qed.

(** C95: the tables listed are those in view.  Missing: user tables that are not in
    view ([tables_refuted]). *)
Theorem tables_exact_partial sy a : sane sy →
  (replies scan_table sy list_tables_query [] a → ∀ l, list_tables a = Got l → tables_of sy l) ∧
  (replies_all scan_table sy list_tables_query [] a → ∃ l, list_tables a = Got l ∧ tables_of sy l).
Proof.
  intros Hs. assert (H : replies scan_table sy list_tables_query [] a → ∀ l, list_tables a = Got l → tables_of sy l).
  { intros Ha l Hl. eapply (listing_exact _ _ _ _ _ _ _ _ _ _ (tables_give sy Hs)); [|apply list_tables_ok|done|done]. by intros n r x _ -> ?. }
  split; [done|]. intros Ha. destruct (listing_total _ _ _ _ _ _ _ table_entry _ (tables_give sy Hs) a list_tables_ok) as [l Hl]; [|done|].
  - intros n r _ _. eexists (Table _ _ _ _ [] [] []). split_and!; try done; apply text_nullable.
  - exists l. split; [done|]. apply H; [by apply all_replies|done].
Qed.
Print Assumptions tables_exact_partial.
Example tables_example : sane usual ∧ replies_all scan_table usual list_tables_query [] (Rows (scan_table <$> answered usual list_tables_query []) false) ∧
  list_tables (Rows (scan_table <$> answered usual list_tables_query []) false) =
    Got [Table "public" "orders" "me" "" [] [] []; Table "public" "users" "me" "people" [] [] []].
Proof.
  destruct all_sane as (Hu & _). split; [done|]. split; [by apply from_all, tables_answered|by vm_compute].
Qed.
(** A table that is in view is found under its schema and name, and nothing else is. *)
Lemma listed_table sy l s t : tables_of sy l →
  (∃ x, x ∈ l ∧ tb_schema x = s ∧ tb_name x = t) ↔
  ∃ n c, rel_in sy n c ∧ user_table n c ∧ in_view sy c ∧ ns_name n = s ∧ rel_name c = t.
Proof.
  intros (objects & H1 & H2 & H3 & H4). split.
  - intros (x & Hx & <- & <-). apply elem_of_list_lookup in Hx as [i Hx].
    destruct (Forall2_lookup_r _ _ _ _ _ H4 Hx) as ([n c] & Hi & (E1 & E2 & _)).
    assert ((n, c) ∈ objects) as (K1 & K2 & K3)%H1 by (by eapply elem_of_list_lookup_2).
    apply some_text in E1, E2. by exists n, c.
  - intros (n & c & K1 & K2 & K3 & <- & <-). assert ((n, c) ∈ objects) as [i Hi]%elem_of_list_lookup by (by apply H1).
    destruct (Forall2_lookup_l _ _ _ _ _ H4 Hi) as (x & Hx & (E1 & E2 & _)). apply some_text in E1, E2.
    exists x. split; [by eapply elem_of_list_lookup_2|done].
Qed.
Definition audit : pg_class := PgClass 301 "audit" 3 "r" 11 None.
Definition app : pg_namespace := PgNamespace 3 "app" 11.
Definition users : pg_class := PgClass 200 "users" 2 "r" 11 (Some ["fillfactor=70"; "autovacuum_enabled=false"]).
Definition public : pg_namespace := PgNamespace 2 "public" 10.
Lemma app_audit : rel_in usual app audit ∧ user_table app audit ∧ user_schema app.
Proof.
  split; [split; [apply (elem_of_list_lookup_2 _ 2%nat); reflexivity|split; [apply (elem_of_list_lookup_2 _ 10%nat); reflexivity|done]]|].
  split; [split; [by left|done]|done].
Qed.
Lemma public_users : rel_in shadowed public users ∧ user_table public users ∧ user_schema public.
Proof.
  split; [split; [apply (elem_of_list_lookup_2 _ 1%nat); reflexivity|split; [apply (elem_of_list_lookup_2 _ 2%nat); reflexivity|done]]|].
  split; [split; [by left|done]|done].
Qed.
(** A table of a schema that ListSchemas lists is not listed, because its schema is not
    in the search path; another because a schema before its own has a table of that
    name. *)
Theorem tables_refuted :
  (∃ sy n c, sane sy ∧ rel_in sy n c ∧ user_table n c ∧ user_schema n ∧
    (∃ a l, replies_all scan_table sy list_tables_query [] a ∧ list_tables a = Got l) ∧
    ∀ a l, replies scan_table sy list_tables_query [] a → list_tables a = Got l →
      ¬ ∃ x, x ∈ l ∧ tb_schema x = ns_name n ∧ tb_name x = rel_name c) ∧
  (∃ sy n c, sane sy ∧ rel_in sy n c ∧ user_table n c ∧ user_schema n ∧ ns_oid n ∈ sy_path sy ∧
    (∃ a l, replies_all scan_table sy list_tables_query [] a ∧ list_tables a = Got l) ∧
    ∀ a l, replies scan_table sy list_tables_query [] a → list_tables a = Got l →
      ¬ ∃ x, x ∈ l ∧ tb_schema x = ns_name n ∧ tb_name x = rel_name c).
Proof.
  destruct all_sane as (Hu & _ & Hh & _). split.
  - exists usual, app, audit. destruct app_audit as (P1 & P2 & P3). do 4 (split; [done|]). split.
    + destruct (tables_exact_partial usual (Rows (scan_table <$> answered usual list_tables_query []) false) Hu) as [_ K].
      destruct K as (l & Hl & _); [by apply from_all, tables_answered|]. eexists _, l. split; [by apply from_all, tables_answered|done].
    + intros a l Ha Hl. destruct (tables_exact_partial usual a Hu) as [K _]. specialize (K Ha l Hl).
      rewrite (listed_table _ _ _ _ K). intros (n & c & H1 & H2 & (b & f & E & _) & E1 & E2).
      destruct (rel_unique usual n c app audit Hu) as [-> ->]; [done|done|done|done|].
      simpl in E. destruct b as [|x [|y [|z b]]]; simpl in E; try done; injection E; done.
  - exists shadowed, public, users. destruct public_users as (P1 & P2 & P3). do 4 (split; [done|]).
    split; [apply (elem_of_list_lookup_2 _ 2%nat); reflexivity|]. split.
    + destruct (tables_exact_partial shadowed (Rows (scan_table <$> answered shadowed list_tables_query []) false) Hh) as [_ K].
      destruct K as (l & Hl & _); [by apply from_all, tables_answered|]. eexists _, l. split; [by apply from_all, tables_answered|done].
    + intros a l Ha Hl. destruct (tables_exact_partial shadowed a Hh) as [K _]. specialize (K Ha l Hl).
      rewrite (listed_table _ _ _ _ K). intros (n & c & H1 & H2 & (b & f & E & V) & E1 & E2).
      destruct (rel_unique shadowed n c public users Hh) as [-> ->]; [done|done|done|done|].
      apply (V (PgClass 300 "users" 3 "r" 11 None)); [apply (elem_of_list_lookup_2 _ 9%nat); reflexivity|done|].
      simpl in E. destruct b as [|x [|y [|z b]]]; simpl in E; try done; injection E; intros; subst; try done; simpl; by left.
Qed.
Print Assumptions tables_refuted.

(** * Columns *)

(** C97. *)
Theorem columns_exact sy s t a : sane sy →
  (replies scan_column sy list_columns_query [s; t] a → ∀ l, list_columns a = Got l → columns_of sy s t l) ∧
  (replies_all scan_column sy list_columns_query [s; t] a → ∃ l, list_columns a = Got l ∧ columns_of sy s t l).
Proof.
  intros Hs. assert (H : replies scan_column sy list_columns_query [s; t] a → ∀ l, list_columns a = Got l → columns_of sy s t l).
  { intros Ha l Hl. eapply (listing_exact _ _ _ _ _ _ _ _ _ _ (columns_give sy Hs s t)); [|apply list_columns_ok|done|done].
    intros n r x _ (o & H1 & ->) H2. by exists o. }
  split; [done|]. intros Ha. destruct (listing_total _ _ _ _ _ _ _ column_entry _ (columns_give sy Hs s t) a list_columns_ok) as [l Hl]; [|done|].
  - intros n r _ _. eexists (Column _ _ _ _ _). split_and!; try reflexivity; apply text_nullable.
  - exists l. split; [done|]. apply H; [by apply all_replies|done].
Qed.
Print Assumptions columns_exact.
Example columns_example : sane usual ∧
  replies_all scan_column usual list_columns_query ["public"; "users"] (Rows (scan_column <$> answered usual list_columns_query ["public"; "users"]) false) ∧
  list_columns (Rows (scan_column <$> answered usual list_columns_query ["public"; "users"]) false) =
    Got [Column "id" "bigint" true "nextval('users_id_seq'::regclass)" ""; Column "name" "text" false "" "full name"].
Proof.
  destruct all_sane as (Hu & _). split; [done|]. split; [by apply from_all, columns_answered|by vm_compute].
Qed.

(** * Constraints, indexes, triggers, storage options *)

(** C98. *)
Theorem table_parts_exact pf sy s t : sane sy →
  (∀ a l, replies scan_named sy list_checks_query [s; t] a → list_checks a = Got l → checks_of sy s t l) ∧
  (∀ a l, replies scan_named sy list_foreign_keys_query [s; t] a → list_foreign_keys a = Got l → foreign_keys_of sy s t l) ∧
  (∀ a l, replies scan_index sy list_indexes_query [s; t] a → list_indexes s a = Got l → indexes_of sy s t l) ∧
  (∀ a l, replies scan_named sy list_triggers_query [s; t] a → list_triggers s a = Got l → triggers_of sy s t l) ∧
  (∀ a p, replies scan_text sy list_table_storage_parameters_query [s; t] a → list_storage pf a = Got p →
     ∃ l, options_of_table sy s t l ∧ storage_entries pf l p).
Proof.
  intros Hs. split_and!.
  - intros a l Ha Hl. eapply (listing_exact _ _ _ _ _ _ _ _ _ _ (checks_give sy Hs s t)); [|apply list_checks_ok|done|done]. by intros n r x _ -> ?.
  - intros a l Ha Hl. eapply (listing_exact _ _ _ _ _ _ _ _ _ _ (foreign_keys_give sy Hs s t)); [|apply list_foreign_keys_ok|done|done]. by intros n r x _ -> ?.
  - intros a l Ha Hl. eapply (listing_exact _ _ _ _ _ _ _ _ _ _ (indexes_give sy Hs s t)); [|apply list_indexes_ok|done|done]. by intros n r x _ -> ?.
  - intros a l Ha Hl. eapply (listing_exact _ _ _ _ _ _ _ _ _ _ (triggers_give sy Hs s t)); [|apply list_triggers_ok|done|done]. by intros n r x _ -> ?.
  - intros a p. by apply storage_exact.
Qed.
Print Assumptions table_parts_exact.
Example table_parts_example : sane usual ∧
  replies_all scan_named usual list_checks_query ["public"; "users"] (Rows (scan_named <$> answered usual list_checks_query ["public"; "users"]) false) ∧
  list_checks (Rows (scan_named <$> answered usual list_checks_query ["public"; "users"]) false) = Got [Check "named" "name <> ''::text" false false] ∧
  replies_all scan_named usual list_foreign_keys_query ["public"; "orders"] (Rows (scan_named <$> answered usual list_foreign_keys_query ["public"; "orders"]) false) ∧
  list_foreign_keys (Rows (scan_named <$> answered usual list_foreign_keys_query ["public"; "orders"]) false) =
    Got [ForeignKey "by_user" "users" ["who"] ["id"] "" "" "" false false] ∧
  replies_all scan_index usual list_indexes_query ["public"; "users"] (Rows (scan_index <$> answered usual list_indexes_query ["public"; "users"]) false) ∧
  list_indexes "public" (Rows (scan_index <$> answered usual list_indexes_query ["public"; "users"]) false) =
    Got [Index "public" "users" "users_pkey" true true "btree" "" [IndexKey "id" "" "" false]] ∧
  replies_all scan_named usual list_triggers_query ["public"; "users"] (Rows (scan_named <$> answered usual list_triggers_query ["public"; "users"]) false) ∧
  (match list_triggers "public" (Rows (scan_named <$> answered usual list_triggers_query ["public"; "users"]) false) with
   | Got l => tg_name <$> l = ["watch"] | _ => False end) ∧
  replies_all scan_text usual list_table_storage_parameters_query ["public"; "users"]
    (Rows (scan_text <$> answered usual list_table_storage_parameters_query ["public"; "users"]) false) ∧
  scan_text <$> answered usual list_table_storage_parameters_query ["public"; "users"] = [Some "autovacuum_enabled=false"; Some "fillfactor=70"].
Proof.
  destruct all_sane as (Hu & _). split; [done|].
  split; [by apply from_all, checks_answered|]. split; [by vm_compute|].
  split; [by apply from_all, foreign_keys_answered|]. split; [by vm_compute|].
  split; [by apply from_all, indexes_answered|]. split; [by vm_compute|].
  split; [by apply from_all, triggers_answered|]. split; [by vm_compute|].
  split; [by apply from_all, options_answered|]. by vm_compute.
Qed.

(** C103: listings about a table that is not there. *)
Lemma lists_nothing {A B} (P : A → Prop) before (entry : A → B → Prop) l : (∀ a, ¬ P a) → lists_exactly P before entry l → l = [].
Proof.
  intros HP (objects & H1 & _ & _ & H4). destruct objects as [|o objects]; [by inversion H4|].
  destruct (HP o). apply H1. left.
Qed.
Theorem absent_table pf sy s t : sane sy → (∀ oid, ¬ is_relation sy s t oid) →
  (∀ a l, replies scan_column sy list_columns_query [s; t] a → list_columns a = Got l → l = []) ∧
  (∀ a l, replies scan_named sy list_checks_query [s; t] a → list_checks a = Got l → l = []) ∧
  (∀ a l, replies scan_named sy list_foreign_keys_query [s; t] a → list_foreign_keys a = Got l → l = []) ∧
  (∀ a l, replies scan_index sy list_indexes_query [s; t] a → list_indexes s a = Got l → l = []) ∧
  (∀ a l, replies scan_named sy list_triggers_query [s; t] a → list_triggers s a = Got l → l = []) ∧
  (∀ a p, replies scan_text sy list_table_storage_parameters_query [s; t] a → list_storage pf a = Got p → p = ∅) ∧
  (** and they succeed *)
  (∀ a, replies_all scan_column sy list_columns_query [s; t] a → list_columns a = Got []).
Proof.
  intros Hs Hn. destruct (table_parts_exact pf sy s t Hs) as (H1 & H2 & H3 & H4 & H5).
  assert (Hc : ∀ a l, replies scan_column sy list_columns_query [s; t] a → list_columns a = Got l → l = []).
  { intros a l Ha Hl. destruct (columns_exact sy s t a Hs) as [K _]. eapply lists_nothing; [|by apply (K Ha l Hl)].
    intros x (_ & Hx & _). by apply Hn in Hx. }
  split_and!.
  - done.
  - intros a l Ha Hl. eapply lists_nothing; [|by apply (H1 a l)]. intros x (_ & Hx & _). by apply Hn in Hx.
  - intros a l Ha Hl. eapply lists_nothing; [|by apply (H2 a l)]. intros x (_ & Hx & _). by apply Hn in Hx.
  - intros a l Ha Hl. eapply lists_nothing; [|by apply (H3 a l)]. intros x (_ & Hx & _). by apply Hn in Hx.
  - intros a l Ha Hl. eapply lists_nothing; [|by apply (H4 a l)]. intros x (_ & Hx & _). by apply Hn in Hx.
  - intros a p Ha Hp. destruct (H5 a p Ha Hp) as (l & (held & _ & Hl & [(n & c & A1 & A2 & A3 & _)|[_ ->]]) & Hst).
    + destruct (Hn (rel_oid c)). by exists n, c.
    + apply Permutation_nil_r in Hl as ->. destruct Hst as (kv & F & _ & Hap). inversion F; subst.
      apply (applied_unique pf []); [done|]. apply set_all_applied. constructor.
  - intros a Ha. destruct (columns_exact sy s t a Hs) as [_ K]. destruct (K Ha) as (l & Hl & _).
    rewrite Hl. f_equal. eapply Hc; [by apply all_replies|done].
Qed.
Print Assumptions absent_table.
Example absent_example : sane usual ∧ (∀ oid, ¬ is_relation usual "public" "Users" oid) ∧
  replies_all scan_column usual list_columns_query ["public"; "Users"] (Rows (scan_column <$> answered usual list_columns_query ["public"; "Users"]) false).
Proof.
  destruct all_sane as (Hu & _). split; [done|]. split; [|by apply from_all, columns_answered].
  assert (Forall (λ c, rel_name c ≠ "Users") (sy_classes usual)) as HF by (apply (bool_decide_unpack _); by vm_compute).
  rewrite Forall_forall in HF. intros oid (n & c & (_ & Hc & _) & _ & E & _). by apply (HF c Hc).
Qed.

(** * Sequences *)

(** C96: the sequences listed are those in view that a column owns.  Missing: the others
    ([sequences_refuted]). *)
Theorem sequences_exact_partial sy v new old details l : sane sy →
  replies_row scan_bool sy has_sequences_view_query [] v →
  (is_Some (sy_sequences sy) → replies scan_sequence sy list_sequences_query [] new) →
  replies scan_old_sequence sy list_sequences_pre10_query [] old →
  reads_details sy details →
  list_sequences v new old details = Got l → sequences_of sy l.
Proof. apply sequences_exact. Qed.
Print Assumptions sequences_exact_partial.
(** The answers of a server where nothing goes wrong. *)
Definition view_row (sy : system) : row_answer bool := Row (bool_decide (is_Some (sy_sequences sy))).
Definition new_rows (sy : system) := Rows (scan_sequence <$> answered sy list_sequences_query []) false.
Definition old_rows (sy : system) := Rows (scan_old_sequence <$> answered sy list_sequences_pre10_query []) false.
Lemma sequences_served sy : sane sy →
  replies_row scan_bool sy has_sequences_view_query [] (view_row sy) ∧
  (is_Some (sy_sequences sy) → replies scan_sequence sy list_sequences_query [] (new_rows sy)) ∧
  replies scan_old_sequence sy list_sequences_pre10_query [] (old_rows sy) ∧ reads_details sy (details_from sy).
Proof.
  intros Hs. split_and!.
  - eexists. split; [by apply view_answered|]. right; right. by eexists _, _, _.
  - intros Hq. by apply all_replies, from_all, sequences_answered.
  - by apply all_replies, from_all, old_sequences_answered.
  - apply details_from_reads.
Qed.
Example sequences_example : sane usual ∧ sane aged ∧
  list_sequences (view_row usual) (new_rows usual) (old_rows usual) (details_from usual) =
    Got [Sequence "public" "users_id_seq" "me" "" "bigint" 1 1 1000 1 1 false "public" "users" "id"] ∧
  list_sequences (view_row aged) (new_rows aged) (old_rows aged) (details_from aged) =
    Got [Sequence "public" "users_id_seq" "me" "" "bigint" 1 1 1000 1 1 false "public" "users" "id"].
Proof. destruct all_sane as (Hu & _ & _ & Ha & _). split; [done|]. split; [done|]. split; by vm_compute. Qed.
Lemma listed_sequence sy l s t : sequences_of sy l → (∃ q, q ∈ l ∧ sq_schema q = s ∧ sq_name q = t) →
  ∃ o, owned_sequence sy o ∧ ns_name (ow_ns o) = s ∧ rel_name (ow_rel o) = t.
Proof.
  intros (objects & H1 & H2 & H3 & H4) (x & Hx & <- & <-). apply elem_of_list_lookup in Hx as [i Hx].
  destruct (Forall2_lookup_r _ _ _ _ _ H4 Hx) as (o & Hi & Hf).
  assert (o ∈ objects) as Ho%H1 by (by eapply elem_of_list_lookup_2). exists o. split; [done|].
  unfold sequence_for in Hf. destruct (sy_sequences sy) as [sq|].
  - destruct Hf as (z & _ & _ & (E1 & E2 & _) & _). by apply some_text in E1, E2.
  - destruct Hf as ((E1 & E2 & _) & _). by apply some_text in E1, E2.
Qed.
(** A sequence in view that no column owns is not listed. *)
Theorem sequences_refuted : ∃ sy n c, sane sy ∧ rel_in sy n c ∧ user_sequence n c ∧ in_view sy c ∧
  (∃ v new old details l, replies_row scan_bool sy has_sequences_view_query [] v ∧
    (is_Some (sy_sequences sy) → replies scan_sequence sy list_sequences_query [] new) ∧
    replies scan_old_sequence sy list_sequences_pre10_query [] old ∧ reads_details sy details ∧
    list_sequences v new old details = Got l) ∧
  ∀ v new old details l, replies_row scan_bool sy has_sequences_view_query [] v →
    (is_Some (sy_sequences sy) → replies scan_sequence sy list_sequences_query [] new) →
    replies scan_old_sequence sy list_sequences_pre10_query [] old → reads_details sy details →
    list_sequences v new old details = Got l → ¬ ∃ q, q ∈ l ∧ sq_schema q = ns_name n ∧ sq_name q = rel_name c.
Proof.
  destruct all_sane as (Hu & _). exists usual, public, (PgClass 205 "tickets" 2 "S" 11 None). split; [done|].
  assert (Hin : rel_in usual public (PgClass 205 "tickets" 2 "S" 11 None)).
  { split; [apply (elem_of_list_lookup_2 _ 1%nat); reflexivity|split; [apply (elem_of_list_lookup_2 _ 7%nat); reflexivity|done]]. }
  split; [done|]. split; [done|]. split.
  { exists [1], []. split; [done|]. intros d Hd En.
    assert (HF : Forall (λ d, rel_name d = "tickets" → rel_namespace d ∉ [1]) (sy_classes usual)) by (apply (bool_decide_unpack _); by vm_compute).
    rewrite Forall_forall in HF. by apply HF. }
  split.
  { destruct (sequences_served usual Hu) as (H1 & H2 & H3 & H4). exists (view_row usual), (new_rows usual), (old_rows usual), (details_from usual). eexists.
    split; [done|]. split; [done|]. split; [done|]. split; [done|]. apply sequences_example. }
  intros v new old details l H1 H2 H3 H4 H5 Hq.
  destruct (listed_sequence usual l _ _ (sequences_exact _ _ _ _ _ _ Hu H1 H2 H3 H4 H5) Hq) as (o & Ho & E1 & E2).
  destruct Ho as (K1 & _ & _ & _ & _ & _ & Hd & Ht & _ & _ & Hobj & _).
  destruct (rel_unique usual (ow_ns o) (ow_rel o) public (PgClass 205 "tickets" 2 "S" 11 None) Hu) as [_ E]; try done.
  assert (HF : Forall (λ d, dep_obj d ≠ 205) (sy_depends usual)) by (apply (bool_decide_unpack _); by vm_compute).
  rewrite Forall_forall in HF. apply (HF _ Hd). by rewrite Hobj, E.
Qed.
Print Assumptions sequences_refuted.

(** * Functions *)

(** C99: every function in view has its own entry. *)
Theorem functions_exact sy a : sane sy →
  (replies scan_function sy list_functions_query [] a → ∀ l, list_functions a = Got l → functions_of sy l) ∧
  (replies_all scan_function sy list_functions_query [] a → ∃ l, list_functions a = Got l ∧ functions_of sy l).
Proof.
  intros Hs. assert (H : replies scan_function sy list_functions_query [] a → ∀ l, list_functions a = Got l → functions_of sy l).
  { intros Ha l Hl. eapply (listing_exact _ _ _ _ _ _ _ _ _ _ (functions_give sy Hs)); [|apply list_functions_ok|done|done].
    intros n r x _ (g & H1 & H2 & ->) ?. by exists g. }
  split; [done|]. intros Ha. destruct (listing_total _ _ _ _ _ _ _ function_entry _ (functions_give sy Hs) a list_functions_ok) as [l Hl]; [|done|].
  - intros n r _ _. eexists (Func _ _ _ _ _ _ _). split_and!; apply text_nullable.
  - exists l. split; [done|]. apply H; [by apply all_replies|done].
Qed.
Print Assumptions functions_exact.
Example functions_example : sane overloaded ∧
  replies_all scan_function overloaded list_functions_query [] (Rows (scan_function <$> answered overloaded list_functions_query []) false) ∧
  list_functions (Rows (scan_function <$> answered overloaded list_functions_query []) false) =
    Got [Func "public" "f" "me" "" "integer" "sql" "SELECT 1"; Func "public" "f" "me" "" "integer" "sql" "SELECT 2";
         Func "public" "g" "me" "" "integer" "sql" "SELECT 3"].
Proof.
  destruct all_sane as (_ & Ho & _). split; [done|]. split; [by apply from_all, functions_answered|by vm_compute].
Qed.

(** What [row_answer]s can be. *)
Lemma row_held {O R} (scan : list value → option R) sy q ps (P : O → Prop) before row a : gives scan sy q ps P before row →
  replies_row scan sy q ps a →
  (a = NoRow → ∀ o, ¬ P o) ∧ (∀ r, a = Row r → ∃ o, P o ∧ row o r) ∧ ((∀ o, ¬ P o) → a = NoRow ∨ a = RowFailed).
Proof.
  intros [_ Hg] (rows & Hy & Ha). destruct (Hg rows Hy) as (os & held & _ & HP & _ & E & HF).
  destruct Ha as [->|[[-> ->]|(r & rows' & x & -> & Hr & ->)]].
  - split_and!; [done|done|by right].
  - destruct held; [|done]. inversion HF; subst. split_and!; [|done|by left].
    intros _ o Ho%HP. by apply elem_of_nil in Ho.
  - destruct held as [|y held]; [done|]. injection E as E1 E2. inversion HF as [|o y' os' held' Ho HF']; subst.
    assert (P o) as Po by (apply HP; left). rewrite Hr in E1. injection E1 as ->. split_and!; [done| |].
    + intros r' [= ->]. by exists o.
    + intros Hn. by destruct (Hn o).
Qed.

(** C100: DescribeTrigger. *)
Theorem describe_trigger_exact sy s t name a : sane sy → replies_row scan_text sy describe_trigger_query [s; t; name] a →
  (describe_trigger s a = NotFound → ¬ ∃ g, g ∈ sy_triggers sy ∧ is_relation sy s t (trig_rel g) ∧ trig_name g = name) ∧
  (∀ x, describe_trigger s a = Got x → ∃ g, g ∈ sy_triggers sy ∧ is_relation sy s t (trig_rel g) ∧ trig_name g = name ∧
     trigger_entry s (NamedDef name (sy_triggerdef sy (trig_oid g))) x ∧
     (** there is only one *)
     ∀ g', g' ∈ sy_triggers sy → is_relation sy s t (trig_rel g') → trig_name g' = name → g' = g) ∧
  ((¬ ∃ g, g ∈ sy_triggers sy ∧ is_relation sy s t (trig_rel g) ∧ trig_name g = name) →
     describe_trigger s a = NotFound ∨ describe_trigger s a = Failed).
Proof.
  intros Hs Ha. destruct (row_held _ _ _ _ _ _ _ _ (trigger_gives sy Hs s t name) Ha) as (H1 & H2 & H3). split_and!.
  - intros E (g & Hg). destruct a as [| |def]; [by apply (H1 eq_refl g)|done|]. simpl in E. by destruct (parse_trigger def).
  - intros x Hx. destruct a as [| |def]; try done. destruct (H2 def eq_refl) as (g & (G1 & G2 & G3) & ->).
    exists g. split_and!; try done.
    + unfold describe_trigger in Hx. destruct (parse_trigger (sy_triggerdef sy (trig_oid g))) as [y| |] eqn:Ep; try done. injection Hx as <-.
      apply trigger_of_entry. unfold trigger_of. simpl. by rewrite Ep.
    + intros g' K1 K2 K3. apply (key_unique (λ g, (trig_rel g, trig_name g)) (sy_triggers sy)); [apply (sane_trig_name _ Hs)|done|done|].
      simpl. f_equal; [by apply (same_relation sy s t)|congruence].
  - intros Hn. destruct H3 as [-> | ->]; [|by left|by right]. intros g Hg. apply Hn. eauto.
Qed.
Print Assumptions describe_trigger_exact.
Example describe_trigger_example : sane usual ∧
  replies_row scan_text usual describe_trigger_query ["public"; "users"; "watch"]
    (Row "CREATE TRIGGER watch BEFORE INSERT ON users FOR EACH ROW EXECUTE PROCEDURE f()") ∧
  replies_row scan_text usual describe_trigger_query ["public"; "users"; "none"] NoRow.
Proof.
  destruct all_sane as (Hu & _). split; [done|]. split.
  - eexists. split; [by apply trigger_answered|]. right; right. eexists _, _, _. split; [vm_compute; reflexivity|]. split; [reflexivity|done].
  - eexists. split; [by apply trigger_answered|]. right; left. split; [by vm_compute|done].
Qed.

(** C104: DescribeFunction finds a function of that name in that schema, and the one if
    there is one.  Missing: which, if there are several ([describe_function_refuted]). *)
Theorem describe_function_partial sy s name a : sane sy → replies_row scan_described sy describe_function_query [s; name] a →
  (describe_function s name a = NotFound → ¬ ∃ n p, proc_in sy n p ∧ ns_name n = s ∧ proc_name p = name) ∧
  (∀ f, describe_function s name a = Got f → ∃ n p, proc_in sy n p ∧ ns_name n = s ∧ proc_name p = name ∧ function_for sy (n, p) f) ∧
  ((¬ ∃ n p, proc_in sy n p ∧ ns_name n = s ∧ proc_name p = name) →
     describe_function s name a = NotFound ∨ describe_function s name a = Failed).
Proof.
  intros Hs Ha. destruct (row_held _ _ _ _ _ _ _ _ (function_gives sy Hs s name) Ha) as (H1 & H2 & H3). split_and!.
  - intros E (n & p & Hp). destruct a as [| |r]; [by apply (H1 eq_refl (n, p))|done|done].
  - intros f Hf. destruct a as [| |r]; try done. destruct (H2 r eq_refl) as ([n p] & (G1 & G2 & G3) & (x & (g & K1 & K2 & ->) & ->)).
    exists n, p. split_and!; try done. exists g. split_and!; try done. simpl in Hf. injection Hf as <-. simpl in *. subst.
    split_and!; simpl; try (by left); apply text_nullable.
  - intros Hn. destruct H3 as [-> | ->]; [|by left|by right]. intros [n p] Hp. apply Hn. eauto.
Qed.
Print Assumptions describe_function_partial.
Definition described_f (src : string) : function_row := FunctionRow None None (Some "me") None (Some "integer") (Some "sql") (Some src).
Lemma overloaded_either src : src = "SELECT 1" ∨ src = "SELECT 2" →
  replies_row scan_described overloaded describe_function_query ["public"; "f"] (Row (described_f src)).
Proof.
  set (row1 := [VName "me"; VNull; VText "integer"; VName "sql"; VText "SELECT 1"]).
  set (row2 := [VName "me"; VNull; VText "integer"; VName "sql"; VText "SELECT 2"]).
  assert (E : eval_query (store_of overloaded) (VText <$> ["public"; "f"]) [] describe_function_query = Some [(row1, []); (row2, [])]) by (by vm_compute).
  intros [-> | ->].
  - exists [row1; row2]. split; [exists [(row1, []); (row2, [])], [(row1, []); (row2, [])]; split_and!; [done|done|repeat constructor|done]|].
    right; right. by eexists _, _, _.
  - exists [row2; row1]. split.
    + exists [(row1, []); (row2, [])], [(row2, []); (row1, [])]. split_and!; [done|constructor|repeat constructor|done].
    + right; right. by eexists _, _, _.
Qed.
(** Of two functions of that name, either may be the answer. *)
Theorem describe_function_refuted : ∃ sy s name a b f g, sane sy ∧
  replies_row scan_described sy describe_function_query [s; name] a ∧ replies_row scan_described sy describe_function_query [s; name] b ∧
  describe_function s name a = Got f ∧ describe_function s name b = Got g ∧ fn_definition f ≠ fn_definition g.
Proof.
  destruct all_sane as (_ & Ho & _).
  exists overloaded, "public", "f", (Row (described_f "SELECT 1")), (Row (described_f "SELECT 2")). eexists _, _.
  split; [done|]. split; [apply overloaded_either; auto|]. split; [apply overloaded_either; auto|]. split; [reflexivity|]. split; [reflexivity|]. done.
Qed.
Print Assumptions describe_function_refuted.

(** * Inspection *)

(** C101: what is described is the database, as far as it is in view.  Missing: what is
    not in view, and sequences no column owns ([inspected_refuted]). *)
Theorem inspected_partial srt pf o sy sv db : sane sy → ok_sorter srt → served sy sv → inspect srt pf o sv = Got db →
  database_of pf sy db ∧
  (io_sort_columns o = false → Forall (λ t, columns_of sy (tb_schema t.1) (tb_name t.1) (tb_columns t.1)) (db_tables db)).
Proof.
  intros Hs Hsrt (ct & Hct & Hsv & Hd) Hdb. destruct (inspect_got srt pf o ct sv Hsrt Hsv db Hdb) as (H1 & _ & H2 & _). split.
  - by eapply described_of.
  - intros Ho. eapply Forall_impl; [by apply H2|]. intros t Ht. cbn in Ht.
    eapply (held_exact _ _ _ _ _ _ _ _ _ (columns_give sy Hs (tb_schema t.1) (tb_name t.1))); [|apply (of_columns _ _ Hct)|exact Ht].
    intros n r x _ (d & K1 & ->) K2. by exists d.
Qed.
Print Assumptions inspected_partial.
Definition no_floats : float_parser := λ _, ("", false).
Example inspected_example : sane usual ∧ served usual (server_from usual "public" "UTC") ∧
  match inspect (@insertion_sort) no_floats (InspectOptions false false false) (server_from usual "public" "UTC") with
  | Got db => tb_name ∘ fst <$> db_tables db = ["orders"; "users"] ∧ ix_name <$> db_indexes db = ["orders_who"; "users_pkey"] ∧
      tg_name <$> db_triggers db = ["watch"] ∧ sq_name <$> db_sequences db = ["users_id_seq"] ∧ fn_name <$> db_functions db = ["f"; "g"]
  | _ => False
  end.
Proof. destruct all_sane as (Hu & _). split; [done|]. split; [by apply server_from_served|]. vm_compute. done. Qed.
(** The table app.audit is never described, nor are its columns. *)
Theorem inspected_refuted : ∃ sy n c, sane sy ∧ rel_in sy n c ∧ user_table n c ∧
  (∃ srt pf o sv db, ok_sorter srt ∧ served sy sv ∧ inspect srt pf o sv = Got db) ∧
  ∀ srt pf o sv db, ok_sorter srt → served sy sv → inspect srt pf o sv = Got db →
    ¬ ∃ t, t ∈ db_tables db ∧ tb_schema t.1 = ns_name n ∧ tb_name t.1 = rel_name c.
Proof.
  destruct all_sane as (Hu & _). destruct app_audit as (Ha1 & Ha2 & Ha3).
  eexists usual, _, _. split; [done|]. split; [exact Ha1|]. split; [exact Ha2|]. split.
  - eexists (@insertion_sort), no_floats, (InspectOptions false false false), (server_from usual "public" "UTC").
    destruct inspected_example as (_ & H1 & H2). destruct (inspect _ _ _ _) as [db| | |]; try done.
    exists db. split; [apply insertion_sort_ok|done].
  - intros srt pf o sv db Hsrt Hsv Hdb (x & Hx & E1 & E2). destruct (inspected_partial srt pf o usual sv db Hu Hsrt Hsv Hdb) as [(_ & _ & _ & Ht & _) _].
    destruct Ht as (objects & H1 & _ & _ & H4). apply elem_of_list_lookup in Hx as [i Hx].
    destruct (Forall2_lookup_r _ _ _ _ _ H4 Hx) as ([n c] & Hi & Hf).
    assert ((n, c) ∈ objects) as Ho%H1 by (by eapply elem_of_list_lookup_2). destruct Ho as (K1 & K2 & K3). simpl in *.
    destruct Hf as [(F1 & F2 & _) _]. simpl in F1, F2. apply some_text in F1. apply some_text in F2.
    destruct (rel_unique usual n c app audit Hu) as [-> ->]; [done|done|simpl; congruence|simpl; congruence|].
    destruct K3 as (b & f & E & _). simpl in E. destruct b as [|y [|z [|w b]]]; simpl in E; try done; injection E; done.
Qed.
Print Assumptions inspected_refuted.

(** C102: inspecting twice.  Missing: databases where the listings leave something to
    chance ([inspected_twice_refuted]). *)
Theorem inspected_twice_partial srt pf o sy sv sv' db db' : sane sy → untied sy → served sy sv → served sy sv' →
  inspect srt pf o sv = Got db → inspect srt pf o sv' = Got db' →
  sv_search_path sv = sv_search_path sv' → sv_timezone sv = sv_timezone sv' → db = db'.
Proof.
  intros Hs Hu (ct & Hct & Hsv & Hd) (ct' & Hct' & Hsv' & Hd') H K E1 E2.
  destruct (inspect_same srt pf o sy Hs Hu ct ct' Hct Hct' sv sv' Hsv Hsv' Hd Hd' db db' H K) as (F1 & F2 & F3 & F4 & F5 & F6).
  assert (db_parameters db = db_parameters db') as F0.
  { unfold inspect in H, K. apply bind_got in H as (p & H1 & H). apply bind_got in K as (p' & K1 & K).
    rewrite E1, E2, K1 in H1. injection H1 as ->.
    do 5 (apply bind_got in H as (? & _ & H)). do 5 (apply bind_got in K as (? & _ & K)). injection H as <-. by injection K as <-. }
  destruct db, db'. simpl in *. by subst.
Qed.
Print Assumptions inspected_twice_partial.

Global Instance pg_proc_eq : EqDecision pg_proc. Proof. solve_decision. Defined.
Global Instance pg_constraint_eq : EqDecision pg_constraint. Proof. solve_decision. Defined.
(** Same facts, decidably. *)
Lemma untied_by sy : 
  Forall (λ p, Forall (λ p', proc_namespace p = proc_namespace p' → proc_name p = proc_name p' → p = p') (sy_procs sy)) (sy_procs sy) →
  Forall (λ r, Forall (λ r', con_type r = "f" → con_type r' = "f" → con_rel r = con_rel r' → con_key r = con_key r' → r = r')
    (sy_constraints sy)) (sy_constraints sy) →
  Forall (λ d, Forall (λ d', (dep_type d = "a" ∨ dep_type d = "i") → (dep_type d' = "a" ∨ dep_type d' = "i") →
    dep_obj d = dep_obj d' → d = d') (sy_depends sy)) (sy_depends sy) →
  sane sy → untied sy.
Proof.
  intros H1 H2 H3 Hs. rewrite Forall_forall in H1. rewrite Forall_forall in H2. rewrite Forall_forall in H3. split_and!.
  - intros n p n' p' (A1 & A2 & A3) (B1 & B2 & B3) _ _ _ _ En Ep. specialize (H1 p A2). rewrite Forall_forall in H1. apply H1; try done.
    by rewrite A3, B3, (ns_unique sy n n').
  - intros r r' c c' Hr Hr' F1 F2 E _ _ _ _ _ K. specialize (H2 r Hr). rewrite Forall_forall in H2. by apply H2.
  - intros [n c d n1 c1 a] [n' c' d' n1' c1' a'] (A1 & A2 & A3 & A4 & A5 & A6 & A7 & A8 & A9 & A10 & A11 & A12 & A13)
      (B1 & B2 & B3 & B4 & B5 & B6 & B7 & B8 & B9 & B10 & B11 & B12 & B13) E. simpl in *. subst c'.
    specialize (H3 d A7). rewrite Forall_forall in H3. assert (d = d') as <- by (apply H3; [done|done|done|congruence]).
    destruct A1 as (? & _ & Ea), B1 as (? & _ & Eb), A4 as (? & A4 & Ec), B4 as (? & B4 & Ed).
    assert (n = n') as <- by (apply (key_unique ns_oid (sy_namespaces sy)); [apply (sane_ns_oid _ Hs)|done|done|congruence]).
    assert (c1 = c1') as <- by (apply (key_unique rel_oid (sy_classes sy)); [apply (sane_rel_oid _ Hs)|done|done|congruence]).
    assert (n1 = n1') as <- by (apply (key_unique ns_oid (sy_namespaces sy)); [apply (sane_ns_oid _ Hs)|done|done|congruence]).
    f_equal. apply (key_unique (λ a, (att_rel a, att_num a)) (sy_attributes sy)); [apply (sane_att _ Hs)|done|done|].
    simpl. f_equal; congruence.
Qed.
Example inspected_twice_example : sane usual ∧ untied usual ∧ served usual (server_from usual "public" "UTC") ∧
  ∃ db, inspect (@insertion_sort) no_floats (InspectOptions false false false) (server_from usual "public" "UTC") = Got db.
Proof.
  destruct all_sane as (Hu & _). split; [done|]. split; [|split].
  - apply untied_by; [| | |done]; apply (bool_decide_unpack _); by vm_compute.
  - by apply server_from_served.
  - destruct inspected_example as (_ & _ & H). destruct (inspect _ _ _ _) as [db| | |]; try done. by exists db.
Qed.

(** The functions of a name come in either order, and so do foreign keys on the same
    columns. *)
Definition swap_functions (ct : catalog) : catalog :=
  Catalog (ct_search_path ct) (ct_timezone ct) (ct_schemas ct)
    (match ct_functions ct with a :: b :: l => b :: a :: l | l => l end) (ct_view ct) (ct_sequences ct) (ct_old_sequences ct)
    (ct_tables ct) (ct_columns ct) (ct_checks ct) (ct_foreign_keys ct) (ct_storage ct) (ct_indexes ct) (ct_triggers ct).
Definition serve (sy : system) (ct : catalog) : server :=
  Server (Row (ct_search_path ct)) (Row (ct_timezone ct)) (Rows (Some <$> ct_schemas ct) false)
    (Rows (Some <$> ct_functions ct) false) (Row (ct_view ct)) (Rows (Some <$> ct_sequences ct) false)
    (Rows (Some <$> ct_old_sequences ct) false) (details_from sy) (Rows (Some <$> ct_tables ct) false)
    (λ s t, Rows (Some <$> ct_columns ct s t) false) (λ s t, Rows (Some <$> ct_checks ct s t) false)
    (λ s t, Rows (Some <$> ct_foreign_keys ct s t) false) (λ s t, Rows (Some <$> ct_storage ct s t) false)
    (λ s t, Rows (Some <$> ct_indexes ct s t) false) (λ s t, Rows (Some <$> ct_triggers ct s t) false).
Lemma serve_served sy ct : catalog_of sy ct → served sy (serve sy ct).
Proof.
  intros Hct. exists ct. split; [done|]. split; [|apply details_from_reads].
  constructor; simpl; try (by left); intros; apply rows_answer.
Qed.
Lemma overloaded_swapped : catalog_of overloaded (swap_functions (catalog_from overloaded "public" "UTC")).
Proof.
  destruct all_sane as (_ & Hs & _). pose proof (catalog_from_of overloaded Hs "public" "UTC") as [? _ ? ? ? ? ? ? ? ? ? ?].
  constructor; [assumption| |assumption..]. cbn [swap_functions ct_functions catalog_from].
  set (out := λ name src, ([VName "public"; VName name; VName "me"; VNull; VText "integer"; VName "sql"; VText src], [VName "public"; VName name])).
  exists ([out "f" "SELECT 2"; out "f" "SELECT 1"; out "g" "SELECT 3"].*1). split; [|by vm_compute].
  exists [out "f" "SELECT 1"; out "f" "SELECT 2"; out "g" "SELECT 3"], [out "f" "SELECT 2"; out "f" "SELECT 1"; out "g" "SELECT 3"].
  split; [by vm_compute|]. split; [constructor|]. split; [|done]. repeat constructor.
Qed.
Lemma swap_same sy ct : sv_search_path (serve sy ct) = sv_search_path (serve sy (swap_functions ct)) ∧
  sv_timezone (serve sy ct) = sv_timezone (serve sy (swap_functions ct)).
Proof. done. Qed.
Lemma both_got {A B} `{EqDecision B} (r r' : result A) (f : A → B) :
  match r, r' with Got a, Got b => bool_decide (f a = f b) | _, _ => true end = false →
  ∃ a b, r = Got a ∧ r' = Got b ∧ f a ≠ f b.
Proof. destruct r as [a| | |], r' as [b| | |]; try done. intros H%bool_decide_eq_false. by exists a, b. Qed.
Theorem inspected_twice_refuted : ∃ srt pf o sy sv sv' db db', sane sy ∧ ok_sorter srt ∧ served sy sv ∧ served sy sv' ∧
  inspect srt pf o sv = Got db ∧ inspect srt pf o sv' = Got db' ∧
  sv_search_path sv = sv_search_path sv' ∧ sv_timezone sv = sv_timezone sv' ∧ fn_definition <$> db_functions db ≠ fn_definition <$> db_functions db'.
Proof.
  destruct all_sane as (_ & Hs & _).
  destruct (both_got (inspect (@insertion_sort) no_floats (InspectOptions false false false) (serve overloaded (catalog_from overloaded "public" "UTC")))
    (inspect (@insertion_sort) no_floats (InspectOptions false false false)
       (serve overloaded (swap_functions (catalog_from overloaded "public" "UTC")))) (λ db, fn_definition <$> db_functions db))
    as (db & db' & E1 & E2 & Hne); [vm_compute; reflexivity|].
  exists (@insertion_sort), no_floats, (InspectOptions false false false), overloaded,
    (serve overloaded (catalog_from overloaded "public" "UTC")), (serve overloaded (swap_functions (catalog_from overloaded "public" "UTC"))), db, db'.
  split; [exact Hs|]. split; [apply insertion_sort_ok|].
  split; [exact (serve_served _ _ (catalog_from_of overloaded Hs "public" "UTC"))|].
  split; [exact (serve_served _ _ overloaded_swapped)|].
  split; [exact E1|]. split; [exact E2|]. destruct (swap_same overloaded (catalog_from overloaded "public" "UTC")) as [S1 S2].
  split; [exact S1|]. split; [exact S2|]. exact Hne.
Qed.
Print Assumptions inspected_twice_refuted.

(** * Every query has an answer *)

(** C105: on no database does a query fail, and there is always a server to give its
    answer. *)
Definition listing_queries : list (query * nat) :=
  [(list_schemas_query, 0); (list_tables_query, 0); (list_functions_query, 0); (list_sequences_pre10_query, 0);
   (has_sequences_view_query, 0); (list_columns_query, 2); (list_checks_query, 2); (list_triggers_query, 2);
   (list_indexes_query, 2); (list_foreign_keys_query, 2); (list_table_storage_parameters_query, 2);
   (describe_function_query, 2); (describe_trigger_query, 3)]%nat.
Theorem queries_answer sy q n ps : sane sy → (q, n) ∈ listing_queries ∨ ((q, n) = (list_sequences_query, 0%nat) ∧ is_Some (sy_sequences sy)) →
  length ps = n →
  (∃ rows, yields (store_of sy) (VText <$> ps) q rows) ∧ ∃ raw, eval_query (store_of sy) (VText <$> ps) [] q = Some raw.
Proof.
  intros Hs Hq Hn. assert (∃ rows, yields (store_of sy) (VText <$> ps) q rows) as Hy.
  { destruct Hq as [Hq|[Hq Hl]].
    - unfold listing_queries in Hq. rewrite !elem_of_cons, elem_of_nil in Hq.
      repeat destruct Hq as [Hq|Hq]; [..|done]; apply pair_equal_spec in Hq as [-> ->].
      + apply nil_length_inv in Hn as ->. eexists. by apply schemas_answered.
      + apply nil_length_inv in Hn as ->. eexists. by apply tables_answered.
      + apply nil_length_inv in Hn as ->. eexists. by apply functions_answered.
      + apply nil_length_inv in Hn as ->. eexists. by apply old_sequences_answered.
      + apply nil_length_inv in Hn as ->. eexists. by apply view_answered.
      + destruct ps as [|s [|t [|]]]; try done. eexists. by apply columns_answered.
      + destruct ps as [|s [|t [|]]]; try done. eexists. by apply checks_answered.
      + destruct ps as [|s [|t [|]]]; try done. eexists. by apply triggers_answered.
      + destruct ps as [|s [|t [|]]]; try done. eexists. by apply indexes_answered.
      + destruct ps as [|s [|t [|]]]; try done. eexists. by apply foreign_keys_answered.
      + destruct ps as [|s [|t [|]]]; try done. eexists. by apply options_answered.
      + destruct ps as [|s [|t [|]]]; try done. eexists. by apply function_answered.
      + destruct ps as [|s [|t [|x [|]]]]; try done. eexists. by apply trigger_answered.
    - apply pair_equal_spec in Hq as [-> ->]. apply nil_length_inv in Hn as ->. eexists. by apply sequences_answered. }
  split; [done|]. destruct Hy as (rows & raw & ? & E & _). by exists raw.
Qed.
Print Assumptions queries_answer.
Example queries_answer_example : sane usual ∧ sane aged ∧ (describe_trigger_query, 3%nat) ∈ listing_queries ∧
  (** The query about pg_sequence fails on a server that has none. *)
  eval_query (store_of aged) [] [] list_sequences_query = None.
Proof.
  destruct all_sane as (Hu & _ & _ & Ha & _). split; [done|]. split; [done|]. split; [|by vm_compute].
  apply (elem_of_list_lookup_2 _ 12%nat). reflexivity.
Qed.

(** * DescribeTrigger and ListTriggers *)

(** C106: every trigger listed can be described.  Missing: the converse
    ([described_listed_refuted]). *)
Theorem listed_described_partial sy s t a l x : sane sy → replies scan_named sy list_triggers_query [s; t] a → list_triggers s a = Got l → x ∈ l →
  ∃ g, g ∈ sy_triggers sy ∧ is_relation sy s t (trig_rel g) ∧ trig_internal g = false ∧
  ∀ b, replies_row scan_text sy describe_trigger_query [s; t; trig_name g] b → describe_trigger s b = Got x ∨ describe_trigger s b = Failed.
Proof.
  intros Hs Ha Hl Hx. destruct (table_parts_exact no_floats sy s t Hs) as (_ & _ & _ & K & _). specialize (K a l Ha Hl).
  destruct K as (objects & H1 & _ & _ & H4). apply elem_of_list_lookup in Hx as [i Hx].
  destruct (Forall2_lookup_r _ _ _ _ _ H4 Hx) as (g & Hi & Hf).
  assert (g ∈ objects) as Ho%H1 by (by eapply elem_of_list_lookup_2). destruct Ho as (G1 & G2 & G3). exists g. split_and!; try done.
  intros b Hb. destruct (describe_trigger_exact sy s t (trig_name g) b Hs Hb) as (D1 & D2 & D3).
  destruct b as [| |def]; [|by right|].
  - destruct D1; [done|]. by exists g.
  - destruct (row_held _ _ _ _ _ _ _ _ (trigger_gives sy Hs s t (trig_name g)) Hb) as (_ & F & _).
    destruct (F def eq_refl) as (g' & (E1 & E2 & E3) & ->).
    assert (g' = g) as ->.
    { apply (key_unique (λ g, (trig_rel g, trig_name g)) (sy_triggers sy)); [apply (sane_trig_name _ Hs)|done|done|].
      simpl. f_equal; [by apply (same_relation sy s t)|done]. }
    left. apply trigger_of_entry in Hf. unfold trigger_of in Hf. simpl in *.
    destruct (parse_trigger (sy_triggerdef sy (trig_oid g))); try done. by injection Hf as <-.
Qed.
Print Assumptions listed_described_partial.
Example listed_described_example : sane usual ∧
  replies scan_named usual list_triggers_query ["public"; "users"] (Rows (scan_named <$> answered usual list_triggers_query ["public"; "users"]) false) ∧
  ∃ l x, list_triggers "public" (Rows (scan_named <$> answered usual list_triggers_query ["public"; "users"]) false) = Got l ∧ x ∈ l.
Proof.
  destruct all_sane as (Hu & _). split; [done|]. split; [by apply all_replies, from_all, triggers_answered|].
  eexists _, _. split; [vm_compute; reflexivity|]. left.
Qed.
(** A trigger that implements a foreign key is not listed, yet describing it is not
    "not found". *)
Theorem described_listed_refuted : ∃ sy s t name b, sane sy ∧
  (¬ ∃ g, g ∈ sy_triggers sy ∧ is_relation sy s t (trig_rel g) ∧ trig_name g = name ∧ trig_internal g = false) ∧
  replies_row scan_text sy describe_trigger_query [s; t; name] b ∧ b ≠ RowFailed ∧ describe_trigger s b = Failed.
Proof.
  destruct all_sane as (Hu & _). exists usual, "public", "users", "RI_ConstraintTrigger_a".
  eexists (Row _). split; [done|]. split; [|split; [|split]].
  - intros (g & Hg & _ & En & Ei).
    assert (HF : Forall (λ g, trig_name g = "RI_ConstraintTrigger_a" → trig_internal g = true) (sy_triggers usual))
      by (apply (bool_decide_unpack _); by vm_compute).
    rewrite Forall_forall in HF. specialize (HF g Hg En). congruence.
  - eexists. split; [by apply trigger_answered|]. right; right. eexists _, _, _. split; [vm_compute; reflexivity|]. split; [reflexivity|reflexivity].
  - done.
  - by vm_compute.
Qed.
Print Assumptions described_listed_refuted.
