(** Property theorems C35-C39 (internal/ddl without the four parsers). *)
From Coq Require Import String Ascii.
From stdpp Require Import gmap list strings numbers pretty.
From Verif Require Import GoStrings GoStringsProofs GoUtf8 GoUtf8Proofs DdlModel DdlSpec DdlProofs.
Local Open Scope Z_scope.

(** C35 *)
Theorem quote_safe n rest :
  ¬ begins_with (String dquote "") rest → lex_identifier (quote_name n +:+ rest) = Some (n, rest).
Proof. intros H. apply lex_quote_name. intros [r ->]. apply H. by exists r. Qed.
Print Assumptions quote_safe.
Theorem identifier_safe parts rest :
  parts ≠ [] → ¬ begins_with (String dquote "") rest → ¬ begins_with "." rest →
  lex_qualified (length parts) (identifier parts +:+ rest) = Some (parts, rest).
Proof. intros H1 H2 H3. apply lex_qualified_identifier; [done|done| |done]. intros [r ->]. apply H2. by exists r. Qed.
Print Assumptions identifier_safe.
Theorem quote_distinct a b : quote_name a = quote_name b → a = b.
Proof. apply quote_name_inj. Qed.
Print Assumptions quote_distinct.
Theorem identifier_distinct l l' :
  l ≠ [] → l' ≠ [] → length l = length l' → identifier l = identifier l' → l = l'.
Proof.
  intros H1 H2 Hl H.
  assert (∀ p, ¬ begins_with (String p "") "") as He by by intros p [r Hr].
  pose proof (identifier_safe l "" H1 (He _) (He _)) as E1.
  pose proof (identifier_safe l' "" H2 (He _) (He _)) as E2. rewrite H, Hl, E2 in E1. by injection E1.
Qed.
Print Assumptions identifier_distinct.
(** A name with a double quote and a second statement in it. *)
Example ex_evil : string := "a" +:+ String dquote "; DROP TABLE x; --".
Example quote_safe_example : lex_identifier (quote_name ex_evil +:+ " (id)") = Some (ex_evil, " (id)").
Proof. apply quote_safe. by intros [r Hr]. Qed.
Example identifier_example :
  lex_qualified 2 (identifier ["my.schema"; ex_evil] +:+ ";") = Some (["my.schema"; ex_evil], ";").
Proof. by apply (identifier_safe ["my.schema"; ex_evil] ";"); [..|intros [r Hr]|intros [r Hr]]. Qed.

(** C36 *)
Theorem sql_determines_partial :
  (∀ i i', ix_primary i = true → ix_primary i' = true → index_to_sql i = index_to_sql i' →
    ix_table i = ix_table i' ∧ ix_name i = ix_name i' ∧ ik_column <$> ix_keys i = ik_column <$> ix_keys i') ∧
  (∀ t t', table_to_sql t = table_to_sql t' → tb_name t = tb_name t') ∧
  (∀ t t', Forall one_line_column (tb_columns t) → Forall one_line_column (tb_columns t') →
    table_to_sql t = table_to_sql t' → co_name <$> tb_columns t = co_name <$> tb_columns t') ∧
  (∀ t t', trigger_to_sql t = trigger_to_sql t' → tg_name t = tg_name t').
Proof.
  split; [apply index_sql_inj|]. split; [apply table_name_inj|].
  split; [intros; by apply table_columns_inj|apply trigger_name_inj].
Qed.
Print Assumptions sql_determines_partial.
(** Two tables, one with the column the other only mentions in a type. *)
Example ex_table (l : list column) : table := Table "s" "t" "" "" l [] [].
Example ex_two : table := ex_table [Column "a" "int" false "" ""; Column "b" "int" false "" ""].
Example ex_one : table :=
  ex_table [Column "a" ("int" +:+ nl +:+ ", " +:+ String dquote "b" +:+ String dquote " int") false "" ""].
Example ex_trigger (i d t : bool) : trigger :=
  Trigger "s" "t" "tr" "f" "AFTER" false false false true d i t false [].
Theorem sql_determines_refuted :
  (** column names, when a type has several lines *)
  (∃ t t', table_to_sql t = table_to_sql t' ∧ co_name <$> tb_columns t ≠ co_name <$> tb_columns t') ∧
  (** the events of a trigger *)
  (∃ t t', trigger_to_sql t = trigger_to_sql t' ∧ tg_insert t ≠ tg_insert t' ∧ tg_delete t ≠ tg_delete t' ∧
    tg_truncate t ≠ tg_truncate t') ∧
  (** the columns of an UPDATE OF trigger *)
  (∃ t t', tg_update t = true ∧ trigger_to_sql t = trigger_to_sql t' ∧ tg_columns t ≠ tg_columns t') ∧
  (** everything about an index that is not a primary key *)
  (∀ i i', ix_primary i = false → ix_primary i' = false → index_to_sql i = index_to_sql i') ∧
  (** schemas *)
  (∀ t s, table_to_sql (Table s (tb_name t) (tb_owner t) (tb_comment t) (tb_columns t) (tb_checks t)
    (tb_foreign_keys t)) = table_to_sql t) ∧
  (** foreign keys *)
  (∀ t l, table_to_sql (Table (tb_schema t) (tb_name t) (tb_owner t) (tb_comment t) (tb_columns t)
    (tb_checks t) l) = table_to_sql t).
Proof.
  split; [exists ex_one, ex_two; split; [by vm_compute|done]|].
  split; [exists (ex_trigger true false true), (ex_trigger false true false); by split_and!|].
  split.
  { exists (Trigger "s" "t" "tr" "f" "AFTER" false false false true false false false true ["a"]),
      (Trigger "s" "t" "tr" "f" "AFTER" false false false true false false false true ["b"]). by split_and!. }
  split; [|by split].
  intros i i' H H'. unfold index_to_sql. by rewrite H, H'.
Qed.
Print Assumptions sql_determines_refuted.
Example sql_determines_example :
  ix_primary (Index "s" "t" "pk" true true "btree" "" [IndexKey "id" "" "" false]) = true ∧
  index_to_sql (Index "s" "t" "pk" true true "btree" "" [IndexKey "id" "" "" false]) ≠
  index_to_sql (Index "s" "t" "pk" true true "btree" "" [IndexKey "id" "" "" false; IndexKey "b" "" "" false]) ∧
  Forall one_line_column (tb_columns ex_two).
Proof.
  split_and!; [done|by vm_compute|]. repeat constructor; by apply no_newline_lit.
Qed.

(** C37 *)
Theorem collapse_canonical s :
  collapsed s (collapse_whitespace s) ∧ (∀ t, collapsed s t → t = collapse_whitespace s) ∧
  ¬ adjacent_spaces (collapse_whitespace s) ∧
  collapse_whitespace (collapse_whitespace s) = collapse_whitespace s.
Proof.
  split; [apply collapse_spec|]. split; [intros t H; eapply collapsed_functional; [done|apply collapse_spec]|].
  split; [apply collapse_not_adjacent|apply collapse_idem].
Qed.
Print Assumptions collapse_canonical.
Theorem trim_exact s : trimmed s (trim s).
Proof. apply trim_spec. Qed.
Print Assumptions trim_exact.
(** White space by Unicode and by the parsers, but not by the regular expression. *)
Theorem collapse_vertical_tab_refuted : ∃ s,
  trim s = "" ∧ s ≠ "" ∧ collapse_whitespace s = s.
Proof. exists (String (of_byte 11) (String (of_byte 11) "")). by vm_compute. Qed.
Print Assumptions collapse_vertical_tab_refuted.
Example collapse_example :
  collapse_whitespace ("SET " +:+ nl +:+ "  NULL") = "SET NULL" ∧
  trim (" " +:+ nl +:+ "a b" +:+ utf8 0xA0) = "a b".
Proof. by vm_compute. Qed.

(** C38 *)
Theorem parse_error_points data line n k :
  line_at data line n → (k < String.length line)%nat →
  parse_error_text (Z.of_nat (n + k)) data = Some (line +:+ nl +:+ spaces k +:+ "^").
Proof. apply error_inside. Qed.
Print Assumptions parse_error_points.
Theorem parse_error_newline data line n :
  line_at data line (S n) → (n < String.length data)%nat →
  parse_error_text (Z.of_nat n) data = Some (line +:+ nl +:+ "^").
Proof. apply error_newline. Qed.
Print Assumptions parse_error_newline.
Theorem parse_error_total cs data :
  0 ≤ cs → (∃ t, parse_error_text cs data = Some t) ∧
  (Z.of_nat (String.length data) ≤ cs → parse_error_text cs data = Some "error after end of data") ∧
  (cs < Z.of_nat (String.length data) → ∃ line n, line_at data line n ∧
    (Z.of_nat n ≤ cs < Z.of_nat n + Z.of_nat (String.length line) ∨ Z.of_nat n = cs + 1)).
Proof.
  intros H. split; [by apply error_total|]. split.
  - intros Hl. unfold parse_error_text. by rewrite bool_decide_true.
  - intros Hl. by apply offset_line.
Qed.
Print Assumptions parse_error_total.
Example parse_error_example :
  line_at ("ab" +:+ nl +:+ "cde" +:+ nl +:+ "f") "cde" 3 ∧
  parse_error_text 4 ("ab" +:+ nl +:+ "cde" +:+ nl +:+ "f") = Some ("cde" +:+ nl +:+ " ^") ∧
  parse_error_text 2 ("ab" +:+ nl +:+ "cde" +:+ nl +:+ "f") = Some ("cde" +:+ nl +:+ "^").
Proof.
  split; [|by vm_compute]. exists ("ab" +:+ nl), (nl +:+ "f"). split; [done|]. split; [done|].
  split; [by apply no_newline_lit|]. split; [right; by exists "ab"|]. right. by eexists _, _.
Qed.

(** C39 *)
Theorem storage_independent pf p :
  (∀ key v, ¬ known key → storage_set pf p key v = (p, true)) ∧
  (∀ key v key' field k, (key', field, k) ∈ parameters → key' ≠ key →
    (storage_set pf p key v).1 !! field = p !! field) ∧
  (** it succeeds exactly on the texts that say a value, which is then stored *)
  (∀ key field k v p', (key, field, k) ∈ parameters →
    storage_set pf p key v = (p', true) ↔ ∃ x, says pf k v x ∧ p' = <[field := x]> p) ∧
  (∀ l l' key field k v x, (key, field, k) ∈ parameters → says pf k v x → key ∉ l'.*1 →
    set_all pf p (l ++ (key, v) :: l') !! field = Some x) ∧
  (∀ l key field k, (key, field, k) ∈ parameters → key ∉ l.*1 → set_all pf p l !! field = p !! field).
Proof.
  split; [intros; by apply set_unknown|]. split; [intros; by eapply set_other|].
  split; [intros; by apply set_known_ok|]. split; [intros; by eapply set_all_last|].
  intros; by eapply set_all_other.
Qed.
Print Assumptions storage_independent.
(** A Set that reports an error has stored a value all the same. *)
Theorem storage_error_refuted : ∃ pf p key v field,
  (storage_set pf p key v).2 = false ∧ p !! field = None ∧ (storage_set pf p key v).1 !! field = Some (VBool false).
Proof.
  exists (λ _, ("", false)), ∅, "autovacuum_enabled", "on", "AutovacuumEnabled". by split_and!.
Qed.
Print Assumptions storage_error_refuted.
Example storage_example :
  ("fillfactor", "Fillfactor", KInt) ∈ parameters ∧ says (λ _, ("", false)) KInt "-70" (VInt (-70)) ∧
  ¬ known "fill_factor".
Proof.
  split_and!.
  - by left.
  - exists (-70). split; [done|]. apply (decimal_pretty (-70)). by unfold max_int.
  - intros (f & k & H). unfold parameters in H.
    repeat (apply elem_of_cons in H as [[=]|H]). by apply elem_of_nil in H.
Qed.
