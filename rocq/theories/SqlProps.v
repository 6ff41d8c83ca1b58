(** What the generated SQL says to PostgreSQL: C80, C81. *)
From Coq Require Import String Ascii.
From stdpp Require Import list strings numbers.
From Verif Require Import GoStrings GoStringsProofs GoUtf8 GoUtf8Proofs DdlModel DdlSpec DdlProofs SqlLex SqlLexProofs.
Local Open Scope Z_scope.

(** A text has at most one reading, so the statements below are what is read. *)
Theorem sql_reading_unique s ts ts' : lexes s ts → lexes s ts' → ts = ts'.
Proof. apply lexes_functional. Qed.
Print Assumptions sql_reading_unique.

(** C80 *)
Theorem index_sql_says i ts : ix_primary i = true →
  lexes (index_to_sql i) ts ↔ ts = primary_key_statement (ix_table i) (ix_name i) (ik_column <$> ix_keys i).
Proof.
  intros H. split; [|intros ->; by apply index_statement].
  intros Hl. eapply lexes_functional; [done|]. by apply index_statement.
Qed.
Print Assumptions index_sql_says.
Theorem table_sql_says t cols checks ts :
  tb_columns t ≠ [] ∨ tb_checks t = [] →
  Forall2 column_reads (tb_columns t) cols → Forall2 check_reads (tb_checks t) checks →
  lexes (table_to_sql t) ts ↔ ts = create_table_statement (tb_name t) (cols ++ checks).
Proof.
  intros Hne Hc Hk. split; [|intros ->; by apply table_statement].
  intros Hl. eapply lexes_functional; [done|]. by apply table_statement.
Qed.
Print Assumptions table_sql_says.
Theorem trigger_sql_says t whn fn ts :
  reads (tg_when t) whn → reads (tg_function t) fn →
  lexes (trigger_to_sql t) ts ↔
    ts = create_trigger_statement (tg_name t) whn (tg_update t) (tg_table t) (tg_each_row t) fn.
Proof.
  intros Hw Hf. split; [|intros ->; by apply trigger_statement].
  intros Hl. eapply lexes_functional; [done|]. by apply trigger_statement.
Qed.
Print Assumptions trigger_sql_says.
Theorem function_sql_says f name returns ts :
  reads (fn_name f) name → reads (fn_returns f) returns →
  dollar_text (nl +:+ fn_definition f) → plain_text (fn_language f) →
  lexes (func_to_sql f) ts ↔
    ts = create_function_statement name returns (nl +:+ fn_definition f) (fn_language f).
Proof.
  intros Hn Hr Hd Hl. split; [|intros ->; by apply func_statement].
  intros H. eapply lexes_functional; [done|]. by apply func_statement.
Qed.
Print Assumptions function_sql_says.

Definition ex_age : column := Column "age" "integer" true "0" "".
Definition ex_made : column := Column "made ""at""" "timestamp with time zone" false "now()" "".
Definition ex_bio : column := Column "bio" "character varying(20)" false "" "".
Definition ex_positive : check := Check "positive" "age > 0" false false.
Example sql_says_example :
  Forall2 column_reads [ex_age; ex_made; ex_bio]
    [ [Name "age"; Word "integer"; Word "NOT"; Word "NULL"; Word "DEFAULT"; Word "0"];
      [Name "made ""at"""; Word "timestamp"; Word "with"; Word "time"; Word "zone"; Word "DEFAULT";
       Word "now"; Sym "("; Sym ")"];
      [Name "bio"; Word "character"; Word "varying"; Sym "("; Word "20"; Sym ")"] ] ∧
  Forall2 check_reads [ex_positive] [ [Word "CHECK"; Sym "("; Word "age"; Sym ">"; Word "0"; Sym ")"] ] ∧
  reads "AFTER" [Word "AFTER"] ∧ reads "public.f" [Word "public"; Sym "."; Word "f"] ∧
  dollar_text (nl +:+ "BEGIN RETURN $1; END;") ∧ plain_text "plpgsql".
Proof.
  split_and!.
  - constructor; [|constructor; [|constructor; [|constructor]]].
    + apply (column_reads_intro ex_age [Word "integer"] (Some [Word "0"])).
      * by apply kw_reads.
      * split; [done|by apply kw_reads].
    + apply (column_reads_intro ex_made [Word "timestamp"; Word "with"; Word "time"; Word "zone"]
        (Some [Word "now"; Sym "("; Sym ")"])).
      * by apply kw_reads.
      * split; [done|by apply kw_reads].
    + apply (column_reads_intro ex_bio [Word "character"; Word "varying"; Sym "("; Word "20"; Sym ")"] None).
      * by apply kw_reads.
      * done.
  - constructor; [|constructor].
    apply (check_reads_intro ex_positive [Word "age"; Sym ">"; Word "0"]). by apply kw_reads.
  - by apply kw_reads.
  - by apply kw_reads.
  - apply no_dollar_pair_text. by vm_compute.
  - intros H. by apply (contains_byte_spec squote) in H.
Qed.

(** C81: the parts copied without quoting decide what is read. *)
Definition ex_broken_body : func :=
  Func "s" "f" "" "" "void" "sql" "SELECT 1 $$ LANGUAGE sql; DROP TABLE users; --".
Theorem function_body_refuted : ∃ f before,
  reads (fn_name f) [Word (fn_name f)] ∧ reads (fn_returns f) [Word (fn_returns f)] ∧ plain_text (fn_language f) ∧
  lexes (func_to_sql f) (before ++ [Sym ";"] ++ words ["DROP"; "TABLE"; "users"] ++ [Sym ";"; Sym ";"]).
Proof.
  exists ex_broken_body, (words ["CREATE"; "OR"; "REPLACE"; "FUNCTION"; "f"] ++ [Sym "("; Sym ")"] ++
    words ["RETURNS"; "void"; "AS"] ++ [Text (nl +:+ "SELECT 1 ")] ++ words ["LANGUAGE"; "sql"]).
  split; [by apply kw_reads|]. split; [by apply kw_reads|].
  split; [intros H; by apply (contains_byte_spec squote) in H|].
  apply (kw_closed ("CREATE OR REPLACE FUNCTION f()" +:+ nl +:+ "RETURNS void AS ")
    (words ["CREATE"; "OR"; "REPLACE"; "FUNCTION"; "f"] ++ [Sym "("; Sym ")"] ++ words ["RETURNS"; "void"; "AS"]));
    [by vm_compute|].
  apply (lex_dollar (nl +:+ "SELECT 1 ")
    (" LANGUAGE sql; DROP TABLE users; " +:+ "--" +:+ "$$ LANGUAGE 'sql'" +:+ nl +:+ ";" +:+ nl)
    (words ["LANGUAGE"; "sql"] ++ [Sym ";"] ++ words ["DROP"; "TABLE"; "users"] ++ [Sym ";"; Sym ";"]));
    [by apply no_dollar_pair_text|].
  apply (kw_closed " LANGUAGE sql; DROP TABLE users; "
    (words ["LANGUAGE"; "sql"] ++ [Sym ";"] ++ words ["DROP"; "TABLE"; "users"] ++ [Sym ";"])); [by vm_compute|].
  apply lex_comment.
  - intros H. by apply (contains_byte_spec newline) in H.
  - rewrite (eq_refl : nl +:+ ";" +:+ nl = String newline (";" +:+ nl)), starts_cons. by intros [].
  - apply (kw_closed (nl +:+ ";" +:+ nl) [Sym ";"] "" []); [by vm_compute|constructor].
Qed.
Print Assumptions function_body_refuted.
(** A table with a check and no column. *)
Theorem table_checks_refuted : ∃ t checks after,
  tb_columns t = [] ∧ Forall2 check_reads (tb_checks t) checks ∧
  lexes (table_to_sql t) (words ["CREATE"; "TABLE"] ++ [Name (tb_name t); Sym "("; Sym ","] ++ after).
Proof.
  exists (Table "s" "t" "" "" [] [ex_positive] []),
    [ [Word "CHECK"; Sym "("; Word "age"; Sym ">"; Word "0"; Sym ")"] ],
    [Word "CHECK"; Sym "("; Word "age"; Sym ">"; Word "0"; Sym ")"; Sym ")"; Sym ";"].
  split; [done|]. split.
  { constructor; [|constructor].
    apply (check_reads_intro ex_positive [Word "age"; Sym ">"; Word "0"]). by apply kw_reads. }
  apply (kw_closed "CREATE TABLE " [Word "CREATE"; Word "TABLE"]); [by vm_compute|].
  apply lex_quoted; [by apply no_quote_next|].
  apply (kw_closed (" (" +:+ nl +:+ ", CHECK(age > 0)" +:+ nl +:+ ")" +:+ nl +:+ ";" +:+ nl)
    [Sym "("; Sym ","; Word "CHECK"; Sym "("; Word "age"; Sym ">"; Word "0"; Sym ")"; Sym ")"; Sym ";"] "" []);
    [by vm_compute|constructor].
Qed.
Print Assumptions table_checks_refuted.
