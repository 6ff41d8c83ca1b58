(** runbook run, from the line to the directory of the commands: C146. *)
From Coq Require Import String Ascii.
From stdpp Require Import gmap list strings numbers relations.
From Verif Require Import GoBase GoStrings GoStringsProofs JsonModel JsonSpec ParserModel ParserSpec SchedModel SchedSpec
  RunnerModel RunnerSpec RunnerProofs EffectsModel EffectsSpec EffectsProofs EffectsProps FineModel FineProofs.
From Verif Require Import CliModel ArgsModel ArgsSpec ProgModel ProgSpec ProgProofs ProgProps ProgRunModel ProgRunProps ProgShProps.
From Verif Require Import PathModel PathSpec PathProofs PathProps ShRunProps.
From Verif Require Import JsonParserModel.
From Verif Require EffectsExamples.
Local Open Scope Z_scope.

(** C146: every command that a pgutil runbook run FILE starts in the directory in which
    FILE was found. *)
Theorem run_line_beside s h did modern ws w r file v fs wd cwd d :
  let x := program s modern ws w in
  faithful s h did → (∀ n A (m : gmap string A), range_of m (s_order s n A m)) →
  x_ran x = Some r → q_command r = BookRun file →
  (∀ files, (∀ p, q_debug r ≠ Some p → files !! p = w_files w !! p) → s_jsonnet s file files = Some v) →
  document_given_once v →
  basedir (Some wd) file = Some (h_basedir h) → (∀ b, document_says v b → ok_host b h) →
  fs [] = Some Dir → begins_with "/" wd → means fs [] wd cwd → lies_in fs cwd file d →
  (no_links fs ∨ (never_up wd ∧ never_up file)) →
  ∃ w1, (∀ p, q_debug r ≠ Some p → w_files w1 !! p = w_files w !! p) ∧ x_status x = code (s_run s file w1).2 ∧
    ∀ q t args dir environ, Does q t (EffectsModel.Runs args dir environ) ∈ did file w1 →
      straight dir ∧ ∀ cwd', means fs cwd' dir d.
Proof.
  intros x Hfaith Hord Hr Hq Hread Hv Hbase Hh Hroot Hwd Hcwd Hl Hc.
  destruct (run_line_commands s h did modern ws w r file v Hfaith Hord Hr Hq Hread Hv) as (w1 & H1 & H2 & H3).
  exists w1. split; [done|]. split; [done|]. intros q t args dir environ Hin.
  destruct (H3 q t args dir environ Hin) as (b & Hb & Hall).
  destruct (Hall (Hh b Hb)) as (k & n & te & e & name & rest & _ & _ & _ & _ & _ & -> & _).
  destruct (base_directory_partial fs wd cwd file d Hroot Hwd Hcwd Hl Hc) as (y & Hy & G1 & G2).
  assert (y = h_basedir h) as <- by congruence. done.
Qed.
Print Assumptions run_line_beside.
(** The line, the runbook and the run of [run_line_commands_example]; pgutil is started in /b. *)
Lemma doc_only b : document_says EffectsExamples.ex_doc b → b = EffectsExamples.ex_book.
Proof.
  assert (∀ b, document_says EffectsExamples.ex_doc b → parse_json EffectsExamples.ex_doc ["sh"; "db"; "demo"] ["one"; "two"; "d1"; "d2"; "d3"] = Ok b) as Hall.
  { intros b'. eapply JsonProps.json_exact; [apply doc_once|EffectsExamples.order_doc|EffectsExamples.order_doc]. }
  intros Hb%Hall. pose proof (Hall _ doc_says). congruence.
Qed.
Example run_line_beside_example :
  let x := program run_setting true ["runbook"; "run"; "book.jsonnet"] ex_world in
  faithful run_setting EffectsExamples.ex_host run_did ∧
  (∃ r, x_ran x = Some r ∧ q_command r = BookRun "book.jsonnet" ∧ q_debug r = None) ∧
  (∀ b, document_says EffectsExamples.ex_doc b → ok_host b EffectsExamples.ex_host) ∧
  basedir (Some "/b") "book.jsonnet" = Some (h_basedir EffectsExamples.ex_host) ∧
  ex_system [] = Some Dir ∧ begins_with "/" "/b" ∧ means ex_system [] "/b" ["b"] ∧
  lies_in ex_system ["b"] "book.jsonnet" ["b"] ∧ never_up "/b" ∧ never_up "book.jsonnet" ∧
  ∃ q, Does q "one" (EffectsModel.Runs ["ls"; "-l"] "/b" ["HOME=/r"; "A=1"]) ∈ run_did "book.jsonnet" ex_world.
Proof.
  cbv zeta. destruct run_line_commands_example as (H1 & H2 & _ & _ & H5 & H6).
  assert (Hpb : plain "b") by by (unfold plain; split_and!).
  assert (Hno : ∀ c s, contains_byte c s = false → ¬ has_byte c s).
  { intros c s H H'. apply contains_byte_spec in H'. congruence. }
  split_and!; [done|done|by intros b ->%doc_only|by vm_compute|done|by eexists| | | | |done].
  - eexists. split; [apply pieces_parts|]. left. split; [by eexists|]. change (pieces "/b") with [""; "b"].
    apply walks_stay; [by left|done|]. eapply (walks_in _ [] "b"); [done..|]. apply walks_end.
  - exists "", "book.jsonnet". split_and!; [done|by apply Hno|by left|].
    eexists. split; [apply pieces_parts|]. right. split; [by intros [y Hy]|]. change (pieces "") with [""].
    apply walks_stay; [by left|done|]. apply walks_end.
  - intros cs ->%parts_pieces. apply (bool_decide_unpack _). by vm_compute.
  - intros cs ->%parts_pieces. apply (bool_decide_unpack _). by vm_compute.
Qed.
