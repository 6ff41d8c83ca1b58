(** runbook run, from the line to the processes: C145. *)
From Coq Require Import String Ascii.
From stdpp Require Import gmap list strings numbers relations.
From Verif Require Import GoBase GoStrings GoStringsProofs JsonModel JsonSpec ParserModel ParserSpec SchedModel SchedSpec
  RunnerModel RunnerSpec RunnerProofs EffectsModel EffectsSpec EffectsProofs EffectsProps FineModel FineProofs.
From Verif Require Import CliModel ArgsModel ArgsSpec ProgModel ProgSpec ProgProofs ProgProps ProgRunModel ProgRunProps.
From Verif Require Import ShModel ShSpec ShExecModel ShExecSpec ShLookModel ShLookSpec ShLookProps ShRunSpec ShRunProps.
From Verif Require EffectsExamples.
Local Open Scope Z_scope.

(** C145: every process a pgutil runbook run starts. *)
Theorem run_line_commands s h did modern ws w r file v :
  let x := program s modern ws w in
  faithful s h did → (∀ n A (m : gmap string A), range_of m (s_order s n A m)) →
  x_ran x = Some r → q_command r = BookRun file →
  (∀ files, (∀ p, q_debug r ≠ Some p → files !! p = w_files w !! p) → s_jsonnet s file files = Some v) →
  document_given_once v →
  ∃ w1,
    (** the run of this process *)
    (∀ p, q_debug r ≠ Some p → w_files w1 !! p = w_files w !! p) ∧ x_status x = code (s_run s file w1).2 ∧
    ∀ q t args dir environ, Does q t (EffectsModel.Runs args dir environ) ∈ did file w1 →
      ∃ b, document_says v b ∧ (ok_host b h →
      ∃ k n te e name rest,
        bk_tasks b !! t = Some k ∧ b_target k = q ∧ bk_targets b !! q = Some (ShTarget n te) ∧
        b_config k = ShExec args e ∧ args = name :: rest ∧ dir = h_basedir h ∧
        (good_names te → good_names e → ∀ y, good_name y → knows te e (h_environ h) y (dedup_loop environ [] ∅)) ∧
        (∀ m dirs, lists_dirs (m_path m) dirs → Forall (begins_with "/") dirs →
          ∀ f, program_file m dir name = Some f ↔ stands_for (m_executable m) dirs (h_basedir h) name f)).
Proof.
  intros x Hfaith Hord Hr Hq Hread Hv.
  destruct (program_ran s modern ws w r Hr) as (files & w2 & e & Hf & _ & Hc & Hs & _).
  unfold x in *. rewrite Hs. set (w1 := say s r (first_messages s r ++ _) _) in Hc. exists w1.
  assert (Hw1 : ∀ p, q_debug r ≠ Some p → w_files w1 !! p = w_files w !! p).
  { intros p Hp. unfold w1. rewrite (say_files s r _ _ p Hp). simpl. destruct (Hf p) as [|(_ & _ & _ & ?)]; done. }
  assert (Hj : s_jsonnet s file (w_files w1) = Some v) by by apply Hread.
  pose proof (λ b, book_exact s file (w_files w1) v b Hj Hv Hord) as Hb.
  pose proof (λ b, book_good s file (w_files w1) v b Hj Hv Hord) as Hgood.
  unfold command_run in Hc. rewrite Hq in Hc. injection Hc as Hrun Hl.
  split; [done|]. split; [by rewrite Hrun|].
  pose proof (Hfaith file w1) as Hbr. intros q t args dir environ Hd.
  assert (∃ b st tr, book_in s file (w_files w1) = Ok b ∧ executes (run_book b h) st tr ∧
    Does q t (EffectsModel.Runs args dir environ) ∈ effects b h tr) as (b & st & tr & Hbk & He & Hin).
  { destruct Hbr as [er Hbk|Hbk|b st tr E m p r0 Hbk He Hfine|b st tr E m p Hbk He Hfine|b st tr E m p Hbk He Hfine];
      [by apply elem_of_nil in Hd..| | |];
      destruct (fine_on b h _ _ _ _ Hfine) as (_ & _ & HE & _); exists b, st, tr; auto. }
  exists b. split; [by apply Hb|]. intros Hh. by apply (run_commands b h st tr q t args dir environ (Hgood b Hbk) Hh He Hin).
Qed.
Print Assumptions run_line_commands.
(** The line and the runbook are those of [run_end_to_end_example]; its task "one" runs ls. *)
Example run_line_commands_example :
  let x := program run_setting true ["runbook"; "run"; "book.jsonnet"] ex_world in
  faithful run_setting EffectsExamples.ex_host run_did ∧
  (∃ r, x_ran x = Some r ∧ q_command r = BookRun "book.jsonnet" ∧ q_debug r = None) ∧
  document_given_once EffectsExamples.ex_doc ∧ document_says EffectsExamples.ex_doc EffectsExamples.ex_book ∧
  ok_host EffectsExamples.ex_book EffectsExamples.ex_host ∧
  ∃ q, Does q "one" (EffectsModel.Runs ["ls"; "-l"] "/b" ["HOME=/r"; "A=1"]) ∈ run_did "book.jsonnet" ex_world.
Proof.
  cbv zeta. destruct run_end_to_end_example as (H1 & _). split_and!;
    [apply run_faithful|done|apply doc_once|apply doc_says|apply EffectsExamples.ex_ok_host|].
  unfold run_did. rewrite decide_True by by vm_compute. apply run_commands_example.
Qed.
