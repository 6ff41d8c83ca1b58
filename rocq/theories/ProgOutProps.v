(** Commands that print to the standard output: C126, C131 and C132 for a line without -o
    (or with -o -). *)
From Coq Require Import String Ascii.
From stdpp Require Import gmap list strings numbers sorting.
From Verif Require Import GoBase GoStrings GoStringsProofs ParserModel JsonModel JsonSpec.
From Verif Require Import CliModel CliSpec CliProofs CliProps.
From Verif Require Import HclModel HclSpec HclProps.
From Verif Require Import ArgsModel ArgsSpec.
From Verif Require Import ProgModel ProgSpec ProgLineProofs ProgProofs ProgProps.
From Verif Require PgModel PgSpec PgProps DdlModel SysModel SysSpec SysServer SysExamples SysProps JsonProps HclText.
Local Open Scope Z_scope.

(** Nothing is logged to the standard output: -v is not given, and what the command logs
    is neither a warning nor an error. *)
Definition quiet (s : setting) (r : request) : Prop :=
  q_verbosity r ≤ 1 ∧
  Forall (λ m, m.1 = Info ∨ m.1 = Debug) ((s_chatter s (q_command r)).1 ++ (s_chatter s (q_command r)).2).

Lemma quiet_first s r w : quiet s r → w_stdout (say s r (first_messages s r ++ (s_chatter s (q_command r)).1) w) = w_stdout w.
Proof.
  intros [Hv [C1 _]%list.Forall_app]. apply say_quiet; [done|]. apply list.Forall_app. split; [|done].
  unfold first_messages. apply list.Forall_app. split.
  - destruct (q_debug r); [|by apply list.Forall_nil]. apply list.Forall_singleton. by left.
  - apply list.Forall_singleton. by left.
Qed.
Lemma quiet_last s r w : quiet s r → w_stdout (say s r (s_chatter s (q_command r)).2 w) = w_stdout w.
Proof. intros [Hv [_ C2]%list.Forall_app]. by apply say_quiet. Qed.

(** C132: runbook eval prints what Jsonnet makes of the file, formatted, and nothing else. *)
Theorem eval_printed s modern ws w r file color out v :
  let x := program s modern ws w in
  x_ran x = Some r → q_command r = BookEval file color out → out = "" ∨ out = "-" → quiet s r →
  reads s r w file v → (∀ t, put (s_disk s) "-" t = (t, true)) →
  x_status x = 0 ∧ x_links x = [] ∧
  (∀ p, q_debug r ≠ Some p → w_files (x_world x) !! p = w_files w !! p) ∧
  ∃ c, w_stdout (x_world x) = w_stdout w +:+ s_pretty s c v ∧
    (color = "true" → c = true) ∧ (color = "false" → c = false) ∧ (color = "auto" → c = s_tty s "-").
Proof.
  intros x Hr Hq Hout Hquiet Hread Hput.
  destruct (program_ran s modern ws w r Hr) as (files & w2 & e & Hf & _ & Hc & Hs & Hfs & _ & Hx).
  unfold x in *. pose proof (quiet_first s r (World files (w_stdout w)) Hquiet) as Hw1.
  set (w1 := say s r (first_messages s r ++ _) _) in *.
  assert (Hfiles : ∀ p, q_debug r ≠ Some p → w_files w1 !! p = w_files w !! p).
  { intros p Hp. unfold w1. rewrite (say_files s r _ _ p Hp). simpl. destruct (Hf p) as [|(_ & _ & _ & ?)]; done. }
  unfold command_run in Hc. rewrite Hq in Hc. injection Hc as Hl Hlinks. unfold eval_book, eval_command in Hl.
  replace (if decide (out ≠ "") then out else "-") with "-" in Hl by (by destruct Hout as [-> | ->]).
  cbn [create decide decide_rel] in Hl. unfold create in Hl. rewrite decide_True in Hl by done.
  assert (Hj : s_jsonnet s file (w_files w1) = Some v) by (apply Hread; auto).
  rewrite Hj in Hl. unfold write in Hl. rewrite Hput, decide_True in Hl by done. simpl in Hl. injection Hl as <- <-.
  rewrite Hs. split; [done|]. split; [done|]. rewrite Hx by done. split.
  - intros p Hp. rewrite (say_files s r _ _ p Hp). simpl. auto.
  - eexists. rewrite quiet_last by done. simpl. rewrite Hw1. split; [done|].
    unfold eval_color. split_and!; by intros ->.
Qed.
Print Assumptions eval_printed.

(** C131: runbook dot prints the graph of the runbook, and nothing else. *)
Theorem dot_printed s modern ws w r file out auto splines v :
  let x := program s modern ws w in
  (∀ n A (m : gmap string A), range_of m (s_order s n A m)) →
  x_ran x = Some r → q_command r = BookDot file out auto splines → out = "-" ∨ (out = "" ∧ auto = false) → quiet s r →
  reads s r w file v → document_given_once v → (∀ t, put (s_disk s) "-" t = (t, true)) →
  (x_status x = 0 ↔ ∃ b, document_says v b) ∧ x_links x = [] ∧
  (∀ p, q_debug r ≠ Some p → w_files (x_world x) !! p = w_files w !! p) ∧
  ∀ b, document_says v b → ∃ calls, w_stdout (x_world x) = w_stdout w +:+ s_graph s calls ∧
    (∀ g n, (g, n) ∈ nodes calls ↔ ∃ t, bk_tasks b !! n = Some t ∧ g = "cluster_" +:+ b_target t) ∧ NoDup (nodes calls).*2 ∧
    (∀ n t, bk_tasks b !! n = Some t → sources_of n calls = b_after t).
Proof.
  intros x Hord Hr Hq Hout Hquiet Hread Hv Hput.
  destruct (program_ran s modern ws w r Hr) as (files & w2 & e & Hf & _ & Hc & Hs & Hfs & _ & Hx).
  unfold x in *. pose proof (quiet_first s r (World files (w_stdout w)) Hquiet) as Hw1.
  set (w1 := say s r (first_messages s r ++ _) _) in *.
  assert (Hfiles : ∀ p, q_debug r ≠ Some p → w_files w1 !! p = w_files w !! p).
  { intros p Hp. unfold w1. rewrite (say_files s r _ _ p Hp). simpl. destruct (Hf p) as [|(_ & _ & _ & ?)]; done. }
  unfold command_run in Hc. rewrite Hq in Hc. injection Hc as Hl Hlinks. unfold dot_book in Hl.
  replace (dot_output file out auto) with "-" in Hl by (by destruct Hout as [-> |[-> ->]]).
  unfold create in Hl. rewrite decide_True in Hl by done.
  assert (Hj : s_jsonnet s file (w_files w1) = Some v) by (apply Hread; auto).
  pose proof (λ b, book_exact s file (w_files w1) v b Hj Hv Hord) as Hb.
  assert (Hkeep : ∀ p, q_debug r ≠ Some p → w_files w2 !! p = w_files w1 !! p).
  { intros p _. destruct (book_in s file (w_files w1)); injection Hl as <- _; [|done..].
    unfold write. by rewrite Hput, decide_True. }
  rewrite Hs. split; [|split; [done|split]].
  - destruct (book_in s file (w_files w1)) as [b| |] eqn:Hbook; injection Hl as _ <-.
    + split; [|done]. intros _. exists b. by apply Hb.
    + split; [done|]. by intros [b' Hb'%Hb].
    + split; [done|]. by intros [b' Hb'%Hb].
  - intros p Hp. rewrite Hfs, (say_files s r _ _ p Hp), Hkeep by done. auto.
  - intros b Hb'%Hb. rewrite Hb' in Hl. injection Hl as <- <-. eexists. rewrite Hx, quiet_last by done. split.
    + unfold write. rewrite Hput, decide_True by done. simpl. by rewrite Hw1.
    + destruct (dot_graph b splines (s_order s 2 _ (bk_targets b)) (s_order s 3 _ (bk_tasks b))) as (_ & _ & G1 & G2 & G3 & _);
        [apply Hord..|]. done.
Qed.
Print Assumptions dot_printed.

(** C126: inspect prints a description of the database, and nothing else. *)
Theorem inspect_printed s modern ws w r c out cols checks idx :
  let x := program s modern ws w in
  x_ran x = Some r → q_command r = Inspect c out cols checks idx → out = "" ∨ out = "-" → quiet s r →
  ok_disk (s_disk s) → x_status x = 0 →
  (∀ p, q_debug r ≠ Some p → w_files (x_world x) !! p = w_files w !! p) ∧
  ∃ env cfg db d text, s_env s = Some env ∧ x_links x = [Opens cfg; Closes cfg] ∧ asked_for c env cfg ∧
    database_kept db d ∧ w_stdout (x_world x) = w_stdout w +:+ text ∧
    (** the content of the catalogues *)
    (∀ sy, SysSpec.sane sy → PgSpec.ok_sorter (s_sorter s) → SysSpec.served sy (s_server s cfg) →
      SysSpec.database_of (s_floats s) sy db) ∧
    (** the order of the columns *)
    (∀ ct, cols = true → PgSpec.ok_sorter (s_sorter s) → PgSpec.serves ct (s_server s cfg) →
      Forall (λ t, StronglySorted str_le (DdlModel.co_name <$> DdlModel.tb_columns t.1)) (PgModel.db_tables db)) ∧
    (** the content of the text *)
    (∀ n good finite, ok_lib (s_hcl s) n good finite →
      Forall (λ q, Forall in_range [PgModel.sq_start q; PgModel.sq_minimum q; PgModel.sq_maximum q; PgModel.sq_increment q; PgModel.sq_cache q]) (PgModel.db_sequences db) →
      (∀ t p f y, (t, p) ∈ PgModel.db_tables db → p !! f = Some (DdlModel.VFloat y) → finite y) →
      every_text good d → every_text (λ t, n t = t) d →
      parse_bytes (s_hcl s) text = Some d).
Proof.
  intros x Hr Hq Hout Hquiet Hok Hst.
  destruct (program_ran s modern ws w r Hr) as (files & w2 & e & Hf & _ & Hc & Hs & Hfs & _ & Hx).
  unfold x in *. pose proof (quiet_first s r (World files (w_stdout w)) Hquiet) as Hw1.
  rewrite Hs in Hst. assert (e = Done) as -> by by destruct e.
  set (w1 := say s r (first_messages s r ++ _) _) in *.
  assert (Hfiles : ∀ p, q_debug r ≠ Some p → w_files w1 !! p = w_files w !! p).
  { intros p Hp. unfold w1. rewrite (say_files s r _ _ p Hp). simpl. destruct (Hf p) as [|(_ & _ & _ & ?)]; done. }
  unfold command_run in Hc. rewrite Hq in Hc.
  destruct (connected_cases s r c (inspect s out (PgModel.InspectOptions checks cols idx)) w1) as [(cfg & E & Hcfg & _)|[E _]];
    rewrite E in Hc; [|done].
  injection Hc as Hi Hl. unfold inspect in Hi.
  destruct (PgModel.inspect (s_sorter s) (s_floats s) (PgModel.InspectOptions checks cols idx) (s_server s cfg)) as [db| | |] eqn:Hdb; try done.
  unfold inspect_command in Hi.
  replace (if decide (out = "") then "-" else out) with "-" in Hi by (by destruct Hout as [-> | ->]).
  unfold create in Hi. rewrite decide_True in Hi by done. unfold write in Hi.
  destruct (put (s_disk s) "-" (db_text (s_hcl s) (file_of db))) as [a ok] eqn:Hput. rewrite decide_True in Hi by done.
  injection Hi as <- Hok'. assert (ok = true) as -> by by destruct ok.
  apply Hok in Hput as [Ha _]. rewrite Ha in * by done. clear a Ha.
  destruct (configured_asked s c cfg Hcfg) as (env & Henv & Hask). split.
  { intros p Hp. rewrite Hfs, (say_files s r _ _ p Hp). simpl. auto. }
  exists env, cfg, db, (file_of db), (db_text (s_hcl s) (file_of db)).
  split_and!; [done|done|done|apply file_of_kept| | | |].
  - rewrite Hx, quiet_last by done. simpl. by rewrite Hw1.
  - intros sy Hsane Hsort Hserved. by eapply SysProps.inspected_partial.
  - intros ct Hcols Hsort Hserves.
    by destruct (PgProps.sort_partial (s_sorter s) (s_floats s) (PgModel.InspectOptions checks cols idx) ct (s_server s cfg) db
      Hsort Hserves Hdb) as [Hsorted _]; apply Hsorted.
  - intros n gd finite Hlib Hseq Hfl Hg Hn.
    pose proof (inspected_file (s_hcl s) n gd finite _ _ _ _ db (file_of db) good "f" (World ∅ "") _ Hlib Hdb (file_of_kept db)
      Hseq Hfl Hg Hn ltac:(by intros t a [= ->]) ltac:(done) ltac:(done) eq_refl) as Hp.
    unfold parse_file in Hp. simpl in Hp. rewrite lookup_insert in Hp. exact Hp.
Qed.
Print Assumptions inspect_printed.

(** * Examples *)

Lemma ex_quiet r : q_verbosity r ≤ 1 → quiet ex_setting r.
Proof.
  intros Hv. split; [done|]. simpl. apply list.Forall_cons; split; [by right|]. apply list.Forall_singleton. by left.
Qed.
Example eval_printed_example :
  let x := runs ["runbook"; "eval"; "book.jsonnet"] in
  (∃ r, x_ran x = Some r ∧ q_command r = BookEval "book.jsonnet" "auto" "" ∧ quiet ex_setting r ∧
    reads ex_setting r ex_world "book.jsonnet" JsonProps.ex_json) ∧
  x_status x = 0 ∧ w_stdout (x_world x) = "json".
Proof.
  cbv zeta. split_and!; [|by vm_compute..]. eexists. split; [vm_compute; reflexivity|]. split; [done|].
  split; [by apply ex_quiet|]. apply ex_reads; [done|]. intros [Hp Hn]%written_outlet. vm_compute in Hp. done.
Qed.
Example dot_printed_example :
  let x := runs ["runbook"; "dot"; "book.jsonnet"] in
  (∃ r, x_ran x = Some r ∧ q_command r = BookDot "book.jsonnet" "" false "" ∧ quiet ex_setting r ∧
    reads ex_setting r ex_world "book.jsonnet" JsonProps.ex_json) ∧
  x_status x = 0 ∧ w_stdout (x_world x) = "graph".
Proof.
  cbv zeta. split_and!; [|by vm_compute..]. eexists. split; [vm_compute; reflexivity|]. split; [done|].
  split; [by apply ex_quiet|]. apply ex_reads; [done|]. intros [Hp Hn]%written_outlet. vm_compute in Hp. done.
Qed.
Example inspect_printed_example :
  let x := runs ["inspect"; "--host=up"] in
  (∃ r c, x_ran x = Some r ∧ q_command r = Inspect c "" false false false ∧ quiet ex_setting r) ∧ x_status x = 0 ∧
  is_Some (parse_bytes HclText.plain_lib (w_stdout (x_world x))).
Proof.
  cbv zeta. split_and!; [|by vm_compute|].
  - do 2 eexists. split; [vm_compute; reflexivity|]. split; [reflexivity|]. by apply ex_quiet.
  - vm_compute. by eexists.
Qed.
