(** Files of tasks: C117, C118. *)
From Coq Require Import String Ascii.
From stdpp Require Import gmap list strings numbers.
From Verif Require Import HclModel HclSpec HclProofs HclText HclTextProofs HclExamples DemoModel ParserSpec ParserProofs.
From Verif Require Import TasksetModel TasksetSpec TasksetProofs TasksetFileModel TasksetFileSpec TasksetFileProofs.
Local Open Scope Z_scope.

(** C117: exactly which files are accepted, and what they mean. *)
Theorem task_file_exact L fs files name ts tasks :
  parse_task_file L fs files name = inr (ts, tasks) ↔
  ∃ src b, files !! name = Some src ∧ hl_read L src = Some b ∧ task_file_says L fs b ts tasks.
Proof.
  unfold parse_task_file. split.
  - destruct (src ← files !! name; b ← hl_read L src; decode (doc_fields L) doc_zero ([], b)) as [d|] eqn:E; [|done].
    apply bind_Some in E as (src & Hs & (b & Hb & Hd)%bind_Some). intros H. exists src, b. split_and!; [done|done|].
    destruct (ts_parse (hcl_decoder L) fs d) as [|r] eqn:Hp; [done|]. injection H as ->.
    eapply parse_doc_says; [|done|done]. by apply doc_read in Hd as [? _].
  - intros (src & b & -> & Hb & H). cbn. rewrite Hb. cbn.
    assert (∃ d, decode (doc_fields L) doc_zero ([], b) = Some d) as [d Hd].
    { pose proof H as (Ho & H1 & H2 & _).
      assert (∃ l, Forall2 (λ x t, decode_rest target_fields target_keep target_zero x = Some t) (those "target" (b_blocks b)) l) as [l1 Hl1].
      { clear -H1. induction (those "target" (b_blocks b)) as [|x l IH]; [by exists []|].
        destruct IH as [l' Hl']; [intros y Hy; apply H1; by right|]. destruct (H1 x) as (typ & id & t & Hl & f & _ & Hm); [by left|].
        exists (TargetBlock typ id x.2 :: l'). constructor; [|done]. apply target_read. split_and!; [done| |done].
        destruct f, t; try done; first [by destruct Hm as [[? _] _]|by destruct Hm as [? _]]. }
      assert (∃ l, Forall2 (λ x k, decode_rest (task_fields L) task_keep task_zero x = Some k) (those "task" (b_blocks b)) l) as [l2 Hl2].
      { revert H2. generalize (those "task" (b_blocks b)) as l. induction l as [|x l IH]; intros H2; [by exists []|].
        destruct IH as [l' Hl']; [intros y Hy; apply H2; by right|].
        destruct (H2 x) as (id & k & label & typ & c & on & t & Hl & _ & Hon & _ & Hdeps & Hm); [by left|].
        destruct (Hdeps "after") as [la Ha]; [apply (bool_decide_unpack _); by vm_compute|].
        destruct (Hdeps "provides") as [lp Hp]; [apply (bool_decide_unpack _); by vm_compute|].
        destruct (Hdeps "requires") as [lr Hr]; [apply (bool_decide_unpack _); by vm_compute|].
        exists (TaskBlock label id on la lp lr (without every_task x.2) :: l'). constructor; [|done].
        apply task_read. split_and!; [done| |done|done|done|done|done]. destruct t, k; try done; by destruct Hm as [[? _] _]. }
      exists (TsDoc l1 l2). by apply doc_read. }
    rewrite Hd. by rewrite (proj2 (parse_doc_says L fs b d ts tasks (proj1 H) Hd) H).
Qed.
Print Assumptions task_file_exact.

Definition demo_file : string :=
  "target ""demo"" ""d"" {
  string = ""hello""
}
target ""pg"" ""src"" {
}
task ""sh"" ""make"" {
  args = [""mkdir"", ""-p""]
}
task ""pg"" ""create"" {
  target = ""src""
  after = [""make""]
  sql = ""SELECT 1""
}
task ""demo/rev"" ""create"" {
  target = ""d""
}
".
Definition three : gmap string ts_factory := {[ "demo" := DemoFactory; "pg" := PgFactory; "sh" := ShFactory ]}.
(** The reader of HclText.v reads it; the second task of the name create wins. *)
Example task_file_exact_example :
  match parse_task_file plain_lib three {[ "a.hcl" := demo_file ]} "a.hcl" with
  | inr (ts, tasks) =>
      (ts !! "demo" ≫= (.!! "d")) = Some (TsDemoTarget 1 "hello") ∧ (ts !! "pg" ≫= (.!! "src")) = Some TsPgTarget ∧
      tasks !! "make" = Some (TsTask (BaseTask [] [] []) (TsSh ["mkdir"; "-p"])) ∧
      tasks !! "create" = Some (TsTask (BaseTask [] [] []) (TsDemo Rev)) ∧ size tasks = 2%nat
  | inl _ => False
  end.
Proof. vm_compute. done. Qed.

(** C118: a setting that its target or task does not have is refused, as is any block inside one, and
    a target or task without a setting that it needs. *)
Theorem unknown_setting_refused L fs files name src b r : files !! name = Some src → hl_read L src = Some b →
  parse_task_file L fs files name = inr r →
  (** targets *)
  (∀ x, x ∈ those "target" (b_blocks b) → ∃ typ id f, x.1 = [typ; id] ∧ fs !! typ = Some f ∧ b_blocks x.2 = [] ∧
     (∀ n v, (n, v) ∈ b_attrs x.2 → f = DemoFactory ∧ (n = "max_concurrency" ∨ n = "string")) ∧
     (f = DemoFactory → "string" ∈ (b_attrs x.2).*1)) ∧
  (** tasks *)
  (∀ x, x ∈ those "task" (b_blocks b) → ∃ label id typ c f, x.1 = [label; id] ∧ names_target label typ c ∧
     fs !! typ = Some f ∧ b_blocks x.2 = [] ∧
     (∀ n v, (n, v) ∈ b_attrs x.2 → n = "target" ∨ n = "after" ∨ n = "provides" ∨ n = "requires" ∨
        f = PgFactory ∧ n = "sql" ∨ f = ShFactory ∧ n = "args") ∧
     (f = PgFactory → "sql" ∈ (b_attrs x.2).*1) ∧ (f = ShFactory → "args" ∈ (b_attrs x.2).*1)) ∧
  (** anything else *)
  (∀ n x, (n, x) ∈ b_blocks b → n = "target" ∨ n = "task") ∧ b_attrs b = [].
Proof.
  intros Hsrc Hb H. destruct r as [ts tasks]. apply task_file_exact in H as (src' & b' & Hsrc' & Hb' & H).
  rewrite Hsrc in Hsrc'. injection Hsrc' as <-. rewrite Hb in Hb'. injection Hb' as <-.
  destruct H as ((HN & Ha & Hbl) & H1 & H2 & _).
  assert (∀ b known, only b known [] → b_blocks b = []) as Hnone.
  { intros c known (_ & _ & Hc). destruct (b_blocks c) as [|[m y] l] eqn:E; [done|]. exfalso.
    by apply (not_elem_of_nil m), (Hc m y); left. }
  assert (∀ T (as_ : hval → T → Prop) b n v, must as_ b n v → n ∈ (b_attrs b).*1) as Hmust.
  { intros T as_ c n v (w & Hw & _). apply elem_of_list_fmap. by exists (n, w). }
  split_and!.
  - intros x Hx. destruct (H1 x Hx) as (typ & id & t & Hl & f & Hf & Hm). exists typ, id, f. split; [done|]. split; [done|].
    destruct f, t as [m s| |]; try done.
    + destruct Hm as (Ho & _ & Hs). split_and!; [by eapply Hnone| |intros _; by eapply Hmust]. intros n v Hv.
      destruct Ho as (_ & Ho & _). apply Ho in Hv. rewrite !elem_of_cons, elem_of_nil in Hv. naive_solver.
    + split_and!; [by eapply Hnone| |done]. intros n v Hv. destruct Hm as (_ & Ho & _). by apply Ho, elem_of_nil in Hv.
    + split_and!; [by eapply Hnone| |done]. intros n v Hv. destruct Hm as (_ & Ho & _). by apply Ho, elem_of_nil in Hv.
  - intros x Hx. destruct (H2 x Hx) as (id & k & label & typ & c & on & t & Hl & Hn & _ & Hti & _ & Hm).
    exists label, id, typ, c, (ts_target_class t). split; [done|]. split; [done|].
    assert (fs !! typ = Some (ts_target_class t)) as Hf.
    { destruct Hti as [(y & _ & _ & f & Hf & Hy)|(_ & _ & f & Hf & Hy)].
      - rewrite Hf. by destruct f, t.
      - rewrite Hf. by destruct Hy. }
    split; [done|]. destruct t, k; try done; destruct Hm as [Ho Hm]; cbn [ts_target_class].
    all: split; [by eapply Hnone|]; split;
      [destruct Ho as (_ & Ho & _); intros n v Hv; apply Ho in Hv; unfold every_task in Hv; rewrite !elem_of_cons, elem_of_nil in Hv; naive_solver|].
    + by split.
    + split; [|done]. intros _. by eapply Hmust.
    + split; [done|]. intros _. by eapply Hmust.
  - intros n x Hx. apply Hbl in Hx. rewrite !elem_of_cons, elem_of_nil in Hx. naive_solver.
  - destruct (b_attrs b) as [|[n v] l] eqn:E; [done|]. exfalso. by apply (not_elem_of_nil n), (Ha n v); left.
Qed.
Print Assumptions unknown_setting_refused.
Definition one_task (s : string) : gmap string string := {[ "a.hcl" := s ]}.
(** The seconds of a sleep task cannot be given; a demo target that is written needs a string; a pg task
    its sql; a pg target has no settings. *)
Example unknown_setting_refused_example :
  parse_task_file plain_lib three (one_task "task ""demo/sleep"" ""s"" {
  seconds = 30
}
") "a.hcl" = inl (BadEntry BadBody) ∧
  parse_task_file plain_lib three (one_task "target ""demo"" ""d"" {
}
") "a.hcl" = inl (BadEntry BadBody) ∧
  parse_task_file plain_lib three (one_task "target ""pg"" ""src"" {
  host = ""localhost""
}
") "a.hcl" = inl (BadEntry BadBody) ∧
  parse_task_file plain_lib three (one_task "task ""pg"" ""q"" {
}
") "a.hcl" = inl (BadEntry BadBody) ∧
  parse_task_file plain_lib three (one_task "task ""pg"" {
  sql = ""SELECT 1""
}
") "a.hcl" = inl BadHcl.
Proof. split_and!; vm_compute; reflexivity. Qed.
