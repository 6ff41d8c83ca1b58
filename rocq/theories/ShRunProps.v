(** The theorem about the commands of a run, with its proof: what becomes of a Runs of
    EffectsModel. *)
From Coq Require Import String Ascii.
From stdpp Require Import gmap list strings numbers.
From Verif Require Import GoBase GoStrings GoStringsProofs ShModel ShSpec ShProofs ShExecModel ShExecSpec ShExecProofs
  ShExecProps ShLookModel ShLookSpec ShLookProps DemoModel DemoSpec ParserModel ParserSpec SchedModel SchedSpec
  RunnerModel RunnerSpec RunnerProofs EffectsModel EffectsSpec EffectsProofs EffectsExamples ShRunSpec.
Local Open Scope Z_scope.

(** Only exec tasks run a command. *)
Lemma runs_handled h q t x l k args dir environ :
  config_class (b_config k) = target_class x →
  Does q t (Runs args dir environ) ∈ (handle_task h q t (live_of h q x l) k).2 →
  ∃ n te e, x = ShTarget n te ∧ b_config k = ShExec args e ∧ dir = h_basedir h ∧
    environ = command_env te e (h_order_target h q) (h_order_task h t) (h_environ h).
Proof.
  intros Hc. assert (Does q t (Runs args dir environ) ∉ say q t (b_message k)) as Hs.
  { unfold say. case_decide; [by intros ?%elem_of_nil|]. by intros ?%elem_of_list_singleton. }
  unfold handle_task. destruct x as [s|n te|s], (b_config k) as [sql|args' e|y]; simpl in *; try done.
  - case_bool_decide; simpl; rewrite elem_of_app, elem_of_list_singleton; by intros [?|?].
  - rewrite elem_of_app. destruct args' as [|a r]; rewrite elem_of_list_singleton.
    + by intros [?|?].
    + intros [?|?]; [done|]. simplify_eq. exists n, te, e. by split_and!.
  - rewrite elem_of_app. destruct y; simpl; try case_decide; rewrite ?elem_of_nil, ?elem_of_list_singleton; by intros [?|?].
Qed.
Lemma run_command b h st tr q t args dir environ :
  good_book b → executes (run_book b h) st tr → Does q t (Runs args dir environ) ∈ effects b h tr →
  ∃ k n te e, bk_tasks b !! t = Some k ∧ b_target k = q ∧ bk_targets b !! q = Some (ShTarget n te) ∧
    b_config k = ShExec args e ∧ dir = h_basedir h ∧
    environ = command_env te e (h_order_target h q) (h_order_task h t) (h_environ h).
Proof.
  intros Hg He Hin. apply elem_of_list_split in Hin as (E1 & E2 & HE).
  destruct (effect_split _ _ _ _ _ _ HE) as (tr1 & ev & tr2 & E3 & E4 & -> & Ha & _).
  assert (Does q t (Runs args dir environ) ∈ (act b h (acts b h ∅ tr1).1 ev).2) as Hin
    by (rewrite Ha; apply elem_of_app; right; by left).
  pose proof (does_handle _ _ _ _ _ _ _ Hin) as ->.
  destruct (event_at _ _ _ _ _ _ He) as [st1 He1]. destruct (last_event _ _ _ _ _ He1) as (Hs & _ & _ & k & Hk & Hkq).
  destruct (prefix_of _ _ _ _ _ He1) as [st0 He0]. destruct (lives _ _ st0 tr1 Hg He0 q) as [_ (x & Hx & Hm)]; [done|].
  destruct Hg as [_ Hg]. destruct (Hg t k Hk) as (_ & x' & Hx' & Hcl). rewrite Hkq, Hx in Hx'. injection Hx' as <-.
  simpl in Hin. rewrite Hm, Hk in Hin.
  pose proof (runs_handled h q t x (demos b (begun_on q tr1)) k args dir environ Hcl) as Hr.
  destruct (handle_task h q t _ k) as [lv l]. destruct (Hr Hin) as (n & te & e & -> & Hcf & -> & ->).
  by exists k, n, te, e.
Qed.

(** C145: the process behind every command of every run. *)
Theorem run_commands b h st tr q t args dir environ :
  good_book b → ok_host b h → executes (run_book b h) st tr →
  Does q t (Runs args dir environ) ∈ effects b h tr →
  ∃ k n te e name rest,
    bk_tasks b !! t = Some k ∧ b_target k = q ∧ bk_targets b !! q = Some (ShTarget n te) ∧
    b_config k = ShExec args e ∧ args = name :: rest ∧ dir = h_basedir h ∧
    (good_names te → good_names e → ∀ x, good_name x → knows te e (h_environ h) x (dedup_loop environ [] ∅)) ∧
    (∀ m dirs, lists_dirs (m_path m) dirs → Forall (begins_with "/") dirs →
      ∀ f, program_file m dir name = Some f ↔ stands_for (m_executable m) dirs (h_basedir h) name f).
Proof.
  intros Hg [Ho1 Ho2] He Hin.
  destruct (run_command _ _ _ _ _ _ _ _ _ Hg He Hin) as (k & n & te & e & Hk & Hq & Hx & Hc & -> & ->).
  destruct (proj2 Hg t k Hk) as [Hcfg _]. rewrite Hc in Hcfg. destruct Hcfg as (name & rest & -> & Hn).
  exists k, n, te, e, name, rest. split_and!; try done.
  - intros Hg1 Hg2 x Hgx.
    destruct (process_env_exact te e (h_order_target h q) (h_order_task h t) (h_environ h) x) as (H1 & H2 & H3);
      [by eapply Ho1|by eapply Ho2|done..|]. unfold process_env in *.
    split_and!; [done| | | |done].
    + intros Hs Hl. by destruct (H2 Hs Hl) as (? & _ & _).
    + intros Hs Hl Hs' Hl'. by destruct (H2 Hs Hl) as (_ & ? & _); auto.
    + intros Hs Hl Hs' Hl'. by destruct (H2 Hs Hl) as (_ & _ & ?); auto.
  - intros m dirs Hl Hd f.
    assert (exec_check (name :: rest) = None) as Hck by (apply exec_check_spec; by exists name, rest).
    destruct (program_found m (h_basedir h) (name :: rest) name rest Hck eq_refl) as (P1 & P2 & P3 & P4 & _). split.
    + intros Hf. destruct Hn as [Hn|[Hn|[Hn|Hn]]].
      * destruct (decide (name = "")) as [->|Hne]; [by rewrite P4 in Hf|].
        apply stands_found; [done..|]. by apply (P3 Hn Hne dirs Hl Hd).
      * apply (P1 Hn) in Hf as [-> Hx']. by apply stands_absolute.
      * apply (P2 (or_introl Hn)) in Hf as [-> Hx']. apply stands_relative; [by left|done].
      * apply (P2 (or_intror Hn)) in Hf as [-> Hx']. apply stands_relative; [by right|done].
    + intros Hs. destruct Hs as [name Ha Hx'|name Ha Hx'|name f Ha Hne Hx'].
      * by apply (P1 Ha).
      * by apply (P2 Ha).
      * by apply (P3 Ha Hne dirs Hl Hd).
Qed.
Print Assumptions run_commands.
Example run_commands_example :
  good_book ex_book ∧ ok_host ex_book ex_host ∧ (∃ st, executes (run_book ex_book ex_host) st ex_trace) ∧
  (∃ q, Does q "one" (Runs ["ls"; "-l"] "/b" ["HOME=/r"; "A=1"]) ∈ effects ex_book ex_host ex_trace) ∧
  dedup_loop ["HOME=/r"; "A=1"] [] ∅ = ["HOME=/r"; "A=1"] ∧
  program_file ex_machine "/b" "ls" = Some "/usr/bin/ls".
Proof.
  split_and!; [exact ex_good_book|exact ex_ok_host| | |by vm_compute..].
  - destruct ex_runs as (st & ? & _). by exists st.
  - apply (elem_of_deeds "one"). replace (deeds_by "one" _) with [Runs ["ls"; "-l"] "/b" ["HOME=/r"; "A=1"]] by (by vm_compute). by left.
Qed.
