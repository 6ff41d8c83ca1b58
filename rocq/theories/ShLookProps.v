(** The theorems about which program is run, with their proofs. *)
From Coq Require Import String Ascii.
From stdpp Require Import gmap list strings.
From Verif Require Import GoBase GoStrings GoStringsProofs ShModel ShSpec ShProofs ShExecModel ShExecSpec ShExecProofs
  ShLookModel ShLookSpec.

Lemma split_colon_cons s : ∃ x l, split_colon s = x :: l.
Proof. destruct s as [|c s]; simpl; [by eexists _, _|]. case_decide; [by eexists _, _|]. destruct (split_colon s); by eexists _, _. Qed.
Lemma concat_cons2 x y l : String.concat ":" (x :: y :: l) = x +:+ ":" +:+ String.concat ":" (y :: l).
Proof. done. Qed.
(** A PATH lists one list of directories, and SplitList finds it. *)
Lemma split_colon_spec s : ∀ x l,
  String.concat ":" (x :: l) = s → Forall (λ d, ¬ has_byte ":" d) (x :: l) → split_colon s = x :: l.
Proof.
  induction s as [|c s IH]; intros x l Hc Hf.
  - destruct l as [|y l]; [simpl in Hc; by subst x|].
    rewrite concat_cons2 in Hc. destruct x; done.
  - apply list.Forall_cons in Hf as [Hx Hl]. simpl. destruct x as [|d x].
    + destruct l as [|y l]; [done|]. rewrite concat_cons2 in Hc.
      change ("" +:+ ":" +:+ ?a) with (String ":" a) in Hc. injection Hc as <- Hc.
      rewrite decide_True by done. f_equal. by apply IH.
    + assert (d = c ∧ String.concat ":" (x :: l) = s) as [-> Hs].
      { destruct l as [|y l]; [simpl in Hc; by simplify_eq|]. rewrite concat_cons2 in Hc |- *.
        rewrite app_str_cons in Hc. by simplify_eq. }
      rewrite has_byte_cons in Hx. rewrite decide_False by (intros ->; apply Hx; by left).
      rewrite (IH x l Hs); [done|]. apply list.Forall_cons. split; [|done]. intros H. apply Hx. by right.
Qed.
Lemma split_list_spec s dirs : lists_dirs s dirs → split_list s = dirs.
Proof.
  intros (Hc & Hf & He). destruct s as [|c s]; [by rewrite (He eq_refl)|].
  destruct dirs as [|x l]; [done|]. unfold split_list. by apply split_colon_spec.
Qed.
Lemma at_dir_absolute dir f : begins_with "/" f → at_dir dir f = f.
Proof. intros H. unfold at_dir. rewrite <-has_prefix_spec in H. by rewrite H. Qed.
Lemma absolute_join d f : begins_with "/" d → begins_with "/" (join d f).
Proof. intros [r ->]. exists (r +:+ "/" +:+ f). unfold join. by rewrite <-app_str_assoc. Qed.
Lemma search_spec m file dirs : Forall (begins_with "/") dirs → ∀ f,
  search m file dirs = Some f ↔ first_in (m_executable m) file dirs f.
Proof.
  intros Hd f. induction Hd as [|d dirs Hd _ IH].
  { split; [done|]. intros (l1 & d & l2 & H & _). by destruct l1. }
  simpl. assert (Hne : d ≠ "") by (intros ->; by destruct Hd). rewrite decide_False by done.
  rewrite (at_dir_absolute _ _ (absolute_join d file Hd)).
  destruct (m_executable m (join d file)) eqn:E.
  - split.
    + intros [= <-]. exists [], d, dirs. split_and!; [done|by intros ? ?%elem_of_nil|done|done].
    + intros (l1 & d' & l2 & H & Hno & He & ->). destruct l1 as [|x l1]; simpl in H; simplify_eq; [done|].
      specialize (Hno x ltac:(by left)). unfold join in E. congruence.
  - rewrite IH. split.
    + intros (l1 & d' & l2 & -> & Hno & He & ->). exists (d :: l1), d', l2. split_and!; [done| |done|done].
      intros x [->|?]%elem_of_cons; [done|by apply Hno].
    + intros (l1 & d' & l2 & H & Hno & He & ->). destruct l1 as [|x l1]; simpl in H; simplify_eq.
      * unfold join in E. congruence.
      * exists l1, d', l2. split_and!; [done| |done|done]. intros x' ?. apply Hno. by right.
Qed.
Lemma first_in_found ex name dirs f : first_in ex name dirs f → Forall (begins_with "/") dirs →
  ex f = true ∧ begins_with "/" f.
Proof.
  intros (l1 & d & l2 & -> & _ & He & ->) Hd. split; [done|]. apply list.Forall_app in Hd as [_ Hd].
  apply list.Forall_cons in Hd as [Hd _]. by apply (absolute_join d name).
Qed.

(** C144: which file the command of an exec task is, when PATH holds absolute names. *)
Theorem program_found m base args arg0 rest :
  exec_check args = None → args = arg0 :: rest →
  (** an absolute name *)
  (begins_with "/" arg0 → ∀ f, program_file m base arg0 = Some f ↔ f = arg0 ∧ m_executable m f = true) ∧
  (** a name relative to the runbook *)
  (begins_with "./" arg0 ∨ begins_with "../" arg0 →
    ∀ f, program_file m base arg0 = Some f ↔ f = base +:+ "/" +:+ arg0 ∧ m_executable m f = true) ∧
  (** a name to be searched for *)
  (¬ has_byte "/" arg0 → arg0 ≠ "" → ∀ dirs, lists_dirs (m_path m) dirs → Forall (begins_with "/") dirs →
    ∀ f, program_file m base arg0 = Some f ↔ first_in (m_executable m) arg0 dirs f) ∧
  (** there are no others *)
  (arg0 = "" → program_file m base arg0 = None) ∧
  (begins_with "/" arg0 ∨ begins_with "./" arg0 ∨ begins_with "../" arg0 ∨ ¬ has_byte "/" arg0).
Proof.
  intros Hc ->. apply exec_check_spec in Hc as (a & r & [= <- <-] & Hk). split_and!.
  - intros Ha f. assert (Hs : has_byte "/" arg0) by (destruct Ha as [x ->]; by exists "", x).
    assert (contains_byte "/" arg0 = true) as Hb by by apply contains_byte_spec.
    assert (Hne : arg0 ≠ "") by (intros ->; by destruct Ha).
    unfold program_file, command_path, look_path. rewrite Hb, !(at_dir_absolute _ arg0) by done.
    rewrite (decide_False (P := arg0 = "")) by done.
    destruct arg0 as [|c s]; [done|].
    destruct (decide (String c s = "/")); [destruct (m_executable m (String c s)) eqn:E|];
      rewrite ?at_dir_absolute by done; rewrite ?E.
    + split; [intros [= <-]; done|by intros [-> _]].
    + split; [done|]. intros [-> ?]. congruence.
    + destruct (m_executable m (String c s)) eqn:E2.
      * split; [intros [= <-]; done|by intros [-> _]].
      * split; [done|]. intros [-> ?]. congruence.
  - intros Ha f. assert (Hs : has_byte "/" arg0) by (destruct Ha as [[x ->]|[x ->]]; [by exists ".", x|by exists "..", x]).
    assert (contains_byte "/" arg0 = true) as Hb by by apply contains_byte_spec.
    assert (has_prefix arg0 "/" = false) as Hp by (destruct Ha as [[x ->]|[x ->]]; done).
    unfold program_file, command_path. rewrite Hb.
    rewrite (decide_False (P := arg0 = "/")) by (destruct Ha as [[x ->]|[x ->]]; done).
    rewrite (decide_False (P := arg0 = "")) by (destruct Ha as [[x ->]|[x ->]]; done).
    destruct arg0 as [|c s]; [by destruct Ha as [[? ?]|[? ?]]|].
    unfold at_dir. rewrite Hp. fold (join base (String c s)).
    destruct (m_executable m (join base (String c s))) eqn:E.
    + split; [intros [= <-]; done|by intros [-> _]].
    + split; [done|]. intros [-> He]. change (m_executable m (join base (String c s)) = true) in He. congruence.
  - intros Hs Hne dirs Hl Hd f.
    assert (contains_byte "/" arg0 = false) as Hb.
    { destruct (contains_byte "/" arg0) eqn:E; [|done]. by apply contains_byte_spec in E. }
    unfold program_file, command_path, look_path. rewrite Hb.
    rewrite (decide_False (P := arg0 = "/")) by (intros ->; apply Hs; by exists "", "").
    rewrite (decide_False (P := arg0 = "")) by done. rewrite (split_list_spec _ _ Hl).
    rewrite <-(search_spec m arg0 dirs Hd f).
    destruct (search m arg0 dirs) as [g|] eqn:E; [|done].
    apply (search_spec m arg0 dirs Hd) in E. destruct (first_in_found _ _ _ _ E Hd) as [He Hg].
    rewrite (at_dir_absolute base g Hg), He. destruct g; [by destruct Hg|done].
  - by intros ->.
  - tauto.
Qed.
Print Assumptions program_found.
Definition ex_machine : machine :=
  Machine "/home" "/usr/bin:/opt/bin" (λ f, bool_decide (f ∈ ["/opt/bin/psql"; "/usr/bin/ls"; "/books/./load.sh"])).
Example program_found_example :
  exec_check ["psql"; "-c"] = None ∧ lists_dirs (m_path ex_machine) ["/usr/bin"; "/opt/bin"] ∧
  Forall (begins_with "/") ["/usr/bin"; "/opt/bin"] ∧
  program_file ex_machine "/books" "psql" = Some "/opt/bin/psql" ∧
  program_file ex_machine "/books" "./load.sh" = Some "/books/./load.sh" ∧
  program_file ex_machine "/books" "cat" = None.
Proof.
  split_and!; try by vm_compute.
  - split_and!; [done| |done]. repeat (apply list.Forall_cons; split; [by apply index_byte_None|]). by apply list.Forall_nil.
  - repeat (apply list.Forall_cons; split; [by eexists|]). by apply list.Forall_nil.
Qed.
(** The PATH the command is given does not count: with a PATH set for the task, the program
    in it is not found, or another one is run. *)
Theorem own_path_refuted : ∃ m base target task o1 o2 environ dir name,
  range_of (e_set target) o1 ∧ range_of (e_set task) o2 ∧
  sees "PATH" dir (process_env target task o1 o2 environ) ∧
  m_executable m (dir +:+ "/" +:+ name) = true ∧ program_file m base name ≠ Some (dir +:+ "/" +:+ name).
Proof.
  exists (Machine "/home" "/usr/bin" (λ f, bool_decide (f ∈ ["/opt/bin/psql"; "/usr/bin/psql"]))), "/books",
    (Env [] [] ∅), (Env [] [] {[ "PATH" := "/opt/bin" ]}), [], ["PATH"], ["PATH=/usr/bin"], "/opt/bin", "psql".
  split_and!.
  - apply (bool_decide_unpack _). by vm_compute.
  - apply (bool_decide_unpack _). by vm_compute.
  - change (process_env _ _ _ _ _) with ["PATH=/opt/bin"]. exists [], []. split; [done|]. by intros ? ?%elem_of_nil.
  - by vm_compute.
  - by vm_compute.
Qed.
Print Assumptions own_path_refuted.
(** With a relative name in PATH, the file found (from pgutil's directory) is not the one
    run (from the runbook's). *)
Theorem relative_path_refuted : ∃ m base name found run,
  look_path m name = Some found ∧ m_executable m (at_dir (m_cwd m) found) = true ∧
  program_file m base name = Some run ∧ run ≠ at_dir (m_cwd m) found.
Proof.
  exists (Machine "/home" "bin" (λ f, bool_decide (f ∈ ["/home/bin/psql"; "/books/bin/psql"]))), "/books", "psql", "bin/psql",
    "/books/bin/psql".
  split_and!; by vm_compute.
Qed.
Print Assumptions relative_path_refuted.
