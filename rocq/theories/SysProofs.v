(** The rows of each query of internal/pg. *)
From Coq Require Import String Ascii.
From stdpp Require Import gmap list strings numbers sorting.
From Verif Require Import GoBase GoBaseProofs GoStrings DdlModel MachineModel ParseModel PgModel PgSpec PgProofs QueryModel QueryProofs SysModel SysSpec.
Local Open Scope Z_scope.

Lemma NoDup_key {A B} (f : A → B) l : NoDup (f <$> l) → NoDup l.
Proof. apply NoDup_fmap_1. Qed.
Lemma key_unique {A B} (f : A → B) l a b : NoDup (f <$> l) → a ∈ l → b ∈ l → f a = f b → a = b.
Proof.
  induction l as [|x l IH]; intros H Ha Hb E; [by apply elem_of_nil in Ha|].
  rewrite fmap_cons in H. apply list.NoDup_cons in H as [Hx Hl].
  apply elem_of_cons in Ha as [->|Ha]; apply elem_of_cons in Hb as [->|Hb]; [done| | |by apply IH].
  - destruct Hx. rewrite E. by apply elem_of_list_fmap_1.
  - destruct Hx. rewrite <- E. by apply elem_of_list_fmap_1.
Qed.
Lemma list_find_first {A} (P : A → Prop) `{∀ x, Decision (P x)} l a :
  (∀ b, b ∈ l → P b → b = a) → a ∈ l → P a → ∃ i, list_find P l = Some (i, a).
Proof.
  intros H1 H2 H3. destruct (list_find P l) as [[i b]|] eqn:E.
  - exists i. apply list_find_Some in E as (E1 & E2 & _). apply elem_of_list_lookup_2 in E1. by rewrite (H1 b).
  - apply list_find_None in E. rewrite Forall_forall in E. by destruct (E a).
Qed.

(** * Visibility *)

Lemma head_filter {A} (P : A → Prop) `{∀ x, Decision (P x)} l a :
  head (filter P l) = Some a ↔ P a ∧ ∃ l1 l2, l = l1 ++ a :: l2 ∧ ∀ b, b ∈ l1 → ¬ P b.
Proof.
  split.
  - induction l as [|x l IH]; [done|]. rewrite filter_cons. destruct (decide (P x)) as [Hx|Hx].
    + intros [= ->]. split; [done|]. exists [], l. split; [done|]. intros b Hb. by apply elem_of_nil in Hb.
    + intros E. apply IH in E as (Ha & l1 & l2 & -> & H1). split; [done|]. exists (x :: l1), l2. split; [done|].
      intros b [->|Hb]%elem_of_cons; [done|]. by apply H1.
  - intros (Ha & l1 & l2 & -> & H1). induction l1 as [|x l1 IH].
    + simpl. by rewrite filter_cons_True.
    + simpl. rewrite filter_cons_False by (apply H1; left). apply IH. intros b Hb. apply H1. by right.
Qed.
Lemma table_visible_spec sy c : sane sy → c ∈ sy_classes sy → table_visible sy (rel_oid c) = Some true ↔ in_view sy c.
Proof.
  intros Hs Hc. unfold table_visible.
  destruct (list_find_first (λ d, rel_oid d = rel_oid c) (sy_classes sy) c) as (i & E);
    [intros b Hb E; by apply (key_unique rel_oid (sy_classes sy)); [apply sane_rel_oid| | |]|done|done|].
  rewrite E. cbn [mbind option_bind]. transitivity (head (filter (λ ns, List.Exists (λ d, rel_namespace d = ns ∧ rel_name d = rel_name c) (sy_classes sy)) (sy_path sy)) = Some (rel_namespace c)).
  { split; [intros [= H]; by apply bool_decide_eq_true in H|intros H; f_equal; by apply bool_decide_eq_true]. }
  rewrite head_filter. split.
  - intros (_ & l1 & l2 & El & H). exists l1, l2. split; [done|]. intros d Hd Hn Hin. apply (H _ Hin).
    apply Exists_exists. by exists d.
  - intros (l1 & l2 & El & H). split; [apply Exists_exists; by exists c|]. exists l1, l2. split; [done|].
    intros b Hb (d & Hd & <- & Hn)%Exists_exists. by apply (H d).
Qed.
Lemma function_visible_spec sy p : sane sy → p ∈ sy_procs sy → function_visible sy (proc_oid p) = Some true ↔ function_in_view sy p.
Proof.
  intros Hs Hc. unfold function_visible.
  destruct (list_find_first (λ d, proc_oid d = proc_oid p) (sy_procs sy) p) as (i & E);
    [intros b Hb E; by apply (key_unique proc_oid (sy_procs sy)); [apply sane_proc| | |]|done|done|].
  rewrite E. cbn [mbind option_bind]. transitivity (head (filter (λ ns, List.Exists (λ q, proc_namespace q = ns ∧ proc_name q = proc_name p ∧ proc_args q = proc_args p) (sy_procs sy)) (sy_path sy)) = Some (proc_namespace p)).
  { split; [intros [= H]; by apply bool_decide_eq_true in H|intros H; f_equal; by apply bool_decide_eq_true]. }
  rewrite head_filter. split.
  - intros (_ & l1 & l2 & El & H). exists l1, l2. split; [done|]. intros d Hd Hn Ha Hin. apply (H _ Hin).
    apply Exists_exists. by exists d.
  - intros (l1 & l2 & El & H). split; [apply Exists_exists; by exists p|]. exists l1, l2. split; [done|].
    intros b Hb (d & Hd & <- & Hn & Ha)%Exists_exists. by apply (H d).
Qed.

(** * Orders *)

Lemma leb_both a b : String.leb a b && String.leb b a = bool_decide (a = b).
Proof.
  apply eq_bool_prop_intro. rewrite andb_True, bool_decide_spec. split.
  - intros [H1 H2]. apply Is_true_eq_true in H1, H2. by apply String.leb_antisym.
  - intros ->. assert (String.leb b b = true) as -> by (destruct (String.leb_total b b); done). done.
Qed.
Lemma keys_le_names st a1 a2 b1 b2 :
  keys_le st [false; false] [VName a1; VName a2] [VName b1; VName b2] = true ↔ by_names (a1, a2) (b1, b2).
Proof.
  cbn [keys_le value_le]. rewrite leb_both. unfold by_names, str_le. simpl.
  case_bool_decide as E1; [|naive_solver].
  rewrite leb_both. case_bool_decide as E2.
  - subst. assert (String.leb b2 b2 = true) by (destruct (String.leb_total b2 b2); done). naive_solver.
  - naive_solver.
Qed.
Lemma keys_le_name st a b : keys_le st [false] [VName a] [VName b] = true ↔ str_le a b.
Proof.
  cbn [keys_le value_le]. rewrite leb_both. unfold str_le. case_bool_decide as E; [|done].
  subst. assert (String.leb b b = true) by (destruct (String.leb_total b b); done). done.
Qed.
Lemma StronglySorted_iff {A} (R S : A → A → Prop) l :
  (∀ a b, a ∈ l → b ∈ l → R a b → S a b) → StronglySorted R l → StronglySorted S l.
Proof.
  intros H. induction 1 as [|a l Hl IH Ha]; [constructor|]. constructor.
  - apply IH. intros x y Hx Hy. apply H; by right.
  - rewrite Forall_forall in *. intros x Hx. apply H; [left|by right|by apply Ha].
Qed.

(** * Schemas *)

Lemma prefix_spec p s : String.prefix p s ≠ true ↔ ∀ x, s ≠ p +:+ x.
Proof.
  split.
  - intros H x ->. apply H. clear. induction p as [|c p IH]; [by destruct x|]. simpl. destruct (ascii_dec c c); [|done]. apply IH.
  - intros H Hp. revert s H Hp. induction p as [|c p IH]; intros s H Hp; [by apply (H s)|].
    destruct s as [|d s]; [done|]. simpl in Hp. destruct (ascii_dec c d) as [->|]; [|done].
    apply (IH s); [|done]. intros x ->. by apply (H x).
Qed.

Definition schema_out (sy : system) (n : pg_namespace) : list value * list value :=
  ([VName (ns_name n); VName (sy_user sy (ns_owner n)); nullable_text (sy_comment sy "pg_namespace" (ns_oid n))],
   [VName (ns_name n)]).
Lemma schemas_rows sy : sane sy →
  rows_for (schema_out sy) (λ n, n ∈ sy_namespaces sy ∧ user_schema n) (eval_query (store_of sy) [] [] list_schemas_query).
Proof.
  intros Hs. eapply (select_start _ _ _ _ _ _ _ _ _ _ _ _ namespace_row); [reflexivity|apply (NoDup_key _ _ (sane_ns_oid _ Hs))|].
  intros envs H. eapply (select_end _ _ user_schema id); [exact H| | | |].
  - intros n Hn. cbn [all]. eapply tells_iff; [apply tells_and; [apply tells_negb|apply tells_differ]|].
    unfold user_schema. rewrite <- prefix_spec. tauto.
  - reflexivity.
  - done.
  - intros n. unfold id. naive_solver.
Qed.

(** * Tables *)

Definition table_out (sy : system) (nc : pg_namespace * pg_class) : list value * list value :=
  ([VName (ns_name nc.1); VName (rel_name nc.2); VName (sy_user sy (rel_owner nc.2));
    nullable_text (sy_comment sy "pg_class" (rel_oid nc.2))], [VName (ns_name nc.1); VName (rel_name nc.2)]).
Lemma tells_in2 a b : tells (Some (of_truth (or3 (Some a) (or3 (Some b) (Some false))))) (a = true ∨ b = true).
Proof. eapply tells_iff; [apply tells_of_truth|]. rewrite !or3_true. naive_solver. Qed.
Lemma tells_in3 a b c : tells (Some (of_truth (or3 (Some a) (or3 (Some b) (or3 (Some c) (Some false)))))) (a = true ∨ b = true ∨ c = true).
Proof. eapply tells_iff; [apply tells_of_truth|]. rewrite !or3_true. naive_solver. Qed.
Lemma tables_rows sy : sane sy →
  rows_for (table_out sy) (λ nc, rel_in sy nc.1 nc.2 ∧ user_table nc.1 nc.2 ∧ in_view sy nc.2)
    (eval_query (store_of sy) [] [] list_tables_query).
Proof.
  intros Hs. eapply (select_start _ _ _ _ _ _ _ _ _ _ _ _ class_row); [reflexivity|apply (NoDup_key _ _ (sane_rel_oid _ Hs))|].
  intros envs H. eapply (select_left _ _ _ _ _ _ (λ c n, ns_oid n = rel_namespace c));
    [exact H|reflexivity|apply (NoDup_key _ _ (sane_ns_oid _ Hs))|intros; apply tells_decide|].
  clear envs H. intros envs H.
  eapply (select_end _ _ (λ cn, match cn.2 with Some n => user_table n cn.1 ∧ in_view sy cn.1 | None => False end)
            (λ cn, (default (PgNamespace 0 "" 0) cn.2, cn.1))); [exact H| | | |].
  - intros [c o] (Hc & Ho). simpl in Hc, Ho. cbn [all fst snd]. destruct o as [n|].
    + eapply tells_iff; [repeat apply tells_and|].
      * apply tells_in3.
      * apply tells_differ.
      * apply tells_differ.
      * apply tells_negb.
      * apply tells_of_truth.
      * rewrite table_visible_spec by done. unfold user_table. rewrite !bool_decide_eq_true, <- prefix_spec. tauto.
    + eapply tells_iff; [repeat apply tells_and|].
      * apply tells_in3.
      * apply tells_null.
      * apply tells_null.
      * apply tells_null.
      * apply tells_of_truth.
      * tauto.
  - intros [c [n|]] Hc HQ; [reflexivity|done].
  - intros [c [n|]] [c' [n'|]] _ HQ _ HQ' E; simpl in *; by simplify_eq.
  - intros [n c]. unfold rel_in. simpl. split.
    + intros ((H1 & H2 & H3) & H4 & H5). by exists (c, Some n).
    + intros ([c' [n'|]] & (H1 & H2) & H3 & E); simpl in *; [|done]. simplify_eq. naive_solver.
Qed.

(** * What belongs to a table *)

Lemma is_relation_unique sy s t n c n' c' : sane sy → rel_in sy n c → rel_in sy n' c' →
  ns_name n = s → rel_name c = t → ns_name n' = s → rel_name c' = t → n = n' ∧ c = c'.
Proof.
  intros Hs (H1 & H2 & H3) (H4 & H5 & H6) <- <- E1 E2.
  assert (n' = n) as -> by (by apply (key_unique ns_name (sy_namespaces sy)); [apply sane_ns_name| | |]).
  split; [done|]. apply (key_unique (λ c, (rel_namespace c, rel_name c)) (sy_classes sy)); [by apply sane_rel_name|done|done|].
  congruence.
Qed.

Definition default_value (sy : system) (a : pg_attribute) : option string :=
  if att_has_default a then
    match list_find (λ d, def_rel d = att_rel a ∧ def_num d = att_num a) (sy_attrdefs sy) with
    | Some (_, d) => Some (sy_expr sy (def_bin d) (def_rel d))
    | None => None
    end
  else None.
Lemma default_value_spec sy a : default_of sy a (default_value sy a).
Proof.
  unfold default_of, default_value. destruct (att_has_default a) eqn:Ha; [|right; auto].
  destruct (list_find _ _) as [[i d]|] eqn:E.
  - left. split; [done|]. apply list_find_Some in E as (E1 & [E2 E3] & _). exists d.
    split_and!; [by eapply elem_of_list_lookup_2|done|done|done].
  - right. split; [|done]. right. intros d Hd H1 H2. apply list_find_None in E. rewrite Forall_forall in E. by apply (E d).
Qed.
Lemma default_value_eval sy ps a n c : sane sy →
  eval (store_of sy) ps [("a", Some (attribute_row a)); ("c", Some (class_row c)); ("n", Some (namespace_row n))]
    (Scalar (Select [bare (pg "pg_get_expr" [Col "d" "adbin"; Col "d" "adrelid"])]
        "pg_catalog" "pg_attrdef" "d" []
        (Some (all (eq (Col "d" "adrelid") (Col "a" "attrelid")) [eq (Col "d" "adnum") (Col "a" "attnum"); Col "a" "atthasdef"]))
        [])) = Some (nullable_text (default_value sy a)).
Proof.
  intros Hs. cbn [eval].
  set (e := [("a", Some (attribute_row a)); ("c", Some (class_row c)); ("n", Some (namespace_row n))]).
  assert (H : rows_for (λ d, ([VText (sy_expr sy (def_bin d) (def_rel d))], []))
    (λ d, d ∈ sy_attrdefs sy ∧ def_rel d = att_rel a ∧ def_num d = att_num a ∧ att_has_default a = true)
    (eval_query (store_of sy) ps e (Select [bare (pg "pg_get_expr" [Col "d" "adbin"; Col "d" "adrelid"])]
        "pg_catalog" "pg_attrdef" "d" []
        (Some (all (eq (Col "d" "adrelid") (Col "a" "attrelid")) [eq (Col "d" "adnum") (Col "a" "attnum"); Col "a" "atthasdef"]))
        []))).
  { eapply (select_start _ _ _ _ _ _ _ _ _ _ _ _ attrdef_row); [reflexivity|apply (NoDup_key _ _ (sane_def _ Hs))|].
    intros envs H. eapply (select_end _ _ (λ d, def_rel d = att_rel a ∧ def_num d = att_num a ∧ att_has_default a = true) id);
      [exact H| | | |].
    - intros d Hd. cbn [all]. eapply tells_iff; [apply tells_and; [apply tells_and; apply tells_decide|apply tells_bool]|]. tauto.
    - reflexivity.
    - done.
    - unfold id. naive_solver. }
  destruct H as (l & E & Hl & HP). change (eval_query (store_of sy) ps e) with (eval_query (store_of sy) ps e) in E.
  change (eval_query (store_of sy) ps [("a", Some (attribute_row a)); ("c", Some (class_row c)); ("n", Some (namespace_row n))])
    with (eval_query (store_of sy) ps e). rewrite E, bind_some. clear E.
  assert (Hu : ∀ d d', d ∈ l → d' ∈ l → d = d').
  { intros d d' (H1 & H2 & H3 & H4)%HP (H5 & H6 & H7 & H8)%HP.
    apply (key_unique (λ d, (def_rel d, def_num d)) (sy_attrdefs sy)); [by apply sane_def|done|done|congruence]. }
  unfold default_value. destruct l as [|d [|d' l]]; simpl.
  - destruct (att_has_default a) eqn:Ha; [|done]. destruct (list_find _ _) as [[i d]|] eqn:E; [|done].
    apply list_find_Some in E as (E1 & [E2 E3] & _). apply elem_of_list_lookup_2 in E1.
    assert (d ∈ []) as Hd by (by apply HP). by apply elem_of_nil in Hd.
  - assert (d ∈ [d]) as (H1 & H2 & H3 & H4)%HP by left. rewrite H4.
    destruct (list_find_first (λ d, def_rel d = att_rel a ∧ def_num d = att_num a) (sy_attrdefs sy) d) as (i & ->); [|done|done|done].
    intros b Hb [H5 H6]. apply Hu; [by apply HP|left].
  - assert (d = d') as -> by (apply Hu; [left|right; left]). apply list.NoDup_cons in Hl as [Hl _]. destruct Hl. left.
Qed.

Definition column_out (sy : system) (a : pg_attribute) : list value * list value :=
  ([VName (att_name a); VText (sy_type_name sy (att_type a) (Some (att_typmod a))); VBool (att_not_null a);
    nullable_text (default_value sy a); nullable_text (sy_col_comment sy (att_rel a) (att_num a))], [VInt (att_num a)]).
Ltac of_namespace Hs :=
  eapply (select_start _ _ _ _ _ _ _ _ _ _ _ _ namespace_row); [reflexivity|apply (NoDup_key _ _ (sane_ns_oid _ Hs))|];
  let envs := fresh "envs" in let H := fresh "H" in intros envs H;
  eapply (select_join _ _ _ _ _ _ (λ n c, rel_namespace c = ns_oid n));
    [exact H|reflexivity|apply (NoDup_key _ _ (sane_rel_oid _ Hs))|intros; apply tells_decide|];
  clear envs H; intros envs H.
Lemma columns_rows sy s t : sane sy →
  rows_for (column_out sy) (λ a, a ∈ sy_attributes sy ∧ is_relation sy s t (att_rel a) ∧ 0 < att_num a ∧ att_dropped a = false)
    (eval_query (store_of sy) [VText s; VText t] [] list_columns_query).
Proof.
  intros Hs. of_namespace Hs.
  eapply (select_join _ _ _ _ _ _ (λ nc a, att_rel a = rel_oid nc.2));
    [exact H|reflexivity|apply (NoDup_key _ _ (sane_att _ Hs))|intros; apply tells_decide|].
  clear envs H. intros envs H.
  eapply (select_end _ _ (λ nca, ns_name nca.1.1 = s ∧ rel_name nca.1.2 = t ∧ 0 < att_num nca.2 ∧ att_dropped nca.2 = false)
            (λ nca, nca.2)); [exact H| | | |].
  - intros [[n c] a] _. cbn [all fst snd]. eapply tells_iff; [repeat apply tells_and|].
    + apply tells_decide.
    + apply tells_decide.
    + apply tells_decide.
    + apply tells_of_truth.
    + simpl. destruct (att_dropped a); naive_solver.
  - intros [[n c] a] _ _. unfold project. cbn -[eval]. rewrite (default_value_eval sy _ a n c Hs). reflexivity.
  - intros [[n c] a] [[n' c'] a'] ((H1 & H2 & H3) & H4 & H5) (H6 & H7 & H8) ((K1 & K2 & K3) & K4 & K5) (K6 & K7 & K8) E.
    simpl in *. subst a'. by destruct (is_relation_unique sy s t n c n' c' Hs) as [-> ->].
  - intros a. split.
    + intros (H1 & (n & c & (H2 & H3 & H4) & H5 & H6 & H7) & H8 & H9). exists ((n, c), a). simpl. naive_solver.
    + intros ([[n c] a'] & ((H1 & H2 & H3) & H4 & H5) & (H6 & H7 & H8 & H9) & E). simpl in *. subst a'.
      split_and!; [done| |done|done]. exists n, c. split_and!; try done.
Qed.

Definition check_out (sy : system) (r : pg_constraint) : list value * list value :=
  ([VName (con_name r); VText (sy_constraintdef sy (con_oid r) true)], [VName (con_name r)]).
Lemma checks_rows sy s t : sane sy →
  rows_for (check_out sy) (λ r, r ∈ sy_constraints sy ∧ is_relation sy s t (con_rel r) ∧ con_type r = "c")
    (eval_query (store_of sy) [VText s; VText t] [] list_checks_query).
Proof.
  intros Hs. of_namespace Hs.
  eapply (select_join _ _ _ _ _ _ (λ nc r, con_rel r = rel_oid nc.2));
    [exact H|reflexivity|apply (NoDup_key _ _ (sane_con _ Hs))|intros; apply tells_decide|].
  clear envs H. intros envs H.
  eapply (select_end _ _ (λ ncr, ns_name ncr.1.1 = s ∧ rel_name ncr.1.2 = t ∧ con_type ncr.2 = "c") (λ ncr, ncr.2)); [exact H| | | |].
  - intros [[n c] r] _. cbn [all fst snd]. eapply tells_iff; [apply tells_and; [apply tells_and|]; apply tells_decide|]. tauto.
  - reflexivity.
  - intros [[n c] r] [[n' c'] r'] ((H1 & H2 & H3) & H4 & H5) (H6 & H7 & H8) ((K1 & K2 & K3) & K4 & K5) (K6 & K7 & K8) E.
    simpl in *. subst r'. by destruct (is_relation_unique sy s t n c n' c' Hs) as [-> ->].
  - intros r. split.
    + intros (H1 & (n & c & (H2 & H3 & H4) & H5 & H6 & H7) & H8). exists ((n, c), r). simpl. naive_solver.
    + intros ([[n c] r'] & ((H1 & H2 & H3) & H4 & H5) & (H6 & H7 & H8) & E). simpl in *. subst r'.
      split_and!; [done| |done]. exists n, c. split_and!; try done.
Qed.

Definition trigger_out (sy : system) (g : pg_trigger) : list value * list value :=
  ([VName (trig_name g); VText (sy_triggerdef sy (trig_oid g))], [VName (trig_name g)]).
Lemma triggers_rows sy s t : sane sy →
  rows_for (trigger_out sy) (λ g, g ∈ sy_triggers sy ∧ is_relation sy s t (trig_rel g) ∧ trig_internal g = false)
    (eval_query (store_of sy) [VText s; VText t] [] list_triggers_query).
Proof.
  intros Hs. of_namespace Hs.
  eapply (select_join _ _ _ _ _ _ (λ nc g, trig_rel g = rel_oid nc.2));
    [exact H|reflexivity|apply (NoDup_key _ _ (sane_trig _ Hs))|intros; apply tells_decide|].
  clear envs H. intros envs H.
  eapply (select_end _ _ (λ ncr, ns_name ncr.1.1 = s ∧ rel_name ncr.1.2 = t ∧ trig_internal ncr.2 = false) (λ ncr, ncr.2)); [exact H| | | |].
  - intros [[n c] r] _. cbn [all fst snd].
    eapply tells_iff; [apply tells_and; [apply tells_and; apply tells_decide|apply tells_of_truth]|].
    simpl. destruct (trig_internal r); naive_solver.
  - reflexivity.
  - intros [[n c] r] [[n' c'] r'] ((H1 & H2 & H3) & H4 & H5) (H6 & H7 & H8) ((K1 & K2 & K3) & K4 & K5) (K6 & K7 & K8) E.
    simpl in *. subst r'. by destruct (is_relation_unique sy s t n c n' c' Hs) as [-> ->].
  - intros r. split.
    + intros (H1 & (n & c & (H2 & H3 & H4) & H5 & H6 & H7) & H8). exists ((n, c), r). simpl. naive_solver.
    + intros ([[n c] r'] & ((H1 & H2 & H3) & H4 & H5) & (H6 & H7 & H8) & E). simpl in *. subst r'.
      split_and!; [done| |done]. exists n, c. split_and!; try done.
Qed.
(** The trigger of a name: internal ones as well. *)
Lemma describe_trigger_rows sy s t name : sane sy →
  rows_for (λ g, ([VText (sy_triggerdef sy (trig_oid g))], []))
    (λ g, g ∈ sy_triggers sy ∧ is_relation sy s t (trig_rel g) ∧ trig_name g = name)
    (eval_query (store_of sy) [VText s; VText t; VText name] [] describe_trigger_query).
Proof.
  intros Hs. of_namespace Hs.
  eapply (select_join _ _ _ _ _ _ (λ nc g, trig_rel g = rel_oid nc.2));
    [exact H|reflexivity|apply (NoDup_key _ _ (sane_trig _ Hs))|intros; apply tells_decide|].
  clear envs H. intros envs H.
  eapply (select_end _ _ (λ ncr, ns_name ncr.1.1 = s ∧ rel_name ncr.1.2 = t ∧ trig_name ncr.2 = name) (λ ncr, ncr.2)); [exact H| | | |].
  - intros [[n c] r] _. cbn [all fst snd]. eapply tells_iff; [apply tells_and; [apply tells_and|]; apply tells_decide|]. tauto.
  - reflexivity.
  - intros [[n c] r] [[n' c'] r'] ((H1 & H2 & H3) & H4 & H5) (H6 & H7 & H8) ((K1 & K2 & K3) & K4 & K5) (K6 & K7 & K8) E.
    simpl in *. subst r'. by destruct (is_relation_unique sy s t n c n' c' Hs) as [-> ->].
  - intros r. split.
    + intros (H1 & (n & c & (H2 & H3 & H4) & H5 & H6 & H7) & H8). exists ((n, c), r). simpl. naive_solver.
    + intros ([[n c] r'] & ((H1 & H2 & H3) & H4 & H5) & (H6 & H7 & H8) & E). simpl in *. subst r'.
      split_and!; [done| |done]. exists n, c. split_and!; try done.
Qed.

(** Indexes and foreign keys, with the relation of the index and the table referred
    to. *)
Definition index_out (sy : system) (ic : pg_index * pg_class) : list value * list value :=
  ([VName (rel_name ic.2); VBool (ind_primary ic.1); VText (sy_indexdef sy (ind_index ic.1))],
   [VBool (ind_primary ic.1); VBool (ind_unique ic.1); VName (rel_name ic.2)]).
Lemma indexes_rows sy s t : sane sy →
  rows_for (index_out sy)
    (λ ic, ic.1 ∈ sy_indexes sy ∧ is_relation sy s t (ind_rel ic.1) ∧ ic.2 ∈ sy_classes sy ∧ rel_oid ic.2 = ind_index ic.1)
    (eval_query (store_of sy) [VText s; VText t] [] list_indexes_query).
Proof.
  intros Hs. of_namespace Hs.
  eapply (select_join _ _ _ _ _ _ (λ nc i, ind_rel i = rel_oid nc.2));
    [exact H|reflexivity|apply (NoDup_key _ _ (sane_ind _ Hs))|intros; apply tells_decide|].
  clear envs H. intros envs H.
  eapply (select_join _ _ _ _ _ _ (λ nci c2, rel_oid c2 = ind_index nci.2));
    [exact H|reflexivity|apply (NoDup_key _ _ (sane_rel_oid _ Hs))|intros; apply tells_decide|].
  clear envs H. intros envs H.
  eapply (select_end _ _ (λ x, ns_name x.1.1.1 = s ∧ rel_name x.1.1.2 = t) (λ x, (x.1.2, x.2))); [exact H| | | |].
  - intros [[[n c] i] c2] _. cbn [all fst snd]. eapply tells_iff; [apply tells_and; apply tells_decide|]. tauto.
  - reflexivity.
  - intros [[[n c] i] c2] [[[n' c'] i'] c2'] (((H1 & H2 & H3) & H4 & H5) & H6 & H7) (H8 & H9)
      (((K1 & K2 & K3) & K4 & K5) & K6 & K7) (K8 & K9) E.
    simpl in *. injection E as -> ->. by destruct (is_relation_unique sy s t n c n' c' Hs) as [-> ->].
  - intros [i c2]. split.
    + intros (H1 & (n & c & (H2 & H3 & H4) & H5 & H6 & H7) & H8 & H9). exists (((n, c), i), c2). simpl in *. naive_solver.
    + intros ([[[n c] i'] c2'] & (((H1 & H2 & H3) & H4 & H5) & H6 & H7) & (H8 & H9) & E). simpl in *. injection E as -> ->.
      split_and!; [done| |done|done]. exists n, c. split_and!; try done.
Qed.
Definition foreign_key_out (sy : system) (rc : pg_constraint * pg_class) : list value * list value :=
  ([VName (con_name rc.1); VText (sy_constraintdef sy (con_oid rc.1) false)], [VName (rel_name rc.2); VInts (con_key rc.1)]).
Lemma foreign_keys_rows sy s t : sane sy →
  rows_for (foreign_key_out sy)
    (λ rc, rc.1 ∈ sy_constraints sy ∧ is_relation sy s t (con_rel rc.1) ∧ con_type rc.1 = "f" ∧ rc.2 ∈ sy_classes sy ∧ rel_oid rc.2 = con_frel rc.1)
    (eval_query (store_of sy) [VText s; VText t] [] list_foreign_keys_query).
Proof.
  intros Hs. of_namespace Hs.
  eapply (select_join _ _ _ _ _ _ (λ nc i, con_rel i = rel_oid nc.2));
    [exact H|reflexivity|apply (NoDup_key _ _ (sane_con _ Hs))|intros; apply tells_decide|].
  clear envs H. intros envs H.
  eapply (select_join _ _ _ _ _ _ (λ nci c2, rel_oid c2 = con_frel nci.2));
    [exact H|reflexivity|apply (NoDup_key _ _ (sane_rel_oid _ Hs))|intros; apply tells_decide|].
  clear envs H. intros envs H.
  eapply (select_end _ _ (λ x, ns_name x.1.1.1 = s ∧ rel_name x.1.1.2 = t ∧ con_type x.1.2 = "f") (λ x, (x.1.2, x.2))); [exact H| | | |].
  - intros [[[n c] i] c2] _. cbn [all fst snd]. eapply tells_iff; [apply tells_and; [apply tells_and|]; apply tells_decide|]. tauto.
  - reflexivity.
  - intros [[[n c] i] c2] [[[n' c'] i'] c2'] (((H1 & H2 & H3) & H4 & H5) & H6 & H7) (H8 & H9 & _)
      (((K1 & K2 & K3) & K4 & K5) & K6 & K7) (K8 & K9 & _) E.
    simpl in *. injection E as -> ->. by destruct (is_relation_unique sy s t n c n' c' Hs) as [-> ->].
  - intros [i c2]. split.
    + intros (H1 & (n & c & (H2 & H3 & H4) & H5 & H6 & H7) & H8 & H9 & H10). exists (((n, c), i), c2). simpl in *. naive_solver.
    + intros ([[[n c] i'] c2'] & (((H1 & H2 & H3) & H4 & H5) & H6 & H7) & (H8 & H9 & H10) & E). simpl in *. injection E as -> ->.
      split_and!; [done| |done|done|done]. exists n, c. split_and!; try done.
Qed.

(** * Functions *)

Definition function_out (sy : system) (npl : pg_namespace * pg_proc * pg_language) : list value * list value :=
  let '(n, p, g) := npl in
  ([VName (ns_name n); VName (proc_name p); VName (sy_user sy (proc_owner p));
    nullable_text (sy_comment sy "pg_proc" (proc_oid p)); nullable_text (sy_result sy (proc_oid p));
    VName (lang_name g); VText (proc_src p)], [VName (ns_name n); VName (proc_name p)]).
Ltac of_proc Hs :=
  eapply (select_start _ _ _ _ _ _ _ _ _ _ _ _ proc_row); [reflexivity|apply (NoDup_key _ _ (sane_proc _ Hs))|];
  let envs := fresh "envs" in let H := fresh "H" in intros envs H;
  eapply (select_left _ _ _ _ _ _ (λ p n, ns_oid n = proc_namespace p));
    [exact H|reflexivity|apply (NoDup_key _ _ (sane_ns_oid _ Hs))|intros; apply tells_decide|];
  clear envs H; intros envs H;
  eapply (select_left _ _ _ _ _ _ (λ pn g, lang_oid g = proc_lang pn.1));
    [exact H|reflexivity|apply (NoDup_key _ _ (sane_lang _ Hs))|intros; apply tells_decide|];
  clear envs H; intros envs H.
Definition some_ns : pg_namespace := PgNamespace 0 "" 0.
Definition some_lang : pg_language := PgLanguage 0 "".
Lemma functions_rows sy : sane sy →
  rows_for (function_out sy)
    (λ npg, proc_in sy npg.1.1 npg.1.2 ∧ npg.2 ∈ sy_languages sy ∧ lang_oid npg.2 = proc_lang npg.1.2 ∧
       ns_name npg.1.1 ≠ "pg_catalog" ∧ ns_name npg.1.1 ≠ "information_schema" ∧ function_in_view sy npg.1.2)
    (eval_query (store_of sy) [] [] list_functions_query).
Proof.
  intros Hs. of_proc Hs.
  eapply (select_end _ _ (λ png, match png.1.2 with
                                 | Some n => function_in_view sy png.1.1 ∧ ns_name n ≠ "pg_catalog" ∧ ns_name n ≠ "information_schema"
                                 | None => False end)
            (λ png, (default some_ns png.1.2, png.1.1, default some_lang png.2))); [exact H| | | |].
  - intros [[p o] g] ((Hp & Ho) & Hg). simpl in Hp, Ho, Hg. cbn [all fst snd]. destruct o as [n|].
    + eapply tells_iff; [repeat apply tells_and|].
      * apply tells_of_truth.
      * apply tells_differ.
      * apply tells_differ.
      * rewrite function_visible_spec by done. tauto.
    + eapply tells_iff; [repeat apply tells_and|].
      * apply tells_of_truth.
      * apply tells_null.
      * apply tells_null.
      * tauto.
  - intros [[p [n|]] [g|]] ((Hp & Ho) & Hg) HQ; simpl in *; [reflexivity| |done|done].
    destruct (sane_proc_lang _ Hs p Hp) as (g & H1 & H2). by destruct (Hg g).
  - intros [[p [n|]] [g|]] [[p' [n'|]] [g'|]] ((Hp & Ho) & Hg) HQ ((Hp' & Ho') & Hg') HQ' E; simpl in *; simplify_eq; try done.
    + destruct (sane_proc_lang _ Hs p' Hp) as (g & H1 & H2). by destruct (Hg' g).
    + destruct (sane_proc_lang _ Hs p' Hp) as (g & H1 & H2). by destruct (Hg g).
  - intros [[n p] g]. unfold proc_in. simpl. split.
    + intros ((H1 & H2 & H3) & H4 & H5 & H6 & H7 & H8). exists ((p, Some n), Some g). simpl. naive_solver.
    + intros ([[p' [n'|]] [g'|]] & ((H1 & H2) & H3) & H4 & E); simpl in *; simplify_eq; try done.
      * naive_solver.
      * destruct (sane_proc_lang _ Hs p H1) as (g & K1 & K2). by destruct (H3 g).
Qed.
(** The functions of a name: all of them, in any order. *)
Lemma describe_function_rows sy s name : sane sy →
  rows_for (λ npg, (drop 2 (function_out sy npg).1, []))
    (λ npg, proc_in sy npg.1.1 npg.1.2 ∧ npg.2 ∈ sy_languages sy ∧ lang_oid npg.2 = proc_lang npg.1.2 ∧
       ns_name npg.1.1 = s ∧ proc_name npg.1.2 = name)
    (eval_query (store_of sy) [VText s; VText name] [] describe_function_query).
Proof.
  intros Hs. of_proc Hs.
  eapply (select_end _ _ (λ png, match png.1.2 with
                                 | Some n => ns_name n = s ∧ proc_name png.1.1 = name
                                 | None => False end)
            (λ png, (default some_ns png.1.2, png.1.1, default some_lang png.2))); [exact H| | | |].
  - intros [[p o] g] ((Hp & Ho) & Hg). simpl in Hp, Ho, Hg. cbn [all fst snd]. destruct o as [n|].
    + eapply tells_iff; [apply tells_and; apply tells_decide|]. tauto.
    + eapply tells_iff; [apply tells_and; [apply tells_null|apply tells_decide]|]. tauto.
  - intros [[p [n|]] [g|]] ((Hp & Ho) & Hg) HQ; simpl in *; [reflexivity| |done|done].
    destruct (sane_proc_lang _ Hs p Hp) as (g & H1 & H2). by destruct (Hg g).
  - intros [[p [n|]] [g|]] [[p' [n'|]] [g'|]] ((Hp & Ho) & Hg) HQ ((Hp' & Ho') & Hg') HQ' E; simpl in *; simplify_eq; try done.
    + destruct (sane_proc_lang _ Hs p' Hp) as (g & H1 & H2). by destruct (Hg' g).
    + destruct (sane_proc_lang _ Hs p' Hp) as (g & H1 & H2). by destruct (Hg g).
  - intros [[n p] g]. unfold proc_in. simpl. split.
    + intros ((H1 & H2 & H3) & H4 & H5 & H6 & H7). exists ((p, Some n), Some g). simpl. naive_solver.
    + intros ([[p' [n'|]] [g'|]] & ((H1 & H2) & H3) & H4 & E); simpl in *; simplify_eq; try done.
      * naive_solver.
      * destruct (sane_proc_lang _ Hs p H1) as (g & K1 & K2). by destruct (H3 g).
Qed.

(** * Sequences *)

Lemma regclass_spec sy : sane sy → ∃ oid, regclass sy "pg_catalog.pg_class" = Some oid ∧
  ∀ x, x = oid ↔ is_relation sy "pg_catalog" "pg_class" x.
Proof.
  intros Hs. destruct (sane_catalog _ Hs) as (n & c & Hn & Hc & H1 & H2 & H3). exists (rel_oid c). split.
  - unfold regclass. change (index_byte "." "pg_catalog.pg_class") with (Some 10%nat). rewrite bind_some.
    change (str_take 10 "pg_catalog.pg_class") with "pg_catalog". change (str_drop 11 "pg_catalog.pg_class") with "pg_class".
    destruct (list_find_first (λ n, ns_name n = "pg_catalog") (sy_namespaces sy) n) as (i & ->); [|done|done|].
    { intros b Hb E. apply (key_unique ns_name (sy_namespaces sy)); [by apply sane_ns_name|done|done|congruence]. }
    rewrite bind_some.
    destruct (list_find_first (λ c, rel_namespace c = ns_oid n ∧ rel_name c = "pg_class") (sy_classes sy) c) as (j & ->); [|done|done|done].
    intros b Hb [E1 E2]. apply (key_unique (λ c, (rel_namespace c, rel_name c)) (sy_classes sy)); [by apply sane_rel_name|done|done|congruence].
  - intros x. split.
    + intros ->. exists n, c. unfold rel_in. done.
    + intros (n' & c' & Hr & E1 & E2 & <-).
      destruct (is_relation_unique sy "pg_catalog" "pg_class" n c n' c' Hs) as [-> ->]; done.
Qed.
Lemma tells_regclass sy ps e a x : sane sy → eval (store_of sy) ps e a = Some (VInt x) →
  tells (eval (store_of sy) ps e (eq a (Cast (Str "pg_catalog.pg_class") "pg_catalog" "regclass")))
    (is_relation sy "pg_catalog" "pg_class" x).
Proof.
  intros Hs E. destruct (regclass_spec sy Hs) as (oid & H1 & H2).
  assert (E' : eval (store_of sy) ps e (Cast (Str "pg_catalog.pg_class") "pg_catalog" "regclass") = Some (VInt oid)).
  { transitivity (VInt <$> regclass sy "pg_catalog.pg_class"); [reflexivity|]. by rewrite H1. }
  unfold eq. change (eval (store_of sy) ps e (Cmp CEq a ?b)) with
    (v ← eval (store_of sy) ps e a; w ← eval (store_of sy) ps e b; compare_values CEq v w).
  rewrite E, bind_some, E', bind_some. eapply tells_iff; [apply tells_decide|]. apply H2.
Qed.

Definition owned_out (sy : system) (o : owned) : list value :=
  [VName (ns_name (ow_ns o)); VName (rel_name (ow_rel o)); VName (sy_user sy (rel_owner (ow_rel o)));
   nullable_text (sy_comment sy "pg_class" (rel_oid (ow_rel o)))].
Definition owner_out (o : owned) : list value :=
  [VName (ns_name (ow_owner_ns o)); VName (rel_name (ow_owner_rel o)); VName (att_name (ow_column o))].
Definition sequence_out (sy : system) (os : owned * pg_sequence) : list value * list value :=
  let '(o, s) := os in
  (owned_out sy o ++ [VText (sy_type_name sy (seq_typ s) None); VInt (seq_start s); VInt (seq_min s); VInt (seq_max s);
     VInt (seq_inc s); VInt (seq_cache s); VBool (seq_cycle s)] ++ owner_out o,
   [VName (ns_name (ow_ns o)); VName (rel_name (ow_rel o))]).
Definition old_sequence_out (sy : system) (o : owned) : list value * list value :=
  (owned_out sy o ++ owner_out o, [VName (ns_name (ow_ns o)); VName (rel_name (ow_rel o))]).

Definition some_dep : pg_depend := PgDepend 0 0 0 0 0 "".
Ltac owner Hs envs H Q :=
  eapply (select_left _ _ _ _ _ _ Q);
    [exact H|reflexivity|apply (sane_dep _ Hs)|intros; apply tells_decide|];
  clear envs H; intros envs H;
  eapply (select_join _ _ _ _ _ _ (λ x c2, match x.2 with Some d => rel_oid c2 = dep_ref_obj d | None => False end));
    [exact H|reflexivity|apply (NoDup_key _ _ (sane_rel_oid _ Hs))|intros [? [?|]] ???; [apply tells_decide|apply tells_null]|];
  clear envs H; intros envs H;
  eapply (select_join _ _ _ _ _ _ (λ x n2, ns_oid n2 = rel_namespace x.2));
    [exact H|reflexivity|apply (NoDup_key _ _ (sane_ns_oid _ Hs))|intros; apply tells_decide|];
  clear envs H; intros envs H;
  eapply (select_join _ _ _ _ _ _ (λ x a2, att_rel a2 = rel_oid x.1.2 ∧
            match x.1.1.2 with Some d => att_num a2 = dep_ref_sub d | None => False end));
    [exact H|reflexivity|apply (NoDup_key _ _ (sane_att _ Hs))
    |intros [[[? [?|]] ?] ?] ???; [apply tells_and; apply tells_decide|apply tells_and; [apply tells_decide|apply tells_null]]|];
  clear envs H; intros envs H.
Lemma sequences_rows sy l : sane sy → sy_sequences sy = Some l →
  rows_for (sequence_out sy) (λ os, owned_sequence sy os.1 ∧ os.2 ∈ l ∧ seq_rel os.2 = rel_oid (ow_rel os.1))
    (eval_query (store_of sy) [] [] list_sequences_query).
Proof.
  intros Hs Hl.
  eapply (select_start _ _ _ _ _ _ _ _ _ _ _ _ class_row); [reflexivity|apply (NoDup_key _ _ (sane_rel_oid _ Hs))|].
  intros envs H.
  eapply (select_join _ _ _ _ _ _ (λ c n, ns_oid n = rel_namespace c));
    [exact H|reflexivity|apply (NoDup_key _ _ (sane_ns_oid _ Hs))|intros; apply tells_decide|].
  clear envs H. intros envs H.
  eapply (select_join _ _ _ _ _ _ (λ cn s, seq_rel s = rel_oid cn.1) _ _ _ _ _ _ _ sequence_row_of l);
    [exact H| |apply (NoDup_key _ _ (sane_seq _ Hs l Hl))|intros; apply tells_decide|].
  { transitivity (map sequence_row_of <$> sy_sequences sy); [reflexivity|]. by rewrite Hl. }
  clear envs H. intros envs H. owner Hs envs H (λ (x : pg_class * pg_namespace * pg_sequence) d, dep_obj d = rel_oid x.1.1).
  eapply (select_end _ _ (λ '(c, n, s, d, c2, n2, a2),
             match d with
             | Some d => user_sequence n c ∧ in_view sy c ∧ is_relation sy "pg_catalog" "pg_class" (dep_class d) ∧
                 is_relation sy "pg_catalog" "pg_class" (dep_ref_class d) ∧ (dep_type d = "a" ∨ dep_type d = "i")
             | None => False
             end)
            (λ '(c, n, s, d, c2, n2, a2), (Owned n c (default some_dep d) n2 c2 a2, s))); [exact H| | | |].
  - intros [[[[[[c n] s] od] c2] n2] a2] H1. destruct od as [d|]; [|exfalso; simpl in H1; tauto].
    assert (Hc : c ∈ sy_classes sy) by apply H1. clear H1. cbn [all fst snd].
    eapply tells_iff; [repeat apply tells_and|].
    + apply tells_decide.
    + apply tells_differ.
    + apply tells_differ.
    + apply tells_negb.
    + apply tells_of_truth.
    + apply (tells_regclass sy _ _ _ (dep_class d)); [done|reflexivity].
    + apply (tells_regclass sy _ _ _ (dep_ref_class d)); [done|reflexivity].
    + apply tells_in2.
    + rewrite table_visible_spec by done. unfold user_sequence. rewrite !bool_decide_eq_true, <- prefix_spec. tauto.
  - intros [[[[[[c n] s] [d|]] c2] n2] a2] _ HQ; [reflexivity|done].
  - intros [[[[[[c n] s] [d|]] c2] n2] a2] [[[[[[c' n'] s'] [d'|]] c2'] n2'] a2'] _ HQ _ HQ' E; simpl in *; try done. by simplify_eq.
  - intros [o s]. simpl. split.
    + intros ((Hr & Hu & Hv & Hr2 & Ha & Ha2 & Hd & Ht & K1 & K2 & K3 & K4 & K5) & H1 & H2).
      exists (ow_rel o, ow_ns o, s, Some (ow_dep o), ow_owner_rel o, ow_owner_ns o, ow_column o).
      destruct Hr as (? & ? & ?), Hr2 as (? & ? & ?). simpl. split; [naive_solver|]. split; [naive_solver|]. by destruct o.
    + intros ([[[[[[c n] s'] [d|]] c2] n2] a2] & HP & HQ & E); simpl in *; [|done].
      injection E as <- <-. unfold owned_sequence, rel_in. simpl. naive_solver.
Qed.
Lemma old_sequences_rows sy : sane sy →
  rows_for (old_sequence_out sy) (owned_sequence sy) (eval_query (store_of sy) [] [] list_sequences_pre10_query).
Proof.
  intros Hs.
  eapply (select_start _ _ _ _ _ _ _ _ _ _ _ _ class_row); [reflexivity|apply (NoDup_key _ _ (sane_rel_oid _ Hs))|].
  intros envs H.
  eapply (select_join _ _ _ _ _ _ (λ c n, ns_oid n = rel_namespace c));
    [exact H|reflexivity|apply (NoDup_key _ _ (sane_ns_oid _ Hs))|intros; apply tells_decide|].
  clear envs H. intros envs H. owner Hs envs H (λ (x : pg_class * pg_namespace) d, dep_obj d = rel_oid x.1).
  eapply (select_end _ _ (λ '(c, n, d, c2, n2, a2),
             match d with
             | Some d => user_sequence n c ∧ in_view sy c ∧ is_relation sy "pg_catalog" "pg_class" (dep_class d) ∧
                 is_relation sy "pg_catalog" "pg_class" (dep_ref_class d) ∧ (dep_type d = "a" ∨ dep_type d = "i")
             | None => False
             end)
            (λ '(c, n, d, c2, n2, a2), Owned n c (default some_dep d) n2 c2 a2)); [exact H| | | |].
  - intros [[[[[c n] od] c2] n2] a2] H1. destruct od as [d|]; [|exfalso; simpl in H1; tauto].
    assert (Hc : c ∈ sy_classes sy) by apply H1. clear H1. cbn [all fst snd].
    eapply tells_iff; [repeat apply tells_and|].
    + apply tells_decide.
    + apply tells_differ.
    + apply tells_differ.
    + apply tells_negb.
    + apply tells_of_truth.
    + apply (tells_regclass sy _ _ _ (dep_class d)); [done|reflexivity].
    + apply (tells_regclass sy _ _ _ (dep_ref_class d)); [done|reflexivity].
    + apply tells_in2.
    + rewrite table_visible_spec by done. unfold user_sequence. rewrite !bool_decide_eq_true, <- prefix_spec. tauto.
  - intros [[[[[c n] [d|]] c2] n2] a2] _ HQ; [reflexivity|done].
  - intros [[[[[c n] [d|]] c2] n2] a2] [[[[[c' n'] [d'|]] c2'] n2'] a2'] _ HQ _ HQ' E; simpl in *; try done. by simplify_eq.
  - intros o. simpl. split.
    + intros (Hr & Hu & Hv & Hr2 & Ha & Ha2 & Hd & Ht & K1 & K2 & K3 & K4 & K5).
      exists (ow_rel o, ow_ns o, Some (ow_dep o), ow_owner_rel o, ow_owner_ns o, ow_column o).
      destruct Hr as (? & ? & ?), Hr2 as (? & ? & ?). simpl. split; [naive_solver|]. split; [naive_solver|]. by destruct o.
    + intros ([[[[[c n] [d|]] c2] n2] a2] & HP & HQ & E); simpl in *; [|done].
      subst o. unfold owned_sequence, rel_in. simpl. naive_solver.
Qed.
(** Whether there is pg_catalog.pg_sequence. *)
Lemma has_view_eval sy : sane sy →
  eval_query (store_of sy) [] [] has_sequences_view_query = Some [([VBool (bool_decide (is_Some (sy_sequences sy)))], [])].
Proof.
  intros Hs. unfold has_sequences_view_query.
  match goal with |- context [eval_query ?st ?ps ?e (Only (Exists ?q))] =>
    change (eval_query st ps e (Only (Exists q))) with
      (v ← (l ← eval_query st ps e q; Some (VBool (bool_decide (l ≠ [])))); Some [([v], @nil value)]) end.
  match goal with |- context [eval_query _ _ _ ?q] => assert (H : rows_for (λ _ : pg_class * pg_namespace, ([VInt 1], @nil value))
    (λ cn, rel_in sy cn.2 cn.1 ∧ ns_name cn.2 = "pg_catalog" ∧ rel_name cn.1 = "pg_sequence")
    (eval_query (store_of sy) [] [] q)) end.
  { eapply (select_start _ _ _ _ _ _ _ _ _ _ _ _ class_row); [reflexivity|apply (NoDup_key _ _ (sane_rel_oid _ Hs))|].
    intros envs H.
    eapply (select_join _ _ _ _ _ _ (λ c n, ns_oid n = rel_namespace c));
      [exact H|reflexivity|apply (NoDup_key _ _ (sane_ns_oid _ Hs))|intros; apply tells_decide|].
    clear envs H. intros envs H.
    eapply (select_end _ _ (λ cn, ns_name cn.2 = "pg_catalog" ∧ rel_name cn.1 = "pg_sequence") id); [exact H| | | |].
    - intros [c n] _. cbn [all fst snd]. apply tells_and; apply tells_decide.
    - reflexivity.
    - done.
    - intros [c n]. unfold id, rel_in. simpl. split.
      + intros ((H1 & H2 & H3) & H4 & H5). by exists (c, n).
      + intros ([c' n'] & (H1 & H2 & H3) & (H4 & H5) & [= -> ->]). done. }
  destruct H as (l & E & _ & HP).
  rewrite E, !bind_some. do 5 f_equal. apply bool_decide_ext. rewrite <- (sane_view _ Hs). split.
  - intros Hn. destruct l as [|[c n] l]; [done|]. assert ((c, n) ∈ (c, n) :: l) as ((H1 & H2 & H3) & H4 & H5)%HP by left.
    by exists n, c.
  - intros (n & c & H1 & H2 & H3 & H4 & H5) Hn. assert ((c, n) ∈ l) as Hin by (by apply HP). destruct l; [by apply elem_of_nil in Hin|done].
Qed.

(** * Storage options *)

Lemma mapM_cons_eq {A B} (f : A → option B) x l : mapM f (x :: l) = (y ← f x; ys ← mapM f l; Some (y :: ys)).
Proof. reflexivity. Qed.
Definition option_out (x : string) : list value * list value := ([VText x], [VText x]).
Lemma options_rows sy s t : sane sy →
  ∃ held, eval_query (store_of sy) [VText s; VText t] [] list_table_storage_parameters_query = Some (map option_out held) ∧
    ((∃ n c, rel_in sy n c ∧ ns_name n = s ∧ rel_name c = t ∧ held = default [] (rel_options c)) ∨
     ((∀ oid, ¬ is_relation sy s t oid) ∧ held = [])).
Proof.
  intros Hs. unfold list_table_storage_parameters_query. rewrite eval_query_select.
  change (st_table (store_of sy) "pg_catalog" "pg_namespace") with (Some (map namespace_row (sy_namespaces sy))).
  rewrite bind_some. cbn [join_all tab].
  change (st_table (store_of sy) "pg_catalog" "pg_class") with (Some (map class_row (sy_classes sy))). rewrite bind_some.
  destruct (rows_for_join (λ n, [("n", Some (namespace_row n))]) (λ n, n ∈ sy_namespaces sy) "c" class_row (sy_classes sy)
    (λ e, v ← eval (store_of sy) [VText s; VText t] e (eq (Col "c" "relnamespace") (Col "n" "oid")); holds v)
    (λ n c, rel_namespace c = ns_oid n) (NoDup_key _ _ (sane_rel_oid _ Hs))) with
    (envs := (λ r, [("n", Some r)]) <$> map namespace_row (sy_namespaces sy)) as (l & E & Hl & HP).
  { intros n c Hn Hc. apply tells_holds. apply tells_decide. }
  { apply (rows_for_first "n" namespace_row (sy_namespaces sy) [] (NoDup_key _ _ (sane_ns_oid _ Hs))). }
  rewrite E, !bind_some. clear E.
  destruct (select_rows_spec (λ tu : pg_namespace * pg_class, [("c", Some (class_row tu.2)); ("n", Some (namespace_row tu.1))])
    (λ nc, ns_name nc.1 = s ∧ rel_name nc.2 = t)
    (λ e, v ← eval (store_of sy) [VText s; VText t] e
        (all (eq (Col "n" "nspname") (Param 1)) [eq (Col "c" "relname") (Param 2)]); holds v) l) as (l' & E & Hl' & HP').
  { intros nc Hnc. apply tells_holds. apply tells_and; apply tells_decide. }
  { done. }
  rewrite E, bind_some. clear E.
  assert (Hu : ∀ x y, x ∈ l' → y ∈ l' → x = y).
  { intros [n c] [n' c'] ((H1 & H2 & H3)%HP & H4 & H5)%HP' ((K1 & K2 & K3)%HP & K4 & K5)%HP'. simpl in *.
    by destruct (is_relation_unique sy s t n c n' c' Hs) as [-> ->]. }
  destruct l' as [|[n c] [|y l']].
  - exists []. split; [done|]. right. split; [|done]. intros oid (n & c & (H1 & H2 & H3) & H4 & H5 & _).
    assert ((n, c) ∈ []) as Hin by (apply HP'; split; [by apply HP|done]). by apply elem_of_nil in Hin.
  - exists (default [] (rel_options c)). split.
    + assert (Hp : project (store_of sy) [VText s; VText t] [bare (Call None "unnest" [Col "c" "reloptions"])] [asc (Num 1)]
        [("c", Some (class_row c)); ("n", Some (namespace_row n))] = Some (map option_out (default [] (rel_options c)))).
      { unfold project, class_row. destruct (rel_options c) as [o|]; [|reflexivity]. simpl.
        induction o as [|x o IH]; [done|]. rewrite fmap_cons, bind_cons. cbn [app]. rewrite mapM_cons_eq.
        rewrite IH. reflexivity. }
      simpl. simpl in Hp. rewrite Hp. simpl. by rewrite app_nil_r.
    + left. exists n, c. assert ((n, c) ∈ [(n, c)]) as ((H1 & H2 & H3)%HP & H4 & H5)%HP' by left. done.
  - assert (y = (n, c)) as -> by (apply Hu; [right; left|left]). apply list.NoDup_cons in Hl' as [Hn _]. destruct Hn. left.
Qed.
