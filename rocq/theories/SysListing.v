(** What the listings of internal/pg make of the rows of their queries. *)
From Coq Require Import String Ascii.
From stdpp Require Import gmap list strings numbers sorting.
From Verif Require Import GoBase GoStrings DdlModel DdlSpec MachineModel ParseModel ParseGrammar ParseSpec PgModel PgSpec PgProofs
  QueryModel QueryProofs SysModel SysSpec SysProofs.
Local Open Scope Z_scope.

(** * Orders *)

Lemma keys_le_int st a b : keys_le st [false] [VInt a] [VInt b] = true → a ≤ b.
Proof. cbn [keys_le value_le]. repeat case_bool_decide; simpl; try done; lia. Qed.
Lemma keys_le_text st a b : (∀ x, st_text_le st x x = true) →
  (∀ x y, st_text_le st x y = true → st_text_le st y x = true → x = y) →
  keys_le st [false] [VText a] [VText b] = true → st_text_le st a b = true.
Proof.
  intros Hr Ha. cbn [keys_le value_le]. destruct (st_text_le st a b) eqn:E1; [done|]. simpl. done.
Qed.
Lemma ints_le_before a b : ints_le a b = true ↔ ints_before a b.
Proof.
  split.
  - revert b. induction a as [|x a IH]; intros [|y b]; simpl; try done; [constructor|constructor|].
    case_decide as E; intros K.
    + subst. apply before_same. by apply IH.
    + apply before_less. by apply bool_decide_eq_true in K.
  - induction 1 as [b|x y a b H|x a b H IH]; simpl.
    + by destruct b.
    + rewrite decide_False by lia. by rewrite bool_decide_eq_true.
    + by rewrite decide_True.
Qed.
Lemma ints_before_antisym a b : ints_before a b → ints_before b a → a = b.
Proof.
  intros H. induction H as [b|x y a b H|x a b H IH]; intros K; inversion K; subst; try done; try lia.
  f_equal. by apply IH.
Qed.
Lemma keys_le_foreign st a x b y :
  keys_le st [false; false] [VName a; VInts x] [VName b; VInts y] = true →
  (a ≠ b ∧ str_le a b) ∨ (a = b ∧ ints_before x y).
Proof.
  cbn [keys_le value_le]. rewrite leb_both. unfold str_le. case_bool_decide as E; [|naive_solver].
  rewrite <- ints_le_before. destruct (ints_le x y) eqn:E1; [naive_solver|]. simpl. done.
Qed.
Lemma keys_le_index st p u a p' u' a' :
  keys_le st [true; true; false] [VBool p; VBool u; VName a] [VBool p'; VBool u'; VName a'] = true →
  (p = true ∧ p' = false) ∨ (p = p' ∧ u = true ∧ u' = false) ∨ (p = p' ∧ u = u' ∧ str_le a a').
Proof.
  cbn [keys_le value_le]. rewrite leb_both. unfold str_le.
  assert (String.leb a' a' = true) as R by (by destruct (String.leb_total a' a')).
  destruct p, p', u, u'; simpl; intros H; try discriminate H; try (by left); try (by right; left);
    right; right; (split; [done|]; split; [done|]); case_bool_decide as E; try (by subst); done.
Qed.

(** * From rows to entries *)

(** The rows of a query, as scanned: those of the objects in [P], in order. *)
Definition gives {O R} (scan : list value → option R) (sy : system) (q : query) (ps : list string)
    (P : O → Prop) (before : O → O → Prop) (row : O → R → Prop) : Prop :=
  is_Some (eval_query (store_of sy) (VText <$> ps) [] q) ∧
  ∀ rows, yields (store_of sy) (VText <$> ps) q rows →
    ∃ objects held, NoDup objects ∧ (∀ o, o ∈ objects ↔ P o) ∧ StronglySorted before objects ∧
      scan <$> rows = Some <$> held ∧ Forall2 row objects held.

Lemma rows_give {T O R} (f : T → list value * list value) (P : T → Prop) (π : T → O) (P' : O → Prop)
    (before : O → O → Prop) (scan : list value → option R) (mk : T → R) (row : O → R → Prop) sy q ps :
  rows_for f P (eval_query (store_of sy) (VText <$> ps) [] q) →
  (∀ t, P t → scan (f t).1 = Some (mk t)) →
  (∀ t u, P t → P u → keys_le (store_of sy) (descending q) (f t).2 (f u).2 = true → before (π t) (π u)) →
  (∀ t u, P t → P u → π t = π u → t = u) →
  (∀ o, P' o ↔ ∃ t, P t ∧ π t = o) →
  (∀ t, P t → row (π t) (mk t)) →
  gives scan sy q ps P' before row.
Proof.
  intros Hrows Hscan Horder Hinj HP Hrow. split; [destruct Hrows as (l & -> & _); eauto|]. intros rows Hy.
  destruct (yields_rows f P _ _ _ _ Hrows Hy) as (objects & H1 & H2 & H3 & ->).
  assert (HF : Forall P objects) by (apply Forall_forall; intros; by apply H2).
  exists (π <$> objects), (mk <$> objects). split_and!.
  - apply NoDup_fmap_2_strong; [|done]. intros x y Hx Hy'. apply Hinj; by apply H2.
  - intros o. rewrite HP, elem_of_list_fmap. split.
    + intros (t & -> & Ht). exists t. split; [by apply H2|done].
    + intros (t & Ht & <-). exists t. split; [done|by apply H2].
  - apply (StronglySorted_iff _ (λ a b, before (π a) (π b))) in H3.
    + clear -H3. induction H3 as [|a l Hl IH Ha]; [constructor|]. simpl. constructor; [done|].
      apply Forall_fmap. eapply Forall_impl; [exact Ha|done].
    + intros a b Ha Hb. apply Horder; by apply H2.
  - clear -HF Hscan. induction HF as [|t l Ht Hl IH]; [done|]. simpl. rewrite Hscan by done. f_equal. exact IH.
  - clear -HF Hrow. induction HF as [|t l Ht Hl IH]; constructor; auto.
Qed.

Section listing.
  Context {O R A : Type} (scan : list value → option R) (sy : system) (q : query) (ps : list string)
    (P : O → Prop) (before : O → O → Prop) (row : O → R → Prop) (entry : R → A → Prop) (entry' : O → A → Prop)
    (list_fn : answer R → result (list A)).
  Context (Hgives : gives scan sy q ps P before row) (Hentry : ∀ o r x, P o → row o r → entry r x → entry' o x).

  Lemma entries_exact objects held l : NoDup objects → (∀ o, o ∈ objects ↔ P o) → StronglySorted before objects →
    Forall2 row objects held → Forall2 entry held l → lists_exactly P before entry' l.
  Proof using Hentry.
    intros H1 H2 H3 H4 H5. exists objects. split_and!; [done..|].
    assert (HF : Forall P objects) by (apply Forall_forall; intros; by apply H2).
    clear H1 H2 H3. revert l H5 HF. induction H4 as [|o r objects held Hr H4 IH]; intros l H5 HF; inversion H5; subst; constructor.
    - eapply Hentry; [|done|done]. by inversion HF.
    - apply IH; [done|]. by inversion HF.
  Qed.
  Lemma held_exact held l : has_rows scan sy q ps held → Forall2 entry held l → lists_exactly P before entry' l.
  Proof using Hgives Hentry.
    intros (rows & Hy & E) Hl. destruct Hgives as [_ Hg]. destruct (Hg rows Hy) as (objects & held' & H1 & H2 & H3 & E' & H4).
    rewrite E in E'. apply (inj (fmap Some)) in E' as ->. by eapply entries_exact.
  Qed.
  Lemma listing_exact a l : lists entry list_fn → replies scan sy q ps a → list_fn a = Got l → lists_exactly P before entry' l.
  Proof using Hgives Hentry.
    intros Hlists (rows & Hy & Ha) Hl. destruct Hgives as [_ Hg]. destruct (Hg rows Hy) as (objects & held & H1 & H2 & H3 & E & H4).
    assert (Hans : answers held a ∧ whole a).
    { destruct Ha as [->|(d & -> & Hd)]; [split; [constructor|done]|]. split; [|done]. constructor.
      clear -Hd E. revert rows d E Hd. induction held as [|t held IH]; intros [|r rows] d E Hd; try done.
      - inversion Hd. constructor.
      - simpl in E. injection E as E1 E2. inversion_clear Hd as [|x y d' l' Hx Hd']. constructor; [|by eapply IH].
        unfold delivers. rewrite <- E1. destruct Hx as [-> | ->]; auto. }
    destruct Hans as [Hans Hw]. destruct (Hlists _ _ Hans Hw) as [K _]. apply K in Hl. destruct Hl as [Hl Hf]. by eapply entries_exact.
  Qed.
  (** Nothing goes wrong: there is a listing. *)
  Lemma listing_total a : lists entry list_fn → (∀ o r, P o → row o r → ∃ x, entry r x) → replies_all scan sy q ps a →
    ∃ l, list_fn a = Got l.
  Proof using Hgives.
    intros Hlists He (rows & Hy & ->). destruct Hgives as [_ Hg]. destruct (Hg rows Hy) as (objects & held & H1 & H2 & H3 & -> & H4).
    assert (HF : Forall P objects) by (apply Forall_forall; intros; by apply H2).
    assert (∃ l, Forall2 entry held l) as [l Hl].
    { clear -HF He H4. induction H4 as [|o r objects held Hr H4 IH]; [exists []; constructor|]. inversion HF; subst.
      destruct IH as [l IH]; [done|]. destruct (He o r) as [x Hx]; [done..|]. exists (x :: l). by constructor. }
    exists l. assert (Hans : answers held (Rows (Some <$> held) false)).
    { constructor. by apply delivers_all. }
    destruct (Hlists _ _ Hans eq_refl) as [K _]. by apply K.
  Qed.
  (** Where the order leaves no choice, there is one answer. *)
  Lemma held_unique held held' : (∀ a b, P a → P b → before a b → before b a → a = b) →
    (∀ o r r', P o → row o r → row o r' → r = r') →
    has_rows scan sy q ps held → has_rows scan sy q ps held' → held = held'.
  Proof using Hgives.
    intros Ha Hr (rows & Hy & E) (rows' & Hy' & E'). destruct Hgives as [_ Hg].
    destruct (Hg rows Hy) as (os & x & H1 & H2 & H3 & F & H4). destruct (Hg rows' Hy') as (os' & x' & K1 & K2 & K3 & F' & K4).
    rewrite F in E. rewrite F' in E'. apply (inj (fmap Some)) in E as <-, E' as <-.
    assert (os = os') as <-.
    { assert (Hp : os ≡ₚ os') by (apply NoDup_Permutation; [done..|intros o; by rewrite H2, K2]).
      assert (HF : ∀ o, o ∈ os → P o) by (intros; by apply H2). clear -Hp H3 K3 HF Ha.
      revert os' Hp K3. induction H3 as [|a os Hs IH Hb]; intros os' Hp K3.
      - by apply Permutation_nil in Hp.
      - destruct os' as [|b os']; [by apply Permutation_sym, Permutation_nil in Hp|]. inversion_clear K3 as [|?? Ks Kb].
        assert (a = b) as ->.
        { assert (Hin : b ∈ a :: os) by (rewrite Hp; left). assert (Kin : a ∈ b :: os') by (rewrite <- Hp; left).
          apply elem_of_cons in Hin as [->|Hin]; [done|]. apply elem_of_cons in Kin as [->|Kin]; [done|].
          rewrite Forall_forall in Hb, Kb. apply Ha; [apply HF; left|apply HF; by right|by apply Hb|by apply Kb]. }
        f_equal. apply IH; [intros; apply HF; by right|by apply Permutation_cons_inv in Hp|done]. }
    assert (HF : Forall P os) by (apply Forall_forall; intros; by apply H2). clear -H4 K4 HF Hr.
    revert x' K4. induction H4 as [|o r os x Hor H4 IH]; intros x' K4; inversion K4; subst; [done|]. inversion HF; subst.
    f_equal; [by eapply Hr|by apply IH].
  Qed.
End listing.
Lemma all_replies {R} (scan : list value → option R) sy q ps a : replies_all scan sy q ps a → replies scan sy q ps a.
Proof.
  intros (rows & Hy & ->). exists rows. split; [done|]. right. eexists. split; [done|].
  clear. induction rows; constructor; auto.
Qed.

(** * The listings *)

Section listings.
Context (sy : system) (Hs : sane sy).

Lemma scan_nullable o : to_nullable (nullable_text o) = Some o.
Proof. by destruct o. Qed.

Definition schema_mk (n : pg_namespace) : schema_row :=
  SchemaRow (Some (ns_name n)) (Some (sy_user sy (ns_owner n))) (sy_comment sy "pg_namespace" (ns_oid n)).
Lemma schemas_give : gives scan_schema sy list_schemas_query []
  (λ n, n ∈ sy_namespaces sy ∧ user_schema n) (λ a b, str_le (ns_name a) (ns_name b)) (λ n r, r = schema_mk n).
Proof.
  apply (rows_give _ _ id _ _ _ schema_mk _ _ _ [] (schemas_rows sy Hs)).
  - intros n _. simpl. by rewrite scan_nullable.
  - intros n m _ _ H. by apply keys_le_name in H.
  - done.
  - intros n. unfold id. naive_solver.
  - done.
Qed.

Definition table_mk (nc : pg_namespace * pg_class) : table_row :=
  TableRow (Some (ns_name nc.1)) (Some (rel_name nc.2)) (Some (sy_user sy (rel_owner nc.2)))
    (sy_comment sy "pg_class" (rel_oid nc.2)).
Lemma tables_give : gives scan_table sy list_tables_query []
  (λ nc, rel_in sy nc.1 nc.2 ∧ user_table nc.1 nc.2 ∧ in_view sy nc.2)
  (λ a b, by_names (ns_name a.1, rel_name a.2) (ns_name b.1, rel_name b.2)) (λ nc r, r = table_mk nc).
Proof.
  apply (rows_give _ _ id _ _ _ table_mk _ _ _ [] (tables_rows sy Hs)).
  - intros nc _. simpl. by rewrite scan_nullable.
  - intros nc nd _ _ H. by apply keys_le_names in H.
  - done.
  - intros nc. unfold id. naive_solver.
  - done.
Qed.

Definition column_row_of (a : pg_attribute) (r : column_row) : Prop :=
  ∃ o, default_of sy a o ∧
    r = ColumnRow (att_name a) (sy_type_name sy (att_type a) (Some (att_typmod a))) (att_not_null a) o
      (sy_col_comment sy (att_rel a) (att_num a)).
Lemma columns_give s t : gives scan_column sy list_columns_query [s; t]
  (λ a, a ∈ sy_attributes sy ∧ is_relation sy s t (att_rel a) ∧ 0 < att_num a ∧ att_dropped a = false)
  (λ a b, att_num a ≤ att_num b) column_row_of.
Proof.
  eapply (rows_give _ _ id _ _ _ _ _ _ _ [s; t] (columns_rows sy s t Hs)).
  - intros x _. simpl. rewrite !scan_nullable. done.
  - intros x y _ _ H. by apply keys_le_int in H.
  - done.
  - intros x. unfold id. naive_solver.
  - intros x _. exists (default_value sy x). split; [apply default_value_spec|done].
Qed.

Definition check_mk (r : pg_constraint) : named_def := NamedDef (con_name r) (sy_constraintdef sy (con_oid r) true).
Lemma checks_give s t : gives scan_named sy list_checks_query [s; t]
  (λ r, r ∈ sy_constraints sy ∧ is_relation sy s t (con_rel r) ∧ con_type r = "c")
  (λ a b, str_le (con_name a) (con_name b)) (λ c r, r = check_mk c).
Proof.
  apply (rows_give _ _ id _ _ _ check_mk _ _ _ [s; t] (checks_rows sy s t Hs)).
  - done.
  - intros x y _ _ H. by apply keys_le_name in H.
  - done.
  - intros x. unfold id. naive_solver.
  - done.
Qed.

Definition trigger_mk (g : pg_trigger) : named_def := NamedDef (trig_name g) (sy_triggerdef sy (trig_oid g)).
Lemma triggers_give s t : gives scan_named sy list_triggers_query [s; t]
  (λ g, g ∈ sy_triggers sy ∧ is_relation sy s t (trig_rel g) ∧ trig_internal g = false)
  (λ a b, str_le (trig_name a) (trig_name b)) (λ g r, r = trigger_mk g).
Proof.
  apply (rows_give _ _ id _ _ _ trigger_mk _ _ _ [s; t] (triggers_rows sy s t Hs)).
  - done.
  - intros x y _ _ H. by apply keys_le_name in H.
  - done.
  - intros x. unfold id. naive_solver.
  - done.
Qed.
Lemma trigger_gives s t name : gives scan_text sy describe_trigger_query [s; t; name]
  (λ g, g ∈ sy_triggers sy ∧ is_relation sy s t (trig_rel g) ∧ trig_name g = name)
  (λ _ _, True) (λ g r, r = sy_triggerdef sy (trig_oid g)).
Proof.
  apply (rows_give _ _ id _ _ _ (λ g, sy_triggerdef sy (trig_oid g)) _ _ _ [s; t; name] (describe_trigger_rows sy s t name Hs));
    try done.
  intros x. unfold id. naive_solver.
Qed.

Definition index_mk (ic : pg_index * pg_class) : index_row :=
  IndexRow (rel_name ic.2) (ind_primary ic.1) (sy_indexdef sy (ind_index ic.1)).
Lemma indexes_give s t : gives scan_index sy list_indexes_query [s; t]
  (λ ic, ic.1 ∈ sy_indexes sy ∧ is_relation sy s t (ind_rel ic.1) ∧ ic.2 ∈ sy_classes sy ∧ rel_oid ic.2 = ind_index ic.1)
  (λ a b, (ind_primary a.1 = true ∧ ind_primary b.1 = false) ∨
       (ind_primary a.1 = ind_primary b.1 ∧ ind_unique a.1 = true ∧ ind_unique b.1 = false) ∨
       (ind_primary a.1 = ind_primary b.1 ∧ ind_unique a.1 = ind_unique b.1 ∧ str_le (rel_name a.2) (rel_name b.2)))
  (λ ic r, r = index_mk ic).
Proof.
  apply (rows_give _ _ id _ _ _ index_mk _ _ _ [s; t] (indexes_rows sy s t Hs)).
  - done.
  - intros x y _ _ H. by apply keys_le_index in H.
  - done.
  - intros x. unfold id. naive_solver.
  - done.
Qed.

Definition foreign_key_mk (r : pg_constraint) : named_def := NamedDef (con_name r) (sy_constraintdef sy (con_oid r) false).
Lemma foreign_keys_give s t : gives scan_named sy list_foreign_keys_query [s; t]
  (λ r, r ∈ sy_constraints sy ∧ is_relation sy s t (con_rel r) ∧ con_type r = "f") (foreign_key_before sy)
  (λ c r, r = foreign_key_mk c).
Proof.
  apply (rows_give _ _ fst _ _ _ (λ rc, foreign_key_mk rc.1) _ _ _ [s; t] (foreign_keys_rows sy s t Hs)).
  - done.
  - intros [r c] [r' c'] (H1 & H2 & H3 & H4 & H5) (K1 & K2 & K3 & K4 & K5) H. apply keys_le_foreign in H. simpl in *.
    by exists c, c'.
  - intros [r c] [r' c'] (H1 & H2 & H3 & H4 & H5) (K1 & K2 & K3 & K4 & K5) E. simpl in *. subst r'. f_equal.
    apply (key_unique rel_oid (sy_classes sy)); [apply sane_rel_oid|..]; try done. congruence.
  - intros r. split.
    + intros (H1 & H2 & H3). destruct (sane_con_frel _ Hs r H1 H3) as (c & H4 & H5). by exists (r, c).
    + intros ([r' c] & (H1 & H2 & H3 & _) & <-). done.
  - done.
Qed.

Lemma lang_unique (n : pg_namespace) p g (n' : pg_namespace) p' g' : g ∈ sy_languages sy → g' ∈ sy_languages sy →
  lang_oid g = proc_lang p → lang_oid g' = proc_lang p' → (n, p) = (n', p') → (n, p, g) = (n', p', g').
Proof.
  intros H1 H2 H3 H4 [= -> ->]. f_equal. apply (key_unique lang_oid (sy_languages sy)); [apply sane_lang|..]; try done. congruence.
Qed.
Definition function_row_of (np : pg_namespace * pg_proc) (r : function_row) : Prop :=
  ∃ g, g ∈ sy_languages sy ∧ lang_oid g = proc_lang np.2 ∧
    r = FunctionRow (Some (ns_name np.1)) (Some (proc_name np.2)) (Some (sy_user sy (proc_owner np.2)))
      (sy_comment sy "pg_proc" (proc_oid np.2)) (sy_result sy (proc_oid np.2)) (Some (lang_name g)) (Some (proc_src np.2)).
Lemma functions_give : gives scan_function sy list_functions_query []
  (λ np, proc_in sy np.1 np.2 ∧ ns_name np.1 ≠ "pg_catalog" ∧ ns_name np.1 ≠ "information_schema" ∧ function_in_view sy np.2)
  (λ a b, by_names (ns_name a.1, proc_name a.2) (ns_name b.1, proc_name b.2)) function_row_of.
Proof.
  eapply (rows_give _ _ fst _ _ _ _ _ _ _ [] (functions_rows sy Hs)).
  - intros [[n p] g] _. simpl. rewrite !scan_nullable. simpl.
    instantiate (1 := λ npg, FunctionRow (Some (ns_name npg.1.1)) (Some (proc_name npg.1.2)) (Some (sy_user sy (proc_owner npg.1.2)))
      (sy_comment sy "pg_proc" (proc_oid npg.1.2)) (sy_result sy (proc_oid npg.1.2)) (Some (lang_name npg.2)) (Some (proc_src npg.1.2))).
    done.
  - intros [[n p] g] [[n' p'] g'] _ _ H. by apply keys_le_names in H.
  - intros [[n p] g] [[n' p'] g'] (H1 & H2 & H3 & _) (K1 & K2 & K3 & _) E. by apply lang_unique.
  - intros [n p]. split.
    + intros (H1 & H2 & H3 & H4). destruct (sane_proc_lang _ Hs p (proj1 (proj2 H1))) as (g & H5 & H6). by exists (n, p, g).
    + intros ([[n' p'] g] & (H1 & H2 & H3 & H4 & H5 & H6) & [= <- <-]). done.
  - intros [[n p] g] (H1 & H2 & H3 & _). by exists g.
Qed.
Definition described_row_of (np : pg_namespace * pg_proc) (r : function_row) : Prop :=
  ∃ x, function_row_of np x ∧ r = FunctionRow None None (fr_owner x) (fr_comment x) (fr_returns x) (fr_language x) (fr_definition x).
Lemma function_gives s name : gives scan_described sy describe_function_query [s; name]
  (λ np, proc_in sy np.1 np.2 ∧ ns_name np.1 = s ∧ proc_name np.2 = name) (λ _ _, True) described_row_of.
Proof.
  eapply (rows_give _ _ fst _ _ _ _ _ _ _ [s; name] (describe_function_rows sy s name Hs)).
  - intros [[n p] g] _. simpl. rewrite !scan_nullable. simpl.
    instantiate (1 := λ npg, FunctionRow None None (Some (sy_user sy (proc_owner npg.1.2)))
      (sy_comment sy "pg_proc" (proc_oid npg.1.2)) (sy_result sy (proc_oid npg.1.2)) (Some (lang_name npg.2)) (Some (proc_src npg.1.2))).
    done.
  - done.
  - intros [[n p] g] [[n' p'] g'] (H1 & H2 & H3 & _) (K1 & K2 & K3 & _) E. by apply lang_unique.
  - intros [n p]. split.
    + intros (H1 & H2 & H3). destruct (sane_proc_lang _ Hs p (proj1 (proj2 H1))) as (g & H5 & H6). by exists (n, p, g).
    + intros ([[n' p'] g] & (H1 & H2 & H3 & H4 & H5) & [= <- <-]). done.
  - intros [[n p] g] (H1 & H2 & H3 & _). eexists. split; [by exists g|done].
Qed.

Definition sequence_row_of (l : list pg_sequence) (o : owned) (r : sequence_row * (option string * details_row)) : Prop :=
  ∃ s, s ∈ l ∧ seq_rel s = rel_oid (ow_rel o) ∧ r = (owned_row sy o, (Some (sy_type_name sy (seq_typ s) None), sequence_details s)).
Definition owned_before (a b : owned) : Prop :=
  by_names (ns_name (ow_ns a), rel_name (ow_rel a)) (ns_name (ow_ns b), rel_name (ow_rel b)).
Lemma sequences_give l : sy_sequences sy = Some l →
  gives scan_sequence sy list_sequences_query [] (owned_sequence sy) owned_before (sequence_row_of l).
Proof.
  intros Hl. eapply (rows_give _ _ fst _ _ _ _ _ _ _ [] (sequences_rows sy l Hs Hl)).
  - intros [o s] _. simpl. rewrite !scan_nullable. simpl.
    instantiate (1 := λ os, (owned_row sy os.1, (Some (sy_type_name sy (seq_typ os.2) None), sequence_details os.2))). done.
  - intros [o s] [o' s'] _ _ H. by apply keys_le_names in H.
  - intros [o s] [o' s'] (H1 & H2 & H3) (K1 & K2 & K3) E. simpl in *. subst o'. f_equal.
    apply (key_unique seq_rel l); [by apply (sane_seq _ Hs)|..]; try done. congruence.
  - intros o. split.
    + intros H. pose proof H as ((_ & Hc & _) & (Hk & _) & _). destruct (sane_seq_rel _ Hs l _ Hl Hc Hk) as (s & H2 & H3). by exists (o, s).
    + intros ([o' s] & (H1 & _) & <-). done.
  - intros [o s] (H1 & H2 & H3). by exists s.
Qed.
Lemma old_sequences_give :
  gives scan_old_sequence sy list_sequences_pre10_query [] (owned_sequence sy) owned_before (λ o r, r = owned_row sy o).
Proof.
  apply (rows_give _ _ id _ _ _ (owned_row sy) _ _ _ [] (old_sequences_rows sy Hs)).
  - intros o _. simpl. by rewrite !scan_nullable.
  - intros o o' _ _ H. by apply keys_le_names in H.
  - done.
  - intros o. unfold id. naive_solver.
  - done.
Qed.
End listings.

(** * Storage options, the view, sequences *)

Lemma options_hold sy s t held : sane sy →
  has_rows scan_text sy list_table_storage_parameters_query [s; t] held → options_of_table sy s t held.
Proof.
  intros Hs (rows & (raw & sorted & K1 & K2 & K3 & ->) & E). destruct (options_rows sy s t Hs) as (l & H1 & H2).
  assert (raw = map option_out l) as -> by (change (VText <$> [s; t]) with [VText s; VText t] in K1; congruence).
  apply Permutation_map_inv in K2 as (l' & -> & Hp).
  assert (held = l') as ->.
  { clear -E. revert held E. induction l' as [|x l' IH]; intros [|y held] E; simpl in E; try done.
    injection E as E1 E2. f_equal; [done|]. by apply IH. }
  exists l. split; [|by split].
  clear -K3 Hs. induction l' as [|x l' IH]; [constructor|]. inversion_clear K3 as [|a b H1 H2]. constructor; [by apply IH|].
  rewrite Forall_forall in H2. apply Forall_forall. intros y Hy. apply (keys_le_text (store_of sy) x y).
  - apply sane_text_refl, Hs.
  - apply sane_text_anti, Hs.
  - apply (H2 (option_out y)). change (option_out y ∈ option_out <$> l'). by apply elem_of_list_fmap_1.
Qed.
Lemma options_total sy s t : sane sy → is_Some (eval_query (store_of sy) (VText <$> [s; t]) [] list_table_storage_parameters_query).
Proof. intros Hs. destruct (options_rows sy s t Hs) as (l & H1 & H2). change (VText <$> [s; t]) with [VText s; VText t]. rewrite H1. eauto. Qed.
Lemma options_scanned sy s t rows : sane sy → yields (store_of sy) (VText <$> [s; t]) list_table_storage_parameters_query rows →
  ∃ held, scan_text <$> rows = Some <$> held.
Proof.
  intros Hs (raw & sorted & K1 & K2 & K3 & ->). destruct (options_rows sy s t Hs) as (l & H1 & H2).
  assert (raw = map option_out l) as -> by (change (VText <$> [s; t]) with [VText s; VText t] in K1; congruence).
  apply Permutation_map_inv in K2 as (l' & -> & Hp). exists l'. clear. induction l' as [|x l' IH]; [done|]. simpl. by f_equal.
Qed.
Lemma storage_exact pf sy s t a p : sane sy →
  replies scan_text sy list_table_storage_parameters_query [s; t] a → list_storage pf a = Got p →
  ∃ l, options_of_table sy s t l ∧ storage_entries pf l p.
Proof.
  intros Hs (rows & Hy & Ha) Hl. destruct (options_scanned _ _ _ _ Hs Hy) as [held E].
  assert (Hans : answers held a ∧ whole a).
  { destruct Ha as [->|(d & -> & Hd)]; [split; [constructor|done]|]. split; [|done]. constructor.
    clear -Hd E. revert rows d E Hd. induction held as [|x held IH]; intros [|r rows] d E Hd; try done.
    - inversion Hd. constructor.
    - simpl in E. injection E as E1 E2. inversion_clear Hd as [|? ? d' l' Hx Hd']. constructor; [|by eapply IH].
      unfold delivers. rewrite <- E1. destruct Hx as [-> | ->]; auto. }
  destruct Hans as [Hans Hw]. destruct (list_storage_ok pf _ _ Hans Hw) as [K _]. apply K in Hl. destruct Hl as [Hx Hl].
  exists held. split; [|done]. apply options_hold; [done|]. by exists rows.
Qed.

Lemma view_yields sy rows : sane sy → yields (store_of sy) [] has_sequences_view_query rows →
  rows = [[VBool (bool_decide (is_Some (sy_sequences sy)))]].
Proof.
  intros Hs (raw & sorted & K1 & K2 & K3 & ->). rewrite (has_view_eval sy Hs) in K1. injection K1 as <-.
  by apply Permutation_singleton_r in K2 as ->.
Qed.
Lemma view_exact sy v b : sane sy → replies_row scan_bool sy has_sequences_view_query [] v → v = Row b →
  b = bool_decide (is_Some (sy_sequences sy)).
Proof.
  intros Hs (rows & Hy & Hv) ->. apply view_yields in Hy as ->; [|done].
  destruct Hv as [?|[[??]|(r & rows' & x & E1 & E2 & E3)]]; try done.
  injection E1 as <- <-. simpl in E2. congruence.
Qed.
Lemma old_entry_for sy details o q : sy_sequences sy = None → reads_details sy details → owned_sequence sy o →
  old_sequence_entry details (owned_row sy o) q → sequence_for sy o q.
Proof.
  intros Hn Hd Ho (H1 & H2 & d & H3 & H4). unfold sequence_for. rewrite Hn. split_and!; [done|done|].
  pose proof H1 as (E1 & E2 & _). destruct Ho as (Hin & (Hk & _) & _). pose proof (Hd _ _ Hin Hk) as Ha.
  destruct E1 as [[= E1]|[? _]]; [|done]. destruct E2 as [[= E2]|[? _]]; [|done].
  rewrite <- E1, <- E2 in H3. rewrite H3 in Ha. by destruct Ha as [[= ->]|?].
Qed.
Lemma sequences_exact sy v new old details l : sane sy →
  replies_row scan_bool sy has_sequences_view_query [] v →
  (is_Some (sy_sequences sy) → replies scan_sequence sy list_sequences_query [] new) →
  replies scan_old_sequence sy list_sequences_pre10_query [] old →
  reads_details sy details →
  list_sequences v new old details = Got l → sequences_of sy l.
Proof.
  intros Hs Hv Hn Ho Hd Hl. unfold list_sequences in Hl. apply bind_got in Hl as (view & E%single_got & Hl).
  apply (view_exact _ _ _ Hs Hv) in E. destruct (sy_sequences sy) as [sq|] eqn:Hq.
  - rewrite bool_decide_true in E by eauto. subst view.
    eapply (listing_exact _ _ _ _ _ _ _ _ _ _ (sequences_give sy Hs sq Hq)); [|apply new_sequences_ok|apply Hn; eauto|exact Hl].
    intros o r x _ (s & H1 & H2 & ->) H3. unfold sequence_for. rewrite Hq. by exists s.
  - rewrite bool_decide_false in E by (by intros [? ?]). subst view.
    eapply (listing_exact _ _ _ _ _ _ _ _ _ _ (old_sequences_give sy Hs)); [|apply (old_sequences_details details)|exact Ho|exact Hl].
    intros o r x H -> H3. by apply (old_entry_for sy details).
Qed.
