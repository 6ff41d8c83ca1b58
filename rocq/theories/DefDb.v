(** Inspecting a database whose definitions are written as PostgreSQL writes them. *)
From Coq Require Import String Ascii.
From stdpp Require Import gmap list strings numbers sorting.
From Verif Require Import GoBase GoStrings DdlModel DdlSpec MachineModel ParseModel ParseSpec ParseEquiv ParseCheckEquiv PgModel PgSpec PgProofs
  QueryModel SysModel SysSpec SysListing SysInspect SysProps DefModel DefSpec DefProofs DefTrigger DefCheck DefIndex DefDbSpec.
Local Open Scope Z_scope.

Lemma lists_impl {A B} (P : A → Prop) (b : A → A → Prop) (e e' : A → B → Prop) l :
  (∀ a x, P a → e a x → e' a x) → lists_exactly P b e l → lists_exactly P b e' l.
Proof.
  intros H (os & H1 & H2 & H3 & H4). exists os. split_and!; [done..|].
  assert (HF : Forall P os) by (apply Forall_forall; intros; by apply H1). clear -H H4 HF.
  induction H4 as [|a x os l Ha H4 IH]; constructor; inversion HF; subst; auto.
Qed.
Lemma lists_each {A B} (P : A → Prop) (b : A → A → Prop) (e : A → B → Prop) l a :
  lists_exactly P b e l → P a → ∃ x, x ∈ l ∧ e a x.
Proof.
  intros (os & H1 & _ & _ & H4) Ha. apply H1 in Ha. apply elem_of_list_lookup in Ha as [i Hi].
  destruct (Forall2_lookup_l _ _ _ _ _ H4 Hi) as (x & Hx & He). exists x. split; [by eapply elem_of_list_lookup_2|done].
Qed.

Section prints.
  Context (reserved : string → bool) (word : function_word) (sy : system) (sh : shapes) (Hp : prints reserved word sy sh).

  Lemma fk_entry_said s t r fk : fk_of_table sy s t r →
    foreign_key_entry (NamedDef (con_name r) (sy_constraintdef sy (con_oid r) false)) fk ↔
    readable_fk reserved (sh_fk sh (con_oid r)) ∧ fk_said sh r fk.
  Proof using Hp.
    intros (H1 & H2 & H3). unfold foreign_key_entry, fk_said. cbn [nd_name nd_def].
    rewrite <- parse_foreign_key_spec, (prints_fk _ _ _ _ Hp r H1 H3), fk_reads. naive_solver.
  Qed.
  Lemma check_entry_said s t r c : check_of_table sy s t r →
    check_entry (NamedDef (con_name r) (sy_constraintdef sy (con_oid r) true)) c →
    readable_check (sh_check sh (con_oid r)) ∧ check_said sh r c.
  Proof using Hp.
    intros (H1 & H2 & H3) [E H]. cbn [nd_name nd_def] in *. rewrite (prints_check _ _ _ _ Hp r H1 H3) in H.
    apply check_reads in H as (K1 & K2 & K3 & K4). split; [done|]. split_and!; done.
  Qed.
  Lemma check_entry_some s t r : check_of_table sy s t r → readable_check (sh_check sh (con_oid r)) →
    ∃ c, check_entry (NamedDef (con_name r) (sy_constraintdef sy (con_oid r) true)) c.
  Proof using Hp.
    intros (H1 & H2 & H3) H. apply check_accepted in H as [c H]. exists (Check (con_name r) (ck_expression c) (ck_deferrable c) (ck_deferred c)).
    split; [done|]. cbn [nd_def ck_expression ck_deferrable ck_deferred]. rewrite (prints_check _ _ _ _ Hp r H1 H3), H.
    apply parse_check_flags in H as (_ & _ & H). destruct c. simpl in *. by subst.
  Qed.
  Lemma trigger_entry_said s t g x : trigger_of_table sy s t g →
    trigger_entry s (NamedDef (trig_name g) (sy_triggerdef sy (trig_oid g))) x ↔
    readable_trigger reserved (sh_trigger sh (trig_oid g)) ∧ trigger_said sh s g x.
  Proof using Hp.
    intros (H1 & H2 & H3). unfold trigger_entry, trigger_said. cbn [nd_def].
    rewrite <- parse_trigger_spec, (prints_trigger _ _ _ _ Hp g H1 H3), trigger_reads. naive_solver.
  Qed.
  Lemma index_entry_said s t i name x : simple_indexes sy sh → index_of_table sy s t i →
    index_entry s (IndexRow name (ind_primary i) (sy_indexdef sy (ind_index i))) x ↔
    accepted_index reserved (sh_index sh (ind_index i)) ∧ index_said (read_as reserved) sh s i x.
  Proof using Hp.
    intros Hsi (H1 & H2). unfold index_entry, index_said, accepted_index. cbn [xr_def xr_primary].
    rewrite <- parse_index_spec, (prints_index _ _ _ _ Hp i H1), index_accepts by (by apply Hsi). naive_solver.
  Qed.
End prints.

Lemma exactly_named {A B} (P Q : A → Prop) (b : A → A → Prop) (e : A → B → Prop) l :
  (∀ a, P a ↔ Q a) → lists_exactly P b e l → lists_exactly Q b e l.
Proof. intros H (os & H1 & H2). exists os. split; [|done]. intros a. by rewrite H1. Qed.

Section inspected.
  Context (reserved : string → bool) (word : function_word) (sy : system) (sh : shapes) (Hp : prints reserved word sy sh)
    (Hs : sane sy) (Hi : simple_indexes sy sh).

  Lemma tables_in_view pf db t : database_of pf sy db → t ∈ db_tables db →
    ∃ n c, rel_in sy n c ∧ user_table n c ∧ in_view sy c ∧ tb_schema t.1 = ns_name n ∧ tb_name t.1 = rel_name c ∧
      table_details pf sy (n, c) t.
  Proof using.
    intros (_ & _ & _ & (os & H1 & _ & _ & H4) & _) Ht. apply elem_of_list_lookup in Ht as [i Ht].
    destruct (Forall2_lookup_r _ _ _ _ _ H4 Ht) as ([n c] & Hx & Hd).
    assert ((n, c) ∈ os) as Ho%H1 by (by eapply elem_of_list_lookup_2). destruct Ho as (K1 & K2 & K3). exists n, c.
    split_and!; try done; destruct Hd as [(F1 & F2 & _) _]; simpl in F1, F2; by apply some_text.
  Qed.
  Lemma named_indexes s t ic : (ic.1 ∈ sy_indexes sy ∧ is_relation sy s t (ind_rel ic.1) ∧ ic.2 ∈ sy_classes sy ∧ rel_oid ic.2 = ind_index ic.1) ↔
    named_index sy s t ic.
  Proof using. unfold named_index, index_of_table. naive_solver. Qed.
  Lemma index_class i : i ∈ sy_indexes sy → ∃ c, c ∈ sy_classes sy ∧ rel_oid c = ind_index i.
  Proof using Hs. apply (sane_ind_rel _ Hs). Qed.

  Lemma inspected_said pf db : database_of pf sy db → said reserved sy sh db ∧ all_readable reserved sy sh ∧ options_applicable pf sy.
  Proof using Hp Hs Hi.
    intros Hdb. pose proof Hdb as (_ & _ & _ & Ht & (ixs & Hix & Hixp) & (tgs & Htg & Htgp)).
    assert (Hget : ∀ n c, rel_in sy n c → user_table n c → in_view sy c → ∃ t i l, db_tables db !! i = Some t ∧ ixs !! i = Some l ∧
      tb_schema t.1 = ns_name n ∧ tb_name t.1 = rel_name c ∧ table_details pf sy (n, c) t ∧
      (∃ g, tgs !! i = Some g ∧ triggers_of sy (ns_name n) (rel_name c) g) ∧ indexes_of sy (ns_name n) (rel_name c) l).
    { intros n c H1 H2 H3. destruct Ht as (os & K1 & _ & _ & K4). assert ((n, c) ∈ os) as Ho by (by apply K1).
      apply elem_of_list_lookup in Ho as [i Ho]. destruct (Forall2_lookup_l _ _ _ _ _ K4 Ho) as (t & Hx & Hd).
      pose proof Hd as [(F1 & F2 & _) _]. simpl in F1, F2. apply some_text in F1. apply some_text in F2.
      destruct (Forall2_lookup_l _ _ _ _ _ Hix Hx) as (l & Hl & Kl). destruct (Forall2_lookup_l _ _ _ _ _ Htg Hx) as (g & Hg & Kg).
      rewrite F1, F2 in Kl, Kg. exists t, i, l. split_and!; try done. by exists g. }
    split_and!.
    - split_and!.
      + apply Forall_forall. intros t Hin. destruct (tables_in_view pf db t Hdb Hin) as (n & c & _ & _ & _ & -> & -> & (_ & _ & H1 & H2 & _)).
        simpl in H1, H2. split.
        * eapply lists_impl; [|exact H2]. intros r fk Hr. by intros []%(fk_entry_said reserved word sy sh Hp _ _ _ _ Hr).
        * eapply lists_impl; [|exact H1]. intros r ck Hr. by intros []%(check_entry_said reserved word sy sh Hp _ _ _ _ Hr).
      + exists tgs. split; [|done]. eapply Forall2_impl; [exact Htg|]. intros t l H. eapply lists_impl; [|exact H].
        intros g x Hg. by intros []%(trigger_entry_said reserved word sy sh Hp _ _ _ _ Hg).
      + exists ixs. split; [|done]. eapply Forall2_impl; [exact Hix|]. intros t l H. eapply exactly_named; [apply named_indexes|].
        eapply lists_impl; [|exact H]. intros ic x (K1 & K2 & K3).
        by intros []%(index_entry_said reserved word sy sh Hp _ _ _ _ _ Hi (conj K1 K2)).
    - intros n c H1 H2 H3. destruct (Hget n c H1 H2 H3) as (t & i & l & _ & _ & _ & _ & (_ & _ & D1 & D2 & _) & (g & _ & Dg) & Dl).
      simpl in D1, D2. split_and!.
      + intros r Hr. destruct (lists_each _ _ _ _ _ D2 Hr) as (x & _ & Hx). by apply (fk_entry_said reserved word sy sh Hp _ _ _ _ Hr) in Hx as [].
      + intros r Hr. destruct (lists_each _ _ _ _ _ D1 Hr) as (x & _ & Hx). by apply (check_entry_said reserved word sy sh Hp _ _ _ _ Hr) in Hx as [].
      + intros r Hr. destruct (lists_each _ _ _ _ _ Dg Hr) as (x & _ & Hx). by apply (trigger_entry_said reserved word sy sh Hp _ _ _ _ Hr) in Hx as [].
      + intros j Hj. destruct (index_class j (proj1 Hj)) as (cl & C1 & C2).
        destruct (lists_each _ _ _ _ (j, cl) Dl) as (x & _ & Hx); [by destruct Hj|].
        by apply (index_entry_said reserved word sy sh Hp _ _ _ _ _ Hi Hj) in Hx as [].
    - intros n c o kv H1 H2 H3 Ho Hkv. destruct (Hget n c H1 H2 H3) as (t & i & l & _ & _ & _ & _ & (_ & _ & _ & _ & Dl) & _).
      destruct Dl as (ops & (held & _ & Hperm & Hheld) & (kvs & E1 & E2 & _)). simpl in *.
      assert (held = default [] (rel_options c)) as ->.
      { destruct Hheld as [(n' & c' & K1 & K2 & K3 & ->)|[K _]].
        - by destruct (rel_unique sy n' c' n c Hs K1 H1 K2 K3) as [_ ->].
        - exfalso. apply (K (rel_oid c)). by exists n, c. }
      rewrite <- Hperm in Ho. apply elem_of_list_lookup in Ho as [k Ho]. destruct (Forall2_lookup_l _ _ _ _ _ E1 Ho) as (kv' & Hk & Hkv').
      apply split_option_spec in Hkv. apply split_option_spec in Hkv'. rewrite <- Hkv in Hkv'. subst kv'.
      rewrite Forall_forall in E2. apply E2. by eapply elem_of_list_lookup_2.
  Qed.

  Lemma held_from {O R} (scan : list value → option R) q ps (P : O → Prop) before (row : O → R → Prop) held d :
    gives scan sy q ps P before row → has_rows scan sy q ps held → d ∈ held → ∃ o, P o ∧ row o d.
  Proof using.
    intros [_ Hg] (rows & Hy & E) Hd. destruct (Hg rows Hy) as (os & held' & _ & H2 & _ & E' & H4).
    rewrite E in E'. apply (inj (fmap Some)) in E' as <-. apply elem_of_list_lookup in Hd as [i Hd].
    destruct (Forall2_lookup_r _ _ _ _ _ H4 Hd) as (o & Ho & Hr). exists o. split; [|done]. apply H2. by eapply elem_of_list_lookup_2.
  Qed.
  Lemma readable_from pf ct : catalog_of sy ct → all_readable reserved sy sh → options_applicable pf sy → readable pf ct.
  Proof using Hp Hs Hi.
    intros Hct Ha Ho r s t Hr Es Et.
    destruct (held_from _ _ _ _ _ _ _ _ (tables_give sy Hs) (of_tables _ _ Hct) Hr) as ([n c] & (K1 & K2 & K3) & ->).
    simpl in *. apply some_text in Es as ->. apply some_text in Et as ->. destruct (Ha n c K1 K2 K3) as (A1 & A2 & A3 & A4). split_and!.
    - intros d Hd. destruct (held_from _ _ _ _ _ _ _ _ (checks_give sy Hs _ _) (of_checks _ _ Hct _ _) Hd) as (x & Hx & ->).
      by apply (check_entry_some reserved word sy sh Hp _ _ _ Hx), A2.
    - intros d Hd. destruct (held_from _ _ _ _ _ _ _ _ (foreign_keys_give sy Hs _ _) (of_foreign_keys _ _ Hct _ _) Hd) as (x & Hx & ->).
      pose proof (A1 x Hx) as Hrd. destruct (fk_meaning (sh_fk sh (con_oid x))) as [? a1 a2 a3 a4 a5 a6 a7 a8] eqn:Em.
      exists (ForeignKey (con_name x) a1 a2 a3 a4 a5 a6 a7 a8). apply (fk_entry_said reserved word sy sh Hp _ _ _ _ Hx).
      split; [done|]. split; [done|]. rewrite Em. cbn. f_equal. unfold fk_meaning in Em. by injection Em.
    - intros d kv Hd Hkv. destruct (options_hold sy _ _ _ Hs (of_storage _ _ Hct (ns_name n) (rel_name c))) as (held & _ & Hperm & Hheld).
      rewrite Hperm in Hd. apply (Ho n c d kv); try done. destruct Hheld as [(n' & c' & L1 & L2 & L3 & ->)|[_ ->]]; [|by apply elem_of_nil in Hd].
      by destruct (rel_unique sy n' c' n c Hs L1 K1 L2 L3) as [_ ->].
    - intros d Hd. destruct (held_from _ _ _ _ _ _ _ _ (indexes_give sy Hs _ _) (of_indexes _ _ Hct _ _) Hd) as ([x cl] & (X1 & X2 & X3) & ->).
      assert (Hx : index_of_table sy (ns_name n) (rel_name c) x) by done. pose proof (A4 x Hx) as Hrd.
      assert (∃ y, read_as reserved (sh_index sh (ind_index x)) y) as [y Hy].
      { unfold read_as. destruct (is_where (sh_index sh (ind_index x))) as [p|] eqn:Ew.
        - destruct Hrd as [(_ & _ & _ & _ & _ & _ & _ & Hw) _]. exists (Index "" (nm_name (is_table (sh_index sh (ind_index x)))) (is_name (sh_index sh (ind_index x))) false (is_unique (sh_index sh (ind_index x))) (is_method (sh_index sh (ind_index x))) (collapse_whitespace (trim p)) (key_as_read reserved <$> is_keys (sh_index sh (ind_index x)))). eexists. split; [|done].
          apply where_text_eq. split; [|done]. intros ->. by rewrite Ew in Hw.
        - eauto. }
      destruct y as [y1 y2 y3 y4 y5 y6 y7 y8]. exists (Index (ns_name n) y2 y3 (ind_primary x) y5 y6 y7 y8).
      apply (index_entry_said reserved word sy sh Hp _ _ _ _ _ Hi Hx). split; [done|]. split; [done|]. split; [done|]. cbn.
      destruct Hy as (w & Hw & Ey). pose proof Ey as [= -> -> -> -> -> -> -> ->]. by exists w.
    - intros d Hd. destruct (held_from _ _ _ _ _ _ _ _ (triggers_give sy Hs _ _) (of_triggers _ _ Hct _ _) Hd) as (x & Hx & ->).
      pose proof (A3 x Hx) as Hrd. destruct (trigger_meaning (sh_trigger sh (trig_oid x))) as [? a1 a2 a3 a4 a5 a6 a7 a8 a9 a10 a11 a12 a13] eqn:Em.
      exists (Trigger (ns_name n) a1 a2 a3 a4 a5 a6 a7 a8 a9 a10 a11 a12 a13). apply (trigger_entry_said reserved word sy sh Hp _ _ _ _ Hx).
      split; [done|]. split; [done|]. rewrite Em. cbn. f_equal. unfold trigger_meaning in Em. by injection Em.
  Qed.
End inspected.
