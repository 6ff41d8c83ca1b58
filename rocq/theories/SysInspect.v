(** What InspectDatabase makes of the catalogues of a database. *)
From Coq Require Import String Ascii.
From stdpp Require Import gmap list strings numbers sorting.
From Verif Require Import GoBase GoStrings DdlModel DdlSpec MachineModel ParseModel ParseGrammar ParseSpec PgModel PgSpec PgProofs
  QueryModel QueryProofs SysModel SysSpec SysProofs SysListing.
Local Open Scope Z_scope.

Lemma of_view_flag sy ct : sane sy → catalog_of sy ct → ct_view ct = bool_decide (is_Some (sy_sequences sy)).
Proof.
  intros Hs Hct. destruct (of_view _ _ Hct) as (rows & Hy & E). apply view_yields in Hy as ->; [|done]. simpl in E. congruence.
Qed.
Lemma some_text x y : text (Some x) y → y = x.
Proof. intros [[= <-]|[? _]]; done. Qed.

Lemma table_details_of pf sy ct nc t : sane sy → catalog_of sy ct →
  table_described pf ct (table_mk sy nc) t → table_details pf sy nc t.
Proof.
  intros Hs Hct (He & (cols & Hc & Hp) & Hk & Hf & Ho). pose proof He as (E1 & E2 & _). simpl in E1, E2.
  apply some_text in E1, E2. rewrite E1, E2 in Hc, Hk, Hf, Ho. split_and!.
  - exact He.
  - exists cols. split; [|done].
    eapply (held_exact _ _ _ _ _ _ _ _ _ (columns_give sy Hs _ _)); [|apply (of_columns _ _ Hct)|exact Hc].
    intros a r x _ (o & H1 & ->) H2. by exists o.
  - eapply (held_exact _ _ _ _ _ _ _ _ _ (checks_give sy Hs _ _)); [|apply (of_checks _ _ Hct)|exact Hk]. by intros c r x _ -> H.
  - eapply (held_exact _ _ _ _ _ _ _ _ _ (foreign_keys_give sy Hs _ _)); [|apply (of_foreign_keys _ _ Hct)|exact Hf]. by intros c r x _ -> H.
  - eexists. split; [|exact Ho]. apply options_hold; [done|]. apply (of_storage _ _ Hct).
Qed.
Lemma described_of pf sy ct details db : sane sy → catalog_of sy ct → reads_details sy details →
  described pf ct details db → database_of pf sy db.
Proof.
  intros Hs Hct Hd (_ & _ & H1 & H2 & H3 & H4 & (ixs & H5 & H6) & (tgs & H7 & H8)). split_and!.
  - eapply (held_exact _ _ _ _ _ _ _ _ _ (schemas_give sy Hs)); [|apply (of_schemas _ _ Hct)|exact H1]. by intros c r x _ -> H.
  - eapply (held_exact _ _ _ _ _ _ _ _ _ (functions_give sy Hs)); [|apply (of_functions _ _ Hct)|exact H2].
    intros np r x _ (g & K1 & K2 & ->) H. by exists g.
  - rewrite (of_view_flag sy ct Hs Hct) in H3. destruct (sy_sequences sy) as [sq|] eqn:Hq.
    + rewrite bool_decide_true in H3 by eauto.
      eapply (held_exact _ _ _ _ _ _ _ _ _ (sequences_give sy Hs sq Hq)); [|apply (of_sequences _ _ Hct); eauto|exact H3].
      intros o r x _ (s & K1 & K2 & ->) K3. unfold sequence_for. rewrite Hq. by exists s.
    + rewrite bool_decide_false in H3 by (by intros [? ?]).
      eapply (held_exact _ _ _ _ _ _ _ _ _ (old_sequences_give sy Hs)); [|apply (of_old_sequences _ _ Hct)|exact H3].
      intros o r x K1 -> K2. by apply (old_entry_for sy details).
  - eapply (held_exact _ _ _ _ _ _ _ _ _ (tables_give sy Hs)); [|apply (of_tables _ _ Hct)|exact H4].
    intros nc r t _ -> H. by apply (table_details_of pf sy ct).
  - exists ixs. split; [|done]. eapply Forall2_impl; [exact H5|]. intros t l K.
    eapply (held_exact _ _ _ _ _ _ _ _ _ (indexes_give sy Hs _ _)); [|apply (of_indexes _ _ Hct)|exact K]. by intros c r x _ -> H.
  - exists tgs. split; [|done]. eapply Forall2_impl; [exact H7|]. intros t l K.
    eapply (held_exact _ _ _ _ _ _ _ _ _ (triggers_give sy Hs _ _)); [|apply (of_triggers _ _ Hct)|exact K]. by intros c r x _ -> H.
Qed.

(** * Two inspections *)

Lemma str_le_anti a b : str_le a b → str_le b a → a = b.
Proof. apply String.leb_antisym. Qed.
Lemma by_names_anti a b : by_names a b → by_names b a → a = b.
Proof.
  destruct a as [a1 a2], b as [b1 b2]. unfold by_names. simpl. intros [[H1 H2]|[H1 H2]] [[K1 K2]|[K1 K2]]; try congruence.
  - by destruct H1; apply str_le_anti.
  - subst. f_equal. by apply str_le_anti.
Qed.
Lemma ns_unique sy n n' : sane sy → n ∈ sy_namespaces sy → n' ∈ sy_namespaces sy → ns_name n = ns_name n' → n = n'.
Proof. intros Hs ?? E. by apply (key_unique ns_name (sy_namespaces sy)); [apply sane_ns_name|..]. Qed.
Lemma rel_unique sy n c n' c' : sane sy → rel_in sy n c → rel_in sy n' c' → ns_name n = ns_name n' → rel_name c = rel_name c' →
  n = n' ∧ c = c'.
Proof.
  intros Hs (H1 & H2 & H3) (K1 & K2 & K3) E1 E2. assert (n = n') as <- by (by apply (ns_unique sy)). split; [done|].
  apply (key_unique (λ c, (rel_namespace c, rel_name c)) (sy_classes sy)); [apply (sane_rel_name _ Hs)|done|done|].
  simpl. congruence.
Qed.
Lemma same_relation sy s t oid oid' : sane sy → is_relation sy s t oid → is_relation sy s t oid' → oid = oid'.
Proof.
  intros Hs (n & c & H1 & <- & <- & <-) (n' & c' & K1 & K2 & K3 & <-).
  by destruct (rel_unique sy n c n' c' Hs H1 K1) as [_ <-].
Qed.

Section twice.
  Context (sy : system) (Hs : sane sy) (Hu : untied sy) (ct ct' : catalog) (Hct : catalog_of sy ct) (Hct' : catalog_of sy ct').

  Lemma schemas_same : ct_schemas ct = ct_schemas ct'.
  Proof using Hs Hct Hct'.
    eapply (held_unique _ _ _ _ _ _ _ (schemas_give sy Hs)); [| |apply (of_schemas _ _ Hct)|apply (of_schemas _ _ Hct')].
    - intros a b [Ha _] [Hb _] H1 H2. apply (ns_unique sy); try done. by apply str_le_anti.
    - congruence.
  Qed.
  Lemma tables_same : ct_tables ct = ct_tables ct'.
  Proof using Hs Hct Hct'.
    eapply (held_unique _ _ _ _ _ _ _ (tables_give sy Hs)); [| |apply (of_tables _ _ Hct)|apply (of_tables _ _ Hct')].
    - intros [n c] [n' c'] [Ha _] [Hb _] H1 H2. pose proof (by_names_anti _ _ H1 H2) as [= E1 E2].
      by destruct (rel_unique sy n c n' c' Hs) as [<- <-].
    - congruence.
  Qed.
  Lemma functions_same : ct_functions ct = ct_functions ct'.
  Proof using Hs Hu Hct Hct'.
    eapply (held_unique _ _ _ _ _ _ _ (functions_give sy Hs)); [| |apply (of_functions _ _ Hct)|apply (of_functions _ _ Hct')].
    - intros [n p] [n' p'] (H1 & H2 & H3 & H4) (K1 & K2 & K3 & K4) L1 L2. pose proof (by_names_anti _ _ L1 L2) as [= E1 E2]. simpl in *.
      assert (n = n') as <- by (apply (ns_unique sy); [done|apply H1|apply K1|done]). f_equal.
      destruct Hu as (U & _). by apply (U n p n p').
    - intros [n p] r r' _ (g & G1 & G2 & ->) (g' & G1' & G2' & ->).
      assert (g = g') as <-; [|done]. apply (key_unique lang_oid (sy_languages sy)); [apply (sane_lang _ Hs)|done|done|congruence].
  Qed.
  Lemma owned_anti a b : owned_sequence sy a → owned_sequence sy b → owned_before a b → owned_before b a → a = b.
  Proof using Hs Hu.
    intros Ha Hb L1 L2. pose proof (by_names_anti _ _ L1 L2) as [= E1 E2]. destruct Hu as (_ & _ & U). apply U; [done|done|].
    destruct (rel_unique sy (ow_ns a) (ow_rel a) (ow_ns b) (ow_rel b) Hs) as [_ ?]; try done; [apply Ha|apply Hb].
  Qed.
  Lemma sequences_same : is_Some (sy_sequences sy) → ct_sequences ct = ct_sequences ct'.
  Proof using Hs Hu Hct Hct'.
    intros [sq Hq].
    eapply (held_unique _ _ _ _ _ _ _ (sequences_give sy Hs sq Hq));
      [| |apply (of_sequences _ _ Hct); eauto|apply (of_sequences _ _ Hct'); eauto].
    - apply owned_anti.
    - intros o r r' _ (g & G1 & G2 & ->) (g' & G1' & G2' & ->).
      assert (g = g') as <-; [|done]. apply (key_unique seq_rel sq); [by apply (sane_seq _ Hs)|done|done|congruence].
  Qed.
  Lemma old_sequences_same : ct_old_sequences ct = ct_old_sequences ct'.
  Proof using Hs Hu Hct Hct'.
    eapply (held_unique _ _ _ _ _ _ _ (old_sequences_give sy Hs)); [| |apply (of_old_sequences _ _ Hct)|apply (of_old_sequences _ _ Hct')].
    - apply owned_anti.
    - congruence.
  Qed.
  Lemma columns_same s t : ct_columns ct s t = ct_columns ct' s t.
  Proof using Hs Hct Hct'.
    eapply (held_unique _ _ _ _ _ _ _ (columns_give sy Hs s t)); [| |apply (of_columns _ _ Hct)|apply (of_columns _ _ Hct')].
    - intros a b (H1 & H2 & _) (K1 & K2 & _) L1 L2.
      apply (key_unique (λ a, (att_rel a, att_num a)) (sy_attributes sy)); [apply (sane_att _ Hs)|done|done|].
      simpl. f_equal; [by apply (same_relation sy s t)|lia].
    - intros a r r' _ (o & H1 & ->) (o' & H2 & ->). assert (o = o') as <-; [|done].
      destruct H1 as [(E & d & D1 & D2 & D3 & ->)|(E & ->)], H2 as [(E' & d' & D1' & D2' & D3' & ->)|(E' & ->)].
      + assert (d = d') as <-; [|done].
        apply (key_unique (λ d, (def_rel d, def_num d)) (sy_attrdefs sy)); [apply (sane_def _ Hs)|done|done|]. simpl. congruence.
      + destruct E' as [E'|E']; [congruence|]. by destruct (E' d D1).
      + destruct E as [E|E]; [congruence|]. by destruct (E d' D1').
      + done.
  Qed.
  Lemma con_unique s t r r' : r ∈ sy_constraints sy → r' ∈ sy_constraints sy → is_relation sy s t (con_rel r) →
    is_relation sy s t (con_rel r') → con_name r = con_name r' → r = r'.
  Proof using Hs.
    intros H1 H2 H3 H4 E. apply (key_unique (λ r, (con_rel r, con_name r)) (sy_constraints sy)); [apply (sane_con_name _ Hs)|done|done|].
    simpl. f_equal; [by apply (same_relation sy s t)|done].
  Qed.
  Lemma checks_same s t : ct_checks ct s t = ct_checks ct' s t.
  Proof using Hs Hct Hct'.
    eapply (held_unique _ _ _ _ _ _ _ (checks_give sy Hs s t)); [| |apply (of_checks _ _ Hct)|apply (of_checks _ _ Hct')].
    - intros a b (H1 & H2 & _) (K1 & K2 & _) L1 L2. apply (con_unique s t); try done. by apply str_le_anti.
    - congruence.
  Qed.
  Lemma foreign_keys_same s t : ct_foreign_keys ct s t = ct_foreign_keys ct' s t.
  Proof using Hs Hu Hct Hct'.
    eapply (held_unique _ _ _ _ _ _ _ (foreign_keys_give sy Hs s t)); [| |apply (of_foreign_keys _ _ Hct)|apply (of_foreign_keys _ _ Hct')].
    - intros a b (H1 & H2 & H3) (K1 & K2 & K3) (ca & cb & A1 & A2 & A3 & A4 & L1) (cb' & ca' & B1 & B2 & B3 & B4 & L2).
      assert (ca' = ca) as -> by (apply (key_unique rel_oid (sy_classes sy)); [apply (sane_rel_oid _ Hs)|done|done|congruence]).
      assert (cb' = cb) as -> by (apply (key_unique rel_oid (sy_classes sy)); [apply (sane_rel_oid _ Hs)|done|done|congruence]).
      destruct Hu as (_ & U & _). apply (U a b ca cb); try done.
      + by apply (same_relation sy s t).
      + destruct L1 as [[N L1]|[E L1]], L2 as [[N' L2]|[E' L2]]; try congruence. by apply str_le_anti.
      + destruct L1 as [[N L1]|[E L1]], L2 as [[N' L2]|[E' L2]]; try congruence.
        * destruct N. by apply str_le_anti.
        * by apply ints_before_antisym.
    - congruence.
  Qed.
  Lemma indexes_same s t : ct_indexes ct s t = ct_indexes ct' s t.
  Proof using Hs Hct Hct'.
    eapply (held_unique _ _ _ _ _ _ _ (indexes_give sy Hs s t)); [| |apply (of_indexes _ _ Hct)|apply (of_indexes _ _ Hct')].
    - intros [i c] [j d] (H1 & H2 & H3 & H4) (K1 & K2 & K3 & K4) L1 L2. simpl in *.
      assert (rel_name c = rel_name d) as En.
      { destruct L1 as [[? ?]|[(? & ? & ?)|(? & ? & ?)]], L2 as [[? ?]|[(? & ? & ?)|(? & ? & ?)]]; try congruence. by apply str_le_anti. }
      assert (ind_rel i = ind_rel j) as Er by (by apply (same_relation sy s t)).
      destruct H2 as (n & r & (R1 & R2 & R3) & R4 & R5 & R6).
      assert (rel_namespace c = rel_namespace r) as E1 by (by apply (sane_ind_ns _ Hs i)).
      assert (rel_namespace d = rel_namespace r) as E2 by (apply (sane_ind_ns _ Hs j); congruence).
      assert (c = d) as <-.
      { apply (key_unique (λ c, (rel_namespace c, rel_name c)) (sy_classes sy)); [apply (sane_rel_name _ Hs)|done|done|]. simpl. congruence. }
      f_equal. apply (key_unique ind_index (sy_indexes sy)); [apply (sane_ind _ Hs)|done|done|congruence].
    - congruence.
  Qed.
  Lemma triggers_same s t : ct_triggers ct s t = ct_triggers ct' s t.
  Proof using Hs Hct Hct'.
    eapply (held_unique _ _ _ _ _ _ _ (triggers_give sy Hs s t)); [| |apply (of_triggers _ _ Hct)|apply (of_triggers _ _ Hct')].
    - intros a b (H1 & H2 & _) (K1 & K2 & _) L1 L2.
      apply (key_unique (λ g, (trig_rel g, trig_name g)) (sy_triggers sy)); [apply (sane_trig_name _ Hs)|done|done|].
      simpl. f_equal; [by apply (same_relation sy s t)|by apply str_le_anti].
    - congruence.
  Qed.
  Lemma sorted_unique {A} (R : A → A → Prop) l l' : (∀ a b, R a b → R b a → a = b) →
    StronglySorted R l → StronglySorted R l' → l ≡ₚ l' → l = l'.
  Proof.
    intros Ha Hl. revert l'. induction Hl as [|a l Hl IH Hb]; intros l' Hl' Hp.
    - by apply Permutation_nil in Hp.
    - destruct Hl' as [|b l' Hl' Kb]; [by apply Permutation_sym, Permutation_nil in Hp|].
      assert (a = b) as ->.
      { assert (Hin : b ∈ a :: l) by (rewrite Hp; left). assert (Kin : a ∈ b :: l') by (rewrite <- Hp; left).
        apply elem_of_cons in Hin as [->|Hin]; [done|]. apply elem_of_cons in Kin as [->|Kin]; [done|].
        rewrite Forall_forall in Hb, Kb. apply Ha; [by apply Hb|by apply Kb]. }
      f_equal. apply IH; [done|]. by apply Permutation_cons_inv in Hp.
  Qed.
  Lemma storage_same s t : ct_storage ct s t = ct_storage ct' s t.
  Proof using Hs Hct Hct'.
    destruct (options_hold sy s t _ Hs (of_storage _ _ Hct s t)) as (h & S1 & P1 & H1).
    destruct (options_hold sy s t _ Hs (of_storage _ _ Hct' s t)) as (h' & S2 & P2 & H2).
    assert (h = h') as <-.
    { destruct H1 as [(n & c & A1 & A2 & A3 & ->)|[N1 ->]], H2 as [(n' & c' & B1 & B2 & B3 & ->)|[N2 ->]]; [|..|done].
      - destruct (rel_unique sy n c n' c' Hs A1 B1) as [_ <-]; congruence.
      - destruct (N2 (rel_oid c)). by exists n, c.
      - destruct (N1 (rel_oid c')). by exists n', c'. }
    apply (sorted_unique (λ a b, sy_text_le sy a b = true)); [apply (sane_text_anti _ Hs)|done|done|]. by rewrite P1, P2.
  Qed.
End twice.

Lemma lists_same {R A} (entry : R → A → Prop) f held a b l l' : lists entry f → answers held a ∧ whole a → answers held b ∧ whole b →
  f a = Got l → f b = Got l' → l = l'.
Proof.
  intros Hf [Ha Wa] [Hb Wb] H1 H2. destruct (arrives_got _ _ _ _ _ Hf Ha Wa H1) as [Ra _].
  destruct (arrives_got _ _ _ _ _ Hf Hb Wb H2) as [Rb _]. unfold arrives in *. congruence.
Qed.
Lemma storage_lists_same pf held a b l l' : answers held a ∧ whole a → answers held b ∧ whole b →
  list_storage pf a = Got l → list_storage pf b = Got l' → l = l'.
Proof.
  intros [Ha Wa] [Hb Wb] H1 H2. destruct (list_storage_ok pf _ _ Ha Wa) as [Ka _]. destruct (list_storage_ok pf _ _ Hb Wb) as [Kb _].
  pose proof (proj1 (proj1 (Ka l) H1)) as Ra. pose proof (proj1 (proj1 (Kb l') H2)) as Rb. unfold arrives in *. congruence.
Qed.

Section same.
  Context (srt : sorter) (pf : float_parser) (o : inspect_options) (sy : system) (Hs : sane sy) (Hu : untied sy)
    (ct ct' : catalog) (Hct : catalog_of sy ct) (Hct' : catalog_of sy ct') (sv sv' : server)
    (Hsv : serves ct sv) (Hsv' : serves ct' sv') (Hd : reads_details sy (sv_details sv)) (Hd' : reads_details sy (sv_details sv')).

  Lemma inspect_table_same t x y : inspect_table srt pf o sv t = Got x → inspect_table srt pf o sv' t = Got y → x = y.
  Proof using Hs Hu Hct Hct' Hsv Hsv'.
    intros H K. unfold inspect_table in H, K.
    apply bind_got in H as (cols & H1 & H). apply bind_got in H as (checks & H2 & H). apply bind_got in H as (fks & H3 & H).
    apply bind_got in H as (params & H4 & H). apply bind_got in H as (ixs & H5 & H). apply bind_got in H as (tgs & H6 & H).
    apply bind_got in K as (cols' & K1 & K). apply bind_got in K as (checks' & K2 & K). apply bind_got in K as (fks' & K3 & K).
    apply bind_got in K as (params' & K4 & K). apply bind_got in K as (ixs' & K5 & K). apply bind_got in K as (tgs' & K6 & K).
    pose proof (serves_columns _ _ Hsv' (tb_schema t) (tb_name t)) as A1. rewrite <- (columns_same sy Hs ct ct' Hct Hct') in A1.
    pose proof (serves_checks _ _ Hsv' (tb_schema t) (tb_name t)) as A2. rewrite <- (checks_same sy Hs ct ct' Hct Hct') in A2.
    pose proof (serves_foreign_keys _ _ Hsv' (tb_schema t) (tb_name t)) as A3. rewrite <- (foreign_keys_same sy Hs Hu ct ct' Hct Hct') in A3.
    pose proof (serves_storage _ _ Hsv' (tb_schema t) (tb_name t)) as A4. rewrite <- (storage_same sy Hs ct ct' Hct Hct') in A4.
    pose proof (serves_indexes _ _ Hsv' (tb_schema t) (tb_name t)) as A5. rewrite <- (indexes_same sy Hs ct ct' Hct Hct') in A5.
    pose proof (serves_triggers _ _ Hsv' (tb_schema t) (tb_name t)) as A6. rewrite <- (triggers_same sy Hs ct ct' Hct Hct') in A6.
    pose proof (lists_same _ _ _ _ _ _ _ list_columns_ok (serves_columns _ _ Hsv _ _) A1 H1 K1) as <-.
    pose proof (lists_same _ _ _ _ _ _ _ list_checks_ok (serves_checks _ _ Hsv _ _) A2 H2 K2) as <-.
    pose proof (lists_same _ _ _ _ _ _ _ list_foreign_keys_ok (serves_foreign_keys _ _ Hsv _ _) A3 H3 K3) as <-.
    pose proof (storage_lists_same _ _ _ _ _ _ (serves_storage _ _ Hsv _ _) A4 H4 K4) as <-.
    pose proof (lists_same _ _ _ _ _ _ _ (list_indexes_ok _) (serves_indexes _ _ Hsv _ _) A5 H5 K5) as <-.
    pose proof (lists_same _ _ _ _ _ _ _ (list_triggers_ok _) (serves_triggers _ _ Hsv _ _) A6 H6 K6) as <-.
    congruence.
  Qed.
  Lemma inspect_each_same l x y : inspect_each srt pf o sv l = Got x → inspect_each srt pf o sv' l = Got y → x = y.
  Proof using Hs Hu Hct Hct' Hsv Hsv'.
    revert x y. induction l as [|t l IH]; intros x y H K; [simpl in *; congruence|]. cbn [inspect_each] in H, K.
    apply bind_got in H as (a & H1 & H). apply bind_got in H as (b & H2 & H).
    apply bind_got in K as (a' & K1 & K). apply bind_got in K as (b' & K2 & K).
    pose proof (inspect_table_same t a a' H1 K1) as <-. pose proof (IH b b' H2 K2) as <-. congruence.
  Qed.
  Lemma sequence_for_unique w q q' : sy_sequences sy = None → sequence_for sy w q → sequence_for sy w q' → q = q'.
  Proof.
    intros Hn. unfold sequence_for. rewrite Hn.
    intros ((H1 & H2 & H3 & H4 & H5 & H6 & H7) & H8 & (D1 & D2 & D3 & D4 & D5 & D6)).
    intros ((K1 & K2 & K3 & K4 & K5 & K6 & K7) & K8 & (E1 & E2 & E3 & E4 & E5 & E6)).
    destruct q, q'; simpl in *.
    pose proof (text_unique _ _ _ H1 K1) as <-. pose proof (text_unique _ _ _ H2 K2) as <-. pose proof (text_unique _ _ _ H3 K3) as <-.
    pose proof (text_unique _ _ _ H4 K4) as <-. pose proof (text_unique _ _ _ H5 K5) as <-. pose proof (text_unique _ _ _ H6 K6) as <-.
    pose proof (text_unique _ _ _ H7 K7) as <-. congruence.
  Qed.
  Lemma sequences_listed_same l l' :
    list_sequences (sv_has_view sv) (sv_sequences sv) (sv_old_sequences sv) (sv_details sv) = Got l →
    list_sequences (sv_has_view sv') (sv_sequences sv') (sv_old_sequences sv') (sv_details sv') = Got l' → l = l'.
  Proof using Hs Hu Hct Hct' Hsv Hsv' Hd Hd'.
    intros H K.
    apply bind_got in H as (v & V1%single_got & H). apply bind_got in K as (v' & V2%single_got & K).
    assert (v = bool_decide (is_Some (sy_sequences sy))) as ->.
    { rewrite <- (of_view_flag sy ct Hs Hct). destruct (serves_view _ _ Hsv) as [E|E]; congruence. }
    assert (v' = bool_decide (is_Some (sy_sequences sy))) as ->.
    { rewrite <- (of_view_flag sy ct' Hs Hct'). destruct (serves_view _ _ Hsv') as [E|E]; congruence. }
    destruct (sy_sequences sy) as [sq|] eqn:Hq.
    - rewrite bool_decide_true in H, K by eauto.
      pose proof (serves_sequences _ _ Hsv') as A. rewrite <- (sequences_same sy Hs Hu ct ct' Hct Hct') in A by (rewrite Hq; eauto).
      apply (lists_same _ _ _ _ _ _ _ new_sequences_ok (serves_sequences _ _ Hsv) A H K).
    - rewrite bool_decide_false in H, K by (by intros [? ?]).
      destruct (serves_old_sequences _ _ Hsv) as [Ha Wa]. destruct (serves_old_sequences _ _ Hsv') as [Hb Wb].
      rewrite <- (old_sequences_same sy Hs Hu ct ct' Hct Hct') in Hb.
      destruct (arrives_got _ _ _ _ _ (old_sequences_details (sv_details sv)) Ha Wa H) as [_ F].
      destruct (arrives_got _ _ _ _ _ (old_sequences_details (sv_details sv')) Hb Wb K) as [_ G].
      destruct (of_old_sequences _ _ Hct) as (rows & Hy & E).
      destruct (old_sequences_give sy Hs) as [_ Hg]. destruct (Hg rows Hy) as (os & held & _ & O2 & _ & E' & O4).
      rewrite E in E'. apply (inj (fmap Some)) in E'. rewrite E' in F, G.
      assert (HF : Forall (owned_sequence sy) os) by (apply Forall_forall; intros; by apply O2).
      clear -F G O4 HF Hd Hd' Hq. revert l l' F G. induction O4 as [|w r os held -> O4 IH]; intros l l' F G; inversion F; subst; inversion G; subst; [done|].
      inversion HF; subst. f_equal; [|by apply IH].
      apply (sequence_for_unique w); [done|by apply (old_entry_for sy (sv_details sv))|by apply (old_entry_for sy (sv_details sv'))].
  Qed.
  Lemma inspect_same db db' : inspect srt pf o sv = Got db → inspect srt pf o sv' = Got db' →
    db_schemas db = db_schemas db' ∧ db_functions db = db_functions db' ∧ db_sequences db = db_sequences db' ∧
    db_tables db = db_tables db' ∧ db_indexes db = db_indexes db' ∧ db_triggers db = db_triggers db'.
  Proof using Hs Hu Hct Hct' Hsv Hsv' Hd Hd'.
    intros H K. unfold inspect in H, K.
    apply bind_got in H as (params & H1 & H). apply bind_got in H as (schemas & H2 & H).
    apply bind_got in H as (functions & H3 & H). apply bind_got in H as (sequences & H4 & H).
    apply bind_got in H as (tables & H5 & H). apply bind_got in H as (x & H6 & H).
    apply bind_got in K as (params' & K1 & K). apply bind_got in K as (schemas' & K2 & K).
    apply bind_got in K as (functions' & K3 & K). apply bind_got in K as (sequences' & K4 & K).
    apply bind_got in K as (tables' & K5 & K). apply bind_got in K as (x' & K6 & K).
    injection H as <-. injection K as <-. cbn.
    pose proof (serves_schemas _ _ Hsv') as A1. rewrite <- (schemas_same sy Hs ct ct' Hct Hct') in A1.
    pose proof (serves_functions _ _ Hsv') as A2. rewrite <- (functions_same sy Hs Hu ct ct' Hct Hct') in A2.
    pose proof (serves_tables _ _ Hsv') as A3. rewrite <- (tables_same sy Hs ct ct' Hct Hct') in A3.
    pose proof (lists_same _ _ _ _ _ _ _ list_schemas_ok (serves_schemas _ _ Hsv) A1 H2 K2) as <-.
    pose proof (lists_same _ _ _ _ _ _ _ list_functions_ok (serves_functions _ _ Hsv) A2 H3 K3) as <-.
    pose proof (sequences_listed_same _ _ H4 K4) as <-.
    pose proof (lists_same _ _ _ _ _ _ _ list_tables_ok (serves_tables _ _ Hsv) A3 H5 K5) as <-.
    pose proof (inspect_each_same _ _ _ H6 K6) as <-. done.
  Qed.
End same.
