(** When the listings of internal/pg succeed, with respect to the catalogues of the
    database. *)
From Coq Require Import String Ascii.
From stdpp Require Import gmap list strings numbers sorting.
From Verif Require Import GoBase GoStrings DdlModel DdlSpec MachineModel ParseModel ParseGrammar ParseSpec PgModel PgSpec PgProofs
  QueryModel QueryProofs SysModel SysSpec SysProofs SysListing SysInspect SysServer SysExamples SysProps.
Local Open Scope Z_scope.

Lemma listed_entry {A B} (P : A → Prop) before (entry : A → B → Prop) l a :
  lists_exactly P before entry l → P a → ∃ x, entry a x.
Proof.
  intros (objects & H1 & _ & _ & H4) Ha%H1. apply elem_of_list_lookup in Ha as [i Hi].
  destruct (Forall2_lookup_l _ _ _ _ _ H4 Hi) as (x & _ & Hx). by exists x.
Qed.
Lemma storage_total pf sy s t a : sane sy → replies_all scan_text sy list_table_storage_parameters_query [s; t] a →
  (∃ p, list_storage pf a = Got p) ↔
  ∀ n c o, rel_in sy n c → ns_name n = s → rel_name c = t → o ∈ default [] (rel_options c) →
    ∃ kv, option_text o kv ∧ applicable pf kv.
Proof.
  intros Hs Ha. split.
  - intros [p Hp] n c o Hin Hn Hc Ho.
    destruct (storage_exact pf sy s t a p Hs (all_replies _ _ _ _ _ Ha) Hp) as (l & (held & _ & Hl & Hh) & kv & F & Hap & _).
    destruct Hh as [(n' & c' & Hin' & Hn' & Hc' & ->)|[Hno _]].
    + assert (rel_oid c' = rel_oid c) as Hoid by (apply (same_relation sy s t _ _ Hs); [by exists n', c'|by exists n, c]).
      assert (c' = c) as ->.
      { destruct Hin as (_ & Hc1 & _), Hin' as (_ & Hc2 & _).
        apply (key_unique rel_oid (sy_classes sy)); [apply (sane_rel_oid _ Hs)|done..]. }
      rewrite <-Hl in Ho. apply elem_of_list_lookup in Ho as [i Hi]. destruct (Forall2_lookup_l _ _ _ _ _ F Hi) as (x & Hx & Hox).
      exists x. split; [done|]. rewrite Forall_forall in Hap. apply Hap. by eapply elem_of_list_lookup_2.
    + destruct (Hno (rel_oid c)). by exists n, c.
  - intros Hok. destruct Ha as (rows & Hy & ->). destruct (options_scanned _ _ _ _ Hs Hy) as [held E]. rewrite E.
    assert (Hans : answers held (Rows (Some <$> held) false)) by (constructor; by apply delivers_all).
    destruct (list_storage_ok pf _ _ Hans eq_refl) as [K _]. eexists. apply K. split; [done|].
    apply storage_entries_spec. split; [|done]. apply Forall_forall. intros kv (o & -> & Ho)%elem_of_list_fmap.
    destruct (options_hold sy s t held Hs) as (h & _ & Hl & Hh); [by exists rows|]. rewrite Hl in Ho.
    destruct Hh as [(n & c & Hin & Hn & Hc & ->)|[_ ->]]; [|by apply elem_of_nil in Ho].
    destruct (Hok n c o Hin Hn Hc Ho) as (kv & Hkv & Hap). apply split_option_spec in Hkv as <-. done.
Qed.

(** C98: the listings of what belongs to a table succeed exactly if the definitions of all
    of it can be read. *)
Theorem table_parts_listed pf sy s t : sane sy →
  (∀ a, replies_all scan_named sy list_checks_query [s; t] a → (∃ l, list_checks a = Got l) ↔
     ∀ r, r ∈ sy_constraints sy → is_relation sy s t (con_rel r) → con_type r = "c" →
       ∃ x, check_entry (NamedDef (con_name r) (sy_constraintdef sy (con_oid r) true)) x) ∧
  (∀ a, replies_all scan_named sy list_foreign_keys_query [s; t] a → (∃ l, list_foreign_keys a = Got l) ↔
     ∀ r, r ∈ sy_constraints sy → is_relation sy s t (con_rel r) → con_type r = "f" →
       ∃ x, foreign_key_entry (NamedDef (con_name r) (sy_constraintdef sy (con_oid r) false)) x) ∧
  (∀ a, replies_all scan_index sy list_indexes_query [s; t] a → (∃ l, list_indexes s a = Got l) ↔
     ∀ i c, i ∈ sy_indexes sy → is_relation sy s t (ind_rel i) → c ∈ sy_classes sy → rel_oid c = ind_index i →
       ∃ x, index_entry s (IndexRow (rel_name c) (ind_primary i) (sy_indexdef sy (ind_index i))) x) ∧
  (∀ a, replies_all scan_named sy list_triggers_query [s; t] a → (∃ l, list_triggers s a = Got l) ↔
     ∀ g, g ∈ sy_triggers sy → is_relation sy s t (trig_rel g) → trig_internal g = false →
       ∃ x, trigger_entry s (NamedDef (trig_name g) (sy_triggerdef sy (trig_oid g))) x) ∧
  (∀ a, replies_all scan_text sy list_table_storage_parameters_query [s; t] a → (∃ p, list_storage pf a = Got p) ↔
     ∀ n c o, rel_in sy n c → ns_name n = s → rel_name c = t → o ∈ default [] (rel_options c) →
       ∃ kv, option_text o kv ∧ applicable pf kv).
Proof.
  intros Hs. destruct (table_parts_exact pf sy s t Hs) as (H1 & H2 & H3 & H4 & _). split_and!.
  - intros a Ha. split.
    + intros [l Hl] r A1 A2 A3. apply (listed_entry _ _ _ _ r (H1 a l (all_replies _ _ _ _ _ Ha) Hl)). done.
    + intros Hok. eapply (listing_total _ _ _ _ _ _ _ _ _ (checks_give sy Hs s t)); [apply list_checks_ok| |done].
      intros r row (A1 & A2 & A3) ->. by apply Hok.
  - intros a Ha. split.
    + intros [l Hl] r A1 A2 A3. apply (listed_entry _ _ _ _ r (H2 a l (all_replies _ _ _ _ _ Ha) Hl)). done.
    + intros Hok. eapply (listing_total _ _ _ _ _ _ _ _ _ (foreign_keys_give sy Hs s t)); [apply list_foreign_keys_ok| |done].
      intros r row (A1 & A2 & A3) ->. by apply Hok.
  - intros a Ha. split.
    + intros [l Hl] i c A1 A2 A3 A4. apply (listed_entry _ _ _ _ (i, c) (H3 a l (all_replies _ _ _ _ _ Ha) Hl)). done.
    + intros Hok. eapply (listing_total _ _ _ _ _ _ _ _ _ (indexes_give sy Hs s t)); [apply list_indexes_ok| |done].
      intros [i c] row (A1 & A2 & A3 & A4) ->. by apply Hok.
  - intros a Ha. split.
    + intros [l Hl] g A1 A2 A3. apply (listed_entry _ _ _ _ g (H4 a l (all_replies _ _ _ _ _ Ha) Hl)). done.
    + intros Hok. eapply (listing_total _ _ _ _ _ _ _ _ _ (triggers_give sy Hs s t)); [apply list_triggers_ok| |done].
      intros g row (A1 & A2 & A3) ->. by apply Hok.
  - intros a Ha. by apply storage_total.
Qed.
Print Assumptions table_parts_listed.
(** The server of the examples delivers everything, and the listings succeed (they are in
    [table_parts_example]). *)
Example table_parts_listed_example : sane usual ∧
  replies_all scan_named usual list_checks_query ["public"; "users"] (Rows (scan_named <$> answered usual list_checks_query ["public"; "users"]) false) ∧
  list_checks (Rows (scan_named <$> answered usual list_checks_query ["public"; "users"]) false) = Got [Check "named" "name <> ''::text" false false].
Proof. by destruct table_parts_example as (? & ? & ? & _). Qed.

(** C96: the listing of sequences succeeds, before and since 10. *)
Theorem sequences_listed sy v new old details : sane sy →
  replies_row scan_bool sy has_sequences_view_query [] v → v ≠ RowFailed →
  (is_Some (sy_sequences sy) → replies_all scan_sequence sy list_sequences_query [] new) →
  replies_all scan_old_sequence sy list_sequences_pre10_query [] old →
  (∀ n c, rel_in sy n c → rel_kind c = "S" →
     details (identifier [ns_name n; rel_name c]) = Row (sy_old_details sy (rel_oid c))) →
  ∃ l, list_sequences v new old details = Got l.
Proof.
  intros Hs Hv Hf Hn Ho Hd. unfold list_sequences.
  assert (v = Row (bool_decide (is_Some (sy_sequences sy)))) as ->.
  { destruct v as [| |b]; [|done|by rewrite <-(view_exact _ _ b Hs Hv eq_refl)].
    destruct Hv as (rows & Hy%view_yields & [?|[[??]|(?&?&?&?&?&?)]]); [by subst..|done]. }
  cbn [single mbind result_bind].
  destruct (sy_sequences sy) as [sq|] eqn:Hq.
  - rewrite bool_decide_true by eauto.
    eapply (listing_total _ _ _ _ _ _ _ _ _ (sequences_give sy Hs sq Hq)); [apply new_sequences_ok| |apply Hn; eauto].
    intros o r _ _. destruct (sequence_of r) as [q| |] eqn:E; [by exists q; apply sequence_of_entry| |]; by destruct r as [? [? ?]].
  - rewrite bool_decide_false by (by intros [? ?]).
    destruct (listing_total _ _ _ _ _ _ _ _ _ (old_sequences_give sy Hs) old (old_sequences_details details)) as [l Hl];
      [|done|by exists l].
    intros o r (Hin & (Hk & _) & _) ->. specialize (Hd _ _ Hin Hk). set (dr := sy_old_details sy (rel_oid (ow_rel o))) in *.
    exists (Sequence (ns_name (ow_ns o)) (rel_name (ow_rel o)) (sy_user sy (rel_owner (ow_rel o)))
      (nullable (sy_comment sy "pg_class" (rel_oid (ow_rel o))))
      "bigint" (dr_start dr) (dr_minimum dr) (dr_maximum dr) (dr_increment dr) (dr_cache dr) (dr_cycle dr)
      (ns_name (ow_owner_ns o)) (rel_name (ow_owner_rel o)) (att_name (ow_column o))).
    split; [split_and!; try apply text_nullable; by left|]. split; [done|]. exists dr. split; [done|]. by split_and!.
Qed.
Print Assumptions sequences_listed.
Example sequences_listed_example : sane aged ∧ sy_sequences aged = None ∧
  replies_row scan_bool aged has_sequences_view_query [] (view_row aged) ∧
  replies_all scan_old_sequence aged list_sequences_pre10_query [] (old_rows aged) ∧
  (∀ n c, rel_in aged n c → rel_kind c = "S" →
     details_from aged (identifier [ns_name n; rel_name c]) = Row (sy_old_details aged (rel_oid c))).
Proof.
  destruct all_sane as (_ & _ & _ & Ha & _). destruct (sequences_served aged Ha) as (H1 & _).
  split_and!; [done|done|done|by apply from_all, old_sequences_answered|].
  intros n c (N1 & N2 & N3) _. apply elem_of_list_In in N1, N2. cbn in N1, N2.
  destruct_or?; subst; simpl in N3; try done; by vm_compute.
Qed.

(** C100: a trigger that is there, and whose definition can be read, is described if the
    server answers. *)
Theorem trigger_described sy s t g a : sane sy →
  g ∈ sy_triggers sy → is_relation sy s t (trig_rel g) →
  replies_row scan_text sy describe_trigger_query [s; t; trig_name g] a → a ≠ RowFailed →
  (∃ x, describe_trigger s a = Got x) ↔ ∃ x, trigger_entry s (NamedDef (trig_name g) (sy_triggerdef sy (trig_oid g))) x.
Proof.
  intros Hs Hg Ht Ha Hf. destruct (row_held _ _ _ _ _ _ _ _ (trigger_gives sy Hs s t (trig_name g)) Ha) as (H1 & H2 & _).
  destruct a as [| |def]; [|done|].
  { destruct (H1 eq_refl g). done. }
  destruct (H2 def eq_refl) as (g' & (E1 & E2 & E3) & ->).
  assert (g' = g) as ->.
  { apply (key_unique (λ g, (trig_rel g, trig_name g)) (sy_triggers sy)); [apply (sane_trig_name _ Hs)|done|done|].
    simpl. f_equal; [by apply (same_relation sy s t)|done]. }
  setoid_rewrite <-(trigger_of_entry s (NamedDef (trig_name g) (sy_triggerdef sy (trig_oid g)))). unfold trigger_of. simpl.
  destruct (parse_trigger (sy_triggerdef sy (trig_oid g))); simpl; split; intros [x Hx]; try done; eauto.
Qed.
Print Assumptions trigger_described.
Example trigger_described_example : sane usual ∧
  PgTrigger 600 200 "watch" false ∈ sy_triggers usual ∧ is_relation usual "public" "users" 200 ∧
  replies_row scan_text usual describe_trigger_query ["public"; "users"; "watch"]
    (Row "CREATE TRIGGER watch BEFORE INSERT ON users FOR EACH ROW EXECUTE PROCEDURE f()").
Proof.
  destruct describe_trigger_example as (Hs & Hr & _). split; [done|]. split; [by left|]. split; [|done].
  destruct (describe_trigger_exact _ _ _ _ _ Hs Hr) as (_ & H & _).
  destruct (describe_trigger "public" (Row "CREATE TRIGGER watch BEFORE INSERT ON users FOR EACH ROW EXECUTE PROCEDURE f()")) as [x| | |] eqn:E;
    [|by vm_compute in E..].
  destruct (H x eq_refl) as (g & H1 & H2 & H3 & _). assert (trig_rel g = 200) as <-; [|done].
  apply elem_of_list_In in H1. cbn in H1. destruct_or?; by subst.
Qed.
(** C104: a function that is there is described if the server answers. *)
Theorem function_described sy s name n p a : sane sy → proc_in sy n p → ns_name n = s → proc_name p = name →
  replies_row scan_described sy describe_function_query [s; name] a → a ≠ RowFailed →
  ∃ f, describe_function s name a = Got f.
Proof.
  intros Hs Hp Hn Hname Ha Hf. destruct (describe_function_partial sy s name a Hs Ha) as (H & _).
  destruct a as [| |r]; [|done|by eexists]. destruct (H eq_refl). by exists n, p.
Qed.
Print Assumptions function_described.

(** C106, the other way round: a trigger described is listed, unless it is one of those
    PostgreSQL makes for constraints. *)
Theorem described_listed sy s t name b x a l : sane sy →
  replies_row scan_text sy describe_trigger_query [s; t; name] b → describe_trigger s b = Got x →
  (∀ g, g ∈ sy_triggers sy → is_relation sy s t (trig_rel g) → trig_name g = name → trig_internal g = false) →
  replies scan_named sy list_triggers_query [s; t] a → list_triggers s a = Got l → x ∈ l.
Proof.
  intros Hs Hb Hx Hi Ha Hl. destruct (table_parts_exact no_floats sy s t Hs) as (_ & _ & _ & K & _).
  destruct (K a l Ha Hl) as (objects & H1 & _ & _ & H4).
  destruct (describe_trigger_exact sy s t name b Hs Hb) as (_ & D & _). destruct (D x Hx) as (g & G1 & G2 & G3 & G4 & _).
  assert (g ∈ objects) as Ho by (apply H1; by auto). apply elem_of_list_lookup in Ho as [i Hgi].
  destruct (Forall2_lookup_l _ _ _ _ _ H4 Hgi) as (y & Hy & Hf). rewrite G3 in Hf.
  apply trigger_of_entry in G4, Hf. rewrite G4 in Hf. injection Hf as ->. by eapply elem_of_list_lookup_2.
Qed.
Print Assumptions described_listed.
Example described_listed_example : sane usual ∧
  (∃ x, describe_trigger "public" (Row "CREATE TRIGGER watch BEFORE INSERT ON users FOR EACH ROW EXECUTE PROCEDURE f()") = Got x) ∧
  (∀ g, g ∈ sy_triggers usual → is_relation usual "public" "users" (trig_rel g) → trig_name g = "watch" → trig_internal g = false) ∧
  ∃ l, list_triggers "public" (Rows (scan_named <$> answered usual list_triggers_query ["public"; "users"]) false) = Got l.
Proof.
  split; [apply describe_trigger_example|]. split; [eexists; vm_compute; reflexivity|]. split; [|eexists; vm_compute; reflexivity].
  intros g H1 _. apply elem_of_list_In in H1. cbn in H1. destruct_or?; by subst.
Qed.

(** C103: the listings about a table that is not there succeed, and list nothing. *)
Theorem absent_table_listed pf sy s t : sane sy → (∀ oid, ¬ is_relation sy s t oid) →
  (∀ a, replies_all scan_column sy list_columns_query [s; t] a → list_columns a = Got []) ∧
  (∀ a, replies_all scan_named sy list_checks_query [s; t] a → list_checks a = Got []) ∧
  (∀ a, replies_all scan_named sy list_foreign_keys_query [s; t] a → list_foreign_keys a = Got []) ∧
  (∀ a, replies_all scan_index sy list_indexes_query [s; t] a → list_indexes s a = Got []) ∧
  (∀ a, replies_all scan_named sy list_triggers_query [s; t] a → list_triggers s a = Got []) ∧
  (∀ a, replies_all scan_text sy list_table_storage_parameters_query [s; t] a → list_storage pf a = Got ∅).
Proof.
  intros Hs Hn. destruct (absent_table pf sy s t Hs Hn) as (_ & A1 & A2 & A3 & A4 & A5 & A6).
  destruct (table_parts_listed pf sy s t Hs) as (B1 & B2 & B3 & B4 & B5). split_and!; [done|..]; intros a Ha.
  - destruct (B1 a Ha) as [_ [l Hl]]; [by intros r _ ?%Hn|]. rewrite Hl. by rewrite (A1 a l (all_replies _ _ _ _ _ Ha) Hl).
  - destruct (B2 a Ha) as [_ [l Hl]]; [by intros r _ ?%Hn|]. rewrite Hl. by rewrite (A2 a l (all_replies _ _ _ _ _ Ha) Hl).
  - destruct (B3 a Ha) as [_ [l Hl]]; [by intros i c _ ?%Hn|]. rewrite Hl. by rewrite (A3 a l (all_replies _ _ _ _ _ Ha) Hl).
  - destruct (B4 a Ha) as [_ [l Hl]]; [by intros g _ ?%Hn|]. rewrite Hl. by rewrite (A4 a l (all_replies _ _ _ _ _ Ha) Hl).
  - destruct (B5 a Ha) as [_ [p Hp]].
    + intros n c o H1 H2 H3 _. destruct (Hn (rel_oid c)). by exists n, c.
    + rewrite Hp. by rewrite (A5 a p (all_replies _ _ _ _ _ Ha) Hp).
Qed.
Print Assumptions absent_table_listed.
