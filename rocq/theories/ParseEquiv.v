(** The parsers against ParseSpec.v. *)
From Coq Require Import String Ascii.
From stdpp Require Import prelude strings.
From Verif Require Import GoStrings GoStringsProofs GoUtf8 GoUtf8Proofs DdlModel DdlSpec DdlProofs
  MachineModel MachineTables Re ParseGrammar ParseModel ParseSpec ParseText ParseProofs.
Local Open Scope Z_scope.

(** * Deferral *)
Definition not_deferrable : reads unit := ws >> key "NOT" >> ws >> key "DEFERRABLE".
Lemma deferral_inv s d f : deferral s (d, f) →
  (s = "" ∧ d = false ∧ f = false) ∨
  (not_deferrable s () ∧ d = false ∧ f = false) ∨
  (∃ w s1 s2 o1 o2, s = w +:+ s1 +:+ s2 ∧ ws w () ∧ maybe (key "DEFERRABLE" >> ws) s1 o1 ∧ maybe initially s2 o2 ∧
    d = from_option (λ _, true) false o1 ∧ f = from_option id false o2).
Proof.
  intros (o & Ho & E). destruct Ho as [[-> ->]|(df & -> & [(u & Hu & ->)|(v & Hv & ->)])].
  - left. simpl in E. by injection E as -> ->.
  - right; left. simpl in E. injection E as -> ->. destruct u. done.
  - right; right. destruct Hv as (w & s' & [] & -> & Hw & s1 & s2 & -> & H1 & H2). destruct v as [o1 o2].
    simpl in E, H1, H2. unfold id in E. injection E as -> ->. by exists w, s1, s2, o1, o2.
Qed.
Lemma deferral_none : deferral "" (false, false).
Proof. exists None. split; [by left|done]. Qed.
Lemma deferral_not s : not_deferrable s () → deferral s (false, false).
Proof. intros H. exists (Some (false, false)). split; [|done]. right. exists (false, false). split; [done|]. left. by exists (). Qed.
Lemma deferral_some w s1 s2 o1 o2 :
  ws w () → maybe (key "DEFERRABLE" >> ws) s1 o1 → maybe initially s2 o2 →
  deferral (w +:+ s1 +:+ s2) (from_option (λ _, true) false o1, from_option id false o2).
Proof.
  intros Hw H1 H2. set (v := (from_option (λ _, true) false o1, from_option id false o2)).
  exists (Some v). split; [|done]. right. exists v. split; [done|]. right. exists (o1, o2). split; [|done].
  exists w, (s1 +:+ s2), (). split; [done|]. split; [done|]. by exists s1, s2.
Qed.
Lemma ws_app w w' : ws w () → spaces_text w' → ws (w +:+ w') ().
Proof.
  intros [[Hw Hs] _] Hs'. split; [|done]. split; [destruct w; [done|]; by rewrite app_str_cons|].
  by apply all_bytes_app.
Qed.
Lemma ws_app_l w w' : spaces_text w → ws w' () → ws (w +:+ w') ().
Proof.
  intros Hs [[Hw Hs'] _]. split; [|done]. split; [destruct w; [done|]; by rewrite app_str_cons|].
  by apply all_bytes_app.
Qed.
Lemma ows_app w w' : ows w () → ows w' () → ows (w +:+ w') ().
Proof. intros [Hs _] [Hs' _]. split; [|done]. by apply all_bytes_app. Qed.
Lemma ws_ows w u : ws w u → ows w u.
Proof. intros [[_ H] E]. done. Qed.

(** * Foreign keys *)
Lemma fk_act_pos a c p p' m : fk_act a c p m = fk_act a c p' m.
Proof. by destruct m. Qed.
Lemma fk_act_add c b v : fk_act AddToBuffer (Some c) 0 (b, v) = Some (push c b, v).
Proof. done. Qed.
Definition set_flag {V} (f : V → V) (b : bool) (v : V) : V := if b then f v else v.
(** The canonical text of an action. *)
Definition canonical (s : string) : string := collapse_whitespace (upper (trim s)).
Definition text_of_two (k1 k2 s : string) : Prop :=
  ∃ s1 w s2, s = s1 +:+ w +:+ s2 ∧ spelled k1 s1 ∧ w ≠ "" ∧ spaces_text w ∧ spelled k2 s2.
Lemma canonical_two k1 k2 s v :
  k1 ≠ "" → k2 ≠ "" → capitals k1 → capitals k2 →
  two_keywords k1 k2 s v ↔ text_of_two k1 k2 s ∧ v = canonical s.
Proof.
  intros N1 N2 C1 C2. split.
  - intros (s1 & w & s2 & w' & -> & H1 & Hw & Hs & H2 & Hc & ->). split; [by exists s1, w, s2|].
    destruct (two_keywords_text k1 k2 s1 w s2) as (E1 & E2 & E3); try done.
    unfold canonical. rewrite E1, E2, E3. apply collapse_whitespace_iff in Hc. by rewrite Hc.
  - intros [(s1 & w & s2 & -> & H1 & Hw & Hs & H2) ->]. exists s1, w, s2, (collapse_whitespace w).
    repeat (split; [done|]). split; [by apply collapse_whitespace_iff|].
    destruct (two_keywords_text k1 k2 s1 w s2) as (E1 & E2 & E3); try done.
    unfold canonical. by rewrite E1, E2, E3.
Qed.
Lemma canonical_one k s v :
  k ≠ "" → capitals k → keyword k k s v ↔ spelled k s ∧ v = canonical s.
Proof.
  intros N C. split.
  - intros [H ->]. split; [done|]. destruct (one_keyword_text k s) as (E1 & E2 & E3); try done.
    unfold canonical. by rewrite E1, E2, E3.
  - intros [H ->]. split; [done|]. destruct (one_keyword_text k s) as (E1 & E2 & E3); try done.
    unfold canonical. by rewrite E1, E2, E3.
Qed.
Definition on_action_text (s : string) : Prop :=
  text_of_two "NO" "ACTION" s ∨ spelled "RESTRICT" s ∨ spelled "CASCADE" s ∨ text_of_two "SET" "NULL" s ∨
  text_of_two "SET" "DEFAULT" s.
Lemma on_action_canonical s v : on_action s v ↔ on_action_text s ∧ v = canonical s.
Proof.
  unfold on_action, either. rewrite !canonical_two, !canonical_one by (done || by apply capitals_check).
  unfold on_action_text. tauto.
Qed.
Lemma store_on_action {V} (act : semantics (string * V)) :
  (∀ a c p p' m, act a c p m = act a c p' m) →
  (∀ c b v, act AddToBuffer (Some c) 0 (b, v) = Some (push c b, v)) →
  texts act stores g_onaction on_action_text.
Proof.
  intros Hp Ha. unfold g_onaction. cbn [any_of].
  apply texts_alt; [by apply store_two|]. apply texts_alt; [by apply store_kw|]. apply texts_alt; [by apply store_kw|].
  apply texts_alt; by apply store_two.
Qed.
Definition fk_with_match (s : string) (fk : foreign_key) : foreign_key :=
  ForeignKey (fk_name fk) (fk_table fk) (fk_columns fk) (fk_referenced fk) s
    (fk_on_delete fk) (fk_on_update fk) (fk_deferrable fk) (fk_deferred fk).
Definition fk_with_on_delete (s : string) (fk : foreign_key) : foreign_key :=
  ForeignKey (fk_name fk) (fk_table fk) (fk_columns fk) (fk_referenced fk) (fk_match fk)
    s (fk_on_update fk) (fk_deferrable fk) (fk_deferred fk).
Definition fk_with_on_update (s : string) (fk : foreign_key) : foreign_key :=
  ForeignKey (fk_name fk) (fk_table fk) (fk_columns fk) (fk_referenced fk) (fk_match fk)
    (fk_on_delete fk) s (fk_deferrable fk) (fk_deferred fk).
Notation fk_impl := (impl fk_act).
Lemma fk_on_delete_impl : fk_impl (Seq g_onaction (Act FkOnDelete)) on_action fk_with_on_delete.
Proof.
  eapply impl_field; [apply store_on_action; [apply fk_act_pos|done]|done| |].
  - intros s Hs. exists (canonical s). split; [by apply on_action_canonical|done].
  - intros s a [Hs ->]%on_action_canonical. done.
Qed.
Lemma fk_on_update_impl : fk_impl (Seq g_onaction (Act FkOnUpdate)) on_action fk_with_on_update.
Proof.
  eapply impl_field; [apply store_on_action; [apply fk_act_pos|done]|done| |].
  - intros s Hs. exists (canonical s). split; [by apply on_action_canonical|done].
  - intros s a [Hs ->]%on_action_canonical. done.
Qed.
Lemma fk_match_impl : fk_impl (Seq g_match (Act FkMatch)) match_type fk_with_match.
Proof.
  assert (∀ k s, capitals k → spelled k s → upper s = k) as Hup by apply spelled_upper.
  eapply impl_field.
  - unfold g_match. cbn [any_of]. apply texts_alt; [apply (store_kw fk_act fk_act_pos fk_act_add "FULL")|].
    apply texts_alt; [apply (store_kw fk_act fk_act_pos fk_act_add "PARTIAL")|
      apply (store_kw fk_act fk_act_pos fk_act_add "SIMPLE")].
  - done.
  - intros s Hs. exists (upper s). split; [|done].
    destruct Hs as [Hs|[Hs|Hs]];
      (match type of Hs with spelled ?k _ => rewrite (Hup k s) by (by apply capitals_check) || done end);
      [left|right; left|right; right]; done.
  - intros s a [[Hs ->]|[[Hs ->]|[Hs ->]]]; (split; [tauto|]); intros v; unfold fk_set_match, fk_with_match;
      match type of Hs with spelled ?k _ => by rewrite (Hup k s) by (by apply capitals_check) || done end.
Qed.
Lemma initially_impl {V} (act : semantics (string * V)) k f :
  (∀ a c p p' m, act a c p m = act a c p' m) →
  (∀ d b v, act k (Some d) 0 (b, v) = Some (b, f v)) →
  impl act (g_initially k) initially (set_flag f).
Proof.
  intros Hp Hk. unfold g_initially. cbn [all].
  eapply impl_after; [by apply (impl_kw act Hp "INITIALLY" () (λ _ v, v))|done|].
  eapply impl_after; [by apply (impl_ws act Hp (λ _ v, v))|done|].
  apply impl_either; [by apply impl_kw|]. by eapply (impl_kw_act act Hp).
Qed.
Definition set_flags {V} (f g : V → V) (b : bool * bool) (v : V) : V := set_flag g b.2 (set_flag f b.1 v).
Definition fk_tail_parts : reads (bool * bool) :=
  giving (λ _, (false, false)) (ws >> key "NOT" >> ws >> key "DEFERRABLE" >> ows) <|>
  giving (λ _, (false, false)) ows <|>
  giving (λ v, (true, from_option id false v.2)) ((ws >> key "DEFERRABLE" >> ws) ** maybe (initially << ows)) <|>
  giving (λ b, (false, b)) (ws >> initially << ows).
Lemma fk_tail_parts_impl : fk_impl g_fk_tail fk_tail_parts (set_flags fk_set_deferrable fk_set_deferred).
Proof.
  pose proof (impl_ws fk_act fk_act_pos (λ _ v, v) (λ _, eq_refl)) as Hws.
  pose proof (impl_ows fk_act fk_act_pos (λ _ v, v) (λ _, eq_refl)) as Hows.
  assert (∀ k, fk_impl (kw k) (key k) (λ _ v, v)) as Hkw by (intros k; by apply (impl_kw fk_act fk_act_pos)).
  assert (fk_impl (g_initially FkDeferred) initially (set_flag fk_set_deferred)) as Hin
    by by apply initially_impl.
  unfold g_fk_tail, fk_tail_parts. cbn [any_of all].
  apply impl_either; [|apply impl_either; [|apply impl_either]].
  - eapply impl_giving; [eapply impl_after; [exact Hws|done|]; eapply impl_after; [exact (Hkw _)|done|];
      eapply impl_after; [exact Hws|done|]; eapply impl_after; [exact (Hkw _)|done|exact Hows]|done].
  - eapply impl_giving; [exact Hows|done].
  - eapply impl_giving; [eapply impl_both|].
    + eapply impl_after; [exact Hws|done|]. eapply impl_after; [exact (Hkw _)|done|].
      eapply (impl_marks fk_act fk_set_deferrable _ _ _ (λ _, fk_set_deferrable)); [|by intros s [? ?]|done].
      by apply (mark_ws fk_act fk_act_pos).
    + apply impl_maybe. eapply impl_upto; [exact Hin|exact Hows|done].
    + intros [[] [[]|]] v; done.
  - eapply impl_giving; [eapply impl_after; [exact Hws|done|]; eapply impl_upto; [exact Hin|exact Hows|done]|done].
Qed.
Lemma fk_tail_parts_deferral s b : fk_tail_parts s b ↔ (deferral << ows) s b.
Proof.
  split.
  - intros [H|[H|[H|H]]].
    + destruct H as ([] & (w & ? & [] & -> & Hw & n & ? & [] & -> & Hn & w' & ? & [] & -> & Hw' & d & o & [] & -> & Hd & Ho) & ->).
      exists (w +:+ n +:+ w' +:+ d), o, (). split; [by rewrite !app_str_assoc|]. split; [|done].
      apply deferral_not. exists w, (n +:+ w' +:+ d), (). split; [done|]. split; [done|].
      exists n, (w' +:+ d), (). split; [done|]. split; [done|]. by exists w', d, ().
    + destruct H as ([] & H & ->). exists "", s, (). split; [done|]. split; [apply deferral_none|done].
    + destruct H as ([[] o] & (x & y & -> & (w & ? & [] & -> & Hw & d & w' & [] & -> & Hd & Hw') & Ho) & ->).
      simpl in Ho. destruct Ho as [[-> ->]|(i & -> & z & o' & [] & -> & Hi & Ho)].
      * exists (w +:+ (d +:+ w') +:+ ""), "", (). split; [by rewrite !app_str_nil_r|]. split; [|by split; [intros ? ?%has_byte_nil|]].
        apply (deferral_some w (d +:+ w') "" (Some ()) None); [done| |by left]. right. exists (). split; [done|]. by exists d, w', ().
      * exists (w +:+ (d +:+ w') +:+ z), o', (). split; [by rewrite !app_str_assoc|]. split; [|done].
        apply (deferral_some w (d +:+ w') z (Some ()) (Some i)); [done| |right; by exists i]. right. exists (). split; [done|]. by exists d, w', ().
    + destruct H as (i & (w & ? & [] & -> & Hw & z & o & [] & -> & Hi & Ho) & ->).
      exists (w +:+ "" +:+ z), o, (). split; [by rewrite !app_str_assoc, app_str_nil_r|]. split; [|done].
      apply (deferral_some w "" z None (Some i)); [done|by left|right; by exists i].
  - intros (x & o & [] & -> & H & Ho). destruct b as [d f].
    apply deferral_inv in H as [(-> & -> & ->)|[(H & -> & ->)|(w & s1 & s2 & o1 & o2 & -> & Hw & H1 & H2 & -> & ->)]].
    + right; left. by exists ().
    + left. destruct H as (w & ? & [] & -> & Hw & n & ? & [] & -> & Hn & w' & d & [] & -> & Hw' & Hd).
      exists (). split; [|done]. rewrite <-!app_str_assoc.
      exists w, (n +:+ w' +:+ d +:+ o), (). split; [done|]. split; [done|].
      exists n, (w' +:+ d +:+ o), (). split; [done|]. split; [done|].
      exists w', (d +:+ o), (). split; [done|]. split; [done|]. by exists d, o, ().
    + destruct H1 as [[-> ->]|([] & -> & d & w' & [] & -> & Hd & Hw')].
      * destruct H2 as [[-> ->]|(i & -> & Hi)].
        -- right; left. exists (). split; [|done]. rewrite !app_str_nil_r. apply ows_app; [by apply ws_ows|done].
        -- right; right; right. exists i. split; [|done]. change ("" +:+ s2) with s2. rewrite <-app_str_assoc.
           exists w, (s2 +:+ o), (). split; [done|]. split; [done|]. by exists s2, o, ().
      * right; right; left. destruct H2 as [[-> ->]|(i & -> & Hi)].
        -- exists ((), None). split; [|done]. exists (w +:+ d +:+ w' +:+ o), "". split; [by rewrite !app_str_nil_r, !app_str_assoc|].
           split; [|by left]. exists w, (d +:+ w' +:+ o), (). split; [done|]. split; [done|].
           exists d, (w' +:+ o), (). split; [done|]. split; [done|]. apply ws_app; [done|by destruct Ho].
        -- exists ((), Some i). split; [|done]. exists (w +:+ d +:+ w'), (s2 +:+ o). split; [by rewrite !app_str_assoc|].
           split; [exists w, (d +:+ w'), (); split; [done|]; split; [done|]; by exists d, w', ()|].
           right. exists i. split; [done|]. by exists s2, o, ().
Qed.
Lemma fk_tail_impl : fk_impl g_fk_tail (deferral << ows) (set_flags fk_set_deferrable fk_set_deferred).
Proof.
  eapply impl_map; [apply fk_tail_parts_impl| |]; intros s b H%fk_tail_parts_deferral; by exists b.
Qed.
Lemma fold_columns l fk :
  foldl (λ v s, fk_add_column s v) fk l =
  ForeignKey (fk_name fk) (fk_table fk) (fk_columns fk ++ l) (fk_referenced fk) (fk_match fk)
    (fk_on_delete fk) (fk_on_update fk) (fk_deferrable fk) (fk_deferred fk).
Proof.
  revert fk. induction l as [|s l IH]; intros fk; simpl; [rewrite app_nil_r; by destruct fk|].
  rewrite IH. simpl. by rewrite <-app_assoc.
Qed.
Lemma fold_referenced l fk :
  foldl (λ v s, fk_add_referenced s v) fk l =
  ForeignKey (fk_name fk) (fk_table fk) (fk_columns fk) (fk_referenced fk ++ l) (fk_match fk)
    (fk_on_delete fk) (fk_on_update fk) (fk_deferrable fk) (fk_deferred fk).
Proof.
  revert fk. induction l as [|s l IH]; intros fk; simpl; [rewrite app_nil_r; by destruct fk|].
  rewrite IH. simpl. by rewrite <-app_assoc.
Qed.
Lemma foreign_key_checked : check (machine_td foreign_key_machine) N.eqb 5000 1%N g_fk = true.
Proof. by vm_compute. Qed.
Lemma parse_foreign_key_spec s fk : parse_foreign_key s = Parsed fk ↔ foreign_key_syntax s fk.
Proof.
  pose proof (impl_ws fk_act fk_act_pos (λ _ v, v) (λ _, eq_refl)) as Hws.
  pose proof (impl_ows fk_act fk_act_pos (λ _ v, v) (λ _, eq_refl)) as Hows.
  assert (∀ k, fk_impl (kw k) (key k) (λ _ v, v)) as Hkw by (intros k; by apply (impl_kw fk_act fk_act_pos)).
  assert (∀ c, fk_impl (one c) (lit (String c "")) (λ _ v, v)) as Hone by (intros c; by apply (impl_one fk_act fk_act_pos)).
  assert (fk_impl (names FkColumn) name_list (λ l v, foldl (λ v s, fk_add_column s v) v l)) as Hcols
    by by eapply (impl_names fk_act fk_act_pos).
  assert (fk_impl (names FkReferenced) name_list (λ l v, foldl (λ v s, fk_add_referenced s v) v l)) as Hrefs
    by by eapply (impl_names fk_act fk_act_pos).
  assert (fk_impl (Seq g_ident (Act FkTable)) ident fk_set_table) as Htab
    by by eapply (impl_ident fk_act fk_act_pos).
  eassert (fk_impl g_fk foreign_key_parts _) as Himpl.
  { unfold g_fk, foreign_key_parts, foreign_key_with. cbn [all].
      eapply impl_both.
      { do 7 (eapply impl_after; [solve [exact Hows|exact Hws|exact (Hkw _)|exact (Hone _)]|done|]).
        eapply impl_upto; [exact Hcols| |].
        - do 4 (eapply impl_after; [solve [exact Hows|exact Hws|exact (Hkw _)|exact (Hone _)]|done|]). exact Hws.
        - done. }
      eapply impl_both.
      { eapply impl_upto; [exact Htab| |].
        - eapply impl_after; [exact (Hone _)|done|exact Hows].
        - done. }
      eapply impl_both.
      { eapply impl_upto; [exact Hrefs| |].
        - eapply impl_after; [exact Hows|done|exact (Hone _)].
        - done. }
      eapply impl_both.
      { apply impl_maybe. do 3 (eapply impl_after; [solve [exact Hws|exact (Hkw _)]|done|]). exact fk_match_impl. }
      eapply impl_both.
      { apply impl_maybe. do 5 (eapply impl_after; [solve [exact Hws|exact (Hkw _)]|done|]). exact fk_on_delete_impl. }
      eapply impl_both.
      { apply impl_maybe. do 5 (eapply impl_after; [solve [exact Hws|exact (Hkw _)]|done|]). exact fk_on_update_impl. }
      exact fk_tail_impl. }
  unfold parse_foreign_key. rewrite (impl_whole fk_act g_fk _ _ _ _ _ _ _ foreign_key_checked Himpl).
  unfold foreign_key_syntax, giving.
  assert (∀ a b : foreign_key, a = b → ∀ P : Prop, P ∧ fk = a ↔ P ∧ fk = b) as Hcong by by intros a b ->.
  apply exist_proper. intros (columns & table & referenced & mat & del & upd & deferrable & deferred).
  apply Hcong. cbn -[foldl]. rewrite fold_columns, fold_referenced. unfold set_flags, set_flag.
  by destruct mat, del, upd, deferrable, deferred.
Qed.

(** * Indexes *)
Lemma ix_act_pos a c p p' m : ix_act a c p m = ix_act a c p' m.
Proof. by destruct m. Qed.
Lemma ix_act_add c b v : ix_act AddToBuffer (Some c) 0 (b, v) = Some (push c b, v).
Proof. done. Qed.
Notation ix_impl := (impl ix_act).
Lemma set_op_class_last o k i : ix_set_op_class o (ix_add_key k i) = Some (ix_add_key (key_op_class o k) i).
Proof. unfold ix_set_op_class, ix_add_key. simpl. rewrite last_snoc, removelast_last. done. Qed.
Lemma ix_key_impl r P a make (p : reads string) :
  texts ix_act stores r P →
  (∀ c b v, ix_act a c 0 (b, v) = Some ("", ix_add_key (make b "") v)) →
  (∀ s v, p s v ↔ P s ∧ v = s) → (∀ s o, make s o = key_op_class o (make s "")) →
  ix_impl (g_key r a) (with_class make p) ix_add_key.
Proof.
  intros Hr Ha Hp Hm.
  assert (ix_impl (Seq r (Act a)) p (λ s v, ix_add_key (make s "") v)) as [H1 H2].
  { eapply (impl_field ix_act r P a (λ b v, ix_add_key (make b "") v)); [done|done| |].
    - intros s Hs. exists s. split; [by apply Hp|done].
    - intros s x [Hs ->]%Hp. done. }
  assert (texts ix_act skips g_ws (λ s, s ≠ "" ∧ spaces_text s)) as [W1 W2].
  { apply (texts_bytes1 ix_act skips skips_nil skips_app Cls (skip_cls ix_act ix_act_pos)). apply in_space. }
  destruct (store_ident ix_act ix_act_pos ix_act_add) as [I1 I2].
  assert (∀ t1 tw ti s, eff ix_act t1 (λ v, ix_add_key (make s "") v) → lang g_ws tw → lang g_ident ti →
    eff ix_act (t1 ++ tw ++ ti ++ [A IxOpClass]) (ix_add_key (make s (bytes ti)))) as Heff.
  { intros t1 tw ti s He Hw Hi t' v. rewrite <-!app_assoc. rewrite He. destruct (W1 _ Hw) as [_ ->].
    destruct (I1 _ Hi) as [_ ->]. unfold skips, stores.
    change ([A IxOpClass] ++ t') with (A IxOpClass :: t'). cbn [exec fst snd].
    change ("" +:+ bytes ti) with (bytes ti). cbn [ix_act]. rewrite set_op_class_last. by rewrite <-Hm. }
  split.
  - intros t (t1 & t2 & -> & Ht1 & Ht2). destruct (H1 _ Ht1) as (s & Hs & He). destruct Ht2 as [Ht2|Ht2].
    + simpl in Ht2. subst t2. rewrite app_nil_r. exists (make s ""). split; [|done].
      exists (s, None). split; [|done]. exists (bytes t1), "". split; [by rewrite app_str_nil_r|]. split; [done|by left].
    + destruct Ht2 as (tw & t3 & -> & Hw & ti & t4 & -> & Hi & Ht4). simpl in Ht4. subst t4.
      exists (make s (bytes ti)). split; [|by apply Heff].
      exists (s, Some (bytes ti)). split; [|done]. rewrite !bytes_app. simpl. rewrite app_str_nil_r.
      exists (bytes t1), (bytes tw +:+ bytes ti). split; [done|]. split; [done|]. right. exists (bytes ti).
      split; [done|]. exists (bytes tw), (bytes ti), (). split; [done|]. split; [by split; [apply W1|]|].
      split; [by apply I1|done].
  - intros x k ([s o] & (x1 & x2 & -> & Hs & Ho) & ->). simpl in Hs, Ho. destruct (H2 _ _ Hs) as (t1 & Hl1 & <- & He).
    destruct Ho as [[-> ->]|(o' & -> & w & i & [] & -> & [Hw _] & [Hi ->])].
    + exists (t1 ++ []). split; [exists t1, []; split; [done|]; split; [done|]; by left|].
      rewrite app_nil_r, app_str_nil_r. done.
    + destruct (W2 _ Hw) as (tw & Hlw & <-). destruct (I2 _ Hi) as (ti & Hli & <-).
      exists (t1 ++ tw ++ ti ++ [A IxOpClass]). split; [|split; [|by apply Heff]].
      * exists t1, (tw ++ ti ++ [A IxOpClass]). split; [done|]. split; [done|]. right.
        exists tw, (ti ++ [A IxOpClass]). split; [done|]. split; [done|]. by exists ti, [A IxOpClass].
      * rewrite !bytes_app. simpl. by rewrite app_str_nil_r.
Qed.
Lemma store_char c : texts ix_act stores (buf [(byte_of c, byte_of c)]) (λ s, s = String c "").
Proof.
  eapply texts_iff; [apply store_cls; [apply ix_act_pos|apply ix_act_add]|]. intros s. split.
  - intros (d & -> & H%in_one). by rewrite H.
  - intros ->. exists c. split; [done|]. by apply in_one.
Qed.
Lemma store_expr : texts ix_act stores g_expr
  (λ s, ∃ e, s = "(" +:+ e +:+ ")" ∧ e ≠ "" ∧ all_bytes not_close e).
Proof.
  eapply texts_iff; [apply texts_seq; [apply stores_app|exact (store_char "(")|apply texts_seq; [apply stores_app| |
    exact (store_char ")")]]|].
  - apply (texts_bytes1 ix_act stores stores_nil stores_app buf (store_cls ix_act ix_act_pos ix_act_add) _ _ in_not_close).
  - intros s. split.
    + intros (? & ? & -> & -> & e & ? & -> & [He He'] & ->). by exists e.
    + intros (e & -> & He). exists "(", (e +:+ ")"). split; [done|]. split; [done|]. by exists e, ")".
Qed.
Lemma store_call : texts ix_act stores g_fncall
  (λ s, ∃ f e, s = f +:+ "(" +:+ e +:+ ")" ∧ is_ident f ∧ all_bytes not_close e).
Proof.
  eapply texts_iff; [apply texts_seq; [apply stores_app|apply store_ident; [apply ix_act_pos|apply ix_act_add]|
    apply texts_seq; [apply stores_app|exact (store_char "(")|apply texts_seq; [apply stores_app| |
    exact (store_char ")")]]]|].
  - apply (texts_bytes ix_act stores stores_nil stores_app buf (store_cls ix_act ix_act_pos ix_act_add) _ _ in_not_close).
  - intros s. split.
    + intros (f & ? & -> & Hf & ? & ? & -> & -> & e & ? & -> & He & ->). by exists f, e.
    + intros (f & e & -> & Hf & He). exists f, ("(" +:+ e +:+ ")"). split; [done|]. split; [done|].
      exists "(", (e +:+ ")"). split; [done|]. split; [done|]. by exists e, ")".
Qed.
Lemma ix_keys_impl : ix_impl g_keys key_list (λ l v, foldl (λ v k, ix_add_key k v) v l).
Proof.
  assert (ix_impl (g_key g_ident IxColumn) (with_class column_key ident) ix_add_key) as Hcol.
  { eapply ix_key_impl; [apply store_ident; [apply ix_act_pos|apply ix_act_add]|done| |done]. done. }
  unfold g_keys, key_list. eapply impl_giving; [eapply impl_both|].
  - cbn [any_of]. apply impl_either; [|apply impl_either; [|exact Hcol]].
    + eapply ix_key_impl; [apply store_expr|done| |done]. intros s v. unfold paren_expr. tauto.
    + eapply ix_key_impl; [apply store_call|done| |done]. intros s v. unfold call_expr. tauto.
  - apply impl_many. cbn [all]. eapply impl_after; [by apply (impl_ows ix_act ix_act_pos (λ _ v, v))|done|].
    eapply impl_after; [by apply (impl_one ix_act ix_act_pos "," (λ _ v, v))|done|].
    eapply impl_after; [by apply (impl_ows ix_act ix_act_pos (λ _ v, v))|done|]. exact Hcol.
  - by intros [a l] v.
Qed.
Definition ix_with_where (s : string) (i : index) : index :=
  Index (ix_schema i) (ix_table i) (ix_name i) (ix_primary i) (ix_unique i) (ix_using i) s (ix_keys i).
Definition ix_with_using (s : string) (i : index) : index :=
  Index (ix_schema i) (ix_table i) (ix_name i) (ix_primary i) (ix_unique i) s (ix_where i) (ix_keys i).
Definition any_text : reads string := λ s v, s ≠ "" ∧ v = collapse_whitespace (trim s).
Definition a_space : reads unit := is (λ s, ∃ c, s = String c "" ∧ in_cls (byte_of c) c_space = true) ().
Lemma where_clause_text s v :
  (ws >> key "WHERE" >> a_space >> any_text) s v ↔ (ws >> key "WHERE" >> ws >> where_text) s v.
Proof.
  split.
  - intros (w & ? & [] & -> & Hw & k & ? & [] & -> & Hk & x & t & [] & -> & [(c & -> & Hc%in_space) _] & Ht & ->).
    exists w, (k +:+ String c "" +:+ t), (). split; [done|]. split; [done|].
    exists k, (String c "" +:+ t), (). split; [done|]. split; [done|].
    exists (String c ""), t, (). split; [done|]. split.
    + split; [|done]. split; [done|]. by intros d [<-|[]%has_byte_nil]%has_byte_cons.
    + split; [done|]. exists (trim t). split; [apply trim_spec|by apply collapse_whitespace_iff].
  - intros (w & ? & [] & -> & Hw & k & ? & [] & -> & Hk & x & t & [] & -> & [[Hx Hx'] _] & Ht & u & Hu & Hv).
    destruct x as [|c x]; [done|]. exists w, (k +:+ String c "" +:+ (x +:+ t)), (). split; [done|]. split; [done|].
    exists k, (String c "" +:+ (x +:+ t)), (). split; [done|]. split; [done|].
    exists (String c ""), (x +:+ t), (). split; [done|]. split.
    + split; [|done]. exists c. split; [done|]. apply in_space, Hx', has_byte_cons. by left.
    + split; [destruct x; [done|]; by rewrite app_str_cons|].
      rewrite (trim_unique (x +:+ t) u); [by apply collapse_whitespace_iff in Hv|].
      apply trimmed_spaces; [|done]. intros d Hd. apply Hx', has_byte_cons. by right.
Qed.
Lemma ix_where_impl :
  ix_impl g_where where_clause (λ o v, match o with Some s => ix_with_where s v | None => v end).
Proof.
  eapply (impl_map _ _ (giving Some (ws >> key "WHERE" >> a_space >> any_text) <|> giving (λ _, None) ows) _
    (λ o v, match o with Some s => ix_with_where s v | None => v end)).
  - unfold g_where. apply impl_either.
    + eapply impl_giving; [|done]. cbn [all].
      eapply impl_after; [by apply (impl_ws ix_act ix_act_pos (λ _ v, v))|done|].
      eapply impl_after; [by apply (impl_kw ix_act ix_act_pos "WHERE" () (λ _ v, v))|done|].
      eapply impl_after; [exact (impl_skip ix_act _ _ () (λ _ v, v) (skip_cls ix_act ix_act_pos c_space) (λ _, eq_refl))|done|].
      eapply (impl_field ix_act _ _ _ _ any_text (λ s v, ix_with_where s v));
        [apply (texts_bytes1 ix_act stores stores_nil stores_app buf (store_cls ix_act ix_act_pos ix_act_add) _ _ in_any)|
        done| |].
      * intros s [Hs _]. by exists (collapse_whitespace (trim s)).
      * intros s a [Hs ->]. done.
    + eapply impl_giving; [by apply (impl_ows ix_act ix_act_pos (λ _ v, v))|done].
  - intros s o [(v & H%where_clause_text & ->)|H]; [exists (Some v)|exists o]; (split; [|done]); [left; by exists v|by right].
  - intros s o [(v & H%where_clause_text & ->)|H]; [exists (Some v)|exists o]; (split; [|done]); [left; by exists v|by right].
Qed.
Lemma fold_keys l i :
  foldl (λ v k, ix_add_key k v) i l =
  Index (ix_schema i) (ix_table i) (ix_name i) (ix_primary i) (ix_unique i) (ix_using i) (ix_where i) (ix_keys i ++ l).
Proof.
  revert i. induction l as [|k l IH]; intros i; simpl; [rewrite app_nil_r; by destruct i|].
  rewrite IH. simpl. by rewrite <-app_assoc.
Qed.
Lemma index_checked : check (machine_td index_machine) N.eqb 5000 1%N g_index = true.
Proof. by vm_compute. Qed.
Lemma parse_index_spec s i : parse_index s = Parsed i ↔ index_syntax s i.
Proof.
  pose proof (impl_ws ix_act ix_act_pos (λ _ v, v) (λ _, eq_refl)) as Hws.
  pose proof (impl_ows ix_act ix_act_pos (λ _ v, v) (λ _, eq_refl)) as Hows.
  assert (∀ k, ix_impl (kw k) (key k) (λ _ v, v)) as Hkw by (intros k; by apply (impl_kw ix_act ix_act_pos)).
  assert (∀ c, ix_impl (one c) (lit (String c "")) (λ _ v, v)) as Hone by (intros c; by apply (impl_one ix_act ix_act_pos)).
  assert (ix_impl (Seq g_ident (Act IxName)) ident ix_set_name) as Hname by by eapply (impl_ident ix_act ix_act_pos).
  assert (ix_impl (Seq g_ident (Act IxTable)) ident ix_set_table) as Htab by by eapply (impl_ident ix_act ix_act_pos).
  assert (ix_impl (Seq g_ident (Act IxUsing)) ident ix_with_using) as Husing.
  { eapply (impl_ident ix_act ix_act_pos ix_act_add); [done|]. intros x v Hx. unfold ix_with_using, ix_set_using.
    unfold collapse_whitespace. by rewrite collapse_plain by by apply is_ident_plain. }
  eassert (ix_impl g_index index_parts _) as Himpl.
  { unfold g_index. cbn [all].
    eapply impl_both.
    { do 3 (eapply impl_after; [solve [exact Hows|exact Hws|exact (Hkw _)]|done|]).
      eapply impl_upto.
      - apply impl_maybe. eapply impl_upto; [|exact Hws|done].
        by apply (impl_kw_act ix_act ix_act_pos "UNIQU" IxUnique "E" ix_set_unique () (λ _, ix_set_unique)).
      - eapply impl_after; [exact (Hkw _)|done|exact Hws].
      - done. }
    eapply impl_both.
    { eapply impl_upto; [exact Hname| |].
      - do 2 (eapply impl_after; [solve [exact Hws|exact (Hkw _)]|done|]). exact Hws.
      - done. }
    eapply impl_both; [exact Htab|].
    eapply impl_both.
    { apply impl_maybe. do 3 (eapply impl_after; [solve [exact Hws|exact (Hkw _)]|done|]). exact Husing. }
    eapply impl_both; [|exact ix_where_impl].
    do 3 (eapply impl_after; [solve [exact Hows|exact Hws|exact (Hone _)]|done|]).
    eapply impl_upto; [exact ix_keys_impl| |].
    - eapply impl_after; [exact Hows|done|exact (Hone _)].
    - done. }
  unfold parse_index. rewrite (impl_whole ix_act g_index _ _ _ _ _ _ _ index_checked Himpl).
  unfold index_syntax, giving.
  assert (∀ a b : index, a = b → ∀ P : Prop, P ∧ i = a ↔ P ∧ i = b) as Hcong by by intros a b ->.
  apply exist_proper. intros (unique & name & table & meth & keys & wh).
  apply Hcong. cbn -[foldl]. rewrite fold_keys. by destruct unique, meth, wh.
Qed.

(** * Triggers *)
Lemma tg_act_pos a c p p' m : tg_act a c p m = tg_act a c p' m.
Proof. by destruct m. Qed.
Lemma tg_act_add c b v : tg_act AddToBuffer (Some c) 0 (b, v) = Some (push c b, v).
Proof. done. Qed.
Notation tg_impl := (impl tg_act).
Definition tg_with_when (s : string) (t : trigger) : trigger :=
  Trigger (tg_schema t) (tg_table t) (tg_name t) (tg_function t) s (tg_constraint t)
    (tg_deferrable t) (tg_deferred t) (tg_each_row t) (tg_delete t) (tg_insert t) (tg_truncate t)
    (tg_update t) (tg_columns t).
Lemma collapse_spaces b w : spaces_text w → spaces_text (collapse b w).
Proof.
  revert b. induction w as [|c w IH]; intros b H; [done|].
  assert (space_byte c) as Hc by (apply H, has_byte_cons; by left).
  assert (spaces_text w) as Hw by (intros d Hd; apply H, has_byte_cons; by right).
  simpl. destruct (re_space c); [destruct b; [by apply IH|]|];
    (intros d [<-|Hd]%has_byte_cons; [|exact (IH _ Hw d Hd)]); [right; done|exact Hc].
Qed.
Lemma timing_two s1 w s2 k1 k2 :
  capitals k1 → capitals k2 → spelled k1 s1 → spelled k2 s2 → spaces_text w →
  upper (collapse_whitespace (s1 +:+ w +:+ s2)) = k1 +:+ collapse_whitespace w +:+ k2.
Proof.
  intros C1 C2 H1 H2 Hw.
  assert (∀ k s, capitals k → spelled k s → all_bytes (λ c, ¬ is_space c) s) as Hp.
  { intros k s Hk Hs c Hc. apply not_space_letter. by eapply spelled_letters. }
  unfold collapse_whitespace. rewrite collapse_plain_app by exact (Hp k1 s1 C1 H1).
  rewrite collapse_app_plain by exact (Hp k2 s2 C2 H2). rewrite !upper_app.
  rewrite (spelled_upper k1 s1) by done. rewrite (spelled_upper k2 s2) by done.
  by rewrite upper_spaces by by apply collapse_spaces.
Qed.
Lemma timing_one s k : capitals k → spelled k s → upper (collapse_whitespace s) = k.
Proof.
  intros C H. unfold collapse_whitespace. rewrite collapse_plain; [by apply spelled_upper|].
  intros c Hc. apply not_space_letter. by eapply spelled_letters.
Qed.
Lemma tg_when_impl : tg_impl (Seq g_when (Act TgWhen)) timing tg_with_when.
Proof.
  eapply impl_field.
  - unfold g_when. cbn [any_of]. apply texts_alt; [apply (store_kw tg_act tg_act_pos tg_act_add "BEFORE")|].
    apply texts_alt; [apply (store_kw tg_act tg_act_pos tg_act_add "AFTER")|
      apply (store_two tg_act tg_act_pos tg_act_add "INSTEAD" "OF")].
  - done.
  - intros s Hs. exists (upper (collapse_whitespace s)). split; [|done].
    destruct Hs as [Hs|[Hs|Hs]].
    + left. split; [done|]. by apply timing_one; [apply capitals_check|].
    + right; left. split; [done|]. by apply timing_one; [apply capitals_check|].
    + right; right. destruct Hs as (s1 & w & s2 & -> & H1 & Hw & Hw' & H2).
      exists s1, w, s2, (collapse_whitespace w). repeat (split; [done|]).
      split; [by apply collapse_whitespace_iff|]. by apply timing_two; [apply capitals_check|apply capitals_check|..].
  - intros s a [[Hs ->]|[[Hs ->]|Hs]].
    + split; [tauto|]. intros v. unfold tg_set_when. by rewrite (timing_one s "BEFORE") by (done || by apply capitals_check).
    + split; [tauto|]. intros v. unfold tg_set_when. by rewrite (timing_one s "AFTER") by (done || by apply capitals_check).
    + destruct Hs as (s1 & w & s2 & w' & -> & H1 & Hw & Hw' & H2 & Hc & ->). split.
      * right; right. by exists s1, w, s2.
      * intros v. unfold tg_set_when. rewrite (timing_two s1 w s2 "INSTEAD" "OF") by (done || by apply capitals_check).
        apply collapse_whitespace_iff in Hc. by rewrite Hc.
Qed.
Definition add_columns (l : list string) (v : trigger) : trigger := foldl (λ v s, tg_add_column s v) v l.
Definition do_event (e : event) (v : trigger) : trigger :=
  match e with
  | EvInsert => tg_set_flag TgInsert v
  | EvUpdate l => add_columns l (tg_set_flag TgUpdate v)
  | EvDelete => tg_set_flag TgDelete v
  | EvTruncate => tg_set_flag TgTruncate v
  end.
Lemma tg_event_impl : tg_impl g_event event_syntax do_event.
Proof.
  pose proof (impl_ws tg_act tg_act_pos (λ _ v, v) (λ _, eq_refl)) as Hws.
  unfold g_event, event_syntax. cbn [any_of].
  apply impl_either; [by eapply (impl_kw_act tg_act tg_act_pos)|].
  apply impl_either; [|apply impl_either; by eapply (impl_kw_act tg_act tg_act_pos)].
  unfold g_update.
  eapply (impl_map tg_act _
    (key "UPDATE" ** maybe (ws >> key "OF" >> ws >> name_list)) _
    (λ ab v, match ab.2 with Some l => add_columns l (tg_set_flag TgUpdate v) | None => tg_set_flag TgUpdate v end)).
  - eapply impl_ext; [eapply impl_both|].
    + by apply (impl_kw_act tg_act tg_act_pos "UPDAT" TgUpdate "E" (tg_set_flag TgUpdate) () (λ _, tg_set_flag TgUpdate)).
    + apply impl_maybe. cbn [all]. eapply impl_after; [exact Hws|done|].
      eapply impl_after; [by apply (impl_kw tg_act tg_act_pos "OF" () (λ _ v, v))|done|].
      eapply impl_after; [exact Hws|done|]. by eapply (impl_names tg_act tg_act_pos tg_act_add _ tg_add_column add_columns).
    + intros [[] [l|]] v; done.
  - intros s [[] o] (s1 & s2 & -> & H1 & H2). simpl in H1, H2. exists (EvUpdate (from_option id [] o)). split.
    + exists o. split; [|done]. by exists s1, s2, ().
    + by destruct o.
  - intros s e (o & (s1 & s2 & [] & -> & H1 & H2) & ->). exists ((), o). split; [by exists s1, s2|by destruct o].
Qed.
Lemma add_columns_eq l t : add_columns l t =
  Trigger (tg_schema t) (tg_table t) (tg_name t) (tg_function t) (tg_when t) (tg_constraint t)
    (tg_deferrable t) (tg_deferred t) (tg_each_row t) (tg_delete t) (tg_insert t) (tg_truncate t)
    (tg_update t) (tg_columns t ++ l).
Proof.
  revert t. unfold add_columns. induction l as [|s l IH]; intros t; simpl; [rewrite app_nil_r; by destruct t|].
  rewrite IH. simpl. by rewrite <-app_assoc.
Qed.
Lemma fold_events l t : foldl (λ v e, do_event e v) t l =
  Trigger (tg_schema t) (tg_table t) (tg_name t) (tg_function t) (tg_when t) (tg_constraint t)
    (tg_deferrable t) (tg_deferred t) (tg_each_row t) (tg_delete t || existsb is_delete l)
    (tg_insert t || existsb is_insert l) (tg_truncate t || existsb is_truncate l)
    (tg_update t || existsb is_update l) (tg_columns t ++ (l ≫= event_columns)).
Proof.
  revert t. induction l as [|e l IH]; intros t.
  - simpl. rewrite !orb_false_r. change ([] ≫= event_columns) with (@nil string). rewrite app_nil_r. by destruct t.
  - cbn [foldl]. rewrite IH. destruct e as [|k| |]; cbn [do_event]; rewrite ?add_columns_eq; cbn -[mbind];
      rewrite ?orb_true_r, ?orb_true_l, bind_cons; cbn [event_columns app]; rewrite ?app_assoc; done.
Qed.
Definition each_row : option bool → trigger → trigger := λ o v,
  match o with Some true => tg_set_flag TgEachRow v | _ => v end.
Lemma tg_for_impl : tg_impl g_for for_each (set_flag (tg_set_flag TgEachRow)).
Proof.
  pose proof (impl_ws tg_act tg_act_pos (λ _ v, v) (λ _, eq_refl)) as Hws.
  assert (∀ k, tg_impl (kw k) (key k) (λ _ v, v)) as Hkw by (intros k; by apply (impl_kw tg_act tg_act_pos)).
  unfold g_for. cbn [all]. eapply impl_after; [exact (Hkw _)|done|]. eapply impl_after; [exact Hws|done|].
  eapply impl_after; [apply impl_maybe; eapply impl_after; [exact (Hkw _)|done|exact Hws]|by intros [] ?|].
  apply impl_either; [by eapply (impl_kw_act tg_act tg_act_pos)|by apply (impl_kw tg_act tg_act_pos)].
Qed.
Definition execute : reads string :=
  key "EXECUTE" >> ws >> (key "FUNCTION" <|> key "PROCEDURE") >> ws >> ident << (lit "()" >> ows).
Lemma tg_execute_impl : tg_impl g_execute execute tg_set_function.
Proof.
  pose proof (impl_ws tg_act tg_act_pos (λ _ v, v) (λ _, eq_refl)) as Hws.
  pose proof (impl_ows tg_act tg_act_pos (λ _ v, v) (λ _, eq_refl)) as Hows.
  assert (∀ k, tg_impl (kw k) (key k) (λ _ v, v)) as Hkw by (intros k; by apply (impl_kw tg_act tg_act_pos)).
  unfold g_execute. cbn [all]. eapply impl_after; [exact (Hkw _)|done|]. eapply impl_after; [exact Hws|done|].
  eapply impl_after; [apply impl_either; exact (Hkw _)|done|]. eapply impl_after; [exact Hws|done|].
  eapply impl_upto; [by eapply (impl_ident tg_act tg_act_pos tg_act_add)| |].
  - eapply impl_after; [|done|exact Hows]. apply (impl_skip tg_act _ _ () (λ _ v, v)); [|done].
    eapply texts_iff; [apply texts_seq; [apply skips_app|apply skip_one, tg_act_pos|apply skip_one, tg_act_pos]|].
    intros s. split; [by intros (? & ? & -> & -> & ->)|]. intros ->. by exists "(", ")".
  - done.
Qed.
Definition rest : reads (option bool * string) := maybe (ws >> for_each) ** (ws >> execute).
Definition do_rest (x : option bool * string) (v : trigger) : trigger :=
  tg_set_function x.2 (each_row x.1 v).
Lemma tg_rest_impl : tg_impl g_rest rest do_rest.
Proof.
  pose proof (impl_ws tg_act tg_act_pos (λ _ v, v) (λ _, eq_refl)) as Hws.
  unfold g_rest. eapply impl_ext; [eapply impl_both|].
  - apply impl_maybe. eapply impl_after; [exact Hws|done|exact tg_for_impl].
  - eapply impl_after; [exact Hws|done|exact tg_execute_impl].
  - by intros [[[]|] f] v.
Qed.
Lemma tg_rest2_impl :
  tg_impl (Seq (opt (Seq g_for g_ws)) g_execute) (maybe (for_each << ws) ** execute) do_rest.
Proof.
  pose proof (impl_ws tg_act tg_act_pos (λ _ v, v) (λ _, eq_refl)) as Hws.
  eapply impl_ext; [eapply impl_both|].
  - apply impl_maybe. eapply impl_upto; [exact tg_for_impl|exact Hws|done].
  - exact tg_execute_impl.
  - by intros [[[]|] f] v.
Qed.
Definition two_spaces : reads unit := is (λ s, ∃ c w, s = String c w ∧ space_byte c ∧ w ≠ "" ∧ spaces_text w) ().
Definition tail_parts : reads ((bool * bool) * (option bool * string)) :=
  giving (λ v, ((false, false), v)) (not_deferrable >> rest) <|>
  giving (λ v, ((false, false), v)) rest <|>
  giving (λ v, ((true, false), v.2)) ((ws >> key "DEFERRABLE" >> two_spaces) ** maybe (for_each << ws) ** execute) <|>
  giving (λ v, ((true, v.2.1), v.2.2)) ((ws >> key "DEFERRABLE" >> ws) ** initially ** rest) <|>
  giving (λ v, ((false, v.1), v.2)) ((ws >> initially) ** rest).
Definition do_tail (x : (bool * bool) * (option bool * string)) (v : trigger) : trigger :=
  do_rest x.2 (set_flags (tg_set_flag TgDeferrable) (tg_set_flag TgDeferred) x.1 v).
Lemma tail_parts_impl : tg_impl g_trigger_tail tail_parts do_tail.
Proof.
  pose proof (impl_ws tg_act tg_act_pos (λ _ v, v) (λ _, eq_refl)) as Hws.
  assert (∀ k, tg_impl (kw k) (key k) (λ _ v, v)) as Hkw by (intros k; by apply (impl_kw tg_act tg_act_pos)).
  assert (tg_impl (g_initially TgDeferred) initially (set_flag (tg_set_flag TgDeferred))) as Hin by by apply initially_impl.
  unfold g_trigger_tail, tail_parts. cbn [any_of all].
  apply impl_either; [|apply impl_either; [|apply impl_either; [|apply impl_either]]].
  - eapply impl_giving; [eapply impl_after; [|done|exact tg_rest_impl]|done].
    do 3 (eapply impl_after; [solve [exact Hws|exact (Hkw _)]|done|]). exact (Hkw _).
  - eapply impl_giving; [exact tg_rest_impl|done].
  - eapply impl_giving; [eapply impl_both; [|exact tg_rest2_impl]|].
    + do 2 (eapply impl_after; [solve [exact Hws|exact (Hkw _)]|done|]).
      eapply (impl_marks tg_act (tg_set_flag TgDeferrable) _ _ _ (λ _, tg_set_flag TgDeferrable));
        [by apply (mark_ws2 tg_act tg_act_pos)|by intros s (c & w & -> & _)|done].
    + by intros [[] [o f]] v.
  - eapply impl_giving; [eapply impl_both; [|eapply impl_both; [exact Hin|exact tg_rest_impl]]|].
    + do 2 (eapply impl_after; [solve [exact Hws|exact (Hkw _)]|done|]).
      eapply (impl_marks tg_act (tg_set_flag TgDeferrable) _ _ _ (λ _, tg_set_flag TgDeferrable));
        [by apply (mark_ws tg_act tg_act_pos)|by intros s [? ?]|done].
    + by intros [[] [b [o f]]] v.
  - eapply impl_giving; [eapply impl_both; [eapply impl_after; [exact Hws|done|exact Hin]|exact tg_rest_impl]|done].
Qed.
Lemma rest_space s v : rest s v → ∃ w s', s = w +:+ s' ∧ ws w () ∧ (maybe (for_each << ws) ** execute) s' v.
Proof.
  intros (s1 & s2 & -> & H1 & (w & e & [] & -> & Hw & He)). destruct v as [o f]. simpl in H1, He.
  destruct H1 as [[-> ->]|(b & -> & w1 & x & [] & -> & Hw1 & Hx)].
  - exists w, e. split; [done|]. split; [done|]. exists "", e. split; [done|]. split; [by left|done].
  - exists w1, (x +:+ w +:+ e). split; [by rewrite !app_str_assoc|]. split; [done|].
    exists (x +:+ w), e. split; [by rewrite !app_str_assoc|]. split; [|done]. right. exists b. split; [done|]. by exists x, w, ().
Qed.
Lemma space_rest w s v : ws w () → (maybe (for_each << ws) ** execute) s v → rest (w +:+ s) v.
Proof.
  intros Hw (s1 & s2 & -> & H1 & He). destruct v as [o f]. simpl in H1, He.
  destruct H1 as [[-> ->]|(b & -> & x & w1 & [] & -> & Hx & Hw1)].
  - exists "", (w +:+ s2). split; [done|]. split; [by left|]. by exists w, s2, ().
  - exists (w +:+ x), (w1 +:+ s2). split; [by rewrite !app_str_assoc|]. split; [|by exists w1, s2, ()].
    right. exists b. split; [done|]. by exists w, x, ().
Qed.
Lemma tail_parts_deferral s v : tail_parts s v ↔ (deferral ** rest) s v.
Proof.
  split.
  - intros [H|[H|[H|[H|H]]]].
    + destruct H as (x & (s1 & s2 & [] & -> & H1 & H2) & ->). exists s1, s2. split; [done|].
      split; [by apply deferral_not|done].
    + destruct H as (x & H & ->). exists "", s. split; [done|]. split; [apply deferral_none|done].
    + destruct H as ([[] x] & (s1 & s2 & -> & H1 & H2) & ->). simpl in H1, H2.
      destruct H1 as (w & ? & [] & -> & Hw & d & ? & [] & -> & Hd & [(c & w' & -> & Hc & Hw') _]).
      assert (ws (String c "") ()) as Hwc.
      { split; [|done]. split; [done|]. by intros d' [<-|[]%has_byte_nil]%has_byte_cons. }
      exists (w +:+ (d +:+ String c "") +:+ ""), (w' +:+ s2). split.
      { rewrite app_str_nil_r, <-!app_str_assoc. done. }
      split; [|by apply space_rest].
      apply (deferral_some w (d +:+ String c "") "" (Some ()) None); [done| |by left].
      right. exists (). split; [done|]. by exists d, (String c ""), ().
    + destruct H as ([[] [b x]] & (s1 & ? & -> & H1 & i & s2 & -> & Hi & H2) & ->). simpl in H1, H2, Hi.
      destruct H1 as (w & ? & [] & -> & Hw & d & w' & [] & -> & Hd & Hw').
      exists (w +:+ (d +:+ w') +:+ i), s2. split; [by rewrite !app_str_assoc|]. split; [|done].
      apply (deferral_some w (d +:+ w') i (Some ()) (Some b)); [done| |right; by exists b].
      right. exists (). split; [done|]. by exists d, w', ().
    + destruct H as ([b x] & (s1 & s2 & -> & H1 & H2) & ->). simpl in H1, H2.
      destruct H1 as (w & i & [] & -> & Hw & Hi). exists (w +:+ "" +:+ i), s2. split; [done|]. split; [|done].
      apply (deferral_some w "" i None (Some b)); [done|by left|right; by exists b].
  - intros (s1 & s2 & -> & H & Hr). destruct v as [[d f] x]. simpl in H, Hr.
    apply deferral_inv in H as [(-> & -> & ->)|[(H & -> & ->)|(w & t1 & t2 & o1 & o2 & -> & Hw & H1 & H2 & -> & ->)]].
    + right; left. by exists x.
    + left. exists x. split; [|done]. by exists s1, s2, ().
    + destruct H1 as [[-> ->]|([] & -> & d & w' & [] & -> & Hd & Hw')].
      * destruct H2 as [[-> ->]|(i & -> & Hi)].
        -- right; left. exists x. split; [|done]. apply rest_space in Hr as (w2 & s' & -> & Hw2 & Hs').
           rewrite app_str_nil_r, app_str_assoc. apply space_rest; [|done].
           apply ws_app; [done|]. by destruct Hw2 as [[_ ?] _].
        -- right; right; right; right. exists (i, x). split; [|done]. exists (w +:+ t2), s2. split; [done|].
           split; [|done]. by exists w, t2, ().
      * destruct H2 as [[-> ->]|(i & -> & Hi)].
        -- right; right; left. exists ((), x). split; [|done]. apply rest_space in Hr as (w2 & s' & -> & Hw2 & Hs').
           destruct Hw' as [[Hne Hsp] _]. destruct w' as [|c w']; [done|].
           exists (w +:+ d +:+ String c (w' +:+ w2)), s'. split; [|split; [|done]].
           { rewrite app_str_nil_r, <-!app_str_assoc, !app_str_cons, <-!app_str_assoc. done. }
           exists w, (d +:+ String c (w' +:+ w2)), (). split; [done|]. split; [done|].
           exists d, (String c (w' +:+ w2)), (). split; [done|]. split; [done|]. split; [|done].
           exists c, (w' +:+ w2). split; [done|]. split; [apply Hsp, has_byte_cons; by left|].
           destruct (ws_app_l w' w2) as [? _]; [intros y Hy; apply Hsp, has_byte_cons; by right|done|done].
        -- right; right; right; left. exists ((), (i, x)). split; [|done].
           exists (w +:+ d +:+ w'), (t2 +:+ s2). split; [by rewrite !app_str_assoc|]. split.
           ++ exists w, (d +:+ w'), (). split; [done|]. split; [done|]. by exists d, w', ().
           ++ by exists t2, s2.
Qed.
Lemma tg_tail_impl : tg_impl g_trigger_tail (deferral ** rest) do_tail.
Proof.
  eapply impl_map; [apply tail_parts_impl| |]; intros s b H%tail_parts_deferral; by exists b.
Qed.
Lemma trigger_checked : check (machine_td trigger_machine) N.eqb 5000 1%N g_trigger = true.
Proof. by vm_compute. Qed.
Lemma parse_trigger_spec s t : parse_trigger s = Parsed t ↔ trigger_syntax s t.
Proof.
  pose proof (impl_ws tg_act tg_act_pos (λ _ v, v) (λ _, eq_refl)) as Hws.
  pose proof (impl_ows tg_act tg_act_pos (λ _ v, v) (λ _, eq_refl)) as Hows.
  assert (∀ k, tg_impl (kw k) (key k) (λ _ v, v)) as Hkw by (intros k; by apply (impl_kw tg_act tg_act_pos)).
  assert (tg_impl (Seq g_ident (Act TgName)) ident tg_set_name) as Hname by by eapply (impl_ident tg_act tg_act_pos).
  assert (tg_impl (Seq g_ident (Act TgTable)) ident tg_set_table) as Htab by by eapply (impl_ident tg_act tg_act_pos).
  eassert (tg_impl g_trigger trigger_parts _) as Himpl.
  { unfold g_trigger. cbn [all].
    eapply impl_both.
    { do 3 (eapply impl_after; [solve [exact Hows|exact Hws|exact (Hkw _)]|done|]).
      eapply impl_upto.
      - apply impl_maybe. eapply impl_upto; [|exact Hws|done].
        by apply (impl_kw_act tg_act tg_act_pos "CONSTRAIN" TgConstraint "T" (tg_set_flag TgConstraint) ()
          (λ _, tg_set_flag TgConstraint)).
      - eapply impl_after; [exact (Hkw _)|done|exact Hws].
      - done. }
    eapply impl_both.
    { eapply impl_upto; [exact Hname|exact Hws|done]. }
    eapply impl_both.
    { eapply impl_upto; [exact tg_when_impl|exact Hws|done]. }
    eapply impl_both.
    { eapply impl_upto.
      - eapply (impl_giving tg_act _ _ _ _ (λ l v, foldl (λ v e, do_event e v) v l)).
        + eapply impl_both; [exact tg_event_impl|]. apply impl_many.
          do 3 (eapply impl_after; [solve [exact Hws|exact (Hkw _)]|done|]). exact tg_event_impl.
        + by intros [e l] v.
      - do 2 (eapply impl_after; [solve [exact Hws|exact (Hkw _)]|done|]). exact Hws.
      - done. }
    eapply impl_both; [exact Htab|]. exact tg_tail_impl. }
  unfold parse_trigger. rewrite (impl_whole tg_act g_trigger _ _ _ _ _ _ _ trigger_checked Himpl).
  unfold trigger_syntax, giving.
  assert (∀ a b : trigger, a = b → ∀ P : Prop, P ∧ t = a ↔ P ∧ t = b) as Hcong by by intros a b ->.
  apply exist_proper. intros (con & name & wh & events & table & [deferrable deferred] & row & fn).
  apply Hcong. cbn -[foldl mbind]. rewrite fold_events. unfold do_tail, set_flags, set_flag, do_rest, each_row.
  destruct con, deferrable, deferred, row as [[]|]; done.
Qed.
