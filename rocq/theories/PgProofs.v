(** Proofs about internal/pg. *)
From Coq Require Import String Ascii.
From stdpp Require Import gmap list strings numbers sorting.
From Verif Require Import GoBase GoBaseProofs GoStrings GoStringsProofs GoUtf8 DdlModel DdlSpec DdlProofs MachineModel ParseModel ParseGrammar ParseSpec.
From Verif Require Import ParseEquiv ParseCheck ParseCheckEquiv PgModel PgSpec.
Local Open Scope Z_scope.

(** * Connecting *)

Lemma first_of_string_spec a b : (a ≠ "" → first_of_string a b = a) ∧ (a = "" → first_of_string a b = b).
Proof. unfold first_of_string. by case_decide. Qed.
Lemma first_of_uint16_spec a b : (a ≠ 0 → first_of_uint16 a b = a) ∧ (a = 0 → first_of_uint16 a b = b).
Proof. unfold first_of_uint16. by case_decide. Qed.
Lemma apply_ssl_mode_spec c m :
  match apply_ssl_mode c m with
  | Some c' => allowed (c_host c') m (channel_of <$> tries c') ∧
      c' = with_tls c (c_use_fallback c') (c_tls c') (c_fallback_tls c')
  | None => ∀ h l, ¬ allowed h m l
  end.
Proof.
  unfold apply_ssl_mode. repeat case_decide; subst; try (split; [constructor|done]).
  intros h l H'. destruct H'; done.
Qed.
Lemma apply_ssl_mode_known c m h l : allowed h m l → is_Some (apply_ssl_mode c m).
Proof. by destruct 1; eexists. Qed.
Lemma configure_mode o e m :
  mode_in_force o e m →
  configure o (Some e) = apply_ssl_mode
    (Config (first_of_string (o_host o) (c_host e)) (first_of_uint16 (o_port o) (c_port e))
        (first_of_string (o_username o) (c_user e)) (first_of_string (o_password o) (c_password e))
        (first_of_string (o_database o) (c_database e)) (c_tls e) (c_use_fallback e) (c_fallback_tls e)) m.
Proof.
  intros [[Hs ->]|(Hs & Hp & ->)]; unfold configure.
  - rewrite bool_decide_false by naive_solver. by rewrite decide_False.
  - rewrite bool_decide_true; [done|]. split; [done|]. cbn. unfold first_of_string. case_decide; naive_solver.
Qed.
Lemma configure_fields o e c :
  configure o (Some e) = Some c →
  c_host c = first_of_string (o_host o) (c_host e) ∧ c_port c = first_of_uint16 (o_port o) (c_port e) ∧
  c_user c = first_of_string (o_username o) (c_user e) ∧
  c_password c = first_of_string (o_password o) (c_password e) ∧
  c_database c = first_of_string (o_database o) (c_database e).
Proof.
  unfold configure. cbv zeta. case_decide; [by intros [= <-]|].
  match goal with |- apply_ssl_mode ?c0 ?m = _ → _ => pose proof (apply_ssl_mode_spec c0 m) as H1; intros H2 end.
  rewrite H2 in H1. destruct H1 as [_ ->]. done.
Qed.
Lemma configure_none o e :
  o_sslmode o = "" → o_password o = "" → c_password e = "" →
  ∃ c, configure o (Some e) = Some c ∧ c_tls c = c_tls e ∧ c_use_fallback c = c_use_fallback e ∧
    c_fallback_tls c = c_fallback_tls e.
Proof.
  intros Hs Hp He. unfold configure. cbv zeta. rewrite Hs, bool_decide_false.
  - rewrite decide_True by done. by eexists.
  - cbn. unfold first_of_string. rewrite decide_True by done. naive_solver.
Qed.

Definition block (ok : Z → bool) (limit : Z) (w : Z → Z) (i : Z) : list conn_event :=
  Attempt i :: (if ok i || bool_decide (i = limit) then [] else [Sleep (w i)]).
Lemma retry_spec ok limit n i delay last w0 :
  Z.of_nat n = limit + 1 - i → 0 ≤ i →
  wait_after ok i delay →
  ∃ w, (∀ j, 0 ≤ j < i → w j = w0 j) ∧
    (∀ j, i ≤ j < limit → ok j = false → wait_after ok j (w j)) ∧
    retry ok limit n i delay last =
      (mjoin (block ok limit w <$> seqZ i (Z.of_nat n)),
       if decide (n = O) then last else if ok limit then Connected limit else NotConnected limit).
Proof.
  revert i delay last w0. induction n as [|n IH]; intros i delay last w0 Hn Hi Hw.
  { exists w0. split; [done|]. split; [lia|done]. }
  rewrite seqZ_cons by lia. replace (Z.pred (Z.of_nat (S n))) with (Z.of_nat n) by lia.
  cbn [retry]. destruct (ok i) eqn:Eok.
  - assert (wait_after ok (i + 1) delay) as Hw'.
    { destruct Hw as [[-> H]|(j & H1 & H2 & H3 & ->)].
      - left. split; [done|]. intros j Hj. destruct (decide (j = i)) as [->|]; [done|]. apply H. lia.
      - right. exists j. split; [lia|]. split; [done|]. split; [|done]. intros k Hk.
        destruct (decide (k = i)) as [->|]; [done|]. apply H3. lia. }
    destruct (IH (i + 1) delay (Connected i) (λ j, if decide (j = i) then 0 else w0 j)) as (w & H1 & H2 & H3); [lia|lia|done|].
    exists w. split.
    { intros j Hj. rewrite H1 by lia. rewrite decide_False by lia. done. }
    split.
    { intros j Hj Hf. destruct (decide (j = i)) as [->|]; [congruence|]. apply H2; [lia|done]. }
    rewrite H3, (decide_False (P:=S n = 0%nat)) by done. rewrite fmap_cons.
    change (Z.succ i) with (i + 1). unfold block at 2. rewrite Eok. cbn [orb mjoin list_join app]. f_equal.
    case_decide; [|done]. subst. replace i with limit in * by lia. by rewrite Eok.
  - destruct (decide (i < limit)) as [Hl|Hl].
    + assert (wait_after ok (i + 1) (Z.lxor 2 i * 100)) as Hw'.
      { right. exists i. split; [lia|]. split; [done|]. split; [lia|lia]. }
      destruct (IH (i + 1) (Z.lxor 2 i * 100) NoConnection (λ j, if decide (j = i) then delay else w0 j)) as (w & H1 & H2 & H3); [lia|lia|done|].
      exists w. split.
      { intros j Hj. rewrite H1 by lia. rewrite decide_False by lia. done. }
      assert (w i = delay) as Hd by (rewrite H1 by lia; by rewrite decide_True).
      split.
      { intros j Hj Hf. destruct (decide (j = i)) as [->|]; [by rewrite Hd|]. apply H2; [lia|done]. }
      rewrite H3. rewrite !decide_False by lia. rewrite fmap_cons.
      change (Z.succ i) with (i + 1). unfold block at 2. rewrite Eok, bool_decide_false by lia. cbn [orb mjoin list_join app].
      by rewrite Hd.
    + replace i with limit in * by lia. assert (n = O) as -> by lia.
      exists w0. split; [done|]. split; [lia|]. cbn. unfold block. rewrite Eok, bool_decide_true by done. done.
Qed.
Lemma connect_spec ok limit :
  ∃ w, (∀ j, 0 ≤ j < limit → ok j = false → wait_after ok j (w j)) ∧
    connect ok limit =
      (mjoin (block ok limit w <$> seqZ 0 (limit + 1)),
       if decide (limit < 0) then NoConnection else if ok limit then Connected limit else NotConnected limit).
Proof.
  unfold connect. destruct (decide (limit < 0)) as [Hl|Hl].
  - exists (λ _, 0). split; [lia|]. replace (Z.to_nat (limit + 1)) with O by lia.
    by rewrite seqZ_nil by lia.
  - destruct (retry_spec ok limit (Z.to_nat (limit + 1)) 0 100 NoConnection (λ _, 0)) as (w & _ & H2 & H3); [lia|lia|left; split; [done|lia]|].
    exists w. split; [done|]. rewrite H3, Z2Nat.id by lia. rewrite decide_False by lia. done.
Qed.
Lemma attempts_app a b : attempts (a ++ b) = attempts a ++ attempts b.
Proof. unfold attempts. apply omap_app. Qed.
Lemma attempts_blocks ok limit w l : attempts (mjoin (block ok limit w <$> l)) = l.
Proof.
  induction l as [|i l IH]; [done|].
  change (attempts (block ok limit w i ++ mjoin (block ok limit w <$> l)) = i :: l). rewrite attempts_app, IH.
  unfold block. by destruct (ok i || bool_decide (i = limit)).
Qed.

(** * Listings *)

Lemma text_nullable o : text o (nullable o).
Proof. destruct o; [by left|by right]. Qed.
Lemma text_unique o a b : text o a → text o b → a = b.
Proof. unfold text. naive_solver. Qed.
Lemma delivers_all {R} (held : list R) l : l = Some <$> held → Forall2 delivers l held.
Proof. intros ->. induction held; constructor; [by right|done]. Qed.
Section listing.
  Context {R A : Type} (conv : R → outcome A) (entry : R → A → Prop).
  Context (conv_ok : ∀ r a, conv r = Parsed a ↔ entry r a) (conv_safe : ∀ r, conv r ≠ Crash).
  Lemma scan_got held l x :
    Forall2 delivers l held → scan conv l = Got x ↔ l = Some <$> held ∧ Forall2 entry held x.
  Proof.
    intros H. revert x. induction H as [|o r l held Ho H IH]; intros x.
    - cbn. split; [intros [= <-]; by repeat constructor|]. intros [_ H%Forall2_nil_inv_l]. by subst.
    - destruct Ho as [->| ->]; cbn [scan].
      { split; [done|]. by intros [[=] _]. }
      destruct (conv r) as [a|cs|] eqn:E.
      + rewrite fmap_cons. destruct (scan conv l) as [y| | |] eqn:Es; cbn.
        * pose proof (proj1 (IH y) eq_refl) as [Hl Hy]. split.
          { intros [= <-]. split; [by f_equal|]. constructor; [by apply conv_ok|done]. }
          intros [_ (a' & y' & Ha & Hy' & ->)%Forall2_cons_inv_l].
          apply conv_ok in Ha. rewrite E in Ha. injection Ha as [= <-].
          assert (Got y = Got y') as [= <-]; [|done]. by apply IH.
        * split; [done|]. intros [[= Hl] (a' & y' & Ha & Hy' & ->)%Forall2_cons_inv_l].
          assert (@Failed (list A) = Got y'); [|done]. by apply IH.
        * split; [done|]. intros [[= Hl] (a' & y' & Ha & Hy' & ->)%Forall2_cons_inv_l].
          assert (@NotFound (list A) = Got y'); [|done]. by apply IH.
        * split; [done|]. intros [[= Hl] (a' & y' & Ha & Hy' & ->)%Forall2_cons_inv_l].
          assert (@Panicked (list A) = Got y'); [|done]. by apply IH.
      + split; [done|]. intros [_ (a' & y' & Ha & Hy' & ->)%Forall2_cons_inv_l].
        apply conv_ok in Ha. congruence.
      + by destruct (conv_safe r).
  Qed.
  Lemma scan_total l : scan conv l = Failed ∨ ∃ x, scan conv l = Got x.
  Proof.
    induction l as [|[r|] l IH]; cbn [scan]; [right; by eexists| |by left].
    destruct (conv r) as [a|cs|] eqn:E; [|by left|by destruct (conv_safe r)].
    destruct IH as [->|[x ->]]; [by left|right; by eexists].
  Qed.
  Lemma collect_lists : lists entry (collect conv).
  Proof.
    intros held a Ha Hw. destruct Ha as [|l H|l rest first -> H]; [| |done].
    - split; [|by left]. intros l. split; [done|]. by intros [[=] _].
    - split; [|apply scan_total]. intros x. cbn. rewrite (scan_got held l x H). unfold arrives.
      split; intros [H1 H2]; (split; [|done]); [by rewrite H1|by injection H1].
  Qed.
  Lemma collect_cut first : Forall (λ r, ∃ a, entry r a) first →
    ∃ x, collect conv (Rows (Some <$> first) true) = Got x ∧ Forall2 entry first x.
  Proof.
    intros H. assert (∃ x, Forall2 entry first x) as [x Hx].
    { induction H as [|r l [a Ha] H [x Hx]]; [by exists []|]. exists (a :: x). by constructor. }
    exists x. split; [|done]. cbn. apply (scan_got first); [by apply delivers_all|done].
  Qed.
End listing.

Lemma map_outcome_parsed {A B} (f : A → B) o b : map_outcome f o = Parsed b ↔ ∃ a, o = Parsed a ∧ f a = b.
Proof. destruct o; cbn; naive_solver. Qed.
Lemma map_outcome_crash {A B} (f : A → B) o : o ≠ Crash → map_outcome f o ≠ Crash.
Proof. by destruct o. Qed.
Ltac texts := repeat match goal with H : text ?o ?a |- _ => apply (text_unique _ _ _ (text_nullable o)) in H end.
Lemma list_schemas_ok : lists schema_entry list_schemas.
Proof.
  apply collect_lists; [|done]. intros r [n o c]. unfold schema_of, schema_entry. cbn. split.
  - intros [= <- <- <-]. split_and!; apply text_nullable.
  - intros (? & ? & ?). texts. by subst.
Qed.
Lemma list_tables_ok : lists table_entry list_tables.
Proof.
  apply collect_lists; [|done]. intros r [n s o c cs cks fks]. unfold table_of, table_entry. cbn. split.
  - intros [= <- <- <- <- <- <- <-]. split_and!; try apply text_nullable; done.
  - intros (? & ? & ? & ? & ? & ? & ?). texts. by subst.
Qed.
Lemma list_columns_ok : lists column_entry list_columns.
Proof.
  apply collect_lists; [|done]. intros r [n t nn d c]. unfold column_of, column_entry. cbn. split.
  - intros [= <- <- <- <- <-]. split_and!; try apply text_nullable; done.
  - intros (? & ? & ? & ? & ?). texts. by subst.
Qed.
Lemma list_functions_ok : lists function_entry list_functions.
Proof.
  apply collect_lists; [|done]. intros r [s n o c re la de]. unfold func_of, function_entry. cbn. split.
  - intros [= <- <- <- <- <- <- <-]. split_and!; try apply text_nullable; done.
  - intros (? & ? & ? & ? & ? & ? & ?). texts. by subst.
Qed.
Lemma parse_check_name s c : parse_check s = Parsed c → ck_name c = "".
Proof.
  unfold parse_check. destruct (run _ _ _ _ _ _) as [v|cs|]; [|done|done].
  destruct (slice _ _ _) as [e|]; [|done]. by intros [= <-].
Qed.
Lemma check_of_entry r c : check_of r = Parsed c ↔ check_entry r c.
Proof.
  unfold check_of, check_entry. rewrite map_outcome_parsed. split.
  - intros ([n e d f] & H & <-). cbn. split; [done|]. pose proof (parse_check_name _ _ H) as Hn. cbn in Hn. by subst.
  - intros [H1 H2]. eexists. split; [exact H2|]. destruct c; cbn in *. by subst.
Qed.
Lemma list_checks_ok : lists check_entry list_checks.
Proof. apply collect_lists; [apply check_of_entry|]. intros r. apply map_outcome_crash, check_no_crash. Qed.
Lemma foreign_key_of_entry r fk : foreign_key_of r = Parsed fk ↔ foreign_key_entry r fk.
Proof.
  unfold foreign_key_of, foreign_key_entry. rewrite map_outcome_parsed. split.
  - intros (a & H & <-). cbn. split; [done|]. apply parse_foreign_key_spec in H.
    assert (fk_name a = "") as Hn by (destruct H as (v & _ & ->); by destruct v as (?&?&?&?&?&?&?&?)).
    destruct a. cbn in *. by subst.
  - intros [H1 H2]. eexists. split; [by apply parse_foreign_key_spec|]. destruct fk; cbn in *. unfold fk_set_name. cbn. by subst.
Qed.
Lemma list_foreign_keys_ok : lists foreign_key_entry list_foreign_keys.
Proof. apply collect_lists; [apply foreign_key_of_entry|]. intros r. apply map_outcome_crash, foreign_key_no_crash. Qed.
Lemma index_of_entry schema r i : index_of schema r = Parsed i ↔ index_entry schema r i.
Proof.
  unfold index_of, index_entry. rewrite map_outcome_parsed. split.
  - intros (a & H & <-). cbn. split; [done|]. split; [done|]. apply parse_index_spec in H.
    assert (ix_schema a = "" ∧ ix_primary a = false) as [Hn Hp] by (destruct H as (v & _ & ->); by destruct v as (?&?&?&?&?&?)).
    destruct a. cbn in *. by subst.
  - intros (H1 & H2 & H3). eexists. split; [by apply parse_index_spec|]. destruct i; cbn in *. by subst.
Qed.
Lemma list_indexes_ok schema : lists (index_entry schema) (list_indexes schema).
Proof. apply collect_lists; [apply index_of_entry|]. intros r. apply map_outcome_crash, index_no_crash. Qed.
Lemma trigger_of_entry schema r t : trigger_of schema r = Parsed t ↔ trigger_entry schema r t.
Proof.
  unfold trigger_of, trigger_entry. rewrite map_outcome_parsed. split.
  - intros (a & H & <-). cbn. split; [done|]. apply parse_trigger_spec in H.
    assert (tg_schema a = "") as Hn by (destruct H as (v & _ & ->); by destruct v as (?&?&?&?&?&[? ?]&?&?)).
    destruct a. cbn in *. by subst.
  - intros (H1 & H2). eexists. split; [by apply parse_trigger_spec|]. destruct t; cbn in *. unfold tg_set_schema. cbn. by subst.
Qed.
Lemma list_triggers_ok schema : lists (trigger_entry schema) (list_triggers schema).
Proof. apply collect_lists; [apply trigger_of_entry|]. intros r. apply map_outcome_crash, trigger_no_crash. Qed.

Definition zero_details : details_row := DetailsRow 0 0 0 0 0 false.
Lemma sequence_of_entry r q : sequence_of r = Parsed q ↔ sequence_entry r q.
Proof.
  destruct r as [h [ty d]], q. unfold sequence_of, sequence_entry, sequence_head, details_entry. cbn. split.
  - intros [=]; subst. split_and!; try apply text_nullable; done.
  - intros ((? & ? & ? & ? & ? & ? & ?) & ? & ? & ? & ? & ? & ? & ?). texts. by subst.
Qed.
Lemma new_sequences_ok : lists sequence_entry (collect sequence_of).
Proof. apply collect_lists; [apply sequence_of_entry|]. by intros [? [? ?]]. Qed.
Lemma old_sequence_of_entry r q :
  old_sequence_of r = Parsed q ↔ sequence_head r q ∧ sq_type q = "bigint" ∧ details_entry zero_details q.
Proof.
  destruct r as [s n o c ow], q. unfold old_sequence_of, sequence_head, details_entry. cbn. split.
  - intros [=]; subst. split_and!; try apply text_nullable; done.
  - intros ((? & ? & ? & ? & ? & ? & ?) & ? & ? & ? & ? & ? & ? & ?). texts. by subst.
Qed.
Lemma old_sequences_ok :
  lists (λ r q, sequence_head r q ∧ sq_type q = "bigint" ∧ details_entry zero_details q) (collect old_sequence_of).
Proof. by apply collect_lists; [apply old_sequence_of_entry|]. Qed.
Lemma single_got {R} (a : row_answer R) r : single a = Got r ↔ a = Row r.
Proof. destruct a; cbn; naive_solver. Qed.
Lemma single_total {R} (a : row_answer R) : single a = Failed ∨ ∃ r, single a = Got r.
Proof. destruct a; [by left|by left|right; by eexists]. Qed.
Lemma bind_got {A B} (r : result A) (f : A → result B) b : r ≫= f = Got b ↔ ∃ a, r = Got a ∧ f a = Got b.
Proof. destruct r; cbn; naive_solver. Qed.
Lemma bind_total {A B} (r : result A) (f : A → result B) :
  (r = Failed ∨ ∃ a, r = Got a) → (∀ a, f a = Failed ∨ ∃ b, f a = Got b) → r ≫= f = Failed ∨ ∃ b, r ≫= f = Got b.
Proof. intros [->|[a ->]] H; [by left|apply H]. Qed.
Definition set_details (d : details_row) (q : sequence) : sequence :=
  Sequence (sq_schema q) (sq_name q) (sq_owner q) (sq_comment q) (sq_type q)
    (dr_start d) (dr_minimum d) (dr_maximum d) (dr_increment d) (dr_cache d) (dr_cycle d)
    (sq_owned_schema q) (sq_owned_table q) (sq_owned_column q).
Lemma add_details_got details l x :
  add_details details l = Got x ↔
  Forall2 (λ q q', ∃ d, details (identifier [sq_schema q; sq_name q]) = Row d ∧ q' = set_details d q) l x.
Proof.
  revert x. induction l as [|q l IH]; intros x; cbn [add_details].
  - split; [intros [= <-]; constructor|]. by intros ->%Forall2_nil_inv_l.
  - rewrite bind_got. setoid_rewrite bind_got. setoid_rewrite single_got. split.
    + intros (d & Hd & y & Hy & [= <-]). constructor; [by exists d|by apply IH].
    + intros (q' & y & (d & Hd & ->) & Hy & ->)%Forall2_cons_inv_l. exists d. split; [done|].
      exists y. split; [by apply IH|done].
Qed.
Lemma add_details_total details l : add_details details l = Failed ∨ ∃ x, add_details details l = Got x.
Proof.
  induction l as [|q l IH]; cbn [add_details]; [right; by eexists|].
  apply bind_total; [apply single_total|]. intros d. apply bind_total; [done|]. intros y. right; by eexists.
Qed.
Lemma old_sequences_details details :
  lists (old_sequence_entry details) (λ a, collect old_sequence_of a ≫= add_details details).
Proof.
  intros held a Ha Hw. destruct (old_sequences_ok held a Ha Hw) as [H1 H2]. split.
  - intros x. rewrite bind_got. split.
    + intros (l & [Har Hl]%H1 & Hx%add_details_got). split; [done|]. clear -Hl Hx. revert x Hx.
      induction Hl as [|r q held l (Hh & Ht & _) Hl IH]; intros x Hx.
      * apply Forall2_nil_inv_l in Hx as ->. constructor.
      * apply Forall2_cons_inv_l in Hx as (q' & y & (d & Hd & ->) & Hy & ->). constructor; [|by apply IH].
        split; [done|]. split; [done|]. exists d. split; [done|]. by split_and!.
    + intros [Har Hx]. exists (set_details zero_details <$> x). split.
      * apply H1. split; [done|]. clear -Hx. induction Hx as [|r q held x (Hh & Ht & _) Hx IH]; constructor; [|done].
        split; [done|]. split; [done|]. by split_and!.
      * apply add_details_got. clear -Hx. induction Hx as [|r q held x (Hh & Ht & d & Hd & He) Hx IH]; [constructor|].
        rewrite fmap_cons. constructor; [|done]. exists d. split; [done|]. destruct q. unfold set_details. cbn.
        destruct He as (? & ? & ? & ? & ? & ?). cbn in *. by subst.
  - apply bind_total; [done|apply add_details_total].
Qed.

(** * Search path and storage parameters *)

Lemma split_byte_nonempty c s : split_byte c s ≠ [].
Proof. destruct s as [|d s]; [done|]. cbn. case_decide; [done|]. by destruct (split_byte c s). Qed.
Lemma concat_cons2 sep (x y : string) l : String.concat sep (x :: y :: l) = x +:+ sep +:+ String.concat sep (y :: l).
Proof. done. Qed.
Lemma split_byte_join c s : String.concat (String c "") (split_byte c s) = s.
Proof.
  induction s as [|d s IH]; [done|]. cbn [split_byte]. case_decide as Hd.
  - subst. pose proof (split_byte_nonempty c s). destruct (split_byte c s) as [|x l]; [done|].
    rewrite concat_cons2, IH. done.
  - destruct (split_byte c s) as [|x l] eqn:E; [by apply split_byte_nonempty in E|].
    destruct l as [|y l]; [cbn in *; by rewrite IH|]. rewrite concat_cons2 in *. rewrite app_str_cons, IH. done.
Qed.
Lemma split_byte_none c s : Forall (λ x, ¬ has_byte c x) (split_byte c s).
Proof.
  induction s as [|d s IH]; cbn [split_byte].
  - constructor; [apply has_byte_nil|constructor].
  - case_decide as Hd; [constructor; [apply has_byte_nil|done]|].
    destruct (split_byte c s) as [|x l] eqn:E; [by apply split_byte_nonempty in E|].
    inversion_clear IH. constructor; [|done]. rewrite has_byte_cons. tauto.
Qed.
Lemma join_unique c l l' :
  l ≠ [] → l' ≠ [] → Forall (λ x, ¬ has_byte c x) l → Forall (λ x, ¬ has_byte c x) l' →
  String.concat (String c "") l = String.concat (String c "") l' → l = l'.
Proof.
  assert (∀ x y r r', ¬ has_byte c x → ¬ has_byte c y → x +:+ r = y +:+ r' →
    (r = "" ∨ ∃ t, r = String c t) → (r' = "" ∨ ∃ t, r' = String c t) → x = y ∧ r = r') as Hsplit.
  { induction x as [|d x IH]; intros [|e y] r r' Hx Hy H Hr Hr'.
    - done.
    - change ("" +:+ r) with r in H. destruct Hr as [->|[t ->]]; [done|]. injection H as [= <- H].
      destruct Hy. by exists "", y.
    - change ("" +:+ r') with r' in H. destruct Hr' as [->|[t ->]]; [done|]. injection H as [= -> H].
      destruct Hx. by exists "", x.
    - injection H as [= <- H]. destruct (IH y r r') as [-> ->]; try done.
      + intros (a & b & ->). destruct Hx. by exists (String d a), b.
      + intros (a & b & ->). destruct Hy. by exists (String d a), b. }
  revert l'. induction l as [|x l IH]; intros [|x' l'] Hn Hn' Hl Hl' H; [done..|].
  apply Forall_cons in Hl as [Hx Hl]. apply Forall_cons in Hl' as [Hx' Hl'].
  assert (∀ (z : string) m, String.concat (String c "") (z :: m) =
    z +:+ match m with [] => "" | _ => String c (String.concat (String c "") m) end) as Hc.
  { intros z [|y m]; [by rewrite app_str_nil_r|]. done. }
  rewrite !Hc in H. apply Hsplit in H as [-> H]; [|done|done|destruct l; [by left|right; by eexists]|destruct l'; [by left|right; by eexists]].
  f_equal. destruct l as [|y l], l' as [|y' l']; [done|done|done|]. apply IH; [done|done|done|done|]. by injection H.
Qed.
Lemma comma_list_unique s l : comma_list s l ↔ l = split_byte "," s.
Proof.
  split.
  - intros (-> & Hn & Hl). apply (join_unique ","); [done|apply split_byte_nonempty|done|apply split_byte_none|].
    by rewrite split_byte_join.
  - intros ->. split; [by rewrite split_byte_join|]. split; [apply split_byte_nonempty|apply split_byte_none].
Qed.
Lemma list_parameters_got sp tz p :
  list_parameters sp tz = Got p ↔ ∃ s, sp = Row s ∧ tz = Row (pa_timezone p) ∧ comma_list s (pa_search_path p).
Proof.
  unfold list_parameters. rewrite bind_got. setoid_rewrite bind_got. setoid_rewrite single_got.
  setoid_rewrite comma_list_unique. destruct p as [l t]. cbn. split.
  - intros (s & -> & t' & -> & [= <- <-]). by exists s.
  - intros (s & -> & -> & ->). exists s. split; [done|]. by exists t.
Qed.
Lemma list_parameters_total sp tz : list_parameters sp tz = Failed ∨ ∃ p, list_parameters sp tz = Got p.
Proof. do 2 (apply bind_total; [apply single_total|intros ?]). right; by eexists. Qed.

Lemma split_option_spec s kv : option_text s kv ↔ kv = split_option s.
Proof.
  unfold option_text, split_option. destruct kv as [k v]. cbn [fst snd]. destruct (index_byte "=" s) as [i|] eqn:E.
  - apply index_byte_Some in E as (Hs & Hn & _). split.
    + intros [Hk [H|[-> ->]]].
      * rewrite Hs in H. apply first_sep_unique in H as [<- <-]; done.
      * destruct Hk. rewrite Hs. by eexists _, _.
    + intros [= -> ->]. split; [done|]. by left.
  - apply index_byte_None in E. split.
    + intros [Hk [H|[-> ->]]]; [|done]. destruct E. by exists k, v.
    + intros [= -> ->]. split; [done|]. by right.
Qed.
Lemma applicable_ok pf p kv : applicable pf kv ↔ (storage_set pf p kv.1 kv.2).2 = true.
Proof.
  destruct (storage_set pf p kv.1 kv.2) as [p' ok] eqn:E. cbn. split.
  - intros H. unfold storage_set in E. destruct (assoc storage_cases kv.1) as [[field k]|] eqn:Ea; [|by simplify_eq].
    apply case_parameter in Ea. destruct (H _ _ Ea) as [x Hx%convert_says]. rewrite Hx in E. by simplify_eq.
  - intros Hok field k Hin. subst ok. destruct (proj1 (set_known_ok _ _ _ _ _ _ _ Hin) E) as (x & Hx & _). by exists x.
Qed.
Lemma set_options_got pf p held l p' :
  Forall2 delivers l held →
  set_options pf p l = Got p' ↔
  l = Some <$> held ∧ Forall (applicable pf) (split_option <$> held) ∧ p' = set_all pf p (split_option <$> held).
Proof.
  intros H. revert p. induction H as [|o r l held Ho H IH]; intros p.
  - cbn. split; [by intros [= <-]|]. by intros (_ & _ & ->).
  - destruct Ho as [->| ->]; cbn [set_options]; [split; [done|by intros ([=] & _)]|].
    rewrite !fmap_cons. destruct (split_option r) as [k v] eqn:Er. cbn [set_all].
    pose proof (applicable_ok pf p (k, v)) as Ha. cbn in Ha.
    destruct (storage_set pf p k v) as [p1 ok]. cbn in *. rewrite Forall_cons. destruct ok.
    + rewrite IH. split.
      * intros (-> & H2 & ->). split; [done|]. split; [|done]. split; [by apply Ha|done].
      * intros ([= ->] & [_ H2] & ->). done.
    + split; [done|]. intros (_ & [H1 _] & _). by apply Ha in H1.
Qed.
Lemma set_options_total pf p l : set_options pf p l = Failed ∨ ∃ p', set_options pf p l = Got p'.
Proof.
  revert p. induction l as [|[s|] l IH]; intros p; cbn [set_options]; [right; by eexists| |by left].
  destruct (split_option s) as [k v]. destruct (storage_set pf p k v) as [p' ok]. destruct ok; [apply IH|by left].
Qed.
Lemma says_unique pf k v x y : says pf k v x → says pf k v y → x = y.
Proof. intros H1%convert_says H2%convert_says. congruence. Qed.
Lemma last_of_key (key : string) (l : list (string * string)) :
  key ∉ l.*1 ∨ ∃ v l1 l2, l = l1 ++ (key, v) :: l2 ∧ key ∉ l2.*1.
Proof.
  induction l as [|[k v] l IH]; [left; by apply not_elem_of_nil|].
  destruct IH as [IH|(w & l1 & l2 & -> & H)]; [|right; by exists w, ((k, v) :: l1), l2].
  destruct (decide (k = key)) as [->|Hne].
  - right. by exists v, [], l.
  - left. rewrite fmap_cons. apply not_elem_of_cons. split; [done|done].
Qed.
Lemma last_of_key_unique (key : string) v v' (l1 l2 l1' l2' : list (string * string)) :
  l1 ++ (key, v) :: l2 = l1' ++ (key, v') :: l2' → key ∉ l2.*1 → key ∉ l2'.*1 → v = v'.
Proof.
  revert l1'. induction l1 as [|a l1 IH]; intros [|b l1'] H H2 H2'.
  - by simplify_eq/=.
  - simplify_eq/=. destruct H2. rewrite fmap_app, fmap_cons. apply elem_of_app. right. by left.
  - simplify_eq/=. destruct H2'. rewrite fmap_app, fmap_cons. apply elem_of_app. right. by left.
  - simplify_eq/=. by eapply IH.
Qed.
Lemma set_all_field pf p l field :
  (∀ key k, (key, field, k) ∉ parameters) → set_all pf p l !! field = p !! field.
Proof.
  intros Hf. revert p. induction l as [|[k v] l IH]; intros p; [done|]. cbn [set_all]. rewrite IH.
  unfold storage_set. destruct (assoc storage_cases k) as [[f kd]|] eqn:E; [|done].
  destruct (convert pf kd v) as [x ok]. cbn. apply lookup_insert_ne. intros ->. apply case_parameter in E. by eapply Hf.
Qed.
Lemma set_all_applied pf l : Forall (applicable pf) l → applied pf l (set_all pf ∅ l).
Proof.
  intros Hl. split.
  - intros key field k Hin. destruct (last_of_key key l) as [H|(v & l1 & l2 & -> & H)].
    + left. split; [done|]. rewrite (set_all_other _ _ _ _ _ _ Hin H). apply lookup_empty.
    + right. apply Forall_app in Hl as [_ [Ha _]%Forall_cons]. destruct (Ha _ _ Hin) as [x Hx].
      exists v, x, l1, l2. split_and!; [done|done|done|]. by eapply set_all_last.
  - intros field Hf. rewrite set_all_field by done. apply lookup_empty.
Qed.
Lemma applied_unique pf l p q : applied pf l p → applied pf l q → p = q.
Proof.
  intros [Hp1 Hp2] [Hq1 Hq2]. apply map_eq. intros field.
  assert ((∃ key k, (key, field, k) ∈ parameters) ∨ ∀ key k, (key, field, k) ∉ parameters) as [(key & k & Hin)|Hn].
  { destruct (decide (Exists (λ x, x.1.2 = field) parameters)) as [H|H].
    - left. apply Exists_exists in H as ([[key f] k] & Hin & Hf). cbn in Hf. subst. by exists key, k.
    - right. intros key k Hin. destruct H. apply Exists_exists. by exists (key, field, k). }
  - destruct (Hp1 _ _ _ Hin) as [[H1 H2]|(v & x & l1 & l2 & -> & H1 & H2 & H3)];
      destruct (Hq1 _ _ _ Hin) as [[H1' H2']|(v' & x' & l1' & l2' & Hl & H1' & H2' & H3')].
    + congruence.
    + subst. destruct H1. rewrite fmap_app, fmap_cons. apply elem_of_app. right. by left.
    + destruct H1'. rewrite fmap_app, fmap_cons. apply elem_of_app. right. by left.
    + assert (v = v') as <- by by eapply last_of_key_unique.
      rewrite H3, H3'. f_equal. by eapply says_unique.
  - by rewrite Hp2, Hq2.
Qed.
Lemma Forall2_split_option held l : Forall2 option_text held l ↔ l = split_option <$> held.
Proof.
  split.
  - induction 1 as [|s kv held l H1 H2 IH]; [done|]. rewrite fmap_cons. apply split_option_spec in H1. by f_equal.
  - intros ->. induction held as [|s held IH]; [constructor|]. rewrite fmap_cons. constructor; [by apply split_option_spec|done].
Qed.
Lemma storage_entries_spec pf held p :
  storage_entries pf held p ↔
  Forall (applicable pf) (split_option <$> held) ∧ p = set_all pf ∅ (split_option <$> held).
Proof.
  unfold storage_entries. setoid_rewrite Forall2_split_option. split.
  - intros (l & -> & Hl & Hp). split; [done|]. eapply applied_unique; [done|]. by apply set_all_applied.
  - intros [Hl ->]. eexists. split; [done|]. split; [done|]. by apply set_all_applied.
Qed.
Lemma list_storage_ok pf held a :
  answers held a → whole a →
  (∀ p, list_storage pf a = Got p ↔ arrives held a ∧ storage_entries pf held p) ∧
  (list_storage pf a = Failed ∨ ∃ p, list_storage pf a = Got p).
Proof.
  intros Ha Hw. destruct Ha as [|l H|l rest first -> H]; [| |done].
  - split; [|by left]. intros p. split; [done|]. by intros [[=] _].
  - split; [|apply set_options_total]. intros p. cbn. rewrite (set_options_got pf ∅ held l p H), storage_entries_spec.
    unfold arrives. split.
    + intros (-> & H2 & ->). done.
    + intros ([= ->] & H2 & ->). done.
Qed.

(** * Sorting *)

Lemma str_ltb_spec a b : String.ltb a b = true ↔ ¬ str_le b a.
Proof.
  unfold str_le, String.ltb, String.leb. rewrite (String.compare_antisym b a).
  destruct (String.compare a b); cbn; (split; [intros ?|intros H]); try done; by destruct H.
Qed.
Lemma str_ltb_false a b : String.ltb a b = false ↔ str_le b a.
Proof.
  destruct (String.ltb a b) eqn:E; [apply str_ltb_spec in E; done|]. split; [|done]. intros _.
  destruct (decide (str_le b a)) as [|H]; [done|]. apply str_ltb_spec in H. congruence.
Qed.
Lemma ltb_weak_order {A} (f : A → string) : strict_weak_order (λ a b, String.ltb (f a) (f b)).
Proof.
  split; [|split].
  - intros a. apply str_ltb_false. done.
  - intros a b c. rewrite !str_ltb_spec. intros H1 H2 H3.
    destruct (str_le_total (f a) (f b)) as [H|H]; [|done]. apply H2. by trans (f a).
  - intros a b c. rewrite !str_ltb_false. intros H1 H2. by trans (f b).
Qed.
Lemma move_left_perm {A} (less : A → A → bool) x l : move_left less x l ≡ₚ x :: l.
Proof.
  induction l as [|y l IH]; [done|]. cbn. destruct (less x y); [|done]. rewrite IH. constructor.
Qed.
Lemma insertion_fold_perm {A} (less : A → A → bool) l acc :
  foldl (λ done x, move_left less x done) acc l ≡ₚ acc ++ l.
Proof.
  revert acc. induction l as [|x l IH]; intros acc; cbn; [by rewrite app_nil_r|].
  rewrite IH, move_left_perm. by rewrite <-(Permutation_middle acc l x).
Qed.
Lemma insertion_sort_perm {A} (less : A → A → bool) l : insertion_sort less l ≡ₚ l.
Proof. unfold insertion_sort. rewrite <-Permutation_rev. apply insertion_fold_perm. Qed.
Section insertion.
  Context {A} (less : A → A → bool) (Hswo : strict_weak_order less).
  (** Last element first: every element is not less than those after it. *)
  Lemma move_left_sorted x l :
    StronglySorted (λ a b, less a b = false) l → StronglySorted (λ a b, less a b = false) (move_left less x l).
  Proof using Hswo.
    destruct Hswo as (Hirr & Htr & Hneg). induction 1 as [|y l Hl IH Hy]; [by repeat constructor|]. cbn.
    destruct (less x y) eqn:E.
    - constructor; [done|]. rewrite move_left_perm. constructor; [|done].
      destruct (less y x) eqn:E'; [|done]. rewrite <-(Hirr x). symmetry. by eapply Htr.
    - constructor; [by constructor|]. constructor; [done|]. eapply Forall_impl; [exact Hy|]. cbn. intros z Hz.
      by eapply Hneg.
  Qed.
  Lemma insertion_fold_sorted l acc :
    StronglySorted (λ a b, less a b = false) acc →
    StronglySorted (λ a b, less a b = false) (foldl (λ done x, move_left less x done) acc l).
  Proof using Hswo. revert acc. induction l as [|x l IH]; intros acc H; [done|]. by apply IH, move_left_sorted. Qed.
  Lemma StronglySorted_snoc (R : A → A → Prop) l x :
    StronglySorted R l → Forall (λ y, R y x) l → StronglySorted R (l ++ [x]).
  Proof.
    induction 1 as [|y l Hl IH Hy]; intros Hx; [by repeat constructor|]. apply Forall_cons in Hx as [Hyx Hx].
    cbn. constructor; [by apply IH|]. apply Forall_app. split; [done|]. by repeat constructor.
  Qed.
  Lemma StronglySorted_rev (R : A → A → Prop) l : StronglySorted R l → StronglySorted (flip R) (rev l).
  Proof.
    induction 1 as [|x l Hl IH Hx]; [constructor|]. cbn. apply StronglySorted_snoc; [done|].
    by rewrite <-Permutation_rev.
  Qed.
  Lemma insertion_sort_sorted l : StronglySorted (λ a b, less b a = false) (insertion_sort less l).
  Proof using Hswo. apply StronglySorted_rev, insertion_fold_sorted. constructor. Qed.
End insertion.
Lemma insertion_sort_ok : ok_sorter (@insertion_sort).
Proof.
  intros A less l. split; [apply insertion_sort_perm|]. split; [|done]. intros H. by apply insertion_sort_sorted.
Qed.

(** * Inspection *)

Lemma arrives_got {R A} (entry : R → A → Prop) f held a l :
  lists entry f → answers held a → whole a → f a = Got l → arrives held a ∧ Forall2 entry held l.
Proof. intros Hf Ha Hw H. destruct (Hf held a Ha Hw) as [H1 _]. by apply H1. Qed.
Lemma list_sequences_got (ct : catalog) (sv : server) l :
  serves ct sv →
  list_sequences (sv_has_view sv) (sv_sequences sv) (sv_old_sequences sv) (sv_details sv) = Got l →
  if ct_view ct then Forall2 sequence_entry (ct_sequences ct) l
  else Forall2 (old_sequence_entry (sv_details sv)) (ct_old_sequences ct) l.
Proof.
  intros Hs H. unfold list_sequences in H. apply bind_got in H as (view & Hv%single_got & H).
  assert (ct_view ct = view) as -> by (destruct (serves_view _ _ Hs) as [E|E]; congruence).
  destruct view.
  - destruct (serves_sequences _ _ Hs) as [Ha Hw]. by destruct (arrives_got _ _ _ _ _ new_sequences_ok Ha Hw H).
  - destruct (serves_old_sequences _ _ Hs) as [Ha Hw].
    by destruct (arrives_got _ _ _ _ _ (old_sequences_details (sv_details sv)) Ha Hw H).
Qed.
Lemma list_sequences_total v n o d : list_sequences v n o d = Failed ∨ ∃ l, list_sequences v n o d = Got l.
Proof.
  apply bind_total; [apply single_total|]. intros [].
  - destruct n as [|l cut]; [by left|]. apply scan_total. by intros [? [? ?]].
  - apply bind_total; [|apply add_details_total]. destruct o as [|l cut]; [by left|]. by apply scan_total.
Qed.
Section inspect.
  Context (srt : sorter) (pf : float_parser) (o : inspect_options) (ct : catalog) (sv : server).
  Context (Hsrt : ok_sorter srt) (Hs : serves ct sv).
  Definition sorted_columns (t : table * storage) : Prop :=
    io_sort_columns o = true → StronglySorted str_le (co_name <$> tb_columns t.1).
  Lemma sort_names (f : column → string) l :
    StronglySorted (λ a b, String.ltb (f b) (f a) = false) l → StronglySorted str_le (f <$> l).
  Proof.
    induction 1 as [|x l Hl IH Hx]; [constructor|]. rewrite fmap_cons. constructor; [done|].
    apply Forall_fmap. eapply Forall_impl; [exact Hx|]. cbn. intros y. apply str_ltb_false.
  Qed.
  Lemma inspect_table_got r t x :
    table_entry r t → inspect_table srt pf o sv t = Got x →
    table_described pf ct r x.1.1 ∧ sorted_columns x.1.1 ∧
    (io_sort_columns o = false → Forall2 column_entry (ct_columns ct (tb_schema t) (tb_name t)) (tb_columns x.1.1.1)) ∧
    tb_schema x.1.1.1 = tb_schema t ∧ tb_name x.1.1.1 = tb_name t ∧
    Forall2 (index_entry (tb_schema t)) (ct_indexes ct (tb_schema t) (tb_name t)) x.1.2 ∧
    Forall2 (trigger_entry (tb_schema t)) (ct_triggers ct (tb_schema t) (tb_name t)) x.2.
  Proof using Hsrt Hs.
    intros (Hr1 & Hr2 & Hr3 & Hr4 & Hr5 & Hr6 & Hr7) H. unfold inspect_table in H.
    apply bind_got in H as (cols & H1 & H).
    apply bind_got in H as (checks & H2 & H). apply bind_got in H as (fks & H3 & H).
    apply bind_got in H as (params & H4 & H). apply bind_got in H as (ixs & H5 & H).
    apply bind_got in H as (tgs & H6 & H). injection H as [= <-]. cbn.
    pose proof (serves_columns _ _ Hs (tb_schema t) (tb_name t)) as [Ha1 Hw1].
    pose proof (serves_checks _ _ Hs (tb_schema t) (tb_name t)) as [Ha2 Hw2].
    pose proof (serves_foreign_keys _ _ Hs (tb_schema t) (tb_name t)) as [Ha3 Hw3].
    pose proof (serves_storage _ _ Hs (tb_schema t) (tb_name t)) as [Ha4 Hw4].
    pose proof (serves_indexes _ _ Hs (tb_schema t) (tb_name t)) as [Ha5 Hw5].
    pose proof (serves_triggers _ _ Hs (tb_schema t) (tb_name t)) as [Ha6 Hw6].
    apply (arrives_got _ _ _ _ _ list_columns_ok Ha1 Hw1) in H1 as [_ H1].
    apply (arrives_got _ _ _ _ _ list_checks_ok Ha2 Hw2) in H2 as [_ H2].
    apply (arrives_got _ _ _ _ _ list_foreign_keys_ok Ha3 Hw3) in H3 as [_ H3].
    destruct (list_storage_ok pf _ _ Ha4 Hw4) as [H4' _]. apply H4' in H4 as [_ H4].
    apply (arrives_got _ _ _ _ _ (list_indexes_ok _) Ha5 Hw5) in H5 as [_ H5].
    apply (arrives_got _ _ _ _ _ (list_triggers_ok _) Ha6 Hw6) in H6 as [_ H6].
    destruct (Hsrt _ column_less cols) as (Hp & Hst & _).
    split.
    { split; [by split_and!|]. cbn. split.
      { exists cols. split; [done|]. by destruct (io_sort_columns o). }
      rewrite Hr6, Hr7. done. }
    split.
    { intros Ho. cbn. rewrite Ho. apply (sort_names co_name), Hst. apply (ltb_weak_order co_name). }
    split; [intros Ho; by rewrite Ho|]. done.
  Qed.
  Lemma inspect_each_got rs l x :
    Forall2 table_entry rs l → inspect_each srt pf o sv l = Got x →
    Forall2 (table_described pf ct) rs x.1.1 ∧ Forall sorted_columns x.1.1 ∧
    (io_sort_columns o = false → Forall (λ t, Forall2 column_entry (ct_columns ct (tb_schema t.1) (tb_name t.1)) (tb_columns t.1)) x.1.1) ∧
    (∃ ixs, Forall2 (λ t l, Forall2 (index_entry (tb_schema t.1)) (ct_indexes ct (tb_schema t.1) (tb_name t.1)) l)
            x.1.1 ixs ∧ x.1.2 = List.concat ixs) ∧
    (∃ tgs, Forall2 (λ t l, Forall2 (trigger_entry (tb_schema t.1)) (ct_triggers ct (tb_schema t.1) (tb_name t.1)) l)
            x.1.1 tgs ∧ x.2 = List.concat tgs).
  Proof using Hsrt Hs.
    intros H. revert x. induction H as [|r t rs l Hr H IH]; intros x Hx.
    - injection Hx as [= <-]. cbn. split_and!; try constructor; try (exists []; by split_and!); constructor.
    - cbn [inspect_each] in Hx. apply bind_got in Hx as (y & Hy & Hx). apply bind_got in Hx as (z & Hz & Hx).
      injection Hx as [= <-]. destruct (inspect_table_got r t y Hr Hy) as (A1 & A2 & A3 & A4 & A5 & A6 & A7).
      destruct (IH z Hz) as (B1 & B2 & B3 & (ixs & B4 & B5) & (tgs & B6 & B7)). cbn.
      split; [by constructor|]. split; [by constructor|].
      split; [intros Ho; constructor; [rewrite A4, A5; by apply A3|by apply B3]|].
      split.
      + exists (y.1.2 :: ixs). split; [constructor; [by rewrite A4, A5|done]|]. cbn. by rewrite B5.
      + exists (y.2 :: tgs). split; [constructor; [by rewrite A4, A5|done]|]. cbn. by rewrite B7.
  Qed.
  Lemma inspect_got db :
    inspect srt pf o sv = Got db →
    described pf ct (sv_details sv) db ∧ Forall sorted_columns (db_tables db) ∧
    (io_sort_columns o = false →
      Forall (λ t, Forall2 column_entry (ct_columns ct (tb_schema t.1) (tb_name t.1)) (tb_columns t.1)) (db_tables db)) ∧
    ∃ ixs, Forall2 (λ t l, Forall2 (index_entry (tb_schema t.1)) (ct_indexes ct (tb_schema t.1) (tb_name t.1)) l)
             (db_tables db) ixs ∧
      db_indexes db = if io_sort_indexes o then srt _ index_less (List.concat ixs) else List.concat ixs.
  Proof using Hsrt Hs.
    intros H. unfold inspect in H.
    apply bind_got in H as (params & H1 & H). apply bind_got in H as (schemas & H2 & H).
    apply bind_got in H as (functions & H3 & H). apply bind_got in H as (sequences & H4 & H).
    apply bind_got in H as (tables & H5 & H). apply bind_got in H as (x & H6 & H). injection H as [= <-]. cbn.
    apply list_parameters_got in H1 as (s & E1 & E2 & E3).
    destruct (serves_search_path _ _ Hs) as [E1'|E1']; rewrite E1 in E1'; [|done]. injection E1' as [= ->].
    destruct (serves_timezone _ _ Hs) as [E2'|E2']; rewrite E2 in E2'; [|done]. injection E2' as [= E2'].
    destruct (serves_schemas _ _ Hs) as [Ha2 Hw2]. apply (arrives_got _ _ _ _ _ list_schemas_ok Ha2 Hw2) in H2 as [_ H2].
    destruct (serves_functions _ _ Hs) as [Ha3 Hw3]. apply (arrives_got _ _ _ _ _ list_functions_ok Ha3 Hw3) in H3 as [_ H3].
    apply (list_sequences_got _ _ _ Hs) in H4.
    destruct (serves_tables _ _ Hs) as [Ha5 Hw5]. apply (arrives_got _ _ _ _ _ list_tables_ok Ha5 Hw5) in H5 as [_ H5].
    destruct (inspect_each_got _ _ _ H5 H6) as (B1 & B2 & B3 & (ixs & B4 & B5) & (tgs & B6 & B7)).
    split.
    { split_and!; try done.
      - exists ixs. split; [done|]. rewrite <-B5. destruct (io_sort_indexes o); [|done]. apply Hsrt.
      - by exists tgs. }
    split; [done|]. split; [done|]. exists ixs. by rewrite <-B5.
  Qed.
End inspect.
Lemma inspect_table_total srt pf o sv t : inspect_table srt pf o sv t = Failed ∨ ∃ x, inspect_table srt pf o sv t = Got x.
Proof.
  assert (∀ R A (conv : R → outcome A) (a : answer R), (∀ r, conv r ≠ Crash) →
    collect conv a = Failed ∨ ∃ l, collect conv a = Got l) as Hc.
  { intros R A conv [|l cut] H; [by left|by apply scan_total]. }
  unfold inspect_table.
  apply bind_total; [by apply Hc|]. intros cols.
  apply bind_total; [apply Hc; intros r; apply map_outcome_crash, check_no_crash|]. intros checks.
  apply bind_total; [apply Hc; intros r; apply map_outcome_crash, foreign_key_no_crash|]. intros fks.
  apply bind_total; [destruct (sv_storage _ _ _); [by left|apply set_options_total]|]. intros params.
  apply bind_total; [apply Hc; intros r; apply map_outcome_crash, index_no_crash|]. intros ixs.
  apply bind_total; [apply Hc; intros r; apply map_outcome_crash, trigger_no_crash|]. intros tgs.
  right. by eexists.
Qed.
Lemma inspect_total srt pf o sv : inspect srt pf o sv = Failed ∨ ∃ db, inspect srt pf o sv = Got db.
Proof.
  assert (∀ R A (conv : R → outcome A) (a : answer R), (∀ r, conv r ≠ Crash) →
    collect conv a = Failed ∨ ∃ l, collect conv a = Got l) as Hc.
  { intros R A conv [|l cut] H; [by left|by apply scan_total]. }
  unfold inspect.
  apply bind_total; [apply list_parameters_total|]. intros params.
  apply bind_total; [by apply Hc|]. intros schemas. apply bind_total; [by apply Hc|]. intros functions.
  apply bind_total; [apply list_sequences_total|]. intros sequences.
  apply bind_total; [by apply Hc|]. intros tables.
  apply bind_total; [|intros x; right; by eexists].
  induction tables as [|t tables IH]; cbn [inspect_each]; [right; by eexists|].
  apply bind_total; [apply inspect_table_total|]. intros x. apply bind_total; [done|]. intros y. right; by eexists.
Qed.

Lemma arrives_answers {R} (held : list R) a : arrives held a → answers held a ∧ whole a.
Proof. intros ->. split; [|done]. constructor. by apply delivers_all. Qed.
Lemma serves_all_serves ct sv : serves_all ct sv → serves ct sv.
Proof.
  intros []. constructor; try (intros; by apply arrives_answers); by left.
Qed.
Lemma Forall_entries {R A} (entry : R → A → Prop) l : (∀ r, r ∈ l → ∃ a, entry r a) → ∃ x, Forall2 entry l x.
Proof.
  induction l as [|r l IH]; intros H; [by exists []|]. destruct (H r) as [a Ha]; [by left|].
  destruct IH as [x Hx]; [intros r' Hr'; apply H; by right|]. exists (a :: x). by constructor.
Qed.
Lemma arrives_lists {R A} (entry : R → A → Prop) f held a :
  lists entry f → arrives held a → (∀ r, r ∈ held → ∃ e, entry r e) → ∃ l, f a = Got l ∧ Forall2 entry held l.
Proof.
  intros Hf Ha He. destruct (Forall_entries entry held He) as [l Hl]. exists l. split; [|done].
  destruct (arrives_answers _ _ Ha) as [H1 H2]. destruct (Hf held a H1 H2) as [H _]. by apply H.
Qed.
Section complete.
  Context (srt : sorter) (pf : float_parser) (o : inspect_options) (ct : catalog) (sv : server).
  Context (Hs : serves_all ct sv) (Hr : readable pf ct).
  Lemma inspect_table_complete r t :
    r ∈ ct_tables ct → table_entry r t → ∃ x, inspect_table srt pf o sv t = Got x.
  Proof using Hs Hr.
    intros Hin (H1 & H2 & _). destruct (Hr r _ _ Hin H1 H2) as (R1 & R2 & R3 & R4 & R5). unfold inspect_table.
    destruct (arrives_lists _ _ _ _ list_columns_ok (all_columns _ _ Hs (tb_schema t) (tb_name t))) as (cols & -> & _).
    { intros d _. eexists (Column _ _ _ _ _). split_and!; [done..|apply text_nullable|apply text_nullable]. }
    destruct (arrives_lists _ _ _ _ list_checks_ok (all_checks _ _ Hs (tb_schema t) (tb_name t)) R1) as (cks & E1 & _).
    destruct (arrives_lists _ _ _ _ list_foreign_keys_ok (all_foreign_keys _ _ Hs (tb_schema t) (tb_name t)) R2) as (fks & E2 & _).
    destruct (arrives_lists _ _ _ _ (list_indexes_ok _) (all_indexes _ _ Hs (tb_schema t) (tb_name t)) R4) as (ixs & E4 & _).
    destruct (arrives_lists _ _ _ _ (list_triggers_ok _) (all_triggers _ _ Hs (tb_schema t) (tb_name t)) R5) as (tgs & E5 & _).
    assert (∃ p, list_storage pf (sv_storage sv (tb_schema t) (tb_name t)) = Got p) as [p E3].
    { pose proof (all_storage _ _ Hs (tb_schema t) (tb_name t)) as Ha. destruct (arrives_answers _ _ Ha) as [Ha1 Ha2].
      destruct (list_storage_ok pf _ _ Ha1 Ha2) as [Hl _]. eexists. apply Hl. split; [done|].
      apply storage_entries_spec. split; [|done]. apply Forall_forall. intros kv (d & -> & Hd)%elem_of_list_fmap.
      eapply R3; [done|]. by apply split_option_spec. }
    cbn [mbind result_bind]. rewrite E1. cbn [mbind result_bind]. rewrite E2. cbn [mbind result_bind].
    rewrite E3. cbn [mbind result_bind]. rewrite E4. cbn [mbind result_bind]. rewrite E5. by eexists.
  Qed.
  Lemma inspect_complete : ∃ db, inspect srt pf o sv = Got db.
  Proof using Hs Hr.
    unfold inspect. destruct Hs as [A1 A2 A3 A4 A5 A6 A7 A8 A9 _ _ _ _ _ _]. unfold list_parameters. rewrite A1, A2. cbn [single mbind result_bind].
    destruct (arrives_lists _ _ _ _ list_schemas_ok A3) as (l1 & -> & _).
    { intros d _. eexists (Schema _ _ _). split_and!; apply text_nullable. }
    destruct (arrives_lists _ _ _ _ list_functions_ok A4) as (l2 & -> & _).
    { intros d _. eexists (Func _ _ _ _ _ _ _). split_and!; apply text_nullable. }
    cbn [mbind result_bind].
    assert (∃ l, list_sequences (sv_has_view sv) (sv_sequences sv) (sv_old_sequences sv) (sv_details sv) = Got l) as [l3 ->].
    { unfold list_sequences. rewrite A5. cbn [single mbind result_bind]. destruct (ct_view ct).
      - destruct (arrives_lists _ _ _ _ new_sequences_ok A6) as (l & -> & _); [|by eexists].
        intros d _. destruct (sequence_of d) as [q| |] eqn:E; [by exists q; apply sequence_of_entry| |]; by destruct d as [? [? ?]].
      - destruct (arrives_lists _ _ _ _ (old_sequences_details (sv_details sv)) A7) as (l & E & _); [|by exists l].
        intros d _. destruct (A8 (identifier [nullable (qr_schema d); nullable (qr_name d)])) as [dr Hdr].
        exists (Sequence (nullable (qr_schema d)) (nullable (qr_name d)) (nullable (qr_owner d)) (nullable (qr_comment d))
          "bigint" (dr_start dr) (dr_minimum dr) (dr_maximum dr) (dr_increment dr) (dr_cache dr) (dr_cycle dr)
          (nullable (or_schema (qr_owned d))) (nullable (or_table (qr_owned d))) (nullable (or_column (qr_owned d)))).
        split; [split_and!; apply text_nullable|]. split; [done|]. exists dr. split; [done|]. by split_and!. }
    cbn [mbind result_bind].
    destruct (arrives_lists _ _ _ _ list_tables_ok A9) as (l4 & -> & H4).
    { intros d _. eexists (Table _ _ _ _ _ _ _). split_and!; try apply text_nullable; done. }
    cbn [mbind result_bind].
    assert (∃ x, inspect_each srt pf o sv l4 = Got x) as [x ->]; [|by eexists].
    assert (∀ rs, rs ⊆ ct_tables ct → Forall2 table_entry rs l4 → ∃ x, inspect_each srt pf o sv l4 = Got x) as He.
    { clear H4. intros rs Hrs H4. induction H4 as [|r t rs l4 Ht H4 IH]; [by eexists|]. cbn [inspect_each].
      destruct (inspect_table_complete r t) as [x ->]; [apply Hrs; by left|done|]. cbn [mbind result_bind].
      destruct IH as [y ->]; [intros ? ?; apply Hrs; by right|]. by eexists. }
    by eapply He.
  Qed.
End complete.

(** * Sorting indexes *)

Lemma foldl_noop {A} (less : A → A → bool) l acc :
  (∀ a b, a ∈ acc ++ l → b ∈ acc ++ l → less a b = false) →
  foldl (λ done x, move_left less x done) acc l = rev l ++ acc.
Proof.
  revert acc. induction l as [|x l IH]; intros acc H; [done|]. cbn.
  assert (move_left less x acc = x :: acc) as ->.
  { destruct acc as [|y acc]; [done|]. cbn. rewrite H; [done| |by left]. apply elem_of_app. right. by left. }
  rewrite IH.
  - by rewrite <-app_assoc.
  - intros a b Ha Hb. apply H; [rewrite elem_of_app in *; rewrite elem_of_cons in *; naive_solver|].
    rewrite elem_of_app in *; rewrite elem_of_cons in *; naive_solver.
Qed.
Lemma insertion_noop {A} (less : A → A → bool) l :
  (∀ a b, a ∈ l → b ∈ l → less a b = false) → insertion_sort less l = l.
Proof. intros H. unfold insertion_sort. rewrite foldl_noop by done. by rewrite app_nil_r, rev_involutive. Qed.
Lemma index_less_same a b : ix_schema a = ix_schema b → index_less a b = false.
Proof.
  intros H. unfold index_less. rewrite H. replace (String.ltb (ix_schema b) (ix_schema b)) with false; [done|].
  symmetry. by apply str_ltb_false.
Qed.
Lemma sort_indexes_noop (srt : sorter) l s :
  ok_sorter srt → (length l ≤ 6)%nat → Forall (λ i, ix_schema i = s) l → srt _ index_less l = l.
Proof.
  intros Hsrt Hl Hs. destruct (Hsrt _ index_less l) as (_ & _ & H). rewrite (H Hl). apply insertion_noop.
  rewrite Forall_forall in Hs. intros a b Ha Hb. apply index_less_same. by rewrite (Hs a Ha), (Hs b Hb).
Qed.
