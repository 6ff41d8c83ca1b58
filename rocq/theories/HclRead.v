(** Proofs about HCL files: each struct is read as the specification says. *)
From Coq Require Import String Ascii.
From stdpp Require Import gmap list strings numbers.
From Verif Require Import DdlModel PgModel HclModel HclSpec HclProofs.
Local Open Scope Z_scope.

Section read.
  Variable L : hcl_lib.

  Lemma ex_nil {A B} (P : A → B → Prop) (Q : list B → Prop) : Q [] → ∃ es, Forall2 P [] es ∧ Q es.
  Proof. intros H. exists []. by split; [constructor|]. Qed.
  Lemma ex_cons {A B} (P : A → B → Prop) (Q : list B → Prop) x l e :
    P x e → (∃ es, Forall2 P l es ∧ Q (e :: es)) → ∃ es, Forall2 P (x :: l) es ∧ Q es.
  Proof. intros H (es & ? & ?). exists (e :: es). by split; [constructor|]. Qed.

  Ltac law := let a := fresh in intros a; first [destruct a; reflexivity|destruct a as [[] ?]; reflexivity].
  (** The specification and the default that belong to a type of attribute. *)
  Ltac with_codec c k :=
    lazymatch c with
    | text_codec _ => k (as_text L) (read_text L) ""
    | bool_codec _ => k (as_bool L) (read_bool L) false
    | int_codec _ => k (as_int L) (read_int L) 0
    | texts_codec _ => k (as_texts L) (read_texts L) (@nil string)
    end.
  Ltac read_one HN He :=
    lazymatch type of He with
    | decode_field _ (FLabel _ _ _) = Some _ => simpl in He; injection He as <-
    | decode_field _ (attr _ true ?c _ _) = Some _ =>
        with_codec c ltac:(fun as_ sp d =>
          apply (decode_must c as_ _ _ _ _ _ HN sp) in He;
          let y := fresh "y" in let Hy := fresh "Hy" in destruct He as (y & Hy & ->))
    | decode_field _ (attr _ false ?c ?get ?set) = Some _ =>
        with_codec c ltac:(fun as_ sp d =>
          apply (decode_may c as_ _ _ _ _ _ HN sp) in He;
          apply (effect_may as_ _ _ set get d) in He; [|law];
          let y := fresh "y" in let Hy := fresh "Hy" in let Heq := fresh "Heq" in destruct He as (y & Hy & Heq))
    | decode_field _ (blocks _ ?fs ?zero _ _) = Some _ =>
        let y := fresh "y" in let Hy := fresh "Hy" in
        eapply (decode_blocks fs zero) in He; [|eassumption]; destruct He as (y & Hy & ->)
    | decode_field _ (block_ptr _ ?fs ?zero _ _) = Some _ =>
        let y := fresh "y" in let Hy := fresh "Hy" in
        eapply (decode_ptr fs zero) in He; [|eassumption]; destruct He as (y & Hy & ->)
    end.
  Ltac read_all HN Hes :=
    lazymatch type of Hes with
    | Forall2 _ [] _ => apply Forall2_nil_inv_l in Hes as ->
    | Forall2 _ (_ :: _) _ =>
        let e := fresh "e" in let es := fresh "es" in let He := fresh "He" in
        apply Forall2_cons_inv_l in Hes as (e & es & He & Hes & ->); read_one HN He; read_all HN Hes
    end.
  Ltac rewrite_effects :=
    cbn [foldl];
    repeat match goal with H : ∀ a, _ = _ → ?e a = _ |- context [?e _] => rewrite H by reflexivity; clear H; cbv beta iota end.
  Ltac give_one HN :=
    lazymatch goal with
    | |- ∃ es, Forall2 _ (FLabel _ _ _ :: _) es ∧ _ => apply (ex_cons _ _ _ _ id); [reflexivity|]
    | |- ∃ es, Forall2 _ (attr ?n true ?c ?get ?set :: _) es ∧ _ =>
        match goal with
        | H : must ?as_ ?b n ?y |- _ =>
            with_codec c ltac:(fun as_ sp d =>
              apply (ex_cons _ _ _ _ (set y));
              [apply (decode_must c as_ _ _ _ _ _ HN sp); exists y; split; [exact H|reflexivity]|])
        end
    | |- ∃ es, Forall2 _ (attr ?n false ?c ?get ?set :: _) es ∧ _ =>
        match goal with
        | H : may ?as_ ?d ?b n ?y |- _ =>
            with_codec c ltac:(fun as_ sp d =>
              apply (may_effect as_ b n set get d) in H; [|law];
              let e := fresh "e" in let He := fresh "He" in let Heq := fresh "Heq" in
              destruct H as (e & He & Heq);
              apply (ex_cons _ _ _ _ e); [apply (decode_may c as_ _ _ _ _ _ HN sp); exact He|])
        end
    | |- ∃ es, Forall2 _ (blocks ?n ?fs ?zero ?get ?set :: _) es ∧ _ =>
        match goal with
        | H : each ?says ?b n ?y |- _ =>
            apply (ex_cons _ _ _ _ (set y));
            [apply (decode_blocks fs zero says); [assumption|exists y; split; [exact H|reflexivity]]|]
        end
    | |- ∃ es, Forall2 _ (block_ptr ?n ?fs ?zero ?get ?set :: _) es ∧ _ =>
        match goal with
        | H : at_most_one ?says ?b n ?y |- _ =>
            apply (ex_cons _ _ _ _ (set y));
            [apply (decode_ptr fs zero says); [assumption|exists y; split; [exact H|reflexivity]]|]
        end
    end.
  Ltac solve_read x says fields :=
    rewrite decode_spec; unfold says;
    let fs := eval cbv delta [fields] in fields in
    match goal with |- context [live ?l] => replace (live l) with l by reflexivity end;
    split;
    [ let Hl := fresh "Hl" in let Ho := fresh "Ho" in let es := fresh "es" in let Hes := fresh "Hes" in
      intros (Hl & Ho & es & Hes & ->); pose proof (proj1 Ho) as HN;
      destruct x as [l b]; simpl in HN, Hl, Hes |- *;
      unfold fields in Hes; read_all HN Hes;
      repeat (destruct l as [|? l]; try discriminate Hl);
      rewrite_effects; simpl;
      split_and!; first [reflexivity | assumption | exact Ho]
    | let Hl := fresh "Hl" in let Ho := fresh "Ho" in let H := fresh "H" in
      destruct x as [l b]; cbn [fst snd] in *;
      intros (Hl & Ho & H); destruct_and? H; subst l; pose proof (proj1 Ho) as HN; split_and!;
      [reflexivity|exact Ho|]; unfold fields; repeat give_one HN; apply ex_nil; rewrite_effects;
      match goal with |- ?s = _ => first [destruct s; reflexivity|destruct s as [[] ?]; reflexivity] end ].

  Lemma schema_read x s : decode (schema_fields L) schema_zero x = Some s ↔ schema_says L x s.
  Proof. solve_read x schema_says schema_fields. Qed.
  Lemma settings_read x s : decode (settings_fields L) settings_zero x = Some s ↔ parameters_say L x s.
  Proof. solve_read x parameters_say settings_fields. Qed.
  Lemma func_read x f : decode (func_fields L) func_zero x = Some f ↔ function_says L x f.
  Proof. solve_read x function_says func_fields. Qed.
  Lemma owner_read x o : decode (owner_fields L) owner_zero x = Some o ↔ owned_by_says L x o.
  Proof. solve_read x owned_by_says owner_fields. Qed.
  Lemma seq_read x q : decode (seq_fields L) seq_zero x = Some q ↔ sequence_says L x q.
  Proof. pose proof owner_read. solve_read x sequence_says seq_fields. Qed.
  Lemma column_read x c : decode (column_fields L) column_zero x = Some c ↔ column_says L x c.
  Proof. solve_read x column_says column_fields. Qed.
  Lemma check_read x c : decode (check_fields L) check_zero x = Some c ↔ check_says L x c.
  Proof. solve_read x check_says check_fields. Qed.
  Lemma fk_read x f : decode (fk_fields L) fk_zero x = Some f ↔ foreign_key_says L x f.
  Proof. solve_read x foreign_key_says fk_fields. Qed.
  Lemma key_read x k : decode (key_fields L) key_zero x = Some k ↔ key_says L x k.
  Proof. solve_read x key_says key_fields. Qed.
  Lemma index_read x i : decode (index_fields L) index_zero x = Some i ↔ index_says L x i.
  Proof. pose proof key_read. solve_read x index_says index_fields. Qed.
  Lemma trigger_read x t : decode (trigger_fields L) trigger_zero x = Some t ↔ trigger_says L x t.
  Proof. solve_read x trigger_says trigger_fields. Qed.

  (** Storage parameters. *)
  Lemma storage_effects tags (b : body) (p0 : storage) es :
    NoDup (b_attrs b).*1 → NoDup tags.*2.*1 → (∀ f, f ∈ tags.*2.*1 → p0 !! f = None) →
    Forall2 (λ f e, decode_field b f = Some e) (storage_field L <$> tags) es →
    (∀ n f k, (n, (f, k)) ∈ tags → may (as_value L k) None b n (foldl (λ a f, f a) p0 es !! f)) ∧
    (∀ f, f ∉ tags.*2.*1 → foldl (λ a f, f a) p0 es !! f = p0 !! f).
  Proof.
    intros HN. revert p0 es. induction tags as [|[n [f k]] tags IH]; intros p0 es HT H0 Hes.
    - apply Forall2_nil_inv_l in Hes as ->. split; [intros ??? H; by apply elem_of_nil in H|done].
    - apply Forall2_cons_inv_l in Hes as (e & es' & He & Hes & ->). simpl in HT.
      apply list.NoDup_cons in HT as [Hf HT].
      apply (decode_may _ (as_value L k) _ _ _ _ _ HN (read_value L k)) in He.
      apply (effect_may (as_value L k) b n (λ x p, partial_alter (λ _, x) f p) (λ p : storage, p !! f) None) in He.
      2:{ intros a. apply map_eq. intros j. destruct (decide (j = f)) as [->|];
            [by rewrite lookup_partial_alter|by rewrite lookup_partial_alter_ne]. }
      destruct He as (y & Hy & Heq). simpl. rewrite Heq; [|apply H0; simpl; by left].
      destruct (IH (partial_alter (λ _, y) f p0) es') as [IH1 IH2]; [done| |done|].
      { intros g Hg. rewrite lookup_partial_alter_ne by (intros ->; done). apply H0. simpl. by right. }
      split.
      + intros n' f' k' [[= -> -> ->]|H]%elem_of_cons; [|by apply IH1].
        rewrite IH2 by done. by rewrite lookup_partial_alter.
      + intros g Hg. simpl in Hg. apply not_elem_of_cons in Hg as [Hne Hg]. rewrite IH2 by done.
        by rewrite lookup_partial_alter_ne.
  Qed.
  Lemma storage_effects_exist tags (b : body) (p p0 : storage) :
    NoDup (b_attrs b).*1 → NoDup tags.*2.*1 → (∀ f, f ∈ tags.*2.*1 → p0 !! f = None) →
    (∀ n f k, (n, (f, k)) ∈ tags → may (as_value L k) None b n (p !! f)) →
    ∃ es, Forall2 (λ f e, decode_field b f = Some e) (storage_field L <$> tags) es ∧
      (∀ f, f ∈ tags.*2.*1 → foldl (λ a f, f a) p0 es !! f = p !! f) ∧
      (∀ f, f ∉ tags.*2.*1 → foldl (λ a f, f a) p0 es !! f = p0 !! f).
  Proof.
    intros HN. revert p0. induction tags as [|[n [f k]] tags IH]; intros p0 HT H0 Hp.
    - exists []. split_and!; [constructor|intros f H; by apply elem_of_nil in H|done].
    - simpl in HT. apply list.NoDup_cons in HT as [Hf HT].
      assert (may (as_value L k) None b n (p !! f)) as Hm by (apply Hp; by left).
      apply (may_effect (as_value L k) b n (λ x p, partial_alter (λ _, x) f p) (λ p : storage, p !! f) None) in Hm.
      2:{ intros a. apply map_eq. intros j. destruct (decide (j = f)) as [->|];
            [by rewrite lookup_partial_alter|by rewrite lookup_partial_alter_ne]. }
      destruct Hm as (e & He & Heq).
      destruct (IH (partial_alter (λ _, p !! f) f p0)) as (es & Hes & H1 & H2); [done| | |].
      { intros g Hg. rewrite lookup_partial_alter_ne by (intros ->; done). apply H0. simpl. by right. }
      { intros n' f' k' H. apply Hp. by right. }
      exists (e :: es). split_and!.
      + constructor; [|done]. by apply (decode_may _ (as_value L k) _ _ _ _ _ HN (read_value L k)).
      + simpl. rewrite Heq; [|apply H0; simpl; by left]. intros g [->|Hg]%elem_of_cons; [|by apply H1].
        rewrite H2 by done. by rewrite lookup_partial_alter.
      + simpl. rewrite Heq; [|apply H0; simpl; by left]. intros g [Hne Hg]%not_elem_of_cons.
        rewrite H2 by done. by rewrite lookup_partial_alter_ne.
  Qed.
  Lemma storage_tags_known n f k : (n, (f, k)) ∈ storage_tags ↔ (n, f, k) ∈ known_storage.
  Proof.
    assert (known_storage = (λ t : string * (string * kind), (t.1, t.2.1, t.2.2)) <$> storage_tags) as -> by done.
    rewrite elem_of_list_fmap. split; [intros H; by exists (n, (f, k))|].
    by intros ([? [? ?]] & [= -> -> ->] & ?).
  Qed.
  Lemma storage_read x p : decode (storage_fields L) storage_zero x = Some p ↔ storage_says L x p.
  Proof.
    rewrite decode_spec. unfold storage_says.
    replace (live (storage_fields L)) with (storage_fields L) by reflexivity.
    replace (attr_names (storage_fields L)) with known_storage.*1.*1 by reflexivity.
    replace (block_names (storage_fields L)) with (@nil string) by reflexivity.
    replace (label_count (storage_fields L)) with 0%nat by reflexivity.
    assert (∀ l a, set_labels (storage_fields L) l a = a) as Hset by reflexivity.
    assert (NoDup storage_tags.*2.*1) as HT by (apply (bool_decide_unpack _); by vm_compute).
    destruct x as [l b]. cbn [fst snd]. split.
    - intros (Hl & Ho & es & Hes & ->). rewrite Hset.
      destruct (storage_effects storage_tags b storage_zero es) as [H1 H2]; [apply Ho|done|done|done|].
      split_and!; [by destruct l|done| |].
      + intros n f k H. apply H1. by apply storage_tags_known.
      + intros f Hf. rewrite H2; [done|]. exact Hf.
    - intros (-> & Ho & H1 & H2). split_and!; [done|done|].
      destruct (storage_effects_exist storage_tags b p storage_zero) as (es & Hes & H3 & H4); [apply Ho|done|done| |].
      { intros n f k H. apply H1. by apply storage_tags_known. }
      exists es. split; [done|]. rewrite Hset. apply map_eq. intros f.
      destruct (decide (f ∈ storage_tags.*2.*1)) as [Hf|Hf]; [by rewrite H3|].
      rewrite H4 by done. by apply H2.
  Qed.

  Lemma table_read x t : decode (table_fields L) table_zero x = Some t ↔ table_says L x t.
  Proof.
    pose proof column_read. pose proof check_read. pose proof fk_read. pose proof storage_read.
    solve_read x table_says table_fields.
  Qed.
  Lemma db_read x d : decode (db_fields L) db_zero x = Some d ↔ x.1 = [] ∧ file_says L x.2 d.
  Proof.
    pose proof settings_read. pose proof schema_read. pose proof func_read. pose proof seq_read.
    pose proof table_read. pose proof index_read. pose proof trigger_read.
    solve_read x file_says db_fields.
  Qed.
End read.
