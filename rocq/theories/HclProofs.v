(** Proofs about HCL files: reading. *)
From Coq Require Import String Ascii.
From stdpp Require Import gmap list strings numbers.
From Verif Require Import DdlModel PgModel HclModel HclSpec.
Local Open Scope Z_scope.

Lemma assoc_given {V} (l : list (string * V)) n v : NoDup l.*1 → assoc l n = Some v ↔ (n, v) ∈ l.
Proof.
  induction l as [|[m w] l IH]; intros HN.
  - unfold assoc; simpl. split; [done|intros H; by apply elem_of_nil in H].
  - unfold assoc in *; simpl. apply list.NoDup_cons in HN as [Hm HN]. simpl in Hm.
    rewrite elem_of_cons. destruct (decide (m = n)) as [->|Hne]; simpl.
    + split; [intros [= ->]; by left|intros [[= ->]|H]; [done|]].
      exfalso; apply Hm, elem_of_list_fmap. by exists (n, v).
    + specialize (IH HN). rewrite <- IH. destruct (list_find _ l) as [[i p]|]; simpl.
      * split; [by right|by intros [[= -> ->]|]].
      * split; [by right|by intros [[= -> ->]|]].
Qed.
Lemma assoc_missing {V} (l : list (string * V)) n : NoDup l.*1 → assoc l n = None ↔ ∀ v, (n, v) ∉ l.
Proof.
  intros HN. split.
  - intros H v Hv. apply assoc_given in Hv; [|done]. congruence.
  - intros H. destruct (assoc l n) as [v|] eqn:E; [|done]. apply assoc_given in E; [|done]. by apply H in E.
Qed.
Lemma of_type_those n b : of_type n b = those n (b_blocks b).
Proof.
  unfold of_type. induction (b_blocks b) as [|[m x] l IH]; [done|]. simpl.
  destruct (decide (m = n)) as [->|Hne];
    [rewrite bool_decide_eq_true_2 by done|rewrite bool_decide_eq_false_2 by done]; simpl; by rewrite <- IH.
Qed.

Section reading.
  Context {A : Type}.
  Implicit Types (fs : list (field A)) (a : A).

  Lemma content_ok_spec fs x :
    content_ok fs x = true ↔ length x.1 = label_count fs ∧ only x.2 (attr_names fs) (block_names fs).
  Proof.
    unfold content_ok, only. rewrite !andb_true_iff, !bool_decide_eq_true, !list.Forall_forall.
    split.
    - intros [[[? ?] Ha] Hb]. split_and!; [done|done| |].
      + intros n v Hv. apply Ha, elem_of_list_fmap. by exists (n, v).
      + intros n y Hy. apply Hb, elem_of_list_fmap. by exists (n, y).
    - intros (? & ? & Ha & Hb). split_and!; [done|done| |].
      + intros n ([m v] & -> & Hv)%elem_of_list_fmap. by eapply Ha.
      + intros n ([m v] & -> & Hv)%elem_of_list_fmap. by eapply Hb.
  Qed.

  Lemma decode_spec fs (zero : A) x a :
    decode fs zero x = Some a ↔
    length x.1 = label_count fs ∧ only x.2 (attr_names fs) (block_names fs) ∧
    ∃ es, Forall2 (λ f e, decode_field x.2 f = Some e) (live fs) es ∧
      a = set_labels fs x.1 (foldl (λ a f, f a) zero es).
  Proof.
    unfold decode. destruct (content_ok fs x) eqn:E.
    - apply content_ok_spec in E as [E1 E2]. rewrite bind_Some. split.
      + intros (es & H & [= <-]). apply mapM_Some in H. eauto 10.
      + intros (_ & _ & es & H & ->). exists es. split; [by apply mapM_Some|done].
    - split; [done|]. intros (H1 & H2 & _).
      assert (content_ok fs x = true) by (by apply content_ok_spec). congruence.
  Qed.

  (** The effect of one field of the struct. *)
  Definition effect {T} (P : T → Prop) (get : A → T) (set : T → A → A) (d : T) (e : A → A) : Prop :=
    ∃ y, P y ∧ ∀ a, get a = d → e a = set y a.

  Lemma decode_must {T} (c : codec T) (as_ : hval → T → Prop) b n get set e :
    NoDup (b_attrs b).*1 → (∀ v y, c_read c v = Some y ↔ as_ v y) →
    decode_field b (attr n true c get set) = Some e ↔ ∃ y, must as_ b n y ∧ e = (set y : A → A).
  Proof.
    intros HN Hc. unfold attr, decode_field, must, given. split.
    - destruct (assoc _ n) as [v|] eqn:E; [|done]. apply assoc_given in E; [|done].
      intros (y & Hy & ->)%fmap_Some. exists y. split; [|done]. exists v. by rewrite <- Hc.
    - intros (y & (v & Hv & Hy) & ->). apply assoc_given in Hv as ->; [|done].
      apply Hc in Hy as ->. done.
  Qed.
  Lemma decode_may {T} (c : codec T) (as_ : hval → T → Prop) b n get set e :
    NoDup (b_attrs b).*1 → (∀ v y, c_read c v = Some y ↔ as_ v y) →
    decode_field b (attr n false c get set) = Some e ↔
    (∃ y, must as_ b n y ∧ e = (set y : A → A)) ∨ (missing b n ∧ e = id).
  Proof.
    intros HN Hc. unfold attr, decode_field, must, given, missing. split.
    - destruct (assoc _ n) as [v|] eqn:E.
      + apply assoc_given in E; [|done]. intros (y & Hy & ->)%fmap_Some. left. exists y. split; [|done].
        exists v. by rewrite <- Hc.
      + intros [= <-]. right. split; [by apply assoc_missing|done].
    - intros [(y & (v & Hv & Hy) & ->)|[Hm ->]].
      + apply assoc_given in Hv as ->; [|done]. apply Hc in Hy as ->. done.
      + rewrite (proj2 (assoc_missing _ n HN) Hm). done.
  Qed.
  Lemma decode_blocks {B} (fs : list (field B)) zero (says : block → B → Prop) b n get set e :
    (∀ x y, decode fs zero x = Some y ↔ says x y) →
    decode_field b (blocks n fs zero get set) = Some e ↔ ∃ l, each says b n l ∧ e = (set l : A → A).
  Proof.
    intros Hs. unfold blocks, decode_field, each. simpl. rewrite of_type_those, fmap_Some.
    split; intros (l & H & ->); exists l; (split; [|done]).
    - apply mapM_Some in H. eapply Forall2_impl; [exact H|]. intros x y. apply Hs.
    - apply mapM_Some. eapply Forall2_impl; [exact H|]. intros x y. apply Hs.
  Qed.
  Lemma decode_ptr {B} (fs : list (field B)) zero (says : block → B → Prop) b n get set e :
    (∀ x y, decode fs zero x = Some y ↔ says x y) →
    decode_field b (block_ptr n fs zero get set) = Some e ↔ ∃ o, at_most_one says b n o ∧ e = (set o : A → A).
  Proof.
    intros Hs. unfold block_ptr, decode_field, at_most_one. simpl. rewrite of_type_those.
    destruct (those n (b_blocks b)) as [|x [|x' l]] eqn:E; simpl.
    - split; [intros [= <-]; by exists None|]. by intros ([y|] & H & ->); [destruct H as (? & ? & ?)|].
    - rewrite fmap_Some. split.
      + intros (y & Hy & ->). exists (Some y). split; [|done]. exists x. split; [done|by apply Hs].
      + intros ([y|] & H & ->); [|done]. destruct H as (x' & [= <-] & Hy). exists y. split; [by apply Hs|done].
    - split; [done|]. by intros ([y|] & H & ->); [destruct H as (? & ? & ?)|].
  Qed.

  (** What is read does not depend on the default a field has got. *)
  Lemma effect_must {T} (as_ : hval → T → Prop) b n (set : T → A → A) (get : A → T) d e :
    (∃ y, must as_ b n y ∧ e = set y) → effect (must as_ b n) get set d e.
  Proof. intros (y & H & ->). by exists y. Qed.
  Lemma effect_may {T} (as_ : hval → T → Prop) b n (set : T → A → A) (get : A → T) d e :
    (∀ a, set (get a) a = a) →
    (∃ y, must as_ b n y ∧ e = set y) ∨ (missing b n ∧ e = id) → effect (may as_ d b n) get set d e.
  Proof.
    intros Hset [(y & H & ->)|[H ->]]; [exists y; split; [by left|done]|].
    exists d. split; [by right|]. intros a <-. by rewrite Hset.
  Qed.
  Lemma may_effect {T} (as_ : hval → T → Prop) b n (set : T → A → A) (get : A → T) d y :
    (∀ a, set (get a) a = a) → may as_ d b n y →
    ∃ e, ((∃ y, must as_ b n y ∧ e = set y) ∨ (missing b n ∧ e = id)) ∧ ∀ a, get a = d → e a = set y a.
  Proof.
    intros Hset [H|[H ->]]; [exists (set y); split; [left; by exists y|done]|].
    exists id. split; [by right|]. intros a <-. by rewrite Hset.
  Qed.
End reading.

Section codecs.
  Variable L : hcl_lib.
  Lemma read_text v s : c_read (text_codec L) v = Some s ↔ as_text L v s.
  Proof. destruct v; simpl; split; congruence || done. Qed.
  Lemma read_bool v s : c_read (bool_codec L) v = Some s ↔ as_bool L v s.
  Proof. destruct v; simpl; split; congruence || done. Qed.
  Lemma fits_range z : fits z = true ↔ in_range z.
  Proof. unfold fits, in_range, min_int64, max_int64. rewrite bool_decide_eq_true. lia. Qed.
  Lemma number_spec v m e : number L v = Some (m, e) ↔ as_number L v m e.
  Proof. destruct v; simpl; split; try done; try congruence; [intros [= -> ->]|intros [-> ->]]; done. Qed.
  Lemma read_int v z : c_read (int_codec L) v = Some z ↔ as_int L v z.
  Proof.
    unfold as_int. simpl. rewrite bind_Some. split.
    - intros ([m e] & H & H'). simpl in H'. destruct (bool_decide (e = 0%nat)) eqn:E; [|done].
      apply bool_decide_eq_true in E as ->. simpl in H'. destruct (fits m) eqn:F; [|done].
      injection H' as <-. split; [by apply number_spec|by apply fits_range].
    - intros [H Hr]. exists (z, 0%nat). split; [by apply number_spec|]. simpl. apply fits_range in Hr as ->. done.
  Qed.
  Lemma read_texts v l : c_read (texts_codec L) v = Some l ↔ as_texts L v l.
  Proof.
    destruct v; simpl; try (split; congruence || done).
    rewrite mapM_Some. split; intros H; (eapply Forall2_impl; [exact H|]); intros ??; apply read_text.
  Qed.
  Lemma read_value k v x : c_read (value_codec L k) v = Some x ↔ as_value L k v x.
  Proof.
    assert (Hgen : (Some <$> match k with
              | KInt => VInt <$> c_read (int_codec L) v
              | KBool => VBool <$> c_read (bool_codec L) v
              | KFloat => p ← number L v; VFloat <$> hl_float L p.1 p.2
              end = Some x) ↔
       match k with
        | KInt => ∃ z, as_int L v z ∧ x = Some (VInt z)
        | KBool => ∃ t, as_bool L v t ∧ x = Some (VBool t)
        | KFloat => ∃ m e f, as_number L v m e ∧ hl_float L m e = Some f ∧ x = Some (VFloat f)
        end).
    { rewrite fmap_Some. destruct k.
      - setoid_rewrite fmap_Some. split.
        + intros (? & (z & Hz & ->) & ->). exists z. split; [by apply read_int|done].
        + intros (z & Hz & ->). eexists. split; [|done]. exists z. split; [by apply read_int|done].
      - setoid_rewrite fmap_Some. split.
        + intros (? & (z & Hz & ->) & ->). exists z. split; [by apply read_bool|done].
        + intros (z & Hz & ->). eexists. split; [|done]. exists z. split; [by apply read_bool|done].
      - split.
        + intros (? & H & ->). apply bind_Some in H as ([m e] & Hn & (f & Hf & ->)%fmap_Some).
          exists m, e, f. split_and!; [by apply number_spec|done|done].
        + intros (m & e & f & Hn & Hf & ->). exists (VFloat f). split; [|done].
          apply number_spec in Hn. rewrite Hn. simpl. by rewrite Hf. }
    destruct v; try exact Hgen. simpl. split; congruence.
  Qed.
End codecs.
