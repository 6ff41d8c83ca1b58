(** Proofs about files of tasks. *)
From Coq Require Import String Ascii.
From stdpp Require Import gmap list strings numbers.
From Verif Require Import HclModel HclSpec HclProofs DemoModel ParserSpec TasksetModel TasksetSpec TasksetProofs.
From Verif Require Import TasksetFileModel TasksetFileSpec.
Local Open Scope Z_scope.

Section rest.
  Context {A : Type}.
  Implicit Types (fs : list (field A)).
  Lemma decode_rest_spec fs keep (zero : A) x a :
    decode_rest fs keep zero x = Some a ↔
    length x.1 = label_count fs ∧ NoDup (b_attrs x.2).*1 ∧
    ∃ es, Forall2 (λ f e, decode_field x.2 f = Some e) (live fs) es ∧
      a = set_labels fs x.1 (keep (leftover fs x.2) (foldl (λ a f, f a) zero es)).
  Proof.
    unfold decode_rest, rest_ok. destruct (bool_decide (length x.1 = label_count fs)) eqn:E1; cbn [andb].
    2:{ apply bool_decide_eq_false in E1. split; [done|]. by intros (? & _). }
    destruct (bool_decide (NoDup (b_attrs x.2).*1)) eqn:E2.
    2:{ apply bool_decide_eq_false in E2. split; [done|]. by intros (_ & ? & _). }
    apply bool_decide_eq_true in E1, E2. rewrite bind_Some. split.
    - intros (es & H & [= <-]). apply mapM_Some in H. eauto 10.
    - intros (_ & _ & es & H & ->). exists es. split; [by apply mapM_Some|done].
  Qed.
End rest.

(** What remains, by names. *)
Definition without (l : list string) (b : body) : body :=
  Body (List.filter (λ p : string * hval, negb (bool_decide (p.1 ∈ l))) (b_attrs b)) (b_blocks b).
Lemma elem_filter {T} (f : T → bool) l x : x ∈ List.filter f l ↔ x ∈ l ∧ f x = true.
Proof. rewrite !elem_of_list_In. apply filter_In. Qed.
Lemma filter_true {T} (f : T → bool) l : (∀ x, f x = true) → List.filter f l = l.
Proof. intros H. induction l as [|x l IH]; [done|]. cbn. by rewrite H, IH. Qed.
Lemma leftover_target b : leftover target_fields b = b.
Proof. destruct b as [a l]. unfold leftover. cbn [b_attrs b_blocks]. by rewrite !filter_true. Qed.
Lemma leftover_task L b : leftover (task_fields L) b = without every_task b.
Proof. unfold leftover, without. f_equal. apply filter_true. intros x. reflexivity. Qed.
Lemma without_given l b n v : given (without l b) n v ↔ given b n v ∧ n ∉ l.
Proof.
  unfold given, without. cbn [b_attrs]. rewrite elem_filter. cbn. by rewrite negb_true_iff, bool_decide_eq_false.
Qed.
Lemma without_must {T} (as_ : hval → T → Prop) l b n x : n ∉ l → must as_ (without l b) n x ↔ must as_ b n x.
Proof. intros Hn. unfold must. setoid_rewrite without_given. naive_solver. Qed.
Lemma NoDup_keys_filter {V} (f : string * V → bool) (l : list (string * V)) : NoDup l.*1 → NoDup (List.filter f l).*1.
Proof.
  induction l as [|[n v] l IH]; intros H; [constructor|]. apply list.NoDup_cons in H as [Hn H]. cbn [List.filter].
  destruct (f (n, v)); [|by apply IH]. apply list.NoDup_cons. split; [|by apply IH].
  cbn [fst] in *. intros ([m w] & -> & [Hw _]%elem_filter)%elem_of_list_fmap. apply Hn, elem_of_list_fmap. by exists (m, w).
Qed.
Lemma without_only l b known : NoDup (b_attrs b).*1 → only (without l b) known [] ↔ only b (known ++ l) [].
Proof.
  intros HN. unfold only. unfold without at 2 3. cbn [b_attrs b_blocks]. split.
  - intros (_ & Ha & Hb). split_and!; [done| |done]. intros n v Hv. apply elem_of_app.
    destruct (decide (n ∈ l)) as [?|Hl]; [by right|left]. eapply (Ha n v), elem_filter. split; [done|].
    cbn. by rewrite bool_decide_eq_false_2.
  - intros (_ & Ha & Hb). split_and!; [by apply NoDup_keys_filter| |done].
    intros n v [Hv Hf]%elem_filter. cbn in Hf. apply negb_true_iff, bool_decide_eq_false in Hf.
    apply Ha, elem_of_app in Hv as [?|?]; done.
Qed.

Section read.
  Variable L : hcl_lib.

  Lemma target_read x t : decode_rest target_fields target_keep target_zero x = Some t ↔
    x.1 = [tb_type t; tb_id t] ∧ NoDup (b_attrs x.2).*1 ∧ tb_config t = x.2.
  Proof.
    rewrite decode_rest_spec, leftover_target. destruct x as [l b]. cbn [fst snd]. split.
    - intros (Hl & HN & es & _ & ->). destruct l as [|a [|c [|]]]; try discriminate Hl.
      cbn [set_labels target_fields]. destruct (target_keep _ _) as [a' c' d'] eqn:E. split_and!; [done|done|].
      unfold target_keep in E. destruct (foldl _ _ _). by injection E as <- <- <-.
    - intros (-> & HN & Hc). split_and!; [done|done|]. exists [id; id].
      split; [repeat constructor|]. destruct t; cbn in *. by subst.
  Qed.
  Lemma task_read x k : decode_rest (task_fields L) task_keep task_zero x = Some k ↔
    x.1 = [kb_type k; kb_id k] ∧ NoDup (b_attrs x.2).*1 ∧
    may (as_text L) "" x.2 "target" (kb_target k) ∧ may (as_texts L) [] x.2 "after" (kb_after k) ∧
    may (as_texts L) [] x.2 "provides" (kb_provide k) ∧ may (as_texts L) [] x.2 "requires" (kb_require k) ∧
    kb_config k = without every_task x.2.
  Proof.
    rewrite decode_rest_spec, leftover_task. replace (live (task_fields L)) with (task_fields L) by reflexivity.
    destruct x as [l b]. cbn [fst snd]. split.
    - intros (Hl & HN & es & Hes & ->). destruct l as [|a [|c [|]]]; try discriminate Hl.
      unfold task_fields in Hes.
      apply Forall2_cons_inv_l in Hes as (e1 & ? & He1 & Hes & ->). apply Forall2_cons_inv_l in Hes as (e2 & ? & He2 & Hes & ->).
      apply Forall2_cons_inv_l in Hes as (e3 & ? & He3 & Hes & ->). apply Forall2_cons_inv_l in Hes as (e4 & ? & He4 & Hes & ->).
      apply Forall2_cons_inv_l in Hes as (e5 & ? & He5 & Hes & ->). apply Forall2_cons_inv_l in Hes as (e6 & ? & He6 & Hes & ->).
      apply Forall2_nil_inv_l in Hes as ->. injection He1 as <-. injection He2 as <-.
      apply (decode_may _ _ _ _ _ _ _ HN (read_text L)) in He3. apply (decode_may _ _ _ _ _ _ _ HN (read_texts L)) in He4, He5, He6.
      apply (effect_may _ _ _ _ kb_target "") in He3 as (y3 & Hy3 & E3); [|by intros []].
      apply (effect_may _ _ _ _ kb_after []) in He4 as (y4 & Hy4 & E4); [|by intros []].
      apply (effect_may _ _ _ _ kb_provide []) in He5 as (y5 & Hy5 & E5); [|by intros []].
      apply (effect_may _ _ _ _ kb_require []) in He6 as (y6 & Hy6 & E6); [|by intros []].
      cbn [foldl id]. rewrite E3, E4, E5, E6 by reflexivity. cbn. by split_and!.
    - intros (-> & HN & H3 & H4 & H5 & H6 & Hc). split_and!; [done|done|].
      destruct (may_effect _ _ _ (λ x (t : task_block body), match t with TaskBlock a b c d e f g => TaskBlock a b x d e f g end) kb_target "" _ ltac:(by intros []) H3) as (e3 & He3 & E3).
      destruct (may_effect _ _ _ (λ x (t : task_block body), match t with TaskBlock a b c d e f g => TaskBlock a b c x e f g end) kb_after [] _ ltac:(by intros []) H4) as (e4 & He4 & E4).
      destruct (may_effect _ _ _ (λ x (t : task_block body), match t with TaskBlock a b c d e f g => TaskBlock a b c d x f g end) kb_provide [] _ ltac:(by intros []) H5) as (e5 & He5 & E5).
      destruct (may_effect _ _ _ (λ x (t : task_block body), match t with TaskBlock a b c d e f g => TaskBlock a b c d e x g end) kb_require [] _ ltac:(by intros []) H6) as (e6 & He6 & E6).
      exists [id; id; e3; e4; e5; e6]. split.
      + repeat (constructor; [first [reflexivity | apply (decode_may _ _ _ _ _ _ _ HN (read_text L)); assumption
          | apply (decode_may _ _ _ _ _ _ _ HN (read_texts L)); assumption]|]). constructor.
      + cbn [foldl id]. rewrite E3, E4, E5, E6 by reflexivity. destruct k; cbn in *. by subst.
  Qed.

  Lemma demo_read b n s p : decode (demo_fields L) (n, s) ([], b) = Some p ↔
    only b ["max_concurrency"; "string"] [] ∧ may (as_int L) n b "max_concurrency" p.1 ∧ must (as_text L) b "string" p.2.
  Proof.
    rewrite decode_spec. replace (live (demo_fields L)) with (demo_fields L) by reflexivity. cbn [fst snd]. split.
    - intros (_ & Ho & es & Hes & ->). pose proof (proj1 Ho) as HN. unfold demo_fields in Hes.
      apply Forall2_cons_inv_l in Hes as (e1 & ? & He1 & Hes & ->). apply Forall2_cons_inv_l in Hes as (e2 & ? & He2 & Hes & ->).
      apply Forall2_nil_inv_l in Hes as ->.
      apply (decode_may _ _ _ _ _ _ _ HN (read_int L)) in He1. apply (decode_must _ _ _ _ _ _ _ HN (read_text L)) in He2 as (y2 & Hy2 & ->).
      apply (effect_may _ _ _ _ fst n) in He1 as (y1 & Hy1 & E1); [|by intros []].
      cbn [foldl]. rewrite E1 by reflexivity. by split_and!.
    - intros (Ho & H1 & H2). pose proof (proj1 Ho) as HN. split_and!; [done|exact Ho|].
      apply (may_effect _ _ _ (λ x (p : Z * string), let '(a, b) := p in (x, b)) fst n) in H1 as (e1 & He1 & E1); [|by intros []].
      exists [e1; λ '(a, _), (a, p.2)]. split.
      + constructor; [by apply (decode_may _ _ _ _ _ _ _ HN (read_int L))|]. constructor; [|constructor].
        apply (decode_must _ _ _ _ _ _ _ HN (read_text L)). by exists p.2.
      + cbn [foldl]. rewrite E1 by reflexivity. by destruct p.
  Qed.
  Lemma nothing_read b u : decode no_fields tt ([], b) = Some u ↔ only b [] [].
  Proof.
    rewrite decode_spec. cbn [fst snd]. split; [by intros (_ & Ho & _)|]. intros Ho. split_and!; [done|exact Ho|].
    exists []. split; [constructor|]. by destruct u.
  Qed.
  Lemma pg_read b z s : decode (pg_fields L) z ([], b) = Some s ↔ only b ["sql"] [] ∧ must (as_text L) b "sql" s.
  Proof.
    rewrite decode_spec. replace (live (pg_fields L)) with (pg_fields L) by reflexivity. cbn [fst snd]. split.
    - intros (_ & Ho & es & Hes & ->). pose proof (proj1 Ho) as HN.
      apply Forall2_cons_inv_l in Hes as (e1 & ? & He1 & Hes & ->). apply Forall2_nil_inv_l in Hes as ->.
      apply (decode_must _ _ _ _ _ _ _ HN (read_text L)) in He1 as (y & Hy & ->). by split.
    - intros (Ho & H). pose proof (proj1 Ho) as HN. split_and!; [done|exact Ho|]. exists [λ _, s]. split; [|done].
      constructor; [|constructor]. apply (decode_must _ _ _ _ _ _ _ HN (read_text L)). by exists s.
  Qed.
  Lemma sh_read b z l : decode (sh_fields L) z ([], b) = Some l ↔ only b ["args"] [] ∧ must (as_texts L) b "args" l.
  Proof.
    rewrite decode_spec. replace (live (sh_fields L)) with (sh_fields L) by reflexivity. cbn [fst snd]. split.
    - intros (_ & Ho & es & Hes & ->). pose proof (proj1 Ho) as HN.
      apply Forall2_cons_inv_l in Hes as (e1 & ? & He1 & Hes & ->). apply Forall2_nil_inv_l in Hes as ->.
      apply (decode_must _ _ _ _ _ _ _ HN (read_texts L)) in He1 as (y & Hy & ->). by split.
    - intros (Ho & H). pose proof (proj1 Ho) as HN. split_and!; [done|exact Ho|]. exists [λ _, l]. split; [|done].
      constructor; [|constructor]. apply (decode_must _ _ _ _ _ _ _ HN (read_texts L)). by exists l.
  Qed.
  Lemma doc_read b d : decode (doc_fields L) doc_zero ([], b) = Some d ↔
    only b [] ["target"; "task"] ∧
    Forall2 (λ x t, decode_rest target_fields target_keep target_zero x = Some t) (those "target" (b_blocks b)) (td_targets d) ∧
    Forall2 (λ x k, decode_rest (task_fields L) task_keep task_zero x = Some k) (those "task" (b_blocks b)) (td_tasks d).
  Proof.
    rewrite decode_spec. replace (live (doc_fields L)) with (doc_fields L) by reflexivity. cbn [fst snd]. split.
    - intros (_ & Ho & es & Hes & ->).
      apply Forall2_cons_inv_l in Hes as (e1 & ? & He1 & Hes & ->). apply Forall2_cons_inv_l in Hes as (e2 & ? & He2 & Hes & ->).
      apply Forall2_nil_inv_l in Hes as ->. unfold blocks_rest, decode_field in He1, He2. cbn [orb] in He1, He2.
      rewrite of_type_those in He1, He2. apply fmap_Some in He1 as (l1 & H1%mapM_Some & ->). apply fmap_Some in He2 as (l2 & H2%mapM_Some & ->).
      cbn. by split_and!.
    - intros (Ho & H1 & H2). split_and!; [done|exact Ho|].
      exists [λ '(TsDoc _ b), TsDoc (td_targets d) b; λ '(TsDoc a _), TsDoc a (td_tasks d)].
      split; [|by destruct d]. apply mapM_Some in H1, H2.
      constructor; [unfold blocks_rest, decode_field; cbn [orb]; rewrite of_type_those, H1; reflexivity|].
      constructor; [unfold blocks_rest, decode_field; cbn [orb]; rewrite of_type_those, H2; reflexivity|]. constructor.
  Qed.

  Lemma hcl_decoder_ok : ok_ts_decoder (hcl_decoder L).
  Proof.
    split.
    - intros [n s| |] raw t'; cbn; intros (p & _ & ->)%fmap_Some; done.
    - intros [d|s|l] raw x'; cbn; intros (p & _ & ->)%fmap_Some; [|done|done]. by split; [|intros ? ->].
  Qed.
End read.

(** * A whole file *)
Section file.
  Variables (L : hcl_lib) (fs : gmap string ts_factory) (b : body) (d : ts_doc body).
  Hypothesis Ht : Forall2 (λ x t, decode_rest target_fields target_keep target_zero x = Some t) (those "target" (b_blocks b)) (td_targets d).
  Hypothesis Hk : Forall2 (λ x k, decode_rest (task_fields L) task_keep task_zero x = Some k) (those "task" (b_blocks b)) (td_tasks d).

  Lemma target_means x t y : decode_rest target_fields target_keep target_zero x = Some t →
    target_block_means (hcl_decoder L) fs t y ↔ target_in L fs x (tb_type t) (tb_id t) y.
  Proof.
    intros (Hx & HN & Hc)%target_read. unfold target_block_means, target_in. rewrite Hc. split.
    - intros (f & t0 & Hf & Hfresh & Hd). split; [done|]. exists f. split; [done|]. destruct Hfresh; cbn in Hd.
      + apply fmap_Some in Hd as (p & Hp%demo_read & ->). by destruct Hp as (? & ? & ?).
      + apply fmap_Some in Hd as (p & Hp%nothing_read & ->). done.
      + apply fmap_Some in Hd as (p & Hp%nothing_read & ->). done.
    - intros (_ & f & Hf & Hm). destruct f, y as [n s| |]; try done.
      + exists DemoFactory, (TsDemoTarget 1 ""). split_and!; [done|constructor|]. cbn. apply fmap_Some. exists (n, s).
        split; [|done]. by apply demo_read.
      + exists PgFactory, TsPgTarget. split_and!; [done|constructor|]. cbn. apply fmap_Some. exists tt. split; [|done].
        by apply nothing_read.
      + exists ShFactory, TsShTarget. split_and!; [done|constructor|]. cbn. apply fmap_Some. exists tt. split; [|done].
        by apply nothing_read.
  Qed.
  Lemma target_in_labels x typ id y : target_in L fs x typ id y → x.1 = [typ; id].
  Proof. by intros [? _]. Qed.

  (** The last block, on both sides. *)
  Lemma last_both {K K' T} (key : block → K) (key' : T → K') (R : block → T → Prop) l l' t :
    Forall2 R l l' → (∀ x t u, R x t → R x u → t = u) →
    (∀ x y t u, R x t → R y u → key x = key y ↔ key' t = key' u) →
    (∃ l1 l2, l' = l1 ++ t :: l2 ∧ key' t ∉ key' <$> l2) ↔ ∃ x, last_with key l x ∧ R x t.
  Proof.
    intros HF Hfun Hkey. split.
    - intros (l1 & l2 & -> & Hn). apply Forall2_app_inv_r in HF as (k1 & k2' & H1 & H2 & ->).
      apply Forall2_cons_inv_r in H2 as (x & k2 & Hx & H2 & ->). exists x. split; [|done].
      exists k1, k2. split; [done|]. intros y Hy Heq. apply Hn.
      apply elem_of_list_lookup in Hy as [i Hi]. destruct (Forall2_lookup_l _ _ _ _ _ H2 Hi) as (u & Hu & Hr).
      apply elem_of_list_fmap. exists u. split; [|by eapply elem_of_list_lookup_2]. symmetry. by apply (Hkey y x u t).
    - intros (x & (k1 & k2 & -> & Hn) & Hx).
      apply Forall2_app_inv_l in HF as (l1 & l2' & H1 & H2 & ->). apply Forall2_cons_inv_l in H2 as (u & l2 & Hu & H2 & ->).
      rewrite (Hfun x u t Hu Hx). exists l1, l2. split; [done|]. intros (v & Hv & Hin)%elem_of_list_fmap.
      apply elem_of_list_lookup in Hin as [j Hj]. destruct (Forall2_lookup_r _ _ _ _ _ H2 Hj) as (y & Hy & Hr).
      apply (Hn y); [by eapply elem_of_list_lookup_2|]. by apply (Hkey y x v t).
  Qed.
  Lemma decode_fun {T U} (f : T → option U) x t u : f x = Some t → f x = Some u → t = u.
  Proof. congruence. Qed.
  Lemma last_target t : last_target_block (td_targets d) t ↔
    ∃ x, last_with fst (those "target" (b_blocks b)) x ∧ decode_rest target_fields target_keep target_zero x = Some t.
  Proof.
    unfold last_target_block.
    apply (last_both fst target_key (λ x t, decode_rest target_fields target_keep target_zero x = Some t)); [done|intros ???; apply decode_fun|].
    intros x y u v (-> & _ & _)%target_read (-> & _ & _)%target_read. unfold target_key. split; [by intros [= -> ->]|by intros [= -> ->]].
  Qed.
  Lemma last_task k : last_block (td_tasks d) k ↔
    ∃ x, last_with (λ y, y.1 !! 1%nat) (those "task" (b_blocks b)) x ∧ decode_rest (task_fields L) task_keep task_zero x = Some k.
  Proof.
    unfold last_block.
    apply (last_both (λ y, y.1 !! 1%nat) kb_id (λ x k, decode_rest (task_fields L) task_keep task_zero x = Some k)); [done|intros ???; apply decode_fun|].
    intros x y u v (-> & _ & _)%task_read (-> & _ & _)%task_read. cbn. split; [by intros [= ->]|by intros ->].
  Qed.

  Lemma elem_targets t : t ∈ td_targets d ↔ ∃ x, x ∈ those "target" (b_blocks b) ∧ decode_rest target_fields target_keep target_zero x = Some t.
  Proof.
    split.
    - intros [i Hi]%elem_of_list_lookup. destruct (Forall2_lookup_r _ _ _ _ _ Ht Hi) as (x & Hx & Hr). exists x.
      split; [by eapply elem_of_list_lookup_2|done].
    - intros (x & [i Hi]%elem_of_list_lookup & Hx). destruct (Forall2_lookup_l _ _ _ _ _ Ht Hi) as (u & Hu & Hr).
      cbn in Hr. rewrite Hx in Hr. injection Hr as ->. by eapply elem_of_list_lookup_2.
  Qed.
  Lemma elem_tasks k : k ∈ td_tasks d ↔ ∃ x, x ∈ those "task" (b_blocks b) ∧ decode_rest (task_fields L) task_keep task_zero x = Some k.
  Proof.
    split.
    - intros [i Hi]%elem_of_list_lookup. destruct (Forall2_lookup_r _ _ _ _ _ Hk Hi) as (x & Hx & Hr). exists x.
      split; [by eapply elem_of_list_lookup_2|done].
    - intros (x & [i Hi]%elem_of_list_lookup & Hx). destruct (Forall2_lookup_l _ _ _ _ _ Hk Hi) as (u & Hu & Hr).
      cbn in Hr. rewrite Hx in Hr. injection Hr as ->. by eapply elem_of_list_lookup_2.
  Qed.
  Lemma target_decodes x : x ∈ those "target" (b_blocks b) → ∃ t, decode_rest target_fields target_keep target_zero x = Some t.
  Proof. intros [i Hi]%elem_of_list_lookup. destruct (Forall2_lookup_l _ _ _ _ _ Ht Hi) as (u & _ & Hr). by exists u. Qed.
  Lemma task_decodes x : x ∈ those "task" (b_blocks b) → ∃ k, decode_rest (task_fields L) task_keep task_zero x = Some k.
  Proof. intros [i Hi]%elem_of_list_lookup. destruct (Forall2_lookup_l _ _ _ _ _ Hk Hi) as (u & _ & Hr). by exists u. Qed.

  (** The targets. *)
  Lemma target_is_spec typ id t : target_is L fs b typ id t ↔
    (∃ y, last_target_block (td_targets d) y ∧ target_key y = (typ, id) ∧ target_block_means (hcl_decoder L) fs y t) ∨
    (id = "" ∧ (typ, "") ∉ target_key <$> td_targets d ∧ ∃ f, fs !! typ = Some f ∧ fresh_ts_target f t).
  Proof.
    unfold target_is. f_equiv; [|f_equiv; f_equiv]; [split|split].
    - intros (x & Hx & Hin). destruct (target_decodes x) as [y Hy].
      { destruct Hx as (? & ? & -> & _). apply elem_of_app. right. left. }
      exists y. pose proof (target_in_labels _ _ _ _ Hin) as Hl.
      pose proof (proj1 (proj1 (target_read x y) Hy)) as Hl'. rewrite Hl in Hl'. injection Hl' as -> ->.
      split_and!; [apply last_target; eauto|done|]. by eapply target_means.
    - intros (y & (x & Hx & Hy)%last_target & [= <- <-] & Hm). exists x. split; [done|]. by eapply target_means.
    - intros H (y & Hy & (x & Hx & Hd)%elem_targets)%elem_of_list_fmap. apply (H x Hx).
      apply target_read in Hd as (-> & _). unfold target_key in Hy. by injection Hy as -> ->.
    - intros H x Hx Hl. apply H. destruct (target_decodes x Hx) as [y Hy]. apply elem_of_list_fmap. exists y.
      split; [|apply elem_targets; eauto]. apply target_read in Hy as (Hl' & _). rewrite Hl in Hl'. unfold target_key. by injection Hl' as -> ->.
  Qed.
  Lemma means_targets_spec ts : means_targets (hcl_decoder L) fs d ts ↔
    (∀ typ, is_Some (ts !! typ) ↔ is_Some (fs !! typ)) ∧
    (∀ typ id t, (∃ g, ts !! typ = Some g ∧ g !! id = Some t) ↔ target_is L fs b typ id t).
  Proof.
    unfold means_targets. setoid_rewrite target_is_spec. split.
    - intros [H1 H2]. split; [done|]. intros typ id t. split.
      + intros (g & Hg & Hid). by eapply H2.
      + intros H. assert (is_Some (fs !! typ)) as Hf.
        { destruct H as [(y & _ & [= <- _] & f & t0 & Hf & _)|(_ & _ & f & Hf & _)]; by exists f. }
        apply H1 in Hf as [g Hg]. exists g. split; [done|]. by eapply H2.
    - intros [H1 H2]. split; [done|]. intros typ g id t Hg. rewrite <-H2. split; [eauto|].
      intros (g' & Hg' & Hid). congruence.
  Qed.

  (** The tasks. *)
  Lemma task_means ts x k y :
    (∀ typ id t, (∃ g, ts !! typ = Some g ∧ g !! id = Some t) ↔ target_is L fs b typ id t) →
    decode_rest (task_fields L) task_keep task_zero x = Some k →
    task_block_means (hcl_decoder L) ts k y ↔ ∃ s, task_in L fs b x (kb_id k) s ∧ y = TsTask (BaseTask [] [] []) s.
  Proof.
    intros Hts (Hx & HN & H1 & H2 & H3 & H4 & Hc)%task_read. unfold task_block_means, task_in. rewrite Hc.
    assert (∀ n, n ∈ ["after"; "provides"; "requires"] → ∃ l, may (as_texts L) [] x.2 n l) as Hl.
    { intros n. rewrite !elem_of_cons, elem_of_nil. naive_solver. }
    split.
    - intros (typ & c & g & t & x0 & x1 & Hn & Hg & Ht' & Hfresh & Hd & ->). exists x1. split; [|done].
      exists (kb_type k), typ, c, (kb_target k), t. split_and!; [done|done|done|apply Hts; eauto|done|].
      destruct Hfresh; cbn in Hd; apply fmap_Some in Hd as (p & Hp & ->).
      1-5: apply nothing_read, without_only in Hp; [|done]; split; [done|constructor].
      + apply pg_read in Hp as [Ho Hm]. apply without_only in Ho; [|done]. split; [done|].
        apply without_must in Hm; [done|]. apply (bool_decide_unpack _). by vm_compute.
      + apply sh_read in Hp as [Ho Hm]. apply without_only in Ho; [|done]. split; [done|].
        apply without_must in Hm; [done|]. apply (bool_decide_unpack _). by vm_compute.
    - intros (s & (label & typ & c & on & t & Hx' & Hn & Hon & Hti & _ & Hm) & ->).
      rewrite Hx in Hx'. injection Hx' as <-.
      assert (on = kb_target k) as ->.
      { clear -Hon H1 HN. destruct Hon as [(v & Hv & Hs)|[Hmiss ->]], H1 as [(v' & Hv' & Hs')|[Hmiss' E]].
        - assert (v = v') as <-.
          { apply assoc_given in Hv, Hv'; [|done|done]. congruence. }
          apply (read_text L) in Hs, Hs'. congruence.
        - by destruct (Hmiss' v).
        - by destruct (Hmiss v').
        - done. }
      apply Hts in Hti as (g & Hg & Hid). exists typ, c, g, t.
      destruct t as [m str| |], s as [dm|sql|args]; try done.
      + destruct Hm as [Ho Hkind]. exists (TsDemo dm), (TsDemo dm). split_and!; [done|done|done| | |done].
        * destruct Hkind; constructor.
        * cbn. apply fmap_Some. exists tt. split; [|done]. apply nothing_read, without_only; done.
      + destruct Hm as [Ho Hsql]. exists (TsPg ""), (TsPg sql). split_and!; [done|done|done|constructor| |done].
        cbn. apply fmap_Some. exists sql. split; [|done]. apply pg_read. split; [by apply without_only|].
        apply without_must; [|done]. apply (bool_decide_unpack _). by vm_compute.
      + destruct Hm as [Ho Hargs]. exists (TsSh []), (TsSh args). split_and!; [done|done|done|constructor| |done].
        cbn. apply fmap_Some. exists args. split; [|done]. apply sh_read. split; [by apply without_only|].
        apply without_must; [|done]. apply (bool_decide_unpack _). by vm_compute.
  Qed.
End file.

Lemma task_in_label L fs b x id s : task_in L fs b x id s → ∃ label, x.1 = [label; id].
Proof. intros (label & _ & _ & _ & _ & H & _). by exists label. Qed.
Lemma parse_doc_says L fs b d ts tasks : only b [] ["target"; "task"] → decode (doc_fields L) doc_zero ([], b) = Some d →
  ts_parse (hcl_decoder L) fs d = inr (ts, tasks) ↔ task_file_says L fs b ts tasks.
Proof.
  intros Ho (_ & Ht & Hk)%doc_read. rewrite ts_parse_exact. unfold task_file_says.
  rewrite (means_targets_spec L fs b d Ht). split.
  - intros (H1 & [H2 H3] & H4 & H5). split_and!; [done| | |done|done|].
    + intros x Hx. destruct (target_decodes b d Ht x Hx) as [y Hy]. destruct (H1 y) as [t Hm]; [by eapply elem_targets; eauto|].
      exists (tb_type y), (tb_id y), t. by eapply target_means.
    + intros x Hx. destruct (task_decodes L b d Hk x Hx) as [k Hkx]. destruct (H4 k) as [y Hm]; [by eapply elem_tasks; eauto|].
      apply (task_means L fs b ts x k y H3 Hkx) in Hm as (s & Hs & _). by exists (kb_id k), s.
    + intros id x. rewrite H5. split.
      * intros (k & (y & Hy & Hd)%(last_task L b d Hk) & <- & Hm). apply (task_means L fs b ts y k x H3 Hd) in Hm as (s & Hs & ->).
        by exists y, s.
      * intros (y & s & Hy & Hin & ->). destruct (task_decodes L b d Hk y) as [k Hkx].
        { destruct Hy as (? & ? & -> & _). apply elem_of_app. right. left. }
        destruct (task_in_label _ _ _ _ _ _ Hin) as [label Hl].
        pose proof (proj1 (proj1 (task_read L y k) Hkx)) as Hl'. rewrite Hl in Hl'. injection Hl' as -> ->.
        exists k. split_and!; [apply (last_task L b d Hk); eauto|done|]. apply (task_means L fs b ts y k _ H3 Hkx). by exists s.
  - intros (_ & H1 & H4 & H2 & H3 & H5). split_and!; [|done|done| |].
    + intros y Hy. apply (elem_targets b d Ht) in Hy as (x & Hx & Hd). destruct (H1 x Hx) as (typ & id & t & Hin).
      exists t. eapply target_means; [done|]. pose proof (proj1 Hin) as Hl.
      pose proof (proj1 (proj1 (target_read x y) Hd)) as Hl'. rewrite Hl in Hl'. by injection Hl' as -> ->.
    + intros k Hkin. apply (elem_tasks L b d Hk) in Hkin as (x & Hx & Hd). destruct (H4 x Hx) as (id & s & Hin).
      exists (TsTask (BaseTask [] [] []) s). apply (task_means L fs b ts x k _ H3 Hd). exists s. split; [|done].
      destruct (task_in_label _ _ _ _ _ _ Hin) as [label Hl].
      pose proof (proj1 (proj1 (task_read L x k) Hd)) as Hl'. rewrite Hl in Hl'. by injection Hl' as -> ->.
    + intros id x. rewrite H5. split.
      * intros (y & s & Hy & Hin & ->). destruct (task_decodes L b d Hk y) as [k Hkx].
        { destruct Hy as (? & ? & -> & _). apply elem_of_app. right. left. }
        destruct (task_in_label _ _ _ _ _ _ Hin) as [label Hl].
        pose proof (proj1 (proj1 (task_read L y k) Hkx)) as Hl'. rewrite Hl in Hl'. injection Hl' as -> ->.
        exists k. split_and!; [apply (last_task L b d Hk); eauto|done|]. apply (task_means L fs b ts y k _ H3 Hkx). by exists s.
      * intros (k & (y & Hy & Hd)%(last_task L b d Hk) & <- & Hm). apply (task_means L fs b ts y k x H3 Hd) in Hm as (s & Hs & ->).
        by exists y, s.
Qed.
