(** Proofs about the sh model. *)
From Coq Require Import String Ascii.
From stdpp Require Import gmap list strings.
From Verif Require Import GoBase GoBaseProofs GoStrings GoStringsProofs ShModel ShSpec.

Global Instance range_of_dec {A} (m : gmap string A) l : Decision (range_of m l).
Proof. unfold range_of. apply _. Defined.

Lemma begins_with_sep k kv : begins_with (k +:+ "=") kv ↔ ∃ v, kv = k +:+ String "=" v.
Proof.
  unfold begins_with. split; intros [v ->]; exists v; by rewrite <-app_str_assoc.
Qed.

Lemma entry_key_spec k kv : entry_of k kv ↔ entry_key kv = k.
Proof.
  unfold entry_of, entry_key. split.
  - intros [(Hk & Hn & [v ->]%begins_with_sep)|[-> [Hn|[v ->]]]].
    + rewrite index_byte_app by done.
      destruct (String.length k) as [|n] eqn:Hl; [by destruct k|].
      rewrite <-Hl. apply str_take_app.
    + apply index_byte_None in Hn. by rewrite Hn.
    + done.
  - destruct (index_byte "=" kv) as [[|n]|] eqn:Hi.
    + intros <-. right. split; [done|right].
      apply index_byte_Some in Hi as (-> & _ & _). by eexists.
    + intros <-. left. pose proof Hi as (H1 & H2 & H3)%index_byte_Some.
      split; [intros H0; by rewrite H0 in H3|]. split; [done|].
      apply begins_with_sep. by eexists.
    + intros <-. right. split; [done|left]. by apply index_byte_None.
Qed.

Global Instance entry_of_dec k kv : Decision (entry_of k kv).
Proof.
  destruct (decide (entry_key kv = k)) as [H|H]; [left|right]; by rewrite entry_key_spec.
Defined.

Lemma lets_through_dec e k :
  lets_through e k ↔
  (if decide (e_allow e ≠ []) then k ∈ e_allow e
   else if decide (e_deny e ≠ []) then k ∉ e_deny e else True).
Proof.
  unfold lets_through. destruct (e_allow e) as [|a al].
  - rewrite decide_False by tauto. destruct (e_deny e) as [|d dl].
    + rewrite decide_False by tauto. split; [done|]. intros _. right. split; [done|]. apply not_elem_of_nil.
    + rewrite decide_True by done. naive_solver.
  - rewrite decide_True by done. naive_solver.
Qed.

Lemma apply_loop_spec e environ tmp upd :
  ∃ kept, filtered e environ kept ∧
    (apply_loop e environ tmp upd).1 = tmp ++ kept ∧
    ∀ k, k ∈ (apply_loop e environ tmp upd).2 ↔
      k ∈ upd ∨ (k ∈ dom (e_set e) ∧ ∃ kv, kv ∈ environ ∧ entry_of k kv).
Proof.
  revert tmp upd. induction environ as [|kv environ IH]; intros tmp upd; simpl.
  { exists []. split; [constructor|]. split; [by rewrite app_nil_r|]. intros k. split; [by left|].
    intros [?|(_ & kv & []%elem_of_nil & _)]; done. }
  assert (entry_of (entry_key kv) kv) as Hent by by apply entry_key_spec.
  assert (∀ tmp upd x rest,
    e_set e !! entry_key kv = None → (∀ kept, filtered e environ kept → filtered e (kv :: environ) (rest ++ kept)) →
    x = apply_loop e environ (tmp ++ rest) upd →
    ∃ kept, filtered e (kv :: environ) kept ∧ x.1 = tmp ++ kept ∧
      ∀ k, k ∈ x.2 ↔ k ∈ upd ∨ (k ∈ dom (e_set e) ∧ ∃ kv', kv' ∈ kv :: environ ∧ entry_of k kv')) as Hgen.
  { intros tmp' upd' x rest Hnone Hstep ->.
    destruct (IH (tmp' ++ rest) upd') as (kept & Hf & H1 & H2). exists (rest ++ kept).
    split; [by apply Hstep|]. split; [by rewrite H1, app_assoc|]. intros k. rewrite H2.
    split; (intros [?|(Hd & kv' & Hin & He)]; [by left|right; split; [done|]]).
    - exists kv'. split; [by right|done].
    - apply elem_of_cons in Hin as [->|Hin]; [|by exists kv'].
      apply entry_key_spec in He. subst k. apply elem_of_dom in Hd as [? Hd]. congruence. }
  destruct (e_set e !! entry_key kv) as [val|] eqn:Hset.
  - clear Hgen. destruct (IH (tmp ++ [set_entry (entry_key kv) val]) ({[entry_key kv]} ∪ upd))
      as (kept & Hf & H1 & H2).
    exists (set_entry (entry_key kv) val :: kept). split; [by eapply filtered_set|].
    split; [rewrite H1, <-app_assoc; done|]. intros k. rewrite H2, elem_of_union, elem_of_singleton.
    split.
    + intros [[->|?]|(Hd & kv' & Hin & He)]; [right|by left|right].
      * split; [by apply elem_of_dom_2 in Hset|]. exists kv. split; [by left|done].
      * split; [done|]. exists kv'. split; [by right|done].
    + intros [?|(Hd & kv' & Hin & He)]; [by left; right|].
      apply elem_of_cons in Hin as [->|Hin].
      * left. left. symmetry. by apply entry_key_spec.
      * right. split; [done|]. by exists kv'.
  - pose proof (lets_through_dec e (entry_key kv)) as Hlt.
    assert (lets_through e (entry_key kv) →
      ∀ kept, filtered e environ kept → filtered e (kv :: environ) ([kv] ++ kept)) as Hk
      by (intros; by eapply filtered_keep).
    assert (¬ lets_through e (entry_key kv) →
      ∀ kept, filtered e environ kept → filtered e (kv :: environ) ([] ++ kept)) as Hd
      by (intros; by eapply filtered_drop).
    destruct (decide (e_allow e ≠ [])) as [Ha|Ha].
    + destruct (decide (entry_key kv ∈ e_allow e)) as [Hin|Hin].
      * apply (Hgen tmp upd _ [kv]); [done|apply Hk; by apply Hlt|done].
      * apply (Hgen tmp upd _ []); [done|apply Hd; by rewrite Hlt|by rewrite app_nil_r].
    + destruct (decide (e_deny e ≠ [])) as [Hdn|Hdn].
      * destruct (decide (entry_key kv ∈ e_deny e)) as [Hin|Hin].
        -- apply (Hgen tmp upd _ []); [done|apply Hd; rewrite Hlt; tauto|by rewrite app_nil_r].
        -- apply (Hgen tmp upd _ [kv]); [done|apply Hk; by apply Hlt|done].
      * apply (Hgen tmp upd _ [kv]); [done|apply Hk; by apply Hlt|done].
Qed.

Definition added_of (e : env) (keys : list string) : list string :=
  (λ k, k +:+ "=" +:+ default "" (e_set e !! k)) <$> keys.

Lemma append_missing_spec e upd order tmp :
  (∀ k, k ∈ order → k ∈ dom (e_set e)) →
  append_missing e upd order tmp = tmp ++ added_of e (filter (λ k, k ∉ upd) order).
Proof.
  revert tmp. induction order as [|k order IH]; intros tmp Hd; simpl; [by rewrite app_nil_r|].
  rewrite filter_cons. destruct (decide (k ∈ upd)) as [Hin|Hin].
  - rewrite decide_False by tauto. apply IH. intros k' ?. apply Hd. by right.
  - rewrite decide_True by done. assert (k ∈ dom (e_set e)) as Hk by (apply Hd; by left).
    apply elem_of_dom in Hk as [v Hv]. rewrite Hv. rewrite IH by (intros k' ?; apply Hd; by right).
    rewrite <-app_assoc. unfold added_of. rewrite fmap_cons. by rewrite Hv.
Qed.

Lemma env_apply_shape e order environ :
  range_of (e_set e) order →
  ∃ kept keys, env_apply e order environ = kept ++ added_of e keys ∧
    filtered e environ kept ∧ lacking e environ keys.
Proof.
  intros Ho. unfold env_apply.
  destruct (apply_loop_spec e environ [] ∅) as (kept & Hf & H1 & H2).
  destruct (apply_loop e environ [] ∅) as [tmp upd]. simpl in *. subst tmp.
  exists kept, (filter (λ k, k ∉ upd) order). split.
  { apply append_missing_spec. intros k Hk. by eapply range_of_elem. }
  split; [done|]. split.
  - apply NoDup_filter. by eapply range_of_NoDup.
  - intros k. rewrite elem_of_list_filter, H2.
    rewrite (range_of_elem (e_set e) order k) by done. split.
    + intros [Hn Hd]. split; [done|]. intros kv Hkv He. apply Hn. right. split; [done|]. by exists kv.
    + intros [Hd Hno]. split; [|done]. intros [?|(_ & kv & Hkv & He)]; [set_solver|]. by apply (Hno kv).
Qed.

Lemma filtered_functional e l l1 l2 : filtered e l l1 → filtered e l l2 → l1 = l2.
Proof.
  intros H1. revert l2.
  induction H1 as [|k kv v l l' He Hs _ IH|k kv l l' He Hs Hl _ IH|k kv l l' He Hs Hl _ IH]; intros l2 H2;
    inversion H2 as [|k' kv' v' m m' He' Hs' Hf'|k' kv' m m' He' Hs' Hl' Hf'|k' kv' m m' He' Hs' Hl' Hf']; subst;
    [done|..]; try (assert (k' = k) as -> by (apply entry_key_spec in He, He'; congruence));
    try congruence; try (by rewrite (IH _ Hf')); try (by rewrite (IH _ Hf') || congruence).
  assert (v' = v) as -> by congruence. by rewrite (IH _ Hf').
Qed.

(** Every entry of the filtered part about a variable of Set has the set value. *)
Lemma filtered_set_only e l l' k v kv :
  filtered e l l' → good_name k → e_set e !! k = Some v → good_names e →
  kv ∈ l' → entry_of k kv → kv = k +:+ "=" +:+ v.
Proof.
  intros Hf Hg Hs Hgs. induction Hf as [|k' kv' v' l l' He Hs' _ IH|k' kv' l l' He Hs' Hl _ IH|]; [by intros ?%elem_of_nil|..].
  - intros [->|?]%elem_of_cons Hent; [|by apply IH].
    assert (k = k') as <-.
    { assert (good_name k') as [Hk0 Hkn] by (apply Hgs; by apply elem_of_dom_2 in Hs').
      assert (entry_of k' (k' +:+ "=" +:+ v')) as He2.
      { left. split; [done|]. split; [done|]. apply begins_with_sep. by eexists. }
      apply entry_key_spec in Hent, He2. congruence. }
    congruence.
  - intros [->|?]%elem_of_cons Hent; [|by apply IH].
    apply entry_key_spec in He, Hent. congruence.
  - intros ? Hent. apply IHHf; done.
Qed.

Lemma good_entry k v : good_name k → entry_of k (k +:+ "=" +:+ v).
Proof. intros [H1 H2]. left. split; [done|]. split; [done|]. apply begins_with_sep. by eexists. Qed.

Lemma elem_of_added e keys x :
  x ∈ added_of e keys ↔ ∃ k, k ∈ keys ∧ x = k +:+ "=" +:+ default "" (e_set e !! k).
Proof. unfold added_of. rewrite elem_of_list_fmap. split; intros (k & ? & ?); by exists k. Qed.

Lemma env_set_lem e order environ k v :
  range_of (e_set e) order → good_names e → e_set e !! k = Some v →
  (k +:+ "=" +:+ v) ∈ env_apply e order environ ∧
  ∀ kv, kv ∈ env_apply e order environ → entry_of k kv → kv = k +:+ "=" +:+ v.
Proof.
  intros Ho Hg Hs. assert (good_name k) as Hk by (apply Hg; by apply elem_of_dom_2 in Hs).
  destruct (env_apply_shape e order environ Ho) as (kept & keys & -> & Hf & [Hnd Hkeys]). split.
  - apply elem_of_app. destruct (decide (Exists (entry_of k) environ)) as [Hex|Hno].
    + left. clear -Hf Hs Hex Hk. induction Hf as [|k' kv' v' l l' He Hs' Hf IH|k' kv' l l' He Hs' Hl Hf IH|k' kv' l l' He Hs' Hl Hf IH].
      * by apply Exists_nil in Hex.
      * destruct (decide (k' = k)) as [->|Hne]; [assert (v' = v) as -> by congruence; left|right].
        apply Exists_cons in Hex as [Hex|Hex]; [|by apply IH].
        apply entry_key_spec in He, Hex. congruence.
      * right. apply Exists_cons in Hex as [Hex|Hex]; [|by apply IH].
        apply entry_key_spec in He, Hex. congruence.
      * apply Exists_cons in Hex as [Hex|Hex]; [|by apply IH].
        apply entry_key_spec in He, Hex. congruence.
    + right. apply elem_of_added. exists k. rewrite Hs. split; [|done]. apply Hkeys.
      split; [by apply elem_of_dom_2 in Hs|]. intros kv Hin He. apply Hno, Exists_exists. by exists kv.
  - intros kv [Hin|Hin]%elem_of_app He.
    + by eapply filtered_set_only.
    + apply elem_of_added in Hin as (k' & Hk' & ->). apply Hkeys in Hk' as [Hd' _].
      assert (k = k') as <-; [|by rewrite Hs].
      apply Hg in Hd'. pose proof (good_entry k' (default "" (e_set e !! k')) Hd') as He'.
      apply entry_key_spec in He, He'. congruence.
Qed.

Lemma lacking_perm e environ k1 k2 : lacking e environ k1 → lacking e environ k2 → k1 ≡ₚ k2.
Proof. intros [N1 H1] [N2 H2]. apply NoDup_Permutation; [done..|]. intros x. by rewrite H1, H2. Qed.

Lemma env_orders_lem e order1 order2 environ :
  range_of (e_set e) order1 → range_of (e_set e) order2 →
  ∃ kept a1 a2, env_apply e order1 environ = kept ++ a1 ∧
    env_apply e order2 environ = kept ++ a2 ∧ a1 ≡ₚ a2 ∧ filtered e environ kept.
Proof.
  intros Ho1 Ho2.
  destruct (env_apply_shape e order1 environ Ho1) as (k1 & a1 & -> & Hf1 & Hl1).
  destruct (env_apply_shape e order2 environ Ho2) as (k2 & a2 & -> & Hf2 & Hl2).
  assert (k2 = k1) as -> by by eapply filtered_functional.
  exists k1, (added_of e a1), (added_of e a2). split; [done|]. split; [done|]. split; [|done].
  unfold added_of. f_equiv. by eapply lacking_perm.
Qed.

(** An environment the filter leaves alone. *)
Definition settled (e : env) (kv : string) : Prop :=
  (∃ k v, entry_of k kv ∧ e_set e !! k = Some v ∧ kv = k +:+ "=" +:+ v) ∨
  (∃ k, entry_of k kv ∧ e_set e !! k = None ∧ lets_through e k).
Lemma filtered_settled e l l' : filtered e l l' → good_names e → Forall (settled e) l'.
Proof.
  intros Hf Hg. induction Hf as [|k kv v l l' He Hs _ IH|k kv l l' He Hs Hl _ IH|]; [constructor|..|done].
  - constructor; [|done]. left. exists k, v. split; [|done].
    apply good_entry, Hg. by apply elem_of_dom_2 in Hs.
  - constructor; [|done]. right. by exists k.
Qed.
Lemma settled_filtered e l : Forall (settled e) l → filtered e l l.
Proof.
  induction 1 as [|kv l [(k & v & He & Hs & ->)|(k & He & Hs & Hl)] _ IH]; [constructor|..].
  - by eapply filtered_set.
  - by eapply filtered_keep.
Qed.
Lemma env_idempotent_lem e order1 order2 environ :
  range_of (e_set e) order1 → range_of (e_set e) order2 → good_names e →
  env_apply e order2 (env_apply e order1 environ) = env_apply e order1 environ.
Proof.
  intros Ho1 Ho2 Hg.
  destruct (env_apply_shape e order2 (env_apply e order1 environ) Ho2) as (k2 & a2 & -> & Hf2 & Hl2).
  assert (a2 = []) as ->.
  { destruct a2 as [|k a2]; [done|]. destruct Hl2 as [_ Hl2].
    destruct (proj1 (Hl2 k) ltac:(by left)) as [[v Hv]%elem_of_dom Hno]. exfalso.
    destruct (env_set_lem e order1 environ k v Ho1 Hg Hv) as [Hin _].
    apply (Hno _ Hin), good_entry, Hg. by apply elem_of_dom_2 in Hv. }
  simpl. rewrite app_nil_r. eapply filtered_functional; [exact Hf2|]. apply settled_filtered.
  destruct (env_apply_shape e order1 environ Ho1) as (k1 & a1 & -> & Hf1 & [_ Hl1]).
  apply Forall_app. split; [by eapply filtered_settled|]. apply Forall_forall.
  intros x (k & Hk & ->)%elem_of_added. apply Hl1 in Hk as [Hd _]. left.
  pose proof Hd as [v Hv]%elem_of_dom. exists k, v. rewrite Hv. split; [|done]. by apply good_entry, Hg.
Qed.

Lemma validate_arg0_spec a :
  validate_arg0 a = true ↔
  ¬ has_byte "/" a ∨ begins_with "/" a ∨ begins_with "./" a ∨ begins_with "../" a.
Proof.
  unfold validate_arg0. pose proof (contains_byte_spec "/" a) as Hc.
  pose proof (has_prefix_spec a "/") as H1. pose proof (has_prefix_spec a "./") as H2.
  pose proof (has_prefix_spec a "../") as H3.
  destruct (contains_byte "/" a); simpl; [|naive_solver].
  destruct (has_prefix a "/"); [naive_solver|]. destruct (has_prefix a "./"); [naive_solver|].
  destruct (has_prefix a "../"); naive_solver.
Qed.
Lemma exec_check_spec args :
  exec_check args = None ↔
  ∃ a rest, args = a :: rest ∧
    (¬ has_byte "/" a ∨ begins_with "/" a ∨ begins_with "./" a ∨ begins_with "../" a).
Proof.
  destruct args as [|a rest]; simpl; [naive_solver|].
  pose proof (validate_arg0_spec a) as H. destruct (validate_arg0 a); naive_solver.
Qed.

(** A variable is in an environment with a value. *)
Lemma first_value_all k v l :
  (∀ kv, kv ∈ l → begins_with (k +:+ "=") kv → kv = k +:+ "=" +:+ v) →
  (k +:+ "=" +:+ v) ∈ l → first_value k v l.
Proof.
  intros Hall. induction l as [|kv l IH]; [by intros ?%elem_of_nil|].
  intros [<-|Hin]%elem_of_cons; [constructor|].
  destruct (decide (has_prefix kv (k +:+ "=") = true)) as [Hp|Hp].
  - rewrite has_prefix_spec in Hp. rewrite (Hall kv); [constructor|by left|done].
  - constructor; [by rewrite has_prefix_spec in Hp|]. apply IH; [|done].
    intros kv' ?. apply Hall. by right.
Qed.
Lemma begins_entry k kv : good_name k → begins_with (k +:+ "=") kv → entry_of k kv.
Proof. intros [H1 H2] Hb. by left. Qed.
Lemma begins_entry_iff k kv : good_name k → (begins_with (k +:+ "=") kv ↔ entry_of k kv ∧ kv ≠ k).
Proof.
  intros Hg. split.
  - intros Hb. split; [by apply begins_entry|]. intros ->. destruct Hg as [_ Hg]. apply Hg.
    apply begins_with_sep in Hb as [v Hv]. by exists k, v.
  - intros [[(_ & _ & H)|[-> _]] ?]; done.
Qed.
Lemma env_set_first e order environ k v :
  range_of (e_set e) order → good_names e → e_set e !! k = Some v →
  first_value k v (env_apply e order environ).
Proof.
  intros Ho Hg Hs. destruct (env_set_lem e order environ k v Ho Hg Hs) as [Hin Hall].
  apply first_value_all; [|done]. intros kv Hkv Hb. apply Hall; [done|]. apply begins_entry; [|done].
  apply Hg. by apply elem_of_dom_2 in Hs.
Qed.

(** Filtering what is not in Set: the first value survives or the variable is gone. *)
Lemma filtered_first e l l' k v :
  filtered e l l' → good_names e → good_name k → e_set e !! k = None → lets_through e k →
  first_value k v l → first_value k v l'.
Proof.
  intros Hf Hg Hk Hn Hl. induction Hf as [|k' kv v' l l' He Hs _ IH|k' kv l l' He Hs Hl' _ IH|k' kv l l' He Hs Hl' _ IH]; intros Hfv.
  - inversion Hfv.
  - assert (k ≠ k') as Hne by (intros ->; congruence).
    inversion Hfv as [m Heq|kv' m Hb Hfv']; subst.
    { exfalso. apply Hne. assert (entry_of k (k +:+ "=" +:+ v)) as He2 by by apply good_entry.
      apply entry_key_spec in He, He2. congruence. }
    constructor; [|by apply IH]. intros Hb'. apply Hne.
    assert (good_name k') as Hk' by (apply Hg; by apply elem_of_dom_2 in Hs).
    pose proof (good_entry k' v' Hk') as He1. apply begins_entry in Hb'; [|done].
    apply entry_key_spec in Hb', He1. congruence.
  - inversion Hfv as [m Heq|kv' m Hb Hfv']; subst; [constructor|]. constructor; [done|]. by apply IH.
  - inversion Hfv as [m Heq|kv' m Hb Hfv']; subst; [|by apply IH].
    assert (entry_of k (k +:+ "=" +:+ v)) as He2 by by apply good_entry.
    apply entry_key_spec in He, He2. assert (k = k') as <- by congruence. done.
Qed.
Lemma first_value_app k v l l' : first_value k v l → first_value k v (l ++ l').
Proof. induction 1; simpl; by constructor. Qed.

Lemma filtered_gone e l l' k :
  filtered e l l' → good_names e → good_name k → e_set e !! k = None → ¬ lets_through e k →
  ∀ kv, kv ∈ l' → ¬ entry_of k kv.
Proof.
  intros Hf Hg Hk Hn Hl. induction Hf as [|k' kv v' l l' He Hs _ IH|k' kv l l' He Hs Hl' _ IH|k' kv l l' He Hs Hl' _ IH];
    intros x Hx He'; [by apply elem_of_nil in Hx|..].
  - apply elem_of_cons in Hx as [->|Hx]; [|by apply (IH x)].
    assert (good_name k') as Hk' by (apply Hg; by apply elem_of_dom_2 in Hs).
    pose proof (good_entry k' v' Hk') as He1. apply entry_key_spec in He', He1. congruence.
  - apply elem_of_cons in Hx as [->|Hx]; [|by apply (IH x)].
    apply entry_key_spec in He, He'. congruence.
  - by apply (IH x).
Qed.
Lemma env_gone_lem e order environ k :
  range_of (e_set e) order → good_names e → good_name k → e_set e !! k = None →
  ¬ lets_through e k → ∀ kv, kv ∈ env_apply e order environ → ¬ entry_of k kv.
Proof.
  intros Ho Hg Hk Hn Hl kv.
  destruct (env_apply_shape e order environ Ho) as (kept & keys & -> & Hf & [_ Hkeys]).
  intros [Hin|Hin]%elem_of_app; [by eapply filtered_gone|].
  apply elem_of_added in Hin as (k' & [Hd _]%Hkeys & ->). intros He.
  pose proof (good_entry k' (default "" (e_set e !! k')) (Hg _ Hd)) as He1.
  apply entry_key_spec in He, He1. apply elem_of_dom in Hd as [? ?]. congruence.
Qed.
Lemma env_keep_lem e order environ k v :
  range_of (e_set e) order → good_names e → good_name k → e_set e !! k = None →
  lets_through e k → first_value k v environ → first_value k v (env_apply e order environ).
Proof.
  intros Ho Hg Hk Hn Hl Hfv.
  destruct (env_apply_shape e order environ Ho) as (kept & keys & -> & Hf & _).
  apply first_value_app. by eapply filtered_first.
Qed.

Lemma command_env_lem target task o1 o2 environ k :
  range_of (e_set target) o1 → range_of (e_set task) o2 → good_names target → good_names task →
  good_name k →
  (∀ v, e_set task !! k = Some v → first_value k v (command_env target task o1 o2 environ)) ∧
  (e_set task !! k = None → lets_through task k →
    (∀ v, e_set target !! k = Some v → first_value k v (command_env target task o1 o2 environ)) ∧
    (e_set target !! k = None → lets_through target k → ∀ v, first_value k v environ →
       first_value k v (command_env target task o1 o2 environ))) ∧
  (e_set task !! k = None → ¬ lets_through task k →
    ∀ v, ¬ first_value k v (command_env target task o1 o2 environ)).
Proof.
  intros Ho1 Ho2 Hg1 Hg2 Hk. unfold command_env. split; [|split].
  - intros v Hv. by apply env_set_first.
  - intros Hn Hl. split.
    + intros v Hv. apply env_keep_lem; [done..|]. by apply env_set_first.
    + intros Hn' Hl' v Hfv. apply env_keep_lem; [done..|]. by apply env_keep_lem.
  - intros Hn Hl v Hfv.
    assert (∃ kv, kv ∈ env_apply task o2 (env_apply target o1 environ) ∧ entry_of k kv) as (kv & Hin & He).
    { revert Hfv. generalize (env_apply task o2 (env_apply target o1 environ)). intros l.
      induction 1 as [l|kv l _ _ (kv' & ? & ?)].
      - exists (k +:+ "=" +:+ v). split; [by left|]. by apply good_entry.
      - exists kv'. split; [by right|done]. }
    by eapply env_gone_lem.
Qed.
