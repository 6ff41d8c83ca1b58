(** Proofs about the environment of a command. *)
From Coq Require Import String Ascii.
From stdpp Require Import gmap list strings.
From Verif Require Import GoBase GoStrings GoStringsProofs ShModel ShSpec ShProofs ShExecModel ShExecSpec.

Lemma saw_key_begins k kv : ¬ has_byte "=" k → (saw_key kv = Some k ↔ begins_with (k +:+ "=") kv).
Proof.
  intros Hk. unfold saw_key. rewrite begins_with_sep. split.
  - destruct (index_byte "=" kv) as [n|] eqn:E; [|done]. simpl. intros [= <-].
    apply index_byte_Some in E as (E & _). by eexists.
  - intros [v ->]. rewrite index_byte_app by done. simpl. f_equal. apply str_take_app.
Qed.

(** The loop: where the entry for a variable is, and that it is the last one so far. *)
Lemma dedup_loop_spec env : ∀ out saw past,
  (∀ k i, saw !! k = Some i ↔ ∃ kv, out !! i = Some kv ∧ saw_key kv = Some k) →
  (∀ k, (∀ kv, kv ∈ past → saw_key kv ≠ Some k) ∧ saw !! k = None ∨
    ∃ i kv l1 l2, saw !! k = Some i ∧ out !! i = Some kv ∧ past = l1 ++ kv :: l2 ∧ ∀ x, x ∈ l2 → saw_key x ≠ Some k) →
  ∃ saw' : gmap string nat, (∀ k i, saw' !! k = Some i ↔ ∃ kv, dedup_loop env out saw !! i = Some kv ∧ saw_key kv = Some k) ∧
    (∀ k, (∀ kv, kv ∈ past ++ env → saw_key kv ≠ Some k) ∧ saw' !! k = None ∨
      ∃ i kv l1 l2, saw' !! k = Some i ∧ dedup_loop env out saw !! i = Some kv ∧ past ++ env = l1 ++ kv :: l2 ∧
        ∀ x, x ∈ l2 → saw_key x ≠ Some k).
Proof.
  induction env as [|e env IH]; intros out saw past Hsaw Hlast; simpl.
  { exists saw. rewrite app_nil_r. done. }
  replace (past ++ e :: env) with ((past ++ [e]) ++ env) by by rewrite <-app_assoc.
  destruct (saw_key e) as [k0|] eqn:Ek; [destruct (saw !! k0) as [i0|] eqn:Es|].
  - apply IH.
    + intros k i. rewrite Hsaw. destruct (proj1 (Hsaw k0 i0) Es) as (kv0 & Ho & Hk0).
      assert (i0 < length out)%nat by by eapply lookup_lt_Some.
      destruct (decide (i = i0)) as [->|Hi].
      * rewrite list_lookup_insert by done. split.
        -- intros (kv & Hkv & Hk). exists e. split; [done|]. congruence.
        -- intros (kv & [= <-] & Hk). exists kv0. split; [done|]. congruence.
      * by rewrite list_lookup_insert_ne by done.
    + intros k. destruct (decide (k = k0)) as [->|Hne].
      * right. destruct (proj1 (Hsaw k0 i0) Es) as (kv0 & Ho & Hk0).
        exists i0, e, past, []. split_and!; [done| |done|by intros x ?%elem_of_nil].
        apply list_lookup_insert. by eapply lookup_lt_Some.
      * destruct (Hlast k) as [[Hno Hn]|(i & kv & l1 & l2 & Hi & Ho & -> & Hl)].
        -- left. split; [|done]. intros kv [?| ->%elem_of_list_singleton]%elem_of_app; [by apply Hno|]. congruence.
        -- right. exists i, kv, l1, (l2 ++ [e]). split_and!; [done| |by rewrite <-app_assoc|].
           ++ rewrite list_lookup_insert_ne; [done|]. intros ->.
              destruct (proj1 (Hsaw k0 i) Es) as (? & ? & ?). destruct (proj1 (Hsaw k i) Hi) as (? & ? & ?). congruence.
           ++ intros x [?| ->%elem_of_list_singleton]%elem_of_app; [by apply Hl|]. congruence.
  - apply IH.
    + intros k i. destruct (decide (k = k0)) as [->|Hne].
      * rewrite lookup_insert. split.
        -- intros [= <-]. exists e. split; [|done]. by rewrite lookup_app_r, Nat.sub_diag by lia.
        -- intros (kv & Hkv & Hk). apply lookup_app_Some in Hkv as [Hkv|[Hle Hkv]].
           ++ assert (saw !! k0 = Some i) by (apply Hsaw; by exists kv). congruence.
           ++ apply list_lookup_singleton_Some in Hkv as [? _]. f_equal. lia.
      * rewrite lookup_insert_ne by done. rewrite Hsaw. split; intros (kv & Hkv & Hk); exists kv; (split; [|done]).
        -- rewrite lookup_app_l; [done|]. by eapply lookup_lt_Some.
        -- apply lookup_app_Some in Hkv as [Hkv|[Hle Hkv]]; [done|].
           apply list_lookup_singleton_Some in Hkv as [_ <-]. congruence.
    + intros k. destruct (decide (k = k0)) as [->|Hne].
      * right. exists (length out), e, past, []. rewrite lookup_insert. split_and!; [done| |done|by intros x ?%elem_of_nil].
        by rewrite lookup_app_r, Nat.sub_diag by lia.
      * rewrite lookup_insert_ne by done. destruct (Hlast k) as [[Hno Hn]|(i & kv & l1 & l2 & Hi & Ho & -> & Hl)].
        -- left. split; [|done]. intros kv [?| ->%elem_of_list_singleton]%elem_of_app; [by apply Hno|]. congruence.
        -- right. exists i, kv, l1, (l2 ++ [e]). split_and!; [done| |by rewrite <-app_assoc|].
           ++ rewrite lookup_app_l; [done|]. by eapply lookup_lt_Some.
           ++ intros x [?| ->%elem_of_list_singleton]%elem_of_app; [by apply Hl|]. congruence.
  - apply IH.
    + intros k i. rewrite Hsaw. split; intros (kv & Hkv & Hk); exists kv; (split; [|done]).
      * rewrite lookup_app_l; [done|]. by eapply lookup_lt_Some.
      * apply lookup_app_Some in Hkv as [Hkv|[Hle Hkv]]; [done|].
        apply list_lookup_singleton_Some in Hkv as [_ <-]. congruence.
    + intros k. destruct (Hlast k) as [[Hno Hn]|(i & kv & l1 & l2 & Hi & Ho & -> & Hl)].
      * left. split; [|done]. intros kv [?| ->%elem_of_list_singleton]%elem_of_app; [by apply Hno|]. congruence.
      * right. exists i, kv, l1, (l2 ++ [e]). split_and!; [done| |by rewrite <-app_assoc|].
        -- rewrite lookup_app_l; [done|]. by eapply lookup_lt_Some.
        -- intros x [?| ->%elem_of_list_singleton]%elem_of_app; [by apply Hl|]. congruence.
Qed.

(** Two last entries are the same. *)
Lemma last_split {A} (P : A → Prop) (l1 l2 m1 m2 : list A) a b :
  l1 ++ a :: l2 = m1 ++ b :: m2 → P a → P b → (∀ x, x ∈ l2 → ¬ P x) → (∀ x, x ∈ m2 → ¬ P x) → a = b.
Proof.
  revert m1. induction l1 as [|x l1 IH]; intros [|y m1] H Ha Hb Hl Hm; simpl in *; simplify_eq.
  - done.
  - exfalso. apply (Hl b); [|done]. apply elem_of_app. right. by left.
  - exfalso. apply (Hm a); [|done]. apply elem_of_app. right. by left.
  - by eapply IH.
Qed.
Lemma dedup_sees k env :
  good_name k →
  (∀ v, last_value k v env → sees k v (dedup_loop env [] ∅)) ∧
  (unseen k env → unseen k (dedup_loop env [] ∅)).
Proof.
  intros [Hk0 Hk].
  destruct (dedup_loop_spec env [] ∅ []) as (saw & Hsaw & Hlast).
  { intros k' i. rewrite lookup_empty. split; [done|]. by intros (kv & ? & ?). }
  { intros k'. left. split; [by intros kv ?%elem_of_nil|]. apply lookup_empty. }
  set (out := dedup_loop env [] ∅) in *. simpl in Hlast.
  assert (Hone : ∀ kv i, out !! i = Some kv → begins_with (k +:+ "=") kv → saw !! k = Some i).
  { intros kv i Hi Hb. apply Hsaw. exists kv. split; [done|]. by apply saw_key_begins. }
  destruct (Hlast k) as [[Hno Hn]|(i & kv & l1 & l2 & Hi & Ho & Henv & Hl)]; split.
  - intros v (m1 & m2 & -> & Hm). exfalso. apply (Hno (k +:+ "=" +:+ v)).
    + apply elem_of_app. right. by left.
    + apply saw_key_begins; [done|]. apply begins_with_sep. by eexists.
  - intros _ kv Hin Hb. apply elem_of_list_lookup in Hin as [i Hi]. pose proof (Hone kv i Hi Hb). congruence.
  - intros v (m1 & m2 & Henv' & Hm).
    assert (Hkv : saw_key kv = Some k).
    { destruct (proj1 (Hsaw k i) Hi) as (kv' & ? & ?). congruence. }
    assert (kv = k +:+ "=" +:+ v) as ->.
    { eapply (last_split (λ x, begins_with (k +:+ "=") x) l1 l2 m1 m2); [congruence|..].
      - by apply saw_key_begins.
      - apply begins_with_sep. by eexists.
      - intros x Hx Hb. apply (Hl x Hx). by apply saw_key_begins.
      - done. }
    exists (take i out), (drop (S i) out). split; [by rewrite take_drop_middle|].
    intros x Hx Hb. apply elem_of_app in Hx as [Hx|Hx]; apply elem_of_list_lookup in Hx as [j Hj].
    + apply lookup_take_Some in Hj as [Hj Hlt]. pose proof (Hone x j Hj Hb). simplify_eq. lia.
    + rewrite lookup_drop in Hj. pose proof (Hone x _ Hj Hb). simplify_eq. lia.
  - intros Hu. exfalso. apply (Hu kv).
    + rewrite Henv. apply elem_of_app. right. by left.
    + apply saw_key_begins; [done|]. destruct (proj1 (Hsaw k i) Hi) as (kv' & ? & ?). congruence.
Qed.

(** * The last value through Env.Apply *)
Lemma last_value_all k v l :
  (∀ kv, kv ∈ l → begins_with (k +:+ "=") kv → kv = k +:+ "=" +:+ v) →
  (k +:+ "=" +:+ v) ∈ l → last_value k v l.
Proof.
  induction l as [|kv l IH] using rev_ind; [by intros _ ?%elem_of_nil|]. intros Hall Hin.
  destruct (decide (has_prefix kv (k +:+ "=") = true)) as [Hp|Hp]; rewrite has_prefix_spec in Hp.
  - exists l, []. split; [|by intros ? ?%elem_of_nil]. rewrite (Hall kv); [done| |done].
    apply elem_of_app. right. by left.
  - destruct IH as (l1 & l2 & -> & Hl).
    + intros x Hx. apply Hall. apply elem_of_app. by left.
    + apply elem_of_app in Hin as [|<-%elem_of_list_singleton]; [done|]. destruct Hp. apply begins_with_sep. by eexists.
    + exists l1, (l2 ++ [kv]). split; [by rewrite <-app_assoc|].
      intros x [?| ->%elem_of_list_singleton]%elem_of_app; [by apply Hl|done].
Qed.
Lemma env_set_last e order environ k v :
  range_of (e_set e) order → good_names e → e_set e !! k = Some v →
  last_value k v (env_apply e order environ).
Proof.
  intros Ho Hg Hs. destruct (env_set_lem e order environ k v Ho Hg Hs) as [Hin Hall].
  apply last_value_all; [|done]. intros kv Hkv Hb. apply Hall; [done|]. apply begins_entry; [|done].
  apply Hg. by apply elem_of_dom_2 in Hs.
Qed.
Lemma filtered_app e l1 l2 l' : filtered e (l1 ++ l2) l' →
  ∃ l1' l2', l' = l1' ++ l2' ∧ filtered e l1 l1' ∧ filtered e l2 l2'.
Proof.
  revert l'. induction l1 as [|kv l1 IH]; intros l' H; simpl in H.
  { exists [], l'. split_and!; [done|constructor|done]. }
  inversion H as [|k kv0 v l l2' He Hs Hf|k kv0 l l2' He Hs Hl Hf|k kv0 l l2' He Hs Hl Hf]; subst;
    destruct (IH _ Hf) as (m1 & m2 & -> & H1 & H2).
  - exists ((k +:+ "=" +:+ v) :: m1), m2. split_and!; [done|by econstructor|done].
  - exists (kv :: m1), m2. split_and!; [done|by eapply filtered_keep|done].
  - exists m1, m2. split_and!; [done|by eapply filtered_drop|done].
Qed.
Lemma filtered_absent e l l' k :
  filtered e l l' → good_names e → good_name k → e_set e !! k = None → unseen k l → unseen k l'.
Proof.
  intros Hf Hg Hk Hn. induction Hf as [|k' kv v' l l' He Hs _ IH|k' kv l l' He Hs Hl' _ IH|k' kv l l' He Hs Hl' _ IH]; intros Hu.
  - done.
  - assert (Hu' : unseen k l) by (intros x Hx; apply Hu; by right).
    intros x [->|Hx]%elem_of_cons Hb; [|by apply (IH Hu' x)].
    assert (good_name k') as Hk' by (apply Hg; by apply elem_of_dom_2 in Hs).
    pose proof (good_entry k' v' Hk') as He1. apply begins_entry in Hb; [|done].
    apply entry_key_spec in Hb, He1. congruence.
  - assert (Hu' : unseen k l) by (intros x Hx; apply Hu; by right).
    intros x [->|Hx]%elem_of_cons Hb; [|by apply (IH Hu' x)]. by apply (Hu kv); [left|].
  - apply IH. intros x Hx. apply Hu. by right.
Qed.
Lemma added_absent e keys k :
  (∀ k', k' ∈ keys → k' ∈ dom (e_set e)) → good_names e → good_name k → e_set e !! k = None → unseen k (added_of e keys).
Proof.
  intros Hd Hg Hk Hn kv Hin Hb. apply elem_of_added in Hin as (k' & Hk'%Hd & ->).
  pose proof (good_entry k' (default "" (e_set e !! k')) (Hg _ Hk')) as He1. apply begins_entry in Hb; [|done].
  apply entry_key_spec in Hb, He1. apply elem_of_dom in Hk' as [? ?]. congruence.
Qed.
Lemma env_keep_last e order environ k v :
  range_of (e_set e) order → good_names e → good_name k → e_set e !! k = None →
  lets_through e k → last_value k v environ → last_value k v (env_apply e order environ).
Proof.
  intros Ho Hg Hk Hn Hl (l1 & l2 & -> & Hlast).
  destruct (env_apply_shape e order (l1 ++ (k +:+ "=" +:+ v) :: l2) Ho) as (kept & keys & -> & Hf & [_ Hkeys]).
  destruct (filtered_app _ _ _ _ Hf) as (l1' & m & -> & H1 & H2).
  assert (∃ l2', m = (k +:+ "=" +:+ v) :: l2' ∧ filtered e l2 l2') as (l2' & -> & H3).
  { pose proof (good_entry k v Hk) as He0. apply entry_key_spec in He0.
    inversion H2 as [|k' kv0 v' l l2' He Hs Hf'|k' kv0 l l2' He Hs Hl' Hf'|k' kv0 l l2' He Hs Hl' Hf']; subst;
      apply entry_key_spec in He; assert (k' = k) as -> by congruence; [congruence| |done]. by exists l2'. }
  exists l1', (l2' ++ added_of e keys). split; [by rewrite <-app_assoc|].
  intros kv [Hx|Hx]%elem_of_app.
  - eapply filtered_absent; [exact H3|done..|exact Hx].
  - eapply (added_absent e keys k); [|done..]. intros k' Hk'. by apply Hkeys.
Qed.
Lemma env_absent e order environ k :
  range_of (e_set e) order → good_names e → good_name k → e_set e !! k = None →
  unseen k environ → unseen k (env_apply e order environ).
Proof.
  intros Ho Hg Hk Hn Hu.
  destruct (env_apply_shape e order environ Ho) as (kept & keys & -> & Hf & [_ Hkeys]).
  intros kv [Hx|Hx]%elem_of_app.
  - eapply filtered_absent; [exact Hf|done..].
  - eapply (added_absent e keys k); [|done..]. intros k' Hk'. by apply Hkeys.
Qed.
Lemma env_hidden e order environ k :
  range_of (e_set e) order → good_names e → good_name k → e_set e !! k = None →
  ¬ lets_through e k → unseen k (env_apply e order environ).
Proof. intros Ho Hg Hk Hn Hl kv Hin Hb. eapply env_gone_lem; [done..|]. by apply begins_entry. Qed.
