(** Which rows a query yields, without reference to how it is evaluated. *)
From Coq Require Import String Ascii.
From stdpp Require Import list strings numbers sorting.
From Verif Require Import GoBase GoStrings QueryModel.
Local Open Scope Z_scope.

(** * Conditions *)

(** The condition has a value, and it is true exactly if [P]. *)
Definition tells (o : option value) (P : Prop) : Prop :=
  ∃ v t, o = Some v ∧ truth v = Some t ∧ (t = Some true ↔ P).
Lemma tells_iff o P Q : tells o P → (P ↔ Q) → tells o Q.
Proof. intros (v & t & H1 & H2 & H3) H. exists v, t. by rewrite H3, H. Qed.
Lemma tells_bool b : tells (Some (VBool b)) (b = true).
Proof. exists (VBool b), (Some b). split_and!; [done|done|]. split; [by intros [= ->]|by intros ->]. Qed.
Lemma tells_decide P `{Decision P} : tells (Some (VBool (bool_decide P))) P.
Proof. eapply tells_iff; [apply tells_bool|]. apply bool_decide_eq_true. Qed.
Lemma tells_negb b : tells (Some (VBool (negb b))) (b ≠ true).
Proof. eapply tells_iff; [apply tells_bool|]. by destruct b. Qed.
Lemma tells_differ P `{Decision P} : tells (Some (VBool (negb (bool_decide P)))) (¬ P).
Proof. eapply tells_iff; [apply tells_negb|]. by rewrite bool_decide_eq_true. Qed.
Lemma tells_of_truth t : tells (Some (of_truth t)) (t = Some true).
Proof. exists (of_truth t), t. split_and!; [done| |done]. by destruct t. Qed.
Lemma tells_null : tells (Some VNull) False.
Proof. exists VNull, None. done. Qed.
Lemma and3_true a b : and3 a b = Some true ↔ a = Some true ∧ b = Some true.
Proof. destruct a as [[]|], b as [[]|]; simpl; naive_solver. Qed.
Lemma or3_true a b : or3 a b = Some true ↔ a = Some true ∨ b = Some true.
Proof. destruct a as [[]|], b as [[]|]; simpl; naive_solver. Qed.
Lemma tells_and st ps e a b P Q :
  tells (eval st ps e a) P → tells (eval st ps e b) Q → tells (eval st ps e (And a b)) (P ∧ Q).
Proof.
  intros (v & t & H1 & H2 & H3) (w & u & K1 & K2 & K3). cbn [eval]. rewrite H1, K1. cbn [mbind option_bind]. rewrite H2, K2. cbn [mbind option_bind].
  eapply tells_iff; [apply tells_of_truth|]. by rewrite and3_true, H3, K3.
Qed.
(** The same, as a test. *)
Definition decides (o : option bool) (P : Prop) : Prop := ∃ b, o = Some b ∧ (b = true ↔ P).
Lemma tells_holds o P : tells o P → decides (v ← o; holds v) P.
Proof.
  intros (v & t & -> & H2 & H3). unfold holds. cbn [mbind option_bind]. rewrite H2. cbn [fmap option_fmap option_map].
  eexists. split; [done|]. by rewrite bool_decide_eq_true.
Qed.

(** * Rows *)

(** The rows are those of exactly the things in [P], each once. *)
Definition rows_for {T A} (enc : T → A) (P : T → Prop) (o : option (list A)) : Prop :=
  ∃ l, o = Some (map enc l) ∧ NoDup l ∧ ∀ t, t ∈ l ↔ P t.
Lemma rows_for_iff {T A} (enc : T → A) (P Q : T → Prop) o : rows_for enc P o → (∀ t, P t ↔ Q t) → rows_for enc Q o.
Proof. intros (l & H1 & H2 & H3) H. exists l. split_and!; [done|done|]. intros t. by rewrite H3. Qed.
Lemma mapM_some {A B} (f : A → option B) (g : A → B) l :
  (∀ a, a ∈ l → f a = Some (g a)) → mapM f l = Some (map g l).
Proof.
  induction l as [|a l IH]; intros H; simpl; [done|]. rewrite H by left. simpl. rewrite IH; [done|].
  intros b Hb. apply H. by right.
Qed.
Lemma select_rows_spec {T A} (enc : T → A) (P : T → Prop) (f : A → option bool) (l : list T) :
  (∀ t, t ∈ l → decides (f (enc t)) (P t)) → NoDup l →
  rows_for enc (λ t, t ∈ l ∧ P t) (select_rows f (map enc l)).
Proof.
  intros H Hl. assert (Hg : ∃ g : T → bool, (∀ t, t ∈ l → g t = true ↔ P t) ∧ ∀ t, t ∈ l → f (enc t) = Some (g t)).
  { exists (λ t, default false (f (enc t))). split; intros t Ht; destruct (H t Ht) as (b & Hb & HP); by rewrite Hb. }
  destruct Hg as (g & Hg & Hf). exists (filter (λ t, g t = true) l). split_and!.
  - unfold select_rows. clear H Hg Hl.
    assert (E : mapM (λ a, b ← f a; Some (a, b)) (map enc l) = Some (map (λ t, (enc t, g t)) l)).
    { induction l as [|t l IH]; simpl; [done|]. rewrite Hf by left. simpl. rewrite IH; [done|]. intros u Hu. apply Hf. by right. }
    rewrite E. simpl. f_equal. clear E Hf. induction l as [|t l IH]; simpl; [done|].
    rewrite !list.filter_cons. simpl. destruct (decide (g t = true)); simpl; [f_equal|]; apply IH.
  - by apply NoDup_filter.
  - intros t. rewrite elem_of_list_filter. split.
    + intros [H1 H2]. split; [done|]. by apply Hg.
    + intros [H1 H2]. split; [by apply Hg|done].
Qed.
Lemma rows_for_where {T A} (enc : T → A) (P Q : T → Prop) (f : A → option bool) envs :
  rows_for enc P (Some envs) → (∀ t, P t → decides (f (enc t)) (Q t)) →
  rows_for enc (λ t, P t ∧ Q t) (select_rows f envs).
Proof.
  intros (l & E & Hl & HP) Hf. injection E as ->.
  eapply rows_for_iff; [apply (select_rows_spec enc Q)|]; [|done|].
  - intros t Ht. apply Hf. by apply HP.
  - intros t. simpl. by rewrite HP.
Qed.

(** The first table. *)
Lemma rows_for_first {T} (alias : string) (g : T → row) (l : list T) (e : env) :
  NoDup l → rows_for (λ t, (alias, Some (g t)) :: e) (λ t, t ∈ l) (Some ((λ r, (alias, Some r) :: e) <$> map g l)).
Proof. intros H. exists l. split_and!; [|done|done]. f_equal. change (@fmap list _) with (@map). by rewrite map_map. Qed.

Section join.
Context {T U : Type} (enc : T → env) (P : T → Prop) (alias : string) (g : U → row) (B : list U) (on : env → option bool).
Context (Q : T → U → Prop) (HB : NoDup B).
Context (Hon : ∀ t u, P t → u ∈ B → decides (on ((alias, Some (g u)) :: enc t)) (Q t u)).

Lemma join_one t : P t → ∃ us, NoDup us ∧ (∀ u, u ∈ us ↔ u ∈ B ∧ Q t u) ∧
  select_rows on ((λ r, (alias, Some r) :: enc t) <$> map g B) = Some (map (λ u, (alias, Some (g u)) :: enc t) us).
Proof.
  intros Ht. destruct (select_rows_spec (λ u, (alias, Some (g u)) :: enc t) (Q t) on B) as (us & H1 & H2 & H3).
  - intros u Hu. by apply Hon.
  - done.
  - exists us. split_and!; [done|done|]. rewrite <- H1. f_equal. change (@fmap list _) with (@map). by rewrite map_map.
Qed.

(** JOIN. *)
Lemma rows_for_join envs : rows_for enc P (Some envs) →
  rows_for (λ tu, (alias, Some (g tu.2)) :: enc tu.1) (λ tu, P tu.1 ∧ tu.2 ∈ B ∧ Q tu.1 tu.2)
    (join_rows false alias (map g B) on envs).
Proof.
  intros (l & E0 & Hl & HP). injection E0 as ->. unfold join_rows.
  assert (Hl' : ∀ t, t ∈ l → P t) by (intros t Ht; by apply HP).
  assert (∃ L, mjoin <$> mapM (λ e, l ← select_rows on ((λ r, (alias, Some r) :: e) <$> map g B);
               Some (match l with [] => [] | _ => l end)) (map enc l) =
    Some (map (λ tu, (alias, Some (g tu.2)) :: enc tu.1) L) ∧ NoDup L ∧
    ∀ tu, tu ∈ L ↔ tu.1 ∈ l ∧ tu.2 ∈ B ∧ Q tu.1 tu.2) as (L & E & HL & HLP).
  { clear HP. induction Hl as [|t l Ht Hl IH].
    { exists []. split_and!; [done|constructor|]. intros tu. split; [intros H; by apply elem_of_nil in H|intros [H _]; by apply elem_of_nil in H]. }
    destruct IH as (L & E & HL & HLP); [intros; apply Hl'; by right|].
    destruct (join_one t) as (us & H1 & H2 & H3); [apply Hl'; left|].
    exists (map (pair t) us ++ L). split_and!.
    - simpl. rewrite H3. cbn [mbind option_bind].
      destruct (mapM _ (map enc l)) as [x|]; [|done]. simpl in E. injection E as E.
      simpl. f_equal. rewrite E, map_app, map_map. f_equal. simpl. by destruct us.
    - apply NoDup_app. split_and!; [|intros [t' u'] H Hin|done].
      + apply NoDup_fmap_2; [intros ?? [= ->]; done|done].
      + apply elem_of_list_fmap in H as (u & [= -> ->] & Hu). apply HLP in Hin as [Hin _]. done.
    - intros [t' u']. rewrite elem_of_app, HLP, elem_of_cons. simpl. split.
      + intros [H|(?&?&?)]; [|by auto]. apply elem_of_list_fmap in H as (u & [= -> ->] & Hu). apply H2 in Hu as [??]. auto.
      + intros ([->|?] & ? & ?); [left|right; done]. apply elem_of_list_fmap. exists u'. split; [done|]. by apply H2. }
  exists L. split_and!; [done|done|]. intros tu. by rewrite HLP, HP.
Qed.

(** LEFT JOIN. *)
Lemma rows_for_left envs : rows_for enc P (Some envs) →
  rows_for (λ tu, (alias, g <$> tu.2) :: enc tu.1)
    (λ tu, P tu.1 ∧ match tu.2 with Some u => u ∈ B ∧ Q tu.1 u | None => ∀ u, u ∈ B → ¬ Q tu.1 u end)
    (join_rows true alias (map g B) on envs).
Proof.
  intros (l & E0 & Hl & HP). injection E0 as ->. unfold join_rows.
  assert (Hl' : ∀ t, t ∈ l → P t) by (intros t Ht; by apply HP).
  assert (∃ L, mjoin <$> mapM (λ e, l ← select_rows on ((λ r, (alias, Some r) :: e) <$> map g B);
               Some (match l with [] => [(alias, None) :: e] | _ => l end)) (map enc l) =
    Some (map (λ tu, (alias, g <$> tu.2) :: enc tu.1) L) ∧ NoDup L ∧
    ∀ tu, tu ∈ L ↔ tu.1 ∈ l ∧ match tu.2 with Some u => u ∈ B ∧ Q tu.1 u | None => ∀ u, u ∈ B → ¬ Q tu.1 u end)
    as (L & E & HL & HLP).
  { clear HP. induction Hl as [|t l Ht Hl IH].
    { exists []. split_and!; [done|constructor|]. intros tu. split; [intros H; by apply elem_of_nil in H|intros [H _]; by apply elem_of_nil in H]. }
    destruct IH as (L & E & HL & HLP); [intros; apply Hl'; by right|].
    destruct (join_one t) as (us & H1 & H2 & H3); [apply Hl'; left|].
    exists (match us with [] => [(t, None)] | _ => map (λ u, (t, Some u)) us end ++ L). split_and!.
    - simpl. rewrite H3. cbn [mbind option_bind].
      destruct (mapM _ (map enc l)) as [x|]; [|done]. simpl in E. injection E as E.
      simpl. f_equal. rewrite E, map_app. f_equal. destruct us as [|u us]; [done|]. simpl. f_equal. by rewrite map_map.
    - apply NoDup_app. split_and!; [|intros [t' u'] H Hin|done].
      + destruct us as [|u us]; [apply NoDup_singleton|]. apply (NoDup_fmap_2_strong (λ u, (t, Some u))); [intros ?? _ _ [= ->]; done|done].
      + apply HLP in Hin as [Hin _]. simpl in Hin. destruct us as [|u us].
        * apply elem_of_list_singleton in H. by injection H as -> ->.
        * apply elem_of_list_fmap in H as (? & [= -> ->] & ?). done.
    - intros [t' u']. rewrite elem_of_app, HLP, elem_of_cons. simpl. split.
      + intros [H|(?&?)]; [|by auto]. destruct us as [|u us].
        * apply elem_of_list_singleton in H. injection H as -> ->. split; [by left|]. intros u Hu HQ.
          assert (u ∈ []) as Hn by (by apply H2). by apply elem_of_nil in Hn.
        * apply elem_of_list_fmap in H as (u'' & [= -> ->] & Hu). split; [by left|]. by apply H2.
      + intros ([->|?] & Hu); [left|right; done]. destruct u' as [u'|].
        * apply H2 in Hu. destruct us as [|u us]; [by apply elem_of_nil in Hu|]. apply elem_of_list_fmap. by exists u'.
        * destruct us as [|u us]; [left|]. assert (u ∈ u :: us) as Hin by left. apply H2 in Hin as [??]. by destruct (Hu u). }
  exists L. split_and!; [done|done|]. intros tu. by rewrite HLP, HP.
Qed.
End join.

(** * Queries *)

(** The joins of a query. *)
Fixpoint join_all (st : store) (ps : list value) (l : list (bool * string * string * string * expr)) (envs : list env) :
    option (list env) :=
  match l with
  | [] => Some envs
  | (outer, s, t, a, on) :: l =>
      rows ← st_table st s t;
      envs ← join_rows outer a rows (λ e, v ← eval st ps e on; holds v) envs;
      join_all st ps l envs
  end.
(** The output rows for one row of the joined tables. *)
Definition project (st : store) (ps : list value) (items : list (expr * option (form * string))) (order : list (expr * bool))
    (e : env) : option (list (list value * list value)) :=
  outs ← mapM (λ '(x, _),
           match x with
           | Call None f [a] =>
               v ← eval st ps e a;
               if decide (f = "unnest") then unnest v else v ← st_function st None f [v]; Some [v]
           | _ => v ← eval st ps e x; Some [v]
           end) items;
  mapM (λ out,
    keys ← mapM (λ '(x, _),
             match x with
             | Out l => i ← position l items.*2; out !! i
             | Num n => out !! Z.to_nat (n - 1)
             | _ => eval st ps e x
             end) order;
    Some (out, keys)) (choices outs).
Lemma eval_query_select st ps e items schema table alias joins c order :
  eval_query st ps e (Select items schema table alias joins (Some c) order) =
    first ← st_table st schema table;
    envs ← join_all st ps joins ((λ r, (alias, Some r) :: e) <$> first);
    envs ← select_rows (λ e, v ← eval st ps e c; holds v) envs;
    mjoin <$> mapM (project st ps items order) envs.
Proof.
  cbn [eval_query]. destruct (st_table st schema table) as [first|]; [|done]. cbn [mbind option_bind].
  f_equal. generalize ((λ r, (alias, Some r) :: e) <$> first). clear first.
  induction joins as [|[[[[outer s] t] a] on] joins IH]; intros envs; [done|]. cbn [join_all].
  destruct (st_table st s t) as [rows|]; [|done]. cbn [mbind option_bind].
  destruct (join_rows _ _ _ _ _) as [envs'|]; [|done]. cbn [mbind option_bind]. apply IH.
Qed.

Lemma rows_for_project {T} (enc : T → env) (P : T → Prop) (f : T → list value * list value) st ps items order envs :
  rows_for enc P (Some envs) → (∀ t, P t → project st ps items order (enc t) = Some [f t]) →
  rows_for f P (mjoin <$> mapM (project st ps items order) envs).
Proof.
  intros (l & E0 & Hl & HP) H. injection E0 as ->. exists l. split_and!; [|done|done].
  assert (Hl' : ∀ t, t ∈ l → P t) by (intros t Ht; by apply HP). clear HP Hl.
  induction l as [|t l IH]; [done|]. simpl. rewrite H by (apply Hl'; left). simpl.
  destruct (mapM _ _) as [x|]; simpl in *; [|by discriminate IH; intros; apply Hl'; right].
  f_equal. assert (Some (mjoin x) = Some (map f l)) as [= ->]; [|done]. apply IH. intros. apply Hl'. by right.
Qed.

(** What a query yields, if its rows are known up to the order. *)
Lemma yields_rows {T} (f : T → list value * list value) (P : T → Prop) st ps q rows :
  rows_for f P (eval_query st ps [] q) → yields st ps q rows →
  ∃ l, NoDup l ∧ (∀ t, t ∈ l ↔ P t) ∧
    StronglySorted (λ a b, keys_le st (descending q) (f a).2 (f b).2 = true) l ∧ rows = map (λ t, (f t).1) l.
Proof.
  intros (l & H1 & H2 & H3) (raw & sorted & K1 & K2 & K3 & ->).
  assert (raw = map f l) as -> by congruence.
  apply Permutation_map_inv in K2 as (l' & -> & Hp). exists l'. split_and!.
  - by rewrite <- Hp.
  - intros t. by rewrite <- Hp, H3.
  - clear -K3. induction l' as [|t l' IH]; [constructor|]. inversion_clear K3 as [|?? H1 H2]. constructor; [by apply IH|].
    apply Forall_forall. intros u Hu. rewrite Forall_forall in H2. apply (H2 (f u)). apply elem_of_list_fmap. eauto.
  - change (@fmap list _) with (@map). by rewrite map_map.
Qed.

(** * Evaluating a query step by step *)

Section steps.
Context {R : Type} (f : R → list value * list value) (Z : R → Prop).
Context (st : store) (ps : list value).

Lemma select_start {T} items schema table alias joins c order e (g : T → row) (B : list T) :
  st_table st schema table = Some (map g B) → NoDup B →
  (∀ envs, rows_for (λ t, (alias, Some (g t)) :: e) (λ t, t ∈ B) (Some envs) →
     rows_for f Z (join_all st ps joins envs ≫= λ envs, select_rows (λ e, v ← eval st ps e c; holds v) envs ≫=
       λ envs, mjoin <$> mapM (project st ps items order) envs)) →
  rows_for f Z (eval_query st ps e (Select items schema table alias joins (Some c) order)).
Proof. intros H1 H2 H3. rewrite eval_query_select, H1. cbn [mbind option_bind]. apply H3. by apply rows_for_first. Qed.
Lemma select_join {T U} (enc : T → env) (P : T → Prop) (Q : T → U → Prop) s t a on l k envs (g : U → row) (B : list U) :
  rows_for enc P (Some envs) → st_table st s t = Some (map g B) → NoDup B →
  (∀ t u, P t → u ∈ B → tells (eval st ps ((a, Some (g u)) :: enc t) on) (Q t u)) →
  (∀ envs', rows_for (λ tu, (a, Some (g tu.2)) :: enc tu.1) (λ tu, P tu.1 ∧ tu.2 ∈ B ∧ Q tu.1 tu.2) (Some envs') →
     rows_for f Z (join_all st ps l envs' ≫= k)) →
  rows_for f Z (join_all st ps ((false, s, t, a, on) :: l) envs ≫= k).
Proof.
  intros H1 H2 H3 H4 H5. cbn [join_all]. rewrite H2. cbn [mbind option_bind].
  destruct (rows_for_join enc P a g B (λ e, v ← eval st ps e on; holds v) Q H3) with (envs := envs) as (L & E & HL).
  - intros x u Hx Hu. apply tells_holds. by apply H4.
  - done.
  - rewrite E. cbn [mbind option_bind]. apply H5. by exists L.
Qed.
Lemma select_left {T U} (enc : T → env) (P : T → Prop) (Q : T → U → Prop) s t a on l k envs (g : U → row) (B : list U) :
  rows_for enc P (Some envs) → st_table st s t = Some (map g B) → NoDup B →
  (∀ t u, P t → u ∈ B → tells (eval st ps ((a, Some (g u)) :: enc t) on) (Q t u)) →
  (∀ envs', rows_for (λ tu, (a, g <$> tu.2) :: enc tu.1)
       (λ tu, P tu.1 ∧ match tu.2 with Some u => u ∈ B ∧ Q tu.1 u | None => ∀ u, u ∈ B → ¬ Q tu.1 u end) (Some envs') →
     rows_for f Z (join_all st ps l envs' ≫= k)) →
  rows_for f Z (join_all st ps ((true, s, t, a, on) :: l) envs ≫= k).
Proof.
  intros H1 H2 H3 H4 H5. cbn [join_all]. rewrite H2. cbn [mbind option_bind].
  destruct (rows_for_left enc P a g B (λ e, v ← eval st ps e on; holds v) Q H3) with (envs := envs) as (L & E & HL).
  - intros x u Hx Hu. apply tells_holds. by apply H4.
  - done.
  - rewrite E. cbn [mbind option_bind]. apply H5. by exists L.
Qed.
End steps.
Lemma bind_some {A B} (a : A) (k : A → option B) : (Some a ≫= k) = k a.
Proof. done. Qed.
Lemma select_end {T R} (enc : T → env) (P Q : T → Prop) (π : T → R) (f : R → list value * list value) (Z : R → Prop)
    st ps c items order envs :
  rows_for enc P (Some envs) →
  (∀ t, P t → tells (eval st ps (enc t) c) (Q t)) →
  (∀ t, P t → Q t → project st ps items order (enc t) = Some [f (π t)]) →
  (∀ t u, P t → Q t → P u → Q u → π t = π u → t = u) →
  (∀ r, Z r ↔ ∃ t, P t ∧ Q t ∧ π t = r) →
  rows_for f Z (join_all st ps [] envs ≫= λ envs, select_rows (λ e, v ← eval st ps e c; holds v) envs ≫=
    λ envs, mjoin <$> mapM (project st ps items order) envs).
Proof.
  intros H1 H2 H3 H4 H5. cbn [join_all]. rewrite bind_some.
  destruct (rows_for_where enc P Q (λ e, v ← eval st ps e c; holds v) envs H1) as (l & E & Hl & HP).
  { intros t Ht. apply tells_holds. by apply H2. }
  rewrite E, bind_some.
  destruct (rows_for_project enc (λ t, P t ∧ Q t) (λ t, f (π t)) st ps items order (map enc l)) as (l' & E' & Hl' & HP').
  { by exists l. }
  { intros t [??]. by apply H3. }
  exists (map π l'). split_and!.
  - rewrite E'. by rewrite map_map.
  - apply (NoDup_fmap_2_strong π); [|done]. intros x y Hx Hy. apply HP' in Hx as [??], Hy as [??]. by apply H4.
  - intros r. rewrite H5. change (map π l') with (π <$> l'). rewrite elem_of_list_fmap. split.
    + intros (t & -> & [??]%HP'). eauto.
    + intros (t & ? & ? & <-). exists t. split; [done|]. by apply HP'.
Qed.
