(** Proofs about graph edits and DependencyGraph. *)
From stdpp Require Import gmap sets list strings relations.
From Verif Require Import GoBase GoBaseProofs DagModel DagSpec DagProofs.

(** * Graph edits refine the abstract (nodes, edges) pair *)
Definition rep (g : digraph) (a : agraph) : Prop :=
  ag_nodes a = dom g ∧ ∀ n m, (n, m) ∈ ag_edges a ↔ edge g n m.

Lemma edge_insert g n X x y :
  edge (<[n := X]> g) x y ↔ (x = n ∧ y ∈ X) ∨ (x ≠ n ∧ edge g x y).
Proof.
  unfold edge. destruct (decide (x = n)) as [->|Hne].
  - rewrite lookup_insert. split.
    + intros (? & [= <-] & ?). by left.
    + intros [[_ ?]|[? _]]; [|done]. eauto.
  - rewrite lookup_insert_ne by done. naive_solver.
Qed.

Lemma edge_some g n X y : g !! n = Some X → edge g n y ↔ y ∈ X.
Proof. intros H. unfold edge. rewrite H. naive_solver. Qed.

Lemma edge_none g n y : g !! n = None → ¬ edge g n y.
Proof. intros H (? & ? & ?). congruence. Qed.

Lemma add_edge_rep g a n m : rep g a → rep (add_edge g n m) (a_add_edge a n m).
Proof.
  intros [Hn He]. unfold add_edge.
  set (g1 := match g !! n with Some s => _ | None => _ end).
  assert (dom g1 = {[n]} ∪ dom g ∧ ∀ x y, edge g1 x y ↔ edge g x y ∨ (x, y) = (n, m))
    as [Hd1 He1].
  { subst g1. destruct (g !! n) as [X|] eqn:Hgn.
    - split; [by rewrite dom_insert_L|]. intros x y. rewrite edge_insert. unfold ns_add.
      rewrite elem_of_union, elem_of_singleton. destruct (decide (x = n)) as [->|].
      + rewrite (edge_some _ _ _ _ Hgn). naive_solver.
      + naive_solver.
    - split; [by rewrite dom_insert_L|]. intros x y. rewrite edge_insert.
      rewrite elem_of_singleton. destruct (decide (x = n)) as [->|].
      + pose proof (edge_none _ _ y Hgn). naive_solver.
      + naive_solver. }
  unfold a_add_edge. destruct (g1 !! m) as [Y|] eqn:Hgm.
  - split; simpl.
    + rewrite Hd1, Hn. assert (m ∈ dom g1) by (apply elem_of_dom; eauto). set_solver.
    + intros x y. rewrite elem_of_union, elem_of_singleton, He1, He. naive_solver.
  - split; simpl.
    + rewrite dom_insert_L, Hd1, Hn. set_solver.
    + intros x y. rewrite elem_of_union, elem_of_singleton, edge_insert, He1, He.
      rewrite elem_of_empty. destruct (decide (x = m)) as [->|]; [|naive_solver].
      assert (¬ edge g1 m y) as H by (by apply edge_none). rewrite He1 in H. naive_solver.
Qed.

Lemma add_edges_rep ms : ∀ g a n,
  rep g a → rep (add_edges g n ms) (foldl (λ g m, a_add_edge g n m) a ms).
Proof.
  unfold add_edges. induction ms as [|m ms IH]; intros g a n H; simpl; [done|].
  apply IH. by apply add_edge_rep.
Qed.

Lemma remove_edge_edge g n m x y : edge (remove_edge g n m) x y ↔ edge g x y ∧ (x, y) ≠ (n, m).
Proof.
  unfold remove_edge. destruct (g !! n) as [X|] eqn:Hgn.
  - rewrite edge_insert. unfold ns_remove. rewrite elem_of_difference, elem_of_singleton.
    destruct (decide (x = n)) as [->|]; [rewrite (edge_some _ _ _ _ Hgn)|]; naive_solver.
  - split; [|naive_solver]. intros H. split; [done|]. intros [= -> ->].
    by eapply edge_none.
Qed.

Lemma remove_edge_dom g n m : dom (remove_edge g n m) = dom g.
Proof.
  unfold remove_edge. destruct (g !! n) as [X|] eqn:Hgn; [|done].
  rewrite dom_insert_L. assert (n ∈ dom g) by (apply elem_of_dom; eauto). set_solver.
Qed.

Lemma remove_node_fold order : ∀ g n,
  dom (foldl (λ g k, remove_edge g k n) g order) = dom g ∧
  ∀ x y, edge (foldl (λ g k, remove_edge g k n) g order) x y ↔
         edge g x y ∧ ¬ (x ∈ order ∧ y = n).
Proof.
  induction order as [|k order IH]; intros g n; simpl.
  - split; [done|]. intros x y. rewrite elem_of_nil. naive_solver.
  - destruct (IH (remove_edge g k n) n) as [H1 H2]. split.
    + by rewrite H1, remove_edge_dom.
    + intros x y. rewrite H2, remove_edge_edge, elem_of_cons.
      destruct (decide (x = k)); destruct (decide (y = n)); naive_solver.
Qed.

Lemma edge_delete g n x y : edge (delete n g) x y ↔ edge g x y ∧ x ≠ n.
Proof.
  unfold edge. destruct (decide (x = n)) as [->|].
  - rewrite lookup_delete. naive_solver.
  - rewrite lookup_delete_ne by done. naive_solver.
Qed.

Lemma exec_op_rep g a r o :
  ok_map_ranger r → rep g a → rep (exec_op g (r, o)) (a_op a o).
Proof.
  intros Hr Hrep. destruct o as [n m|n ms|n m|n]; simpl.
  - by apply add_edge_rep.
  - by apply add_edges_rep.
  - destruct Hrep as [Hn He]. split; simpl.
    + by rewrite remove_edge_dom.
    + intros x y. rewrite remove_edge_edge, elem_of_difference, elem_of_singleton, He. done.
  - destruct Hrep as [Hn He]. unfold remove_node.
    destruct (remove_node_fold (r g) g n) as [H1 H2]. split; simpl.
    + rewrite dom_delete_L, H1, Hn. done.
    + intros x y. rewrite edge_delete, H2, elem_of_filter, He. simpl.
      split; [naive_solver|]. intros [[Hxy Hnot] Hx]. split; [|done]. split; [done|].
      intros ->. apply Hnot. split; [|done]. apply (range_of_elem _ _ _ (Hr g)).
      destruct Hxy as (X & HX & _). apply elem_of_dom. eauto.
Qed.

Lemma rep_has_node g a n : rep g a → has_node g n = a_has_node a n.
Proof.
  intros [Hn _]. unfold has_node, a_has_node. rewrite Hn.
  destruct (g !! n) as [X|] eqn:Hg; symmetry.
  - apply bool_decide_eq_true, elem_of_dom. eauto.
  - apply bool_decide_eq_false. by apply not_elem_of_dom.
Qed.

Lemma size_pair_image (n : string) (X : gset string) (Y : gset (string * string)) :
  (∀ e, e ∈ Y ↔ e.1 = n ∧ e.2 ∈ X) → size Y = size X.
Proof.
  intros H. unfold size, set_size. simpl.
  assert (elements Y ≡ₚ map (pair n) (elements X)) as Hp.
  { apply NoDup_Permutation.
    - apply NoDup_elements.
    - apply NoDup_fmap_2; [intros ?? [= ->]; done|apply NoDup_elements].
    - intros [a b]. rewrite elem_of_elements, H. rewrite elem_of_list_fmap. simpl. split.
      + intros [-> Hb]. exists b. by rewrite elem_of_elements.
      + intros (b' & [= -> ->] & Hb). by rewrite elem_of_elements in Hb. }
  rewrite (Permutation_length Hp), map_length. done.
Qed.

Lemma rep_out_degree g a n : rep g a → out_degree g n = a_out_degree a n.
Proof.
  intros [_ He]. unfold out_degree, a_out_degree.
  destruct (g !! n) as [X|] eqn:Hg; symmetry.
  - apply (size_pair_image n). intros [x y]. rewrite elem_of_filter, He. simpl.
    split; intros [-> H]; (split; [done|]); by apply (edge_some g n X).
  - apply size_empty_iff. intros [x y]. rewrite elem_of_filter, He. simpl.
    split; [|by intros ?%elem_of_empty]. intros [-> H]. by eapply edge_none in H.
Qed.

Definition a_closed (a : agraph) : Prop :=
  ∀ n m, (n, m) ∈ ag_edges a → m ∈ ag_nodes a ∧ n ∈ ag_nodes a.

Lemma a_add_edge_closed a n m : a_closed a → a_closed (a_add_edge a n m).
Proof.
  intros Hc x y. unfold a_add_edge. simpl. rewrite elem_of_union, elem_of_singleton.
  intros [[= -> ->]|H]; [set_solver|]. destruct (Hc _ _ H). set_solver.
Qed.

Lemma a_op_closed a o : a_closed a → a_closed (a_op a o).
Proof.
  intros Hc. destruct o as [n m|n ms|n m|n]; simpl.
  - by apply a_add_edge_closed.
  - revert a Hc. induction ms as [|m ms IH]; intros a Hc; simpl; [done|].
    by apply IH, a_add_edge_closed.
  - intros x y. simpl. rewrite elem_of_difference. intros [H _]. by apply Hc.
  - intros x y. simpl. rewrite elem_of_filter. intros [[Hx Hy] H]. simpl in *.
    destruct (Hc _ _ H). set_solver.
Qed.

Lemma exec_ops_spec ops : ∀ g a,
  rep g a → a_closed a → Forall (λ ro, ok_map_ranger ro.1) ops →
  rep (foldl exec_op g ops) (foldl a_op a ops.*2) ∧ a_closed (foldl a_op a ops.*2).
Proof.
  induction ops as [|[r o] ops IH]; intros g a Hrep Hc Hok; simpl; [done|].
  apply Forall_cons in Hok as [Hr Hok]. apply IH; [|by apply a_op_closed|done].
  by apply exec_op_rep.
Qed.

Lemma rep_closed g a : rep g a → a_closed a → closed g.
Proof.
  intros [Hn He] Hc n m Hnm. rewrite <-Hn. apply (Hc n). by apply He.
Qed.

Lemma rep_exists g : closed g → ∃ a, rep g a ∧ a_closed a.
Proof.
  intros Hc.
  exists (AGraph (dom g) (list_to_set (concat (map (λ n, map (pair n)
            (elements (default ∅ (g !! n)))) (elements (dom g)))))).
  assert (rep g (AGraph (dom g) (list_to_set (concat (map (λ n, map (pair n)
            (elements (default ∅ (g !! n)))) (elements (dom g))))))) as Hrep.
  { split; [done|]. intros n m. simpl. rewrite elem_of_list_to_set.
    rewrite elem_of_list_In, in_concat. split.
    - intros (l & Hl & Hin). apply in_map_iff in Hl as (k & <- & Hk).
      apply in_map_iff in Hin as (y & [= -> ->] & Hy).
      apply elem_of_list_In, elem_of_elements in Hy.
      destruct (g !! n) as [X|] eqn:HX; [|by apply elem_of_empty in Hy].
      exists X. done.
    - intros (X & HX & Hm). exists (map (pair n) (elements X)). split.
      + apply in_map_iff. exists n. rewrite HX. split; [done|].
        apply elem_of_list_In, elem_of_elements, elem_of_dom. eauto.
      + apply in_map_iff. exists m. split; [done|]. by apply elem_of_list_In, elem_of_elements. }
  split; [done|]. destruct Hrep as [Hn He]. intros n m H%He. simpl. split; [by eapply Hc|].
  destruct H as (X & HX & _). apply elem_of_dom. eauto.
Qed.

(** * DependencyGraph *)
Lemma add_dependency_fold n ms : ∀ g Y,
  dg_dependencies g !! n = Some Y →
  let g' := foldl (add_dependency n) g ms in
  dg_dependencies g' = <[ n := list_to_set ms ∪ Y ]> (dg_dependencies g) ∧
  (∀ k m, k ∈ default ∅ (dg_dependents g' !! m) ↔
          k ∈ default ∅ (dg_dependents g !! m) ∨ (k = n ∧ m ∈ ms)) ∧
  dg_pending g' = dg_pending g.
Proof.
  induction ms as [|m ms IH]; intros g Y HY; simpl.
  - split; [|split; [|done]].
    + rewrite (left_id_L ∅ (∪)), insert_id; done.
    + intros k m. rewrite elem_of_nil. naive_solver.
  - destruct (IH (add_dependency n g m) (ns_add Y m)) as (H1 & H2 & H3).
    { simpl. rewrite lookup_insert, HY. done. }
    split; [|split].
    + rewrite H1. simpl. rewrite insert_insert. f_equal. unfold ns_add. set_solver.
    + intros k x. rewrite H2. simpl. destruct (decide (x = m)) as [->|Hne].
      * rewrite lookup_insert. simpl. unfold ns_add.
        rewrite elem_of_union, elem_of_singleton, elem_of_cons. naive_solver.
      * rewrite lookup_insert_ne by done. rewrite elem_of_cons. naive_solver.
    + by rewrite H3.
Qed.

Lemma fill_dependencies_fold d inner order : ok_set_ranger inner → ∀ g,
  NoDup order →
  let g' := fill_dependencies order inner d g in
  (∀ n, dg_dependencies g' !! n =
        if decide (n ∈ order) then Some (default ∅ (d !! n)) else dg_dependencies g !! n) ∧
  (∀ k m, k ∈ default ∅ (dg_dependents g' !! m) ↔
          k ∈ default ∅ (dg_dependents g !! m) ∨ (k ∈ order ∧ m ∈ default ∅ (d !! k))) ∧
  dg_pending g' = dg_pending g.
Proof.
  intros Hi. unfold fill_dependencies. induction order as [|n order IH]; intros g Hnd; simpl.
  { split; [done|]. split; [|done]. intros k m. rewrite elem_of_nil. naive_solver. }
  apply NoDup_cons in Hnd as [Hn Hnd].
  set (g0 := DepGraph (<[n:=∅]> (dg_dependencies g)) (dg_dependents g) (dg_pending g)).
  destruct (add_dependency_fold n (inner (default ∅ (d !! n))) g0 ∅) as (A1 & A2 & A3).
  { apply lookup_insert. }
  set (g1 := foldl (add_dependency n) g0 (inner (default ∅ (d !! n)))) in *.
  destruct (IH g1 Hnd) as (H1 & H2 & H3). split; [|split].
  - intros x. rewrite H1. destruct (decide (x ∈ order)) as [Hx|Hx].
    + rewrite decide_True; [done|by right].
    + rewrite A1. simpl. rewrite insert_insert. destruct (decide (x = n)) as [->|Hne].
      * rewrite lookup_insert, decide_True by (by left). f_equal.
        apply set_eq. intros y. rewrite elem_of_union, elem_of_list_to_set, elem_of_empty.
        rewrite (range_of_set_elem _ _ _ (Hi _)). naive_solver.
      * rewrite lookup_insert_ne by done. rewrite decide_False; [done|].
        by intros [?|?]%elem_of_cons.
  - intros k m. rewrite H2, A2. simpl. rewrite elem_of_cons.
    rewrite (range_of_set_elem _ _ _ (Hi _)). naive_solver.
  - by rewrite H3, A3.
Qed.

Lemma remove_completed_spec c order : NoDup order → ∀ deps n,
  remove_completed order deps c !! n =
    if decide (n ∈ order) then (λ X, X ∖ {[ c ]}) <$> (deps !! n) else deps !! n.
Proof.
  intros Hnd. induction order as [|k order IH]; intros deps n; simpl; [done|].
  apply NoDup_cons in Hnd as [Hk Hnd].
  unfold remove_completed in *. simpl. rewrite (IH Hnd).
  destruct (decide (n = k)) as [->|Hne].
  - rewrite decide_False by done. rewrite decide_True by (by left).
    destruct (deps !! k) as [X|] eqn:HX; [|done]. by rewrite lookup_insert.
  - destruct (decide (n ∈ order)) as [Hn|Hn].
    + rewrite decide_True by (by right).
      destruct (deps !! k) as [X|] eqn:HX; [|done]. by rewrite lookup_insert_ne.
    + rewrite decide_False by (by intros [?|?]%elem_of_cons).
      destruct (deps !! k) as [X|] eqn:HX; [|done]. by rewrite lookup_insert_ne.
Qed.

Lemma dg_ready_true deps x : dg_ready deps x = true ↔ default ∅ (deps !! x) = ∅.
Proof.
  unfold dg_ready, ns_size. rewrite bool_decide_eq_true.
  rewrite <-(leibniz_equiv_iff (default ∅ (deps !! x)) ∅), <-size_empty_iff. lia.
Qed.

Lemma pop_ready_spec deps pending :
  let '(r, p) := pop_ready deps pending in
  pending = r ++ p ∧ (∀ x, x ∈ r → dg_ready deps x = true) ∧
  (∀ h t, p = h :: t → dg_ready deps h = false).
Proof.
  induction pending as [|x xs IH]; simpl.
  - split; [done|]. split; [by intros ? ?%elem_of_nil|done].
  - destruct (dg_ready deps x) eqn:Hx.
    + destruct (pop_ready deps xs) as [r p]. destruct IH as (-> & H1 & H2).
      split; [done|]. split; [|done].
      intros y [->|Hy]%elem_of_cons; [done|by apply H1].
    + split; [done|]. split; [by intros ? ?%elem_of_nil|]. by intros h t [= <- <-].
Qed.

Lemma filter_all_true (P : string → Prop) `{HP : !∀ x, Decision (P x)} (l : list string) :
  (∀ x, x ∈ l → P x) → filter P l = l.
Proof.
  induction l as [|x l IH]; intros H; [done|]. rewrite filter_cons_True.
  - f_equal. apply IH. intros y Hy. apply H. by right.
  - apply H. by left.
Qed.

Lemma filter_ext_in (P Q : string → Prop) `{HP : !∀ x, Decision (P x), HQ : !∀ x, Decision (Q x)} (l : list string) :
  (∀ x, x ∈ l → P x ↔ Q x) → filter P l = filter Q l.
Proof.
  induction l as [|x l IH]; intros H; [done|].
  rewrite !filter_cons. rewrite IH by (intros y Hy; apply H; by right).
  assert (P x ↔ Q x) as Hx by (apply H; by left).
  destruct (decide (P x)), (decide (Q x)); naive_solver.
Qed.

Lemma scan_ready_spec deps : ∀ rest,
  NoDup rest →
  let '(r, k) := scan_ready deps rest in
  (∀ x, x ∈ r → x ∈ rest ∧ dg_ready deps x = true) ∧ NoDup r ∧
  k = filter (λ x, x ∉ r) rest ∧
  (r = [] → ∀ x, x ∈ rest → dg_ready deps x = false).
Proof.
  intros rest. remember (length rest) as n eqn:Hn. revert rest Hn.
  induction (lt_wf n) as [n _ IH]. intros rest -> Hnd.
  destruct rest as [|p rest]; simpl.
  { split; [by intros ? ?%elem_of_nil|]. split; [constructor|].
    split; [done|]. by intros _ ? ?%elem_of_nil. }
  apply NoDup_cons in Hnd as [Hp Hnd]. destruct (dg_ready deps p) eqn:Hpr.
  - destruct rest as [|q rest].
    + split; [by intros x ->%elem_of_list_singleton; split; [left|]|].
      split; [apply NoDup_singleton|]. split; [|done].
      rewrite filter_cons_False; [done|]. intros H. apply H. by left.
    + specialize (IH (length rest)). feed specialize IH; [simpl; lia|].
      apply NoDup_cons in Hnd as [Hq Hnd].
      specialize (IH rest eq_refl Hnd). destruct (scan_ready deps rest) as [r k].
      destruct IH as (H1 & H2 & H3 & H4). split; [|split; [|split]].
      * intros x [->|Hx]%elem_of_cons; [split; [by left|done]|].
        destruct (H1 x Hx). split; [|done]. by do 2 right.
      * constructor; [|done]. intros Hin. destruct (H1 p Hin). apply Hp. by right.
      * rewrite filter_cons_False by (intros H; apply H; by left).
        rewrite filter_cons_True.
        2:{ intros [->|Hin]%elem_of_cons; [apply Hp; by left|]. by destruct (H1 q Hin). }
        f_equal. rewrite H3. apply filter_ext_in. intros x Hx.
        rewrite not_elem_of_cons. split; [|naive_solver]. intros ?. split; [|done].
        intros ->. apply Hp. by right.
      * done.
  - specialize (IH (length rest)). feed specialize IH; [simpl; lia|].
    specialize (IH rest eq_refl Hnd). destruct (scan_ready deps rest) as [r k].
    destruct IH as (H1 & H2 & H3 & H4). split; [|split; [|split]].
    + intros x Hx. destruct (H1 x Hx). split; [by right|done].
    + done.
    + rewrite filter_cons_True; [by rewrite H3|]. intros Hin. by destruct (H1 p Hin).
    + intros Hr x [->|Hx]%elem_of_cons; [done|]. by apply H4.
Qed.

(** Next, summarised: what is released, what stays, what is known about the rest. *)
Lemma dg_next_spec r g c g' out :
  NoDup (dg_pending g) → dg_next r g c = (g', out) →
  let deps := remove_completed (r (default ∅ (dg_dependents g !! c))) (dg_dependencies g) c in
  dg_dependencies g' = deps ∧ dg_dependents g' = dg_dependents g ∧
  (∀ x, x ∈ out → x ∈ dg_pending g ∧ dg_ready deps x = true) ∧ NoDup out ∧
  dg_pending g' = filter (λ x, x ∉ out) (dg_pending g) ∧
  (out = [] → ∀ x, x ∈ dg_pending g' → dg_ready deps x = false) ∧
  (∀ h t, dg_pending g' = h :: t → dg_ready deps h = false).
Proof.
  intros Hnd Heq. unfold dg_next in Heq.
  set (deps := remove_completed _ _ _) in *. simpl.
  pose proof (pop_ready_spec deps (dg_pending g)) as Hpop.
  destruct (pop_ready deps (dg_pending g)) as [r1 p]. destruct Hpop as (Hp & Hr1 & Hh).
  rewrite Hp in Hnd. apply NoDup_app in Hnd as (Hnd1 & Hdisj & Hnd2).
  destruct p as [|h rest].
  - injection Heq as <- <-. simpl. rewrite app_nil_r in Hp.
    split; [done|]. split; [done|]. split; [|split; [done|split; [|split]]].
    + intros x Hx. split; [by rewrite Hp|by apply Hr1].
    + symmetry. rewrite Hp. clear. assert (∀ l : list string, (∀ x, x ∈ l → x ∈ r1) → filter (λ x, x ∉ r1) l = []) as H.
      { induction l as [|x l IH]; intros H; [done|]. rewrite filter_cons_False.
        - apply IH. intros y Hy. apply H. by right.
        - intros Hn. apply Hn, H. by left. }
      by apply H.
    + by intros _ ? ?%elem_of_nil.
    + done.
  - apply NoDup_cons in Hnd2 as [Hhr Hnd2].
    pose proof (scan_ready_spec deps rest Hnd2) as Hsc.
    destruct (scan_ready deps rest) as [r2 k]. destruct Hsc as (S1 & S2 & S3 & S4).
    injection Heq as <- <-. simpl.
    specialize (Hh h rest eq_refl).
    split; [done|]. split; [done|]. split; [|split; [|split; [|split]]].
    + intros x [Hx|Hx]%elem_of_app.
      * split; [|by apply Hr1]. rewrite Hp. apply elem_of_app. by left.
      * destruct (S1 x Hx). split; [|done]. rewrite Hp. apply elem_of_app. right. by right.
    + apply NoDup_app. split; [done|]. split; [|done]. intros x Hx1 Hx2.
      destruct (S1 x Hx2). apply (Hdisj x); [done|by right].
    + rewrite Hp. rewrite filter_app. rewrite filter_cons_True.
      2:{ intros [Hx|Hx]%elem_of_app.
          - apply (Hdisj h); [done|by left].
          - by destruct (S1 h Hx). }
      replace (filter (λ x, x ∉ r1 ++ r2) r1) with (@nil string).
      * simpl. f_equal. rewrite S3. apply filter_ext_in. intros x Hx.
        rewrite not_elem_of_app. split; [|naive_solver]. intros ?. split; [|done].
        intros Hx1. apply (Hdisj x); [done|by right].
      * symmetry. clear. assert (∀ l : list string, (∀ x, x ∈ l → x ∈ r1) → filter (λ x, x ∉ r1 ++ r2) l = []) as H.
        { induction l as [|x l IH]; intros H; [done|]. rewrite filter_cons_False.
          - apply IH. intros y Hy. apply H. by right.
          - intros Hn. apply Hn, elem_of_app. left. apply H. by left. }
        by apply H.
    + intros [-> ->]%app_eq_nil x [->|Hx]%elem_of_cons; [done|].
      apply S4; [done|]. rewrite S3 in Hx. by apply elem_of_list_filter in Hx as [_ ?].
    + by intros h' t [= <- <-].
Qed.

(** The invariant: [C] = names passed so far, [rel] = names released so far. *)
Record DInv (nodes : gmap string (list string)) (g : depgraph) (C rel : list string) : Prop := {
  di_deps : ∀ n ms, nodes !! n = Some ms →
      dg_dependencies g !! n = Some (list_to_set ms ∖ list_to_set C);
  di_dependents : ∀ n m, n ∈ default ∅ (dg_dependents g !! m) ↔ listed nodes n m;
  di_nodup : NoDup (rel ++ dg_pending g);
  di_all : ∀ x, x ∈ rel ++ dg_pending g ↔ x ∈ dom nodes;
  di_order : ∀ l1 x l2, dg_pending g = l1 ++ x :: l2 →
      ∀ m, listed nodes x m → m ∈ rel ∨ m ∈ l1;
  di_released : ∀ x m, x ∈ rel → listed nodes x m → m ∈ C;
}.

Lemma new_dependency_graph_total nodes o :
  ok_dag_orders nodes o →
  ∃ r, new_dependency_graph o nodes = Some r ∧
    match r with
    | inl (InvalidEdge n m) => listed nodes n m ∧ m ∉ dom nodes
    | inl (CircularDependency c) => ¬ dangling nodes ∧ circular nodes ∧
        ("" ∉ dom nodes → ∀ g, dom g = dom nodes → (∀ n m, edge g n m ↔ listed nodes n m) →
                          reported_cycle g c)
    | inr g => ¬ dangling nodes ∧ ¬ circular nodes ∧ DInv nodes g [] []
    end.
Proof.
  intros (Ho1 & Ho2 & Hi2 & Ho3 & Hi3). unfold new_dependency_graph.
  pose proof (new_directed_graph_spec nodes (do_new o) Ho1) as Hd.
  destruct (new_directed_graph (do_new o) nodes) as [e|d] eqn:Hnew.
  { destruct Hd as (n & m & Hl & Hm & ->). eexists. split; [done|]. done. }
  destruct Hd as (Hdang & Hdom & Hedge & Hfmap).
  assert (range_of d (do_tsort o)) as Ho2' by (unfold range_of in *; by rewrite Hdom).
  assert (∀ x y, tc (edge d) x y ↔ tc (listed nodes) x y) as Htc.
  { intros x y. split; intros H; induction H as [? ? H|? ? ? H _ IH].
    - apply tc_once. by apply Hedge.
    - eapply tc_l; [by apply Hedge|done].
    - apply tc_once. by apply Hedge.
    - eapply tc_l; [by apply Hedge|done]. }
  destruct (tsort_spec (do_tsort o) (do_tsort_inner o) d Ho2' Hi2) as (r & -> & Hr).
  { exact (new_directed_graph_closed _ _ _ Ho1 Hnew). }
  destruct r as [l|c].
  - destruct Hr as ((Hnd & Hall & Hbef) & Hac). eexists. split; [done|]. simpl.
    split; [done|]. split.
    { intros (n & Hn). apply Hac. exists n. by apply Htc. }
    destruct (fill_dependencies_fold d (do_fill_inner o) (do_fill o) Hi3
                (DepGraph ∅ ∅ l) (range_of_NoDup _ _ Ho3)) as (F1 & F2 & F3).
    split.
    + intros n ms Hn. rewrite F1. rewrite decide_True.
      * rewrite Hfmap, lookup_fmap, Hn. simpl. f_equal. set_solver.
      * apply (range_of_elem _ _ _ Ho3), elem_of_dom. eauto.
    + intros n m. rewrite F2. simpl. rewrite lookup_empty. simpl.
      rewrite (range_of_elem _ _ _ Ho3). rewrite <-Hedge. unfold edge. split.
      * intros [?%elem_of_empty|[_ Hm]]; [done|].
        destruct (d !! n) as [X|]; [|by apply elem_of_empty in Hm]. eauto.
      * intros (X & HX & Hm). right. rewrite HX. split; [|done].
        rewrite <-Hdom. apply elem_of_dom. eauto.
    + rewrite F3. done.
    + intros x. rewrite F3. simpl. rewrite Hall. by rewrite Hdom.
    + rewrite F3. simpl. intros l1 x l2 -> m Hm. right.
      apply Hedge in Hm. destruct (Hbef x m Hm) as (a & b & c & Heq).
      rewrite app_comm_cons, app_assoc in Heq.
      assert (l1 = a ++ m :: b) as ->.
      { clear -Heq Hnd. revert Heq Hnd. generalize (a ++ m :: b). intros a'.
        revert l1. induction a' as [|y a' IH]; intros [|z l1] Heq Hnd; simpl in *.
        - done.
        - injection Heq as -> Heq. apply NoDup_cons in Hnd as [Hn _].
          exfalso. apply Hn. apply elem_of_app. right. by left.
        - injection Heq as <- Heq. rewrite Heq in Hnd. apply NoDup_cons in Hnd as [Hn _].
          exfalso. apply Hn. apply elem_of_app. right. by left.
        - injection Heq as <- Heq. f_equal. apply IH; [done|].
          by apply NoDup_cons in Hnd as [_ ?]. }
      apply elem_of_app. right. by left.
    + by intros x m ?%elem_of_nil.
  - destruct Hr as (Hc & Hrep). eexists. split; [done|]. simpl. split; [done|]. split.
    + destruct Hc as (n & Hn). exists n. by apply Htc.
    + intros He g Hgd Hge. rewrite <-Hdom in He. destruct (Hrep He) as (C1 & C2 & C3 & C4).
      assert (∀ x y, edge d x y ↔ edge g x y) as Heq by (intros; by rewrite Hedge, Hge).
      split; [done|]. split; [done|]. split.
      * intros. apply Heq. by eapply C3.
      * intros. apply Heq. by apply C4.
Qed.

Lemma filter_split (P : string → Prop) `{HP : !∀ x, Decision (P x)} (l : list string) : ∀ l1 x l2,
  filter P l = l1 ++ x :: l2 →
  ∃ a b, l = a ++ x :: b ∧ filter P a = l1 ∧ filter P b = l2.
Proof.
  induction l as [|y l IH]; intros l1 x l2 H; [by destruct l1|].
  rewrite filter_cons in H. destruct (decide (P y)) as [Hy|Hy].
  - destruct l1 as [|z l1]; simpl in H; injection H as -> H.
    + by exists [], l.
    + destruct (IH _ _ _ H) as (a & b & -> & <- & <-). exists (z :: a), b.
      split; [done|]. split; [|done]. by rewrite filter_cons_True.
  - destruct (IH _ _ _ H) as (a & b & -> & <- & <-). exists (y :: a), b.
    split; [done|]. split; [|done]. by rewrite filter_cons_False.
Qed.

Lemma filter_not_perm (l out : list string) :
  NoDup l → NoDup out → (∀ x, x ∈ out → x ∈ l) → out ++ filter (λ x, x ∉ out) l ≡ₚ l.
Proof.
  intros Hl Hout Hsub. apply NoDup_Permutation; [|done|].
  - apply NoDup_app. split; [done|]. split; [|by apply NoDup_filter].
    intros x Hx [? _]%elem_of_list_filter. done.
  - intros x. rewrite elem_of_app, elem_of_list_filter. split.
    + intros [?|[_ ?]]; [by apply Hsub|done].
    + intros Hx. destruct (decide (x ∈ out)); [by left|by right].
Qed.

Lemma dinv_deps_after nodes g C rel r c :
  DInv nodes g C rel → ok_set_ranger r →
  let deps := remove_completed (r (default ∅ (dg_dependents g !! c))) (dg_dependencies g) c in
  ∀ n ms, nodes !! n = Some ms →
    deps !! n = Some (list_to_set ms ∖ list_to_set (C ++ [c])).
Proof.
  intros Hinv Hr deps n ms Hn. subst deps.
  rewrite remove_completed_spec by (eapply range_of_set_NoDup, Hr).
  rewrite (di_deps _ _ _ _ Hinv _ _ Hn).
  destruct (decide _) as [Hin|Hin]; simpl; f_equal.
  - rewrite list_to_set_app_L. simpl. set_solver.
  - rewrite (range_of_set_elem _ _ _ (Hr _)), (di_dependents _ _ _ _ Hinv) in Hin.
    assert (c ∉ ms) as Hc. { intros H. apply Hin. exists ms. done. }
    rewrite list_to_set_app_L. simpl. apply set_eq. intros x.
    rewrite !elem_of_difference, !elem_of_union, !elem_of_list_to_set, elem_of_singleton, elem_of_empty.
    naive_solver.
Qed.

Lemma dinv_ready nodes g C rel r c x :
  DInv nodes g C rel → ok_set_ranger r → x ∈ dom nodes →
  let deps := remove_completed (r (default ∅ (dg_dependents g !! c))) (dg_dependencies g) c in
  dg_ready deps x = true ↔ (∀ m, listed nodes x m → m ∈ C ++ [c]).
Proof.
  intros Hinv Hr (ms & Hx)%elem_of_dom deps.
  rewrite dg_ready_true. subst deps.
  rewrite (dinv_deps_after _ _ _ _ _ _ Hinv Hr _ _ Hx). simpl. split.
  - intros Hemp m (ms' & Hms & Hm). assert (ms' = ms) as -> by congruence.
    destruct (decide (m ∈ C ++ [c])) as [?|Hn]; [done|]. exfalso.
    assert (m ∈ (∅ : gset string)); [|set_solver]. rewrite <-Hemp.
    rewrite elem_of_difference, !elem_of_list_to_set. done.
  - intros H. apply set_eq. intros m. rewrite elem_of_difference, !elem_of_list_to_set.
    split; [|by intros ?%elem_of_empty]. intros [Hm Hn]. exfalso. apply Hn, H. exists ms. done.
Qed.

Lemma dg_next_inv nodes g C rel r c g' out :
  DInv nodes g C rel → ok_set_ranger r → dg_next r g c = (g', out) →
  DInv nodes g' (C ++ [c]) (rel ++ out) ∧
  (∀ x, x ∈ out → x ∈ dom nodes ∧ x ∉ rel ∧ ∀ m, listed nodes x m → m ∈ C ++ [c]) ∧
  (out = [] → ∀ x, x ∈ dg_pending g' → ∃ m, listed nodes x m ∧ m ∉ C ++ [c]) ∧
  (∀ h t, dg_pending g' = h :: t → ∃ m, listed nodes h m ∧ m ∉ C ++ [c]) ∧
  dg_pending g' = filter (λ x, x ∉ out) (dg_pending g).
Proof.
  intros Hinv Hr Heq.
  pose proof (di_nodup _ _ _ _ Hinv) as Hnd. apply NoDup_app in Hnd as (Hnd1 & Hdj & Hnd2).
  destruct (dg_next_spec r g c g' out Hnd2 Heq) as (N1 & N2 & N3 & N4 & N5 & N6 & N7).
  assert (∀ x, x ∈ dg_pending g → x ∈ dom nodes) as Hpd.
  { intros x Hx. apply (di_all _ _ _ _ Hinv), elem_of_app. by right. }
  assert (∀ x, x ∈ dom nodes → dg_ready (dg_dependencies g') x = false →
               ∃ m, listed nodes x m ∧ m ∉ C ++ [c]) as Hnr.
  { intros x Hx Hf.
    destruct (decide (Forall (λ m, m ∈ C ++ [c]) (default [] (nodes !! x)))) as [Hall|Hall].
    - exfalso. assert (dg_ready (dg_dependencies g') x = true); [|congruence].
      rewrite N1. eapply dinv_ready; [done..|]. intros m (ms & Hms & Hm).
      rewrite Hms in Hall. simpl in Hall. rewrite Forall_forall in Hall. by apply Hall.
    - apply not_Forall_Exists in Hall; [|apply _]. apply Exists_exists in Hall as (m & Hm & Hn).
      exists m. split; [|done]. destruct (nodes !! x) as [ms|] eqn:Hms; simpl in Hm.
      + exists ms. done.
      + by apply elem_of_nil in Hm. }
  assert (∀ x, x ∈ dg_pending g' → x ∈ dom nodes) as Hpd'.
  { intros x Hx. rewrite N5 in Hx. apply elem_of_list_filter in Hx as [_ Hx]. by apply Hpd. }
  assert (∀ x, x ∈ out → x ∈ dom nodes ∧ x ∉ rel ∧ ∀ m, listed nodes x m → m ∈ C ++ [c]) as Hout.
  { intros x Hx. destruct (N3 x Hx) as [Hp Hrd]. split; [by apply Hpd|]. split.
    - intros Hrel. by apply (Hdj x).
    - eapply dinv_ready; [done|done|by apply Hpd|done]. }
  split; [|split; [done|split; [|split; [|done]]]].
  - split.
    + intros n ms Hn. rewrite N1. by eapply dinv_deps_after.
    + rewrite N2. apply (di_dependents _ _ _ _ Hinv).
    + rewrite <-app_assoc, N5, filter_not_perm; [apply (di_nodup _ _ _ _ Hinv)|done|done|].
      intros x Hx. by apply N3.
    + intros x. rewrite <-app_assoc, N5, filter_not_perm; [apply (di_all _ _ _ _ Hinv)|done|done|].
      intros y Hy. by apply N3.
    + intros l1 x l2 Hp m Hm. rewrite N5 in Hp.
      apply filter_split in Hp as (a & b & Hp & <- & <-).
      destruct (di_order _ _ _ _ Hinv _ _ _ Hp m Hm) as [?|Ha].
      * left. apply elem_of_app. by left.
      * destruct (decide (m ∈ out)) as [?|Ho].
        -- left. apply elem_of_app. by right.
        -- right. by apply elem_of_list_filter.
    + intros x m [Hx|Hx]%elem_of_app Hm.
      * apply elem_of_app. left. by eapply (di_released _ _ _ _ Hinv).
      * by apply (Hout x).
  - intros He x Hx. apply Hnr; [by apply Hpd'|]. rewrite N1. by apply N6.
  - intros h t Hp. apply Hnr; [apply Hpd'; rewrite Hp; by left|]. rewrite N1. by eapply N7.
Qed.

Lemma dg_history_inv nodes g passed released :
  dg_history nodes g passed released → DInv nodes g passed released.
Proof.
  induction 1 as [o g Ho Hnew|r g g' passed released c out _ IH Hr Heq].
  - destruct (new_dependency_graph_total nodes o Ho) as (x & Hx & Hsp).
    rewrite Hnew in Hx. injection Hx as <-. by destruct Hsp as (_ & _ & ?).
  - by destruct (dg_next_inv _ _ _ _ _ _ _ _ IH Hr Heq) as (? & _).
Qed.

Lemma dg_driven_history nodes g completed released :
  dg_driven nodes g completed released →
  ∃ x, x ∉ dom nodes ∧ dg_history nodes g (x :: completed) released ∧
    (∀ t, t ∈ completed → t ∈ released) ∧ NoDup completed ∧
    (∀ h t, dg_pending g = h :: t → ∃ m, listed nodes h m ∧ m ∉ x :: completed).
Proof.
  induction 1 as [o r g g' x out Ho Hnew Hx Hr Heq|
                  r g g' completed released t out _ IH Ht Hnt Hr Heq].
  - exists x. split; [done|]. assert (dg_history nodes g [] []) as Hh by (by eapply dgh_new).
    split; [by eapply (dgh_next _ _ _ _ [] [])|]. split; [by intros ? ?%elem_of_nil|].
    split; [constructor|].
    destruct (dg_next_inv _ _ _ _ _ _ _ _ (dg_history_inv _ _ _ _ Hh) Hr Heq) as (_ & _ & _ & H & _).
    done.
  - destruct IH as (x & Hx & Hh & Hsub & Hnd & Hhd). exists x. split; [done|].
    split; [by eapply (dgh_next _ _ _ _ (x :: completed))|]. split; [|split].
    + intros y [Hy| ->%elem_of_list_singleton]%elem_of_app; apply elem_of_app; left; [by apply Hsub|done].
    + apply NoDup_app. split; [done|]. split; [|apply NoDup_singleton].
      intros y Hy ->%elem_of_list_singleton. done.
    + destruct (dg_next_inv _ _ _ _ _ _ _ _ (dg_history_inv _ _ _ _ Hh) Hr Heq) as (_ & _ & _ & H & _).
      done.
Qed.

Lemma dg_driven_done nodes g completed released :
  dg_driven nodes g completed released →
  (∀ t, t ∈ released → t ∈ completed) →
  released ≡ₚ elements (dom nodes) ∧ has_pending g = false.
Proof.
  intros Hd Hall. destruct (dg_driven_history _ _ _ _ Hd) as (x & Hx & Hh & Hsub & Hnd & Hhd).
  pose proof (dg_history_inv _ _ _ _ Hh) as Hinv.
  assert (dg_pending g = []) as Hp.
  { destruct (dg_pending g) as [|h t] eqn:Hp; [done|]. exfalso.
    destruct (Hhd h t eq_refl) as (m & Hm & Hnm).
    destruct (di_order _ _ _ _ Hinv [] h t Hp m Hm) as [Hr|?%elem_of_nil]; [|done].
    apply Hnm. right. by apply Hall. }
  split; [|unfold has_pending; by rewrite Hp].
  pose proof (di_nodup _ _ _ _ Hinv) as H1. pose proof (di_all _ _ _ _ Hinv) as H2.
  rewrite Hp, app_nil_r in *. apply NoDup_Permutation; [done|apply NoDup_elements|].
  intros y. rewrite H2. by rewrite elem_of_elements.
Qed.

Lemma dg_history_pending nodes g passed released :
  dg_history nodes g passed released →
  has_pending g = false ↔ released ≡ₚ elements (dom nodes).
Proof.
  intros Hh. pose proof (dg_history_inv _ _ _ _ Hh) as Hinv.
  pose proof (di_nodup _ _ _ _ Hinv) as H1. pose proof (di_all _ _ _ _ Hinv) as H2.
  assert (released ++ dg_pending g ≡ₚ elements (dom nodes)) as Hp.
  { apply NoDup_Permutation; [done|apply NoDup_elements|].
    intros y. rewrite H2. by rewrite elem_of_elements. }
  unfold has_pending. destruct (dg_pending g) as [|h t].
  - rewrite app_nil_r in Hp. done.
  - split; [done|]. intros Hr. exfalso. rewrite <-Hr in Hp.
    apply Permutation_length in Hp. rewrite app_length in Hp. simpl in Hp. lia.
Qed.

(** * Iteration orders do not matter *)
Definition no_empty (m : gmap string node_set) : Prop := ∀ k, m !! k ≠ Some ∅.

Lemma add_dependency_no_empty n ms : ∀ g,
  no_empty (dg_dependents g) → no_empty (dg_dependents (foldl (add_dependency n) g ms)).
Proof.
  induction ms as [|m ms IH]; intros g Hg; simpl; [done|]. apply IH. intros k. simpl.
  destruct (decide (k = m)) as [->|].
  - rewrite lookup_insert. unfold ns_add. intros [= H]. set_solver.
  - rewrite lookup_insert_ne by done. apply Hg.
Qed.

Lemma fill_dependencies_no_empty d inner order : ∀ g,
  no_empty (dg_dependents g) → no_empty (dg_dependents (fill_dependencies order inner d g)).
Proof.
  unfold fill_dependencies. induction order as [|n order IH]; intros g Hg; simpl; [done|].
  apply IH, add_dependency_no_empty. done.
Qed.

Lemma no_empty_eq (m1 m2 : gmap string node_set) :
  no_empty m1 → no_empty m2 → (∀ k, default ∅ (m1 !! k) = default ∅ (m2 !! k)) → m1 = m2.
Proof.
  intros H1 H2 H. apply map_eq. intros k. specialize (H k). specialize (H1 k). specialize (H2 k).
  destruct (m1 !! k), (m2 !! k); simpl in *; congruence.
Qed.

Lemma fill_dependencies_order_irrelevant d l o1 o2 i1 i2 :
  o1 ≡ₚ o2 → NoDup o1 → ok_set_ranger i1 → ok_set_ranger i2 →
  fill_dependencies o1 i1 d (DepGraph ∅ ∅ l) = fill_dependencies o2 i2 d (DepGraph ∅ ∅ l).
Proof.
  intros Hp Hnd1 H1 H2. assert (NoDup o2) as Hnd2 by (by rewrite <-Hp).
  destruct (fill_dependencies_fold d i1 o1 H1 (DepGraph ∅ ∅ l) Hnd1) as (A1 & A2 & A3).
  destruct (fill_dependencies_fold d i2 o2 H2 (DepGraph ∅ ∅ l) Hnd2) as (B1 & B2 & B3).
  pose proof (fill_dependencies_no_empty d i1 o1 (DepGraph ∅ ∅ l)) as N1.
  pose proof (fill_dependencies_no_empty d i2 o2 (DepGraph ∅ ∅ l)) as N2.
  destruct (fill_dependencies o1 i1 d _) as [d1 t1 p1].
  destruct (fill_dependencies o2 i2 d _) as [d2 t2 p2]. simpl in *. f_equal.
  - apply map_eq. intros n. rewrite A1, B1. destruct (decide (n ∈ o1)) as [H|H].
    + rewrite Hp in H. by rewrite decide_True.
    + rewrite Hp in H. by rewrite decide_False.
  - apply no_empty_eq; [by apply N1; intros ?; rewrite lookup_empty|
                        by apply N2; intros ?; rewrite lookup_empty|].
    intros k. apply set_eq. intros x. rewrite A2, B2. by rewrite Hp.
  - congruence.
Qed.

Lemma new_directed_graph_order_irrelevant nodes o1 o2 g1 g2 :
  range_of nodes o1 → range_of nodes o2 →
  new_directed_graph o1 nodes = inr g1 → new_directed_graph o2 nodes = inr g2 → g1 = g2.
Proof.
  intros H1 H2 E1 E2.
  pose proof (new_directed_graph_spec nodes o1 H1) as S1.
  pose proof (new_directed_graph_spec nodes o2 H2) as S2.
  rewrite E1 in S1. rewrite E2 in S2.
  destruct S1 as (_ & _ & _ & ->), S2 as (_ & _ & _ & ->). done.
Qed.

Lemma new_directed_graph_success nodes o :
  range_of nodes o → (∃ g, new_directed_graph o nodes = inr g) ↔ ¬ dangling nodes.
Proof.
  intros Ho. pose proof (new_directed_graph_spec nodes o Ho) as Sp.
  destruct (new_directed_graph o nodes) as [e|g].
  - destruct Sp as (n & m & Hl & Hm & _). split; [by intros [? ?]|].
    intros H. exfalso. apply H. exists n, m. done.
  - destruct Sp as (? & _). split; [done|]. eauto.
Qed.

Lemma new_dependency_graph_order_irrelevant nodes o1 o2 :
  ok_dag_orders nodes o1 → ok_dag_orders nodes o2 →
  match new_dependency_graph o1 nodes, new_dependency_graph o2 nodes with
  | Some (inl (InvalidEdge _ _)), Some (inl (InvalidEdge _ _)) => True
  | Some r1, Some r2 => r1 = r2
  | _, _ => False
  end.
Proof.
  intros Hk1 Hk2.
  pose proof (new_dependency_graph_total nodes o1 Hk1) as (r1 & E1 & _).
  pose proof (new_dependency_graph_total nodes o2 Hk2) as (r2 & E2 & _).
  revert E1 E2.
  destruct Hk1 as (A1 & A2 & A3 & A4 & A5), Hk2 as (B1 & B2 & B3 & B4 & B5).
  unfold new_dependency_graph.
  pose proof (new_directed_graph_spec nodes (do_new o1) A1) as S1.
  pose proof (new_directed_graph_spec nodes (do_new o2) B1) as S2.
  destruct (new_directed_graph (do_new o1) nodes) as [e1|d1];
    destruct (new_directed_graph (do_new o2) nodes) as [e2|d2].
  - destruct S1 as (? & ? & _ & _ & ->), S2 as (? & ? & _ & _ & ->). done.
  - destruct S1 as (n & m & H1 & H2 & _), S2 as (H & _). exfalso. apply H. exists n, m. done.
  - destruct S2 as (n & m & H1 & H2 & _), S1 as (H & _). exfalso. apply H. exists n, m. done.
  - destruct S1 as (_ & Hdom & _ & E1), S2 as (_ & _ & _ & E2). subst d2. rewrite <-E1 in *.
    rewrite (tsort_order_irrelevant d1 (do_tsort o1) (do_tsort o2) (do_tsort_inner o1) (do_tsort_inner o2)).
    2,3: unfold range_of in *; by rewrite Hdom.
    2,3: done.
    destruct (tsort (do_tsort o2) (do_tsort_inner o2) d1) as [[l|c]|]; [| |done].
    + intros _ _. f_equal. apply fill_dependencies_order_irrelevant; [|by eapply range_of_NoDup|done..].
      by rewrite A4, B4.
    + done.
Qed.

Lemma dg_next_order_irrelevant r1 r2 g c :
  ok_set_ranger r1 → ok_set_ranger r2 → dg_next r1 g c = dg_next r2 g c.
Proof.
  intros H1 H2. unfold dg_next.
  replace (remove_completed (r1 _) (dg_dependencies g) c)
    with (remove_completed (r2 (default ∅ (dg_dependents g !! c))) (dg_dependencies g) c); [done|].
  apply map_eq. intros n.
  rewrite !remove_completed_spec by (by eapply range_of_set_NoDup).
  destruct (decide (n ∈ r1 _)) as [H|H]; rewrite (range_of_set_elem _ _ _ (H1 _)) in H.
  - rewrite decide_True; [done|]. by rewrite (range_of_set_elem _ _ _ (H2 _)).
  - rewrite decide_False; [done|]. by rewrite (range_of_set_elem _ _ _ (H2 _)).
Qed.

(** * The forms used by the property theorems *)
Lemma tsort_sound_lem g order inner l :
  range_of g order → ok_set_ranger inner → closed g →
  tsort order inner g = Some (Sorted_ok l) → topological g l.
Proof.
  intros Ho Hi Hc E. destruct (tsort_spec order inner g Ho Hi Hc) as (r & E' & H).
  rewrite E in E'. injection E' as <-. by destruct H.
Qed.

Lemma tsort_decides_lem g order inner :
  range_of g order → ok_set_ranger inner → closed g →
  tsort order inner g ≠ None ∧
  ((∃ c, tsort order inner g = Some (Found_cycle c)) ↔ cyclic g).
Proof.
  intros Ho Hi Hc. destruct (tsort_spec order inner g Ho Hi Hc) as (r & -> & H).
  split; [done|]. destruct r as [l|c].
  - destruct H as [_ H]. split; [by intros [? ?]|done].
  - destruct H as [H _]. split; [done|]. eauto.
Qed.

Lemma tsort_cycle_lem g order inner c :
  range_of g order → ok_set_ranger inner → closed g → "" ∉ dom g →
  tsort order inner g = Some (Found_cycle c) → reported_cycle g c.
Proof.
  intros Ho Hi Hc Hn E. destruct (tsort_spec order inner g Ho Hi Hc) as (r & E' & H).
  rewrite E in E'. injection E' as <-. destruct H as [_ H]. by apply H.
Qed.

Lemma tsort_cycle_refuted_lem :
  ∃ g order inner, range_of g order ∧ ok_set_ranger inner ∧ closed g ∧
    tsort order inner g = Some (Found_cycle []).
Proof.
  exists {[ "" := {[ "" ]} ]}, [""], elements. split.
  { unfold range_of. rewrite dom_singleton_L, elements_singleton. done. }
  split; [intros X; by unfold range_of_set|]. split.
  { intros n m (X & [<- <-]%lookup_singleton_Some & Hm). rewrite dom_singleton_L. done. }
  vm_compute. done.
Qed.

Lemma new_directed_graph_deterministic_lem nodes o1 o2 :
  range_of nodes o1 → range_of nodes o2 →
  match new_directed_graph o1 nodes, new_directed_graph o2 nodes with
  | inl _, inl _ => True
  | inr g1, inr g2 => g1 = g2
  | _, _ => False
  end.
Proof.
  intros H1 H2. destruct (new_directed_graph o1 nodes) as [e1|g1] eqn:E1;
    destruct (new_directed_graph o2 nodes) as [e2|g2] eqn:E2; [done| | |].
  - assert (∃ g, new_directed_graph o1 nodes = inr g) as [g Hg].
    { apply new_directed_graph_success; [done|]. apply (new_directed_graph_success nodes o2); eauto. }
    congruence.
  - assert (∃ g, new_directed_graph o2 nodes = inr g) as [g Hg].
    { apply new_directed_graph_success; [done|]. apply (new_directed_graph_success nodes o1); eauto. }
    congruence.
  - by apply (new_directed_graph_order_irrelevant nodes o1 o2).
Qed.

Lemma new_directed_graph_exact_lem nodes order :
  range_of nodes order →
  match new_directed_graph order nodes with
  | inl e => ∃ n m, listed nodes n m ∧ m ∉ dom nodes ∧ e = InvalidEdge n m
  | inr g => ¬ dangling nodes ∧ dom g = dom nodes ∧ ∀ n m, edge g n m ↔ listed nodes n m
  end.
Proof.
  intros Ho. pose proof (new_directed_graph_spec nodes order Ho) as H.
  destruct (new_directed_graph order nodes); [done|]. by destruct H as (? & ? & ? & _).
Qed.

Lemma graph_edits_lem g0 a0 ops :
  ag_nodes a0 = dom g0 → (∀ n m, (n, m) ∈ ag_edges a0 ↔ edge g0 n m) → closed g0 →
  Forall (λ ro, ok_map_ranger ro.1) ops →
  let g := foldl exec_op g0 ops in
  let a := foldl a_op a0 ops.*2 in
  (∀ n, has_node g n = a_has_node a n) ∧
  (∀ n, out_degree g n = a_out_degree a n) ∧
  (∀ n m, edge g n m ↔ (n, m) ∈ ag_edges a) ∧ closed g.
Proof.
  intros Hn He Hc Hok. destruct (exec_ops_spec ops g0 a0) as [Hr Ha]; [done| |done|].
  - intros n m H%He. rewrite Hn. split; [by eapply Hc|].
    destruct H as (X & HX & _). apply elem_of_dom. eauto.
  - split; [intros; by apply rep_has_node|]. split; [intros; by apply rep_out_degree|].
    split; [|by eapply rep_closed]. intros. symmetry. apply Hr.
Qed.

Lemma dg_release_sound_lem nodes g passed released :
  dg_history nodes g passed released →
  NoDup released ∧
  ∀ x, x ∈ released → x ∈ dom nodes ∧ ∀ m, listed nodes x m → m ∈ passed.
Proof.
  intros Hh%dg_history_inv. pose proof (di_nodup _ _ _ _ Hh) as Hnd.
  apply NoDup_app in Hnd as (Hnd & _). split; [done|]. intros x Hx. split.
  - apply (di_all _ _ _ _ Hh), elem_of_app. by left.
  - intros m. by apply (di_released _ _ _ _ Hh).
Qed.

Lemma dg_drive_bounded_lem nodes g completed released :
  dg_driven nodes g completed released → length completed ≤ size (dom nodes).
Proof.
  intros (x & _ & Hh & Hsub & Hnd & _)%dg_driven_history.
  apply dg_release_sound_lem in Hh as [_ Hh].
  rewrite <-(size_list_to_set (C := gset string) completed Hnd).
  apply subseteq_size. intros y Hy%elem_of_list_to_set. by apply Hh, Hsub.
Qed.

Lemma dg_next_empty_lem nodes g passed released r c g' :
  dg_history nodes g passed released → ok_set_ranger r → dg_next r g c = (g', []) →
  ∀ t, t ∈ dom nodes → t ∉ released → ∃ m, listed nodes t m ∧ m ∉ passed ++ [c].
Proof.
  intros Hh%dg_history_inv Hr Heq t Ht Hnt.
  destruct (dg_next_inv _ _ _ _ _ _ _ _ Hh Hr Heq) as (Hinv & _ & Hno & _ & _).
  apply Hno; [done|]. apply (di_all _ _ _ _ Hinv) in Ht. rewrite app_nil_r in Ht.
  by apply elem_of_app in Ht as [?|?].
Qed.

Lemma ok_dag_orders_elements nodes :
  ok_dag_orders nodes (DagOrders (elements (dom nodes)) (elements (dom nodes)) elements
              (elements (dom nodes)) elements).
Proof. unfold ok_dag_orders, range_of, ok_set_ranger, range_of_set. simpl. auto. Qed.

Lemma dg_next_contract_refuted_lem :
  ∃ nodes g passed released t, dg_history nodes g passed released ∧ passed ≠ [] ∧
    t ∈ dom nodes ∧ t ∉ released ∧ (∀ m, listed nodes t m → m ∈ passed).
Proof.
  set (nodes := {[ "0" := []; "a" := ["0"]; "b" := []; "c" := [] ]} : gmap string (list string)).
  set (o := DagOrders (elements (dom nodes)) (elements (dom nodes)) elements
              (elements (dom nodes)) elements).
  destruct (new_dependency_graph o nodes) as [[e|g0]|] eqn:E;
    [by vm_compute in E| |by vm_compute in E].
  assert (dg_history nodes g0 [] []) as H0 by (exact (dgh_new nodes o g0 (ok_dag_orders_elements nodes) E)).
  destruct (dg_next elements g0 "") as [g1 o1] eqn:E1.
  assert (ok_set_ranger elements) as He by (intros X; by unfold range_of_set).
  pose proof (dgh_next _ _ _ _ _ _ _ _ H0 He E1) as H1.
  exists nodes, g1, [""], o1, "c". split; [exact H1|]. split; [done|].
  vm_compute in E. injection E as <-. vm_compute in E1. injection E1 as _ <-. split.
  { apply elem_of_dom. eexists. vm_compute. reflexivity. }
  split; [apply (bool_decide_unpack _); vm_compute; done|].
  intros m (ms & Hms & Hm). vm_compute in Hms. injection Hms as <-. by apply elem_of_nil in Hm.
Qed.
