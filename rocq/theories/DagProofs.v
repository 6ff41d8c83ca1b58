(** Proofs about TSort and graph construction. *)
From stdpp Require Import gmap sets list strings relations sorting.
From Verif Require Import GoBase GoBaseProofs DagModel DagSpec.

Section dfs.
  Context (G : gmap string (list string)).
  Definition R (n m : string) : Prop := m ∈ default [] (G !! n).

  Definition chain (l : list string) : Prop :=
    ∀ i x y, l !! i = Some x → l !! S i = Some y → R y x.
  Definition topo (l : list string) : Prop :=
    ∀ l1 x l2, l = l1 ++ x :: l2 → ∀ m, R x m → m ∈ l1.

  Record Inv (v : visitor) (path : list string) : Prop := {
    inv_cycle : v_cycle v = None;
    inv_visiting : v_visiting v = list_to_set path;
    inv_nodup_path : NoDup path;
    inv_chain : chain path;
    inv_visited : ∀ x, x ∈ v_visited v ↔ x ∈ v_sorted v;
    inv_nodup : NoDup (v_sorted v);
    inv_disj : ∀ x, x ∈ path → x ∉ v_sorted v;
    inv_topo : topo (v_sorted v);
  }.

  Definition part (c : list string) (s n : string) (path : list string) : Prop :=
    NoDup c ∧ (∀ x, x ∈ c → x ∉ path) ∧ chain c ∧
    match c with [] => n = s | x :: _ => R x s ∧ last c = Some n end.
  Definition complete (c : list string) : Prop :=
    c ≠ [] ∧ NoDup c ∧ chain c ∧
    (∀ x y, head c = Some x → last c = Some y → R x y).
  Definition NE (n : string) (path : list string) : Prop :=
    (∀ x, ¬ R x "") ∧ n ≠ "" ∧ "" ∉ path.

  Definition PostA (v : visitor) (path : list string) (n : string) (v' : visitor) : Prop :=
    Inv v' path ∧ n ∈ v_sorted v' ∧
    ∃ ext, v_sorted v' = v_sorted v ++ ext ∧ ∀ x, x ∈ ext → rtc R n x.
  Definition PostB (path : list string) (n : string) (v' : visitor) (s : string) : Prop :=
    ∃ c, v_cycle v' = Some c ∧ (∃ x, tc R x x) ∧
      (NE n path →
       (s ≠ "" ∧ s ∈ path ∧ part c s n path) ∨ (s = "" ∧ complete c)).
  Definition Post v path n v' s : Prop := PostA v path n v' ∨ PostB path n v' s.

  Lemma chain_cons x l :
    chain l → (match l with [] => True | y :: _ => R y x end) → chain (x :: l).
  Proof.
    intros Hc Hh i a b Ha Hb. destruct i as [|i]; simpl in *.
    - injection Ha as <-. destruct l as [|y l]; [done|]. simpl in Hb. by injection Hb as <-.
    - by eapply Hc.
  Qed.

  Lemma chain_tail x l : chain (x :: l) → chain l.
  Proof. intros Hc i a b Ha Hb. by apply (Hc (S i)). Qed.

  Lemma chain_reach l x : chain l → ∀ p, head l = Some p → x ∈ l → rtc R x p.
  Proof.
    intros Hc p Hp Hx. revert p Hp Hc.
    induction l as [|a l IH]; intros p Hp Hc; [by apply not_elem_of_nil in Hx|].
    simpl in Hp. injection Hp as <-.
    apply elem_of_cons in Hx as [->|Hx]; [done|].
    destruct l as [|b l]; [by apply not_elem_of_nil in Hx|].
    eapply rtc_r; [apply (IH Hx b)|].
    - done.
    - by eapply chain_tail.
    - by apply (Hc 0).
  Qed.

  Lemma chain_snoc c n m :
    chain c → (c ≠ [] → last c = Some m) → R n m → chain (c ++ [n]).
  Proof.
    intros Hc Hl HR i x y Hx Hy.
    destruct (decide (S i < length c)) as [Hi|Hi].
    - rewrite lookup_app_l in Hx by lia. rewrite lookup_app_l in Hy by lia. by eapply Hc.
    - assert (S i = length c) as Hi'.
      { apply lookup_lt_Some in Hy. rewrite app_length in Hy. simpl in Hy. lia. }
      rewrite lookup_app_r in Hy by lia. rewrite Hi', Nat.sub_diag in Hy. simpl in Hy.
      injection Hy as <-.
      rewrite lookup_app_l in Hx by lia.
      assert (c ≠ []) as Hne by (by intros ->).
      specialize (Hl Hne). rewrite last_lookup, <-Hi' in Hl. simpl in Hl. congruence.
  Qed.

  Lemma topo_snoc l n : topo l → (∀ m, R n m → m ∈ l) → topo (l ++ [n]).
  Proof.
    intros Ht Hn l1 x l2 Heq m Hm.
    destruct (decide (l2 = [])) as [->|Hne].
    - apply app_inj_tail in Heq as [<- <-]. by apply Hn.
    - destruct (exists_last Hne) as (l2' & y & ->).
      rewrite app_comm_cons, app_assoc in Heq. apply app_inj_tail in Heq as [Heq _].
      by eapply Ht.
  Qed.

  Lemma visit_done_inv v path n :
    Inv v (n :: path) → (∀ m, R n m → m ∈ v_sorted v) → Inv (visit_done v n) path.
  Proof.
    intros [Hcy Hvg Hnp Hch Hvd Hnd Hdj Htp] Hsucc.
    apply NoDup_cons in Hnp as [Hn Hnp].
    split; simpl; try done.
    - rewrite Hvg. simpl. set_solver.
    - by eapply chain_tail.
    - intros x. rewrite elem_of_union, elem_of_singleton, Hvd, elem_of_app, elem_of_list_singleton.
      tauto.
    - apply NoDup_app. split; [done|]. split; [|apply NoDup_singleton].
      intros x Hx ->%elem_of_list_singleton. eapply Hdj; [|done]. by left.
    - intros x Hx. rewrite elem_of_app, elem_of_list_singleton. intros [H| ->]; [|done].
      eapply Hdj; [|done]. by right.
    - by apply topo_snoc.
  Qed.

  Lemma visit_loop_spec rec n path :
    (∀ v m, Inv v (n :: path) → R n m →
       ∃ v' s, rec v m = Some (v', s) ∧ Post v (n :: path) m v' s) →
    ∀ ms v, Inv v (n :: path) →
      (∀ m, m ∈ ms → R n m) →
      (∀ m, R n m → m ∈ ms ∨ m ∈ v_sorted v) →
      ∃ v' s, visit_loop rec n v ms = Some (v', s) ∧ Post v path n v' s.
  Proof.
    intros Hrec ms. induction ms as [|m ms IH]; intros v Hinv Hms Hall; simpl.
    - eexists _, _. split; [done|]. left. split; [|split].
      + apply visit_done_inv; [done|]. intros m Hm.
        destruct (Hall m Hm) as [H|H]; [by apply not_elem_of_nil in H|done].
      + simpl. apply elem_of_app. right. by left.
      + exists [n]. split; [done|]. intros x ->%elem_of_list_singleton. done.
    - assert (R n m) as Hnm by (apply Hms; by left).
      destruct (Hrec v m Hinv Hnm) as (v' & s & -> & HP).
      destruct HP as [(Hinv' & Hm & ext & Hext & Hreach)|(c & Hc & Hcyc & Hne)].
      + rewrite (inv_cycle _ _ Hinv').
        destruct (IH v' Hinv') as (v'' & s'' & Heq & HP).
        { intros x Hx. apply Hms. by right. }
        { intros x Hx. destruct (Hall x Hx) as [H|H].
          - apply elem_of_cons in H as [->|H]; [by right|by left].
          - right. rewrite Hext. apply elem_of_app. by left. }
        exists v'', s''. split; [done|].
        destruct HP as [(Hi & Hn & ext' & Hext' & Hr')|HB]; [|by right].
        left. split; [done|]. split; [done|]. exists (ext ++ ext').
        rewrite Hext', Hext, app_assoc. split; [done|].
        intros x [Hx|Hx]%elem_of_app; [|by apply Hr'].
        eapply rtc_l; [done|]. by apply Hreach.
      + rewrite Hc.
        assert (NE n path → NE m (n :: path)) as HNE.
        { intros (H1 & H2 & H3). split; [done|]. split.
          - intros ->. by eapply H1.
          - rewrite elem_of_cons. intros [H|H]; [by apply H2|done]. }
        destruct (decide (s = "")) as [Hs|Hs].
        * exists v', s. split; [done|]. right. exists c. split; [done|]. split; [done|].
          intros HN. destruct (Hne (HNE HN)) as [(? & _)|(_ & ?)]; [done|]. by right.
        * eexists _, _. split; [done|]. right. exists (c ++ [n]). split; [done|].
          split; [done|]. intros HN.
          destruct (Hne (HNE HN)) as [(_ & Hsp & Hnd & Hdj & Hch & Hlast)|(? & _)]; [|done].
          assert (n ∉ c) as Hnc. { intros H. eapply Hdj; [done|]. by left. }
          assert (NoDup (c ++ [n])) as Hnd'.
          { apply NoDup_app. split; [done|]. split; [|apply NoDup_singleton].
            intros x Hx ->%elem_of_list_singleton. done. }
          assert (chain (c ++ [n])) as Hch'.
          { eapply (chain_snoc c n m); [done| |done].
            intros Hcn. destruct c as [|y c]; [done|]. by destruct Hlast. }
          destruct (decide (n = s)) as [<-|Hns].
          -- right. split; [done|]. split; [by destruct c|]. split; [done|]. split; [done|].
             intros x y Hx Hy. rewrite last_snoc in Hy. injection Hy as <-.
             destruct c as [|z c]; simpl in Hx; injection Hx as <-.
             ++ by rewrite Hlast in Hnm.
             ++ by destruct Hlast.
          -- left. split; [done|]. split.
             { apply elem_of_cons in Hsp as [?|?]; [congruence|done]. }
             split; [done|]. split.
             { intros x [Hx|Hx]%elem_of_app.
               - intros Hp. eapply Hdj; [done|]. by right.
               - apply elem_of_list_singleton in Hx as ->.
                 destruct Hinv as [_ _ Hnp _ _ _ _ _]. by apply NoDup_cons in Hnp as [? _]. }
             split; [done|].
             destruct c as [|z c]; simpl.
             ++ split; [|done]. by rewrite Hlast in Hnm.
             ++ split; [by destruct Hlast|]. change (last ((z :: c) ++ [n]) = Some n). apply last_snoc.
  Qed.

  Lemma visit_spec fuel : ∀ v n path,
    Inv v path →
    (match path with [] => True | p :: _ => R p n end) →
    size (dom G ∖ list_to_set path) + 2 ≤ fuel →
    ∃ v' s, visit fuel G v n = Some (v', s) ∧ Post v path n v' s.
  Proof.
    induction fuel as [|fuel IH]; intros v n path Hinv Hhd Hfuel; [lia|].
    simpl. destruct (decide (n ∈ v_visiting v)) as [Hvg|Hvg].
    { eexists _, _. split; [done|]. right. rewrite (inv_cycle _ _ Hinv).
      rewrite (inv_visiting _ _ Hinv), elem_of_list_to_set in Hvg.
      destruct path as [|p path]; [by apply not_elem_of_nil in Hvg|].
      exists []. split; [done|]. split.
      - exists n. eapply tc_rtc_l; [|by apply tc_once].
        eapply chain_reach; [by apply (inv_chain _ _ Hinv)|done|done].
      - intros (Hr & Hn & Hp). left. split; [done|]. split; [done|].
        split; [constructor|]. split; [by intros x ?%not_elem_of_nil|]. split; [|done].
        by intros i x y Hx. }
    destruct (decide (n ∈ v_visited v)) as [Hvd|Hvd].
    { eexists _, _. split; [done|]. left. split; [done|].
      split; [by apply (inv_visited _ _ Hinv)|]. exists []. rewrite app_nil_r.
      split; [done|]. by intros x ?%not_elem_of_nil. }
    rewrite (inv_visiting _ _ Hinv), elem_of_list_to_set in Hvg.
    set (v0 := Visitor _ _ _ _).
    assert (Inv v0 (n :: path)) as Hinv0.
    { destruct Hinv as [Hcy Hvg' Hnp Hch Hvd' Hnd Hdj Htp]. split; simpl; try done.
      - by rewrite Hvg'.
      - by constructor.
      - by apply chain_cons.
      - intros x [->|Hx]%elem_of_cons; [|by apply Hdj]. by rewrite <-Hvd'. }
    destruct (G !! n) as [ms|] eqn:HGn; simpl.
    - assert (n ∈ dom G) as Hdom by (apply elem_of_dom; eauto).
      refine (visit_loop_spec (visit fuel G) n path _ ms v0 Hinv0 _ _).
      + intros v1 m Hinv1 Hm. apply IH; [done|done|].
        assert (size (dom G ∖ list_to_set (n :: path)) < size (dom G ∖ list_to_set path)); [|lia].
        apply subset_size. simpl. split; [set_solver|].
        intros Hsub. assert (n ∈ dom G ∖ ({[n]} ∪ list_to_set path)); [|set_solver].
        apply Hsub. rewrite elem_of_difference, elem_of_list_to_set. done.
      + intros m Hm. unfold R. by rewrite HGn.
      + intros m Hm. left. unfold R in Hm. by rewrite HGn in Hm.
    - eexists _, _. split; [done|]. left. split; [|split].
      + apply visit_done_inv; [done|]. intros m Hm. unfold R in Hm. rewrite HGn in Hm.
        by apply not_elem_of_nil in Hm.
      + simpl. apply elem_of_app. right. by left.
      + exists [n]. split; [done|]. intros x ->%elem_of_list_singleton. done.
  Qed.

  Lemma tsort_loop_spec fuel : size (dom G) + 2 ≤ fuel →
    ∀ ns v, Inv v [] →
    ∃ r, tsort_loop fuel G v ns = Some r ∧
      match r with
      | Sorted_ok l =>
        NoDup l ∧ topo l ∧ (∀ x, x ∈ v_sorted v ∨ x ∈ ns → x ∈ l) ∧
        (∀ x, x ∈ l → x ∈ v_sorted v ∨ ∃ n, n ∈ ns ∧ rtc R n x)
      | Found_cycle c =>
        (∃ x, tc R x x) ∧
        ((∀ x, ¬ R x "") → "" ∉ ns → complete c)
      end.
  Proof.
    intros Hfuel ns. induction ns as [|n ns IH]; intros v Hinv; simpl.
    { eexists. split; [done|]. destruct Hinv as [_ _ _ _ _ Hnd _ Ht].
      split; [done|]. split; [done|]. split.
      - intros x [?|?%not_elem_of_nil]; done.
      - by left. }
    destruct (decide (n ∈ v_visited v)) as [Hvd|Hvd].
    { destruct (IH v Hinv) as (r & -> & Hr). eexists. split; [done|].
      destruct r as [l|c].
      - destruct Hr as (H1 & H2 & H3 & H4). split; [done|]. split; [done|]. split.
        + intros x [Hx|[->|Hx]%elem_of_cons]; [by auto| |by auto].
          apply H3. left. by apply (inv_visited _ _ Hinv).
        + intros x Hx. destruct (H4 x Hx) as [?|(m & ? & ?)]; [by left|].
          right. exists m. split; [by right|done].
      - destruct Hr as (H1 & H2). split; [done|]. intros Hn Hns. apply H2; [done|].
        intros H. apply Hns. by right. }
    destruct (visit_spec fuel v n [] Hinv I) as (v' & s & -> & HP).
    { simpl. rewrite difference_empty_L. done. }
    destruct HP as [(Hinv' & Hn & ext & Hext & Hreach)|(c & Hc & Hcyc & Hne)].
    - rewrite (inv_cycle _ _ Hinv'). destruct (IH v' Hinv') as (r & -> & Hr).
      eexists. split; [done|]. destruct r as [l|c].
      + destruct Hr as (H1 & H2 & H3 & H4). split; [done|]. split; [done|]. split.
        * intros x [Hx|[->|Hx]%elem_of_cons]; [|by auto|by auto].
          apply H3. left. rewrite Hext. apply elem_of_app. by left.
        * intros x Hx. destruct (H4 x Hx) as [Hv|(m & ? & ?)].
          -- rewrite Hext in Hv. apply elem_of_app in Hv as [?|He]; [by left|].
             right. exists n. split; [by left|by apply Hreach].
          -- right. exists m. split; [by right|done].
      + destruct Hr as (H1 & H2). split; [done|]. intros Hn' Hns. apply H2; [done|].
        intros H. apply Hns. by right.
    - rewrite Hc. eexists. split; [done|]. split; [done|]. intros Hr Hns.
      destruct Hne as [(_ & H & _)|(_ & ?)]; [|by apply not_elem_of_nil in H|done].
      split; [done|]. split; [|by apply not_elem_of_nil].
      intros ->. apply Hns. by left.
  Qed.

  Lemma topo_before l n m : NoDup l → topo l → n ∈ l → R n m → before l m n.
  Proof.
    intros Hnd Ht Hn Hm. apply elem_of_list_split in Hn as (l1 & l2 & ->).
    pose proof (Ht l1 n l2 eq_refl m Hm) as Hin.
    apply elem_of_list_split in Hin as (l3 & l4 & ->).
    exists l3, l4, l2. by rewrite <-app_assoc.
  Qed.
End dfs.

(** A topological listing excludes cycles. *)
Lemma before_trans_index l x y i j :
  NoDup l → before l x y → l !! i = Some x → l !! j = Some y → i < j.
Proof.
  intros Hnd (l1 & l2 & l3 & ->) Hi Hj.
  assert (i = length l1) as ->.
  { eapply NoDup_lookup; [done|done|]. rewrite lookup_app_r by lia.
    by rewrite Nat.sub_diag. }
  assert (j = length l1 + S (length l2)) as ->; [|lia].
  eapply NoDup_lookup; [done|done|]. rewrite lookup_app_r by lia.
  replace (length l1 + S (length l2) - length l1) with (S (length l2)) by lia. simpl.
  rewrite lookup_app_r by lia. by rewrite Nat.sub_diag.
Qed.

Lemma ordered_acyclic (E : string → string → Prop) l :
  NoDup l → (∀ n m, E n m → before l m n) → ∀ n, ¬ tc E n n.
Proof.
  intros Hnd Hb n Hn.
  assert (∀ a b, tc E a b → ∃ i j, l !! i = Some b ∧ l !! j = Some a ∧ i < j) as H.
  { intros a b Hab. induction Hab as [a b Hab|a b c Hab Hbc IH].
    - pose proof (Hb _ _ Hab) as Hbef. destruct Hbef as (l1 & l2 & l3 & Heq).
      exists (length l1), (length l1 + S (length l2)). rewrite Heq. split; [|split].
      + rewrite lookup_app_r by lia. by rewrite Nat.sub_diag.
      + rewrite lookup_app_r by lia.
        replace (length l1 + S (length l2) - length l1) with (S (length l2)) by lia. simpl.
        rewrite lookup_app_r by lia. by rewrite Nat.sub_diag.
      + lia.
    - destruct IH as (i & j & Hi & Hj & Hij).
      pose proof (Hb _ _ Hab) as Hbef.
      assert (a ∈ l) as Ha.
      { destruct Hbef as (l1 & l2 & l3 & ->). set_solver. }
      apply elem_of_list_lookup in Ha as (k & Hk).
      exists i, k. split; [done|]. split; [done|].
      pose proof (before_trans_index l b a j k Hnd Hbef Hj Hk). lia. }
  destruct (H n n Hn) as (i & j & Hi & Hj & Hij).
  assert (i = j) by (by eapply NoDup_lookup). lia.
Qed.

(** Connection between the sorted adjacency lists and the graph. *)
Definition adjacency (order : list string) (inner : set_ranger) (g : digraph)
  : gmap string (list string) :=
  list_to_map (map (λ n, (n, sort_strings (inner (default ∅ (g !! n))))) order).

Lemma adjacency_lookup order inner g n :
  NoDup order →
  adjacency order inner g !! n =
    if decide (n ∈ order) then Some (sort_strings (inner (default ∅ (g !! n)))) else None.
Proof.
  unfold adjacency. intros Hnd. induction order as [|a order IH]; simpl; [done|].
  apply NoDup_cons in Hnd as [Ha Hnd]. destruct (decide (n = a)) as [->|Hne].
  - rewrite lookup_insert. rewrite decide_True; [done|by left].
  - rewrite lookup_insert_ne by done. rewrite IH by done.
    destruct (decide (n ∈ order)) as [H|H].
    + rewrite decide_True; [done|by right].
    + rewrite decide_False; [done|]. by intros [?|?]%elem_of_cons.
Qed.

Lemma adjacency_dom order inner g : range_of g order → dom (adjacency order inner g) = dom g.
Proof.
  intros Ho. apply set_eq. intros x. rewrite elem_of_dom.
  rewrite adjacency_lookup by (by eapply range_of_NoDup).
  rewrite <-(range_of_elem _ _ x Ho). destruct (decide (x ∈ order)); split; eauto.
  - by intros [? ?].
  - done.
Qed.

Lemma adjacency_edge order inner g n m :
  range_of g order → ok_set_ranger inner →
  R (adjacency order inner g) n m ↔ edge g n m.
Proof.
  intros Ho Hi. unfold R. rewrite adjacency_lookup by (by eapply range_of_NoDup).
  unfold edge. destruct (decide (n ∈ order)) as [Hn|Hn]; simpl.
  - rewrite elem_of_sort_strings, (range_of_set_elem _ _ _ (Hi _)).
    apply (range_of_elem _ _ _ Ho), elem_of_dom in Hn as (X & HX).
    split.
    + rewrite HX. eauto.
    + intros (Y & HY & Hm). by rewrite HY.
  - split; [by intros ?%not_elem_of_nil|]. intros (X & HX & _).
    exfalso. apply Hn, (range_of_elem _ _ _ Ho), elem_of_dom. eauto.
Qed.

Lemma adjacency_tc order inner g n m :
  range_of g order → ok_set_ranger inner →
  tc (R (adjacency order inner g)) n m ↔ tc (edge g) n m.
Proof.
  intros Ho Hi. split; intros H; induction H as [x y H|x y z H H' IH].
  - apply tc_once. by apply (adjacency_edge order inner).
  - eapply tc_l; [|done]. by apply (adjacency_edge order inner).
  - apply tc_once. by apply (adjacency_edge order inner).
  - eapply tc_l; [|done]. by apply (adjacency_edge order inner).
Qed.

Lemma inv_init G : Inv G (Visitor ∅ ∅ None []) [].
Proof.
  split; simpl.
  - done.
  - done.
  - constructor.
  - by intros i x y H.
  - intros x. rewrite elem_of_empty, elem_of_nil. done.
  - constructor.
  - by intros x ?%elem_of_nil.
  - intros l1 x l2 H. by destruct l1.
Qed.

Lemma tsort_spec order inner g :
  range_of g order → ok_set_ranger inner → closed g →
  ∃ r, tsort order inner g = Some r ∧
    match r with
    | Sorted_ok l => topological g l ∧ ¬ cyclic g
    | Found_cycle c => cyclic g ∧ ("" ∉ dom g → reported_cycle g c)
    end.
Proof.
  intros Ho Hi Hcl.
  change (tsort order inner g) with
    (tsort_loop (S (S (length order))) (adjacency order inner g)
       (Visitor ∅ ∅ None []) (sort_strings order)).
  destruct (tsort_loop_spec (adjacency order inner g) (S (S (length order)))) with
    (ns := sort_strings order) (v := Visitor ∅ ∅ None []) as (r & -> & Hr).
  { rewrite adjacency_dom by done. rewrite (range_of_length _ _ Ho). lia. }
  { apply inv_init. }
  exists r. split; [done|]. destruct r as [l|c].
  - destruct Hr as (Hnd & Htp & Hin & Hout).
    assert (topological g l) as Htop.
    { split; [done|]. split.
      - intros x. split.
        + intros Hx. destruct (Hout x Hx) as [?%not_elem_of_nil|(n & Hn & Hr)]; [done|].
          rewrite elem_of_sort_strings, (range_of_elem _ _ _ Ho) in Hn.
          clear Hx. induction Hr as [|a b c Hab Hbc IH]; [done|]. apply IH.
          by apply (Hcl a), (adjacency_edge order inner).
        + intros Hx. apply Hin. right. by rewrite elem_of_sort_strings, (range_of_elem _ _ _ Ho).
      - intros n m Hnm. eapply topo_before; [done|done| |by apply adjacency_edge].
        apply Hin. right. rewrite elem_of_sort_strings, (range_of_elem _ _ _ Ho).
        destruct Hnm as (X & HX & _). apply elem_of_dom. eauto. }
    split; [done|]. intros (n & Hn). destruct Htop as (Hnd' & _ & Hb).
    by eapply ordered_acyclic.
  - destruct Hr as ((n & Hn) & Hne). split.
    + exists n. by eapply adjacency_tc.
    + intros He. destruct Hne as (H1 & H2 & H3 & H4).
      * intros x Hx%adjacency_edge; [|done|done]. apply He. by eapply Hcl.
      * rewrite elem_of_sort_strings, (range_of_elem _ _ _ Ho). done.
      * split; [done|]. split; [done|]. split.
        -- intros i x y Hx Hy. eapply adjacency_edge; [done|done|]. by eapply H3.
        -- intros x y Hx Hy. eapply adjacency_edge; [done|done|]. by apply H4.
Qed.

(** Map order does not influence TSort. *)
Lemma tsort_order_irrelevant g order order' inner inner' :
  range_of g order → range_of g order' → ok_set_ranger inner → ok_set_ranger inner' →
  tsort order inner g = tsort order' inner' g.
Proof.
  intros Ho Ho' Hi Hi'.
  change (tsort order inner g) with
    (tsort_loop (S (S (length order))) (adjacency order inner g)
       (Visitor ∅ ∅ None []) (sort_strings order)).
  change (tsort order' inner' g) with
    (tsort_loop (S (S (length order'))) (adjacency order' inner' g)
       (Visitor ∅ ∅ None []) (sort_strings order')).
  assert (order ≡ₚ order') as Hp by (unfold range_of in *; by rewrite Ho, Ho').
  rewrite (sort_strings_perm_eq _ _ Hp), (Permutation_length Hp).
  replace (adjacency order inner g) with (adjacency order' inner' g); [done|].
  apply map_eq. intros n. rewrite !adjacency_lookup by (by eapply range_of_NoDup).
  destruct (decide (n ∈ order)) as [H|H].
  - rewrite decide_True by (by rewrite <-Hp). f_equal. apply sort_strings_perm_eq.
    etrans; [apply Hi'|]. symmetry. apply Hi.
  - rewrite decide_False; [done|]. by rewrite <-Hp.
Qed.

(** NewDirectedGraph *)
Lemma check_edges_spec nodes n ms set :
  match check_edges nodes n ms set with
  | inl e => ∃ m, m ∈ ms ∧ m ∉ dom nodes ∧ e = InvalidEdge n m
  | inr set' => (∀ m, m ∈ ms → m ∈ dom nodes) ∧ set' = list_to_set ms ∪ set
  end.
Proof.
  revert set. induction ms as [|m ms IH]; intros set; simpl.
  - split; [by intros ? ?%not_elem_of_nil|]. set_solver.
  - destruct (nodes !! m) as [x|] eqn:Hm.
    + specialize (IH (ns_add set m)). destruct (check_edges _ _ _ _) as [e|set'].
      * destruct IH as (m' & ? & ? & ->). exists m'. split; [by right|done].
      * destruct IH as (H & ->). split.
        -- intros y [->|Hy]%elem_of_cons; [|by apply H]. apply elem_of_dom. eauto.
        -- unfold ns_add. set_solver.
    + exists m. split; [by left|]. split; [|done]. by apply not_elem_of_dom.
Qed.

Lemma new_digraph_loop_spec nodes order : ∀ g,
  NoDup order →
  match new_digraph_loop nodes order g with
  | inl e => ∃ n m, n ∈ order ∧ m ∈ default [] (nodes !! n) ∧ m ∉ dom nodes ∧ e = InvalidEdge n m
  | inr g' =>
    (∀ n m, n ∈ order → m ∈ default [] (nodes !! n) → m ∈ dom nodes) ∧
    ∀ n, g' !! n = if decide (n ∈ order)
                   then Some (list_to_set (default [] (nodes !! n))) else g !! n
  end.
Proof.
  induction order as [|n order IH]; intros g Hnd; simpl.
  { split; [by intros ? ? ?%not_elem_of_nil|]. done. }
  apply NoDup_cons in Hnd as [Hn Hnd].
  pose proof (check_edges_spec nodes n (default [] (nodes !! n)) ∅) as Hc.
  destruct (check_edges _ _ _ _) as [e|set].
  { destruct Hc as (m & ? & ? & ->). exists n, m. split; [by left|done]. }
  destruct Hc as (Hc & ->). rewrite (right_id_L ∅ (∪)).
  set (X := list_to_set (default [] (nodes !! n)) : node_set).
  specialize (IH (<[n:=X]> g) Hnd).
  destruct (new_digraph_loop _ _ _) as [e|g'].
  - destruct IH as (n' & m & ? & ? & ? & ->). exists n', m. split; [by right|done].
  - destruct IH as (H1 & H2). split.
    + intros x y [->|Hx]%elem_of_cons Hy; [by apply Hc|by eapply H1].
    + intros x. rewrite H2. destruct (decide (x ∈ order)) as [Hx|Hx].
      * rewrite decide_True; [done|by right].
      * destruct (decide (x = n)) as [->|Hxn].
        -- rewrite lookup_insert, decide_True; [done|by left].
        -- rewrite lookup_insert_ne by done. rewrite decide_False; [done|].
           by intros [?|?]%elem_of_cons.
Qed.

Lemma new_directed_graph_spec nodes order :
  range_of nodes order →
  match new_directed_graph order nodes with
  | inl e => ∃ n m, listed nodes n m ∧ m ∉ dom nodes ∧ e = InvalidEdge n m
  | inr g => ¬ dangling nodes ∧ dom g = dom nodes ∧ (∀ n m, edge g n m ↔ listed nodes n m) ∧
             g = (λ l, list_to_set l) <$> nodes
  end.
Proof.
  intros Ho. unfold new_directed_graph.
  pose proof (new_digraph_loop_spec nodes order ∅ (range_of_NoDup _ _ Ho)) as H.
  destruct (new_digraph_loop _ _ _) as [e|g].
  - destruct H as (n & m & Hn & Hm & Hd & ->). exists n, m. split; [|done].
    apply (range_of_elem _ _ _ Ho), elem_of_dom in Hn as (ms & Hms).
    rewrite Hms in Hm. exists ms. done.
  - destruct H as (H1 & H2).
    assert (g = (λ l, list_to_set l) <$> nodes) as Hg.
    { apply map_eq. intros n. rewrite H2, lookup_fmap.
      destruct (decide (n ∈ order)) as [Hn|Hn].
      - apply (range_of_elem _ _ _ Ho), elem_of_dom in Hn as (ms & Hms). by rewrite Hms.
      - rewrite (range_of_elem _ _ _ Ho), not_elem_of_dom in Hn. by rewrite Hn. }
    split; [|split; [|split; [|done]]].
    + intros (n & m & (ms & Hms & Hm) & Hd). apply Hd. apply (H1 n).
      * apply (range_of_elem _ _ _ Ho), elem_of_dom. eauto.
      * by rewrite Hms.
    + rewrite Hg. by rewrite dom_fmap_L.
    + intros n m. unfold edge, listed. rewrite Hg, lookup_fmap.
      destruct (nodes !! n) as [ms|]; simpl.
      * split; [intros (? & [= <-] & H); exists ms|intros (? & [= <-] & H); eexists];
          (split; [done|]); by apply elem_of_list_to_set in H || by apply elem_of_list_to_set.
      * split; by intros (? & ? & _).
Qed.

Lemma new_directed_graph_closed nodes order g :
  range_of nodes order → new_directed_graph order nodes = inr g → closed g.
Proof.
  intros Ho Hg. pose proof (new_directed_graph_spec nodes order Ho) as H. rewrite Hg in H.
  destruct H as (Hd & Hdom & He & _). intros n m Hnm%He. rewrite Hdom.
  destruct (decide (m ∈ dom nodes)) as [?|Hm]; [done|].
  exfalso. apply Hd. exists n, m. done.
Qed.
