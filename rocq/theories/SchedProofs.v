(** Proofs about the scheduler. *)
From stdpp Require Import gmap sets list strings numbers relations sorting.
From Verif Require Import GoBase GoBaseProofs DagModel DagSpec DagProofs DepProofs
  SchedModel SchedSpec.
Local Open Scope Z_scope.

(** * Initial maps *)
Lemma fill_caps_fold (targets : gmap string Z) order : ∀ (cap len : gmap string Z) k,
  let r := foldl (λ '(cap, len) k, (<[ k := default 0 (targets !! k) ]> cap, <[ k := 0 ]> len))
    (cap, len) order in
  r.1 !! k = (if decide (k ∈ order) then Some (default 0 (targets !! k)) else cap !! k) ∧
  (r.2 : gmap string Z) !! k = (if decide (k ∈ order) then Some 0 else len !! k).
Proof.
  induction order as [|x order IH]; intros cap len k; simpl; [done|].
  destruct (IH (<[ x := default 0 (targets !! x) ]> cap) (<[ x := 0 ]> len) k) as [H1 H2].
  rewrite H1, H2. destruct (decide (k ∈ order)) as [Hk|Hk].
  - rewrite !decide_True by (by right). done.
  - destruct (decide (k = x)) as [->|Hne].
    + rewrite !lookup_insert, !decide_True by (by left). done.
    + rewrite !lookup_insert_ne by done.
      rewrite !decide_False by (by intros [?|?]%elem_of_cons). done.
Qed.

Lemma fill_caps_spec targets order :
  range_of targets order → fill_caps targets order = (targets, (λ _, 0) <$> targets).
Proof.
  intros Ho. unfold fill_caps.
  pose proof (fill_caps_fold targets order ∅ ∅) as H.
  destruct (foldl _ _ order) as [c l]. simpl in H. f_equal; apply map_eq; intros k.
  - destruct (H k) as [-> _]. destruct (decide (k ∈ order)) as [Hk|Hk];
      rewrite (range_of_elem _ _ _ Ho) in Hk.
    + apply elem_of_dom in Hk as [z Hz]. by rewrite Hz.
    + rewrite lookup_empty. symmetry. by apply not_elem_of_dom.
  - destruct (H k) as [_ ->]. rewrite lookup_fmap. destruct (decide (k ∈ order)) as [Hk|Hk];
      rewrite (range_of_elem _ _ _ Ho) in Hk.
    + apply elem_of_dom in Hk as [z Hz]. by rewrite Hz.
    + apply not_elem_of_dom in Hk. by rewrite Hk, lookup_empty.
Qed.

Lemma fill_tasks_fold (tasks : gmap string task) order : ∀ (ts : gmap string string) (deps : gmap string (list string)) k,
  (∀ x, x ∈ order → x ∈ dom tasks) →
  let r := foldl (λ '(ts, deps) k,
      match tasks !! k with
      | Some v => (<[ k := t_target v ]> ts, <[ k := t_after v ]> deps)
      | None => (ts, deps)
      end) (ts, deps) order in
  (r.1 : gmap string string) !! k =
    (if decide (k ∈ order) then t_target <$> (tasks !! k) else ts !! k) ∧
  (r.2 : gmap string (list string)) !! k =
    (if decide (k ∈ order) then t_after <$> (tasks !! k) else deps !! k).
Proof.
  induction order as [|x order IH]; intros ts deps k Hin; simpl; [done|].
  assert (x ∈ dom tasks) as [v Hv]%elem_of_dom by (apply Hin; by left). rewrite Hv.
  destruct (IH (<[ x := t_target v ]> ts) (<[ x := t_after v ]> deps) k) as [H1 H2].
  { intros y Hy. apply Hin. by right. }
  rewrite H1, H2. destruct (decide (k ∈ order)) as [Hk|Hk].
  - rewrite !decide_True by (by right). done.
  - destruct (decide (k = x)) as [->|Hne].
    + rewrite !lookup_insert, !decide_True by (by left). by rewrite Hv.
    + rewrite !lookup_insert_ne by done.
      rewrite !decide_False by (by intros [?|?]%elem_of_cons). done.
Qed.

Lemma fill_tasks_spec tasks order :
  range_of tasks order → fill_tasks tasks order = (t_target <$> tasks, t_after <$> tasks).
Proof.
  intros Ho. unfold fill_tasks.
  assert (∀ x, x ∈ order → x ∈ dom tasks) as Hin by (intros x; by apply range_of_elem).
  pose proof (λ k, fill_tasks_fold tasks order ∅ ∅ k Hin) as H.
  destruct (foldl _ _ order) as [c l]. simpl in H. f_equal; apply map_eq; intros k.
  - destruct (H k) as [-> _]. rewrite lookup_fmap. destruct (decide (k ∈ order)) as [Hk|Hk]; [done|].
    rewrite (range_of_elem _ _ _ Ho) in Hk. apply not_elem_of_dom in Hk. by rewrite Hk, lookup_empty.
  - destruct (H k) as [_ ->]. rewrite lookup_fmap. destruct (decide (k ∈ order)) as [Hk|Hk]; [done|].
    rewrite (range_of_elem _ _ _ Ho) in Hk. apply not_elem_of_dom in Hk. by rewrite Hk, lookup_empty.
Qed.

Lemma listed_after tasks t m : listed (t_after <$> tasks) t m ↔ after tasks t m.
Proof.
  unfold listed, after. split.
  - intros (ms & Hms & Hm). rewrite lookup_fmap in Hms.
    destruct (tasks !! t) as [v|] eqn:Hv; [|done]. injection Hms as <-. eauto.
  - intros (v & Hv & Hm). exists (t_after v). rewrite lookup_fmap, Hv. done.
Qed.

(** * fillPending *)
Lemma fill_pending_spec ts released : ∀ pending q,
  default [] (fill_pending ts pending released !! q) =
  default [] (pending !! q) ++ filter (λ t, default "" (ts !! t) = q) released.
Proof.
  unfold fill_pending. induction released as [|t released IH]; intros pending q; simpl.
  { by rewrite app_nil_r. }
  rewrite IH. destruct (decide (default "" (ts !! t) = q)) as [<-|Hne].
  - rewrite lookup_insert. simpl. rewrite filter_cons_True by done. by rewrite <-app_assoc.
  - rewrite lookup_insert_ne by done. by rewrite filter_cons_False.
Qed.

(** * buildReady *)
Definition amount (room : Z) (n : nat) : nat := Z.to_nat (Z.min room (Z.of_nat n)).

Lemma build_ready_step_spec cap pending len ready qid :
  let ts := default [] (pending !! qid) in
  let a := amount (default 0 (cap !! qid) - default 0 (len !! qid)) (length ts) in
  let '(pending', len', ready') := build_ready_step cap (pending, len, ready) qid in
  (∀ q, default [] (pending' !! q) =
        if decide (q = qid) then drop a ts else default [] (pending !! q)) ∧
  (∀ q, default 0 (len' !! q) =
        if decide (q = qid) then default 0 (len !! q) + Z.of_nat a else default 0 (len !! q)) ∧
  (∀ q, ready' !! q =
        if decide (q = qid ∧ a ≠ 0%nat) then Some (take a ts) else ready !! q).
Proof.
  intros ts a. unfold build_ready_step. fold ts.
  destruct (decide (length ts < 1)%nat) as [Hlt|Hlt].
  { assert (a = 0%nat) as -> by (unfold a, amount; lia). split; [|split]; intros q.
    - destruct (decide (q = qid)) as [->|]; [|done]. done.
    - destruct (decide (q = qid)) as [->|]; [|done]. lia.
    - rewrite decide_False; [done|]. naive_solver. }
  set (n := default 0 (cap !! qid) - default 0 (len !! qid)) in *.
  destruct (decide (n < 1)) as [Hn|Hn].
  { assert (a = 0%nat) as -> by (unfold a, amount; lia). split; [|split]; intros q.
    - destruct (decide (q = qid)) as [->|]; [|done]. done.
    - destruct (decide (q = qid)) as [->|]; [|done]. lia.
    - rewrite decide_False; [done|]. naive_solver. }
  set (n' := if decide (n > Z.of_nat (length ts)) then Z.of_nat (length ts) else n).
  assert (Z.to_nat n' = a) as Ha.
  { unfold n', a, amount. destruct (decide _); lia. }
  assert (n' = Z.of_nat a) as Hn'.
  { unfold n', a, amount. destruct (decide _); lia. }
  assert (a ≠ 0%nat) as Ha0 by (unfold a, amount; lia).
  rewrite Ha, Hn'. split; [|split]; intros q; destruct (decide (q = qid)) as [->|Hne].
  - by rewrite lookup_insert.
  - by rewrite lookup_insert_ne.
  - by rewrite lookup_insert.
  - by rewrite lookup_insert_ne.
  - rewrite decide_True by done. by rewrite lookup_insert.
  - rewrite decide_False by naive_solver. by rewrite lookup_insert_ne.
Qed.

Lemma build_ready_fold cap order : NoDup order → ∀ pending len ready,
  let a q := amount (default 0 (cap !! q) - default 0 (len !! q)) (length (default [] (pending !! q))) in
  let '(pending', len', ready') := foldl (build_ready_step cap) (pending, len, ready) order in
  ∀ q,
  default [] (pending' !! q) =
    (if decide (q ∈ order) then drop (a q) (default [] (pending !! q)) else default [] (pending !! q)) ∧
  default 0 (len' !! q) =
    (if decide (q ∈ order) then default 0 (len !! q) + Z.of_nat (a q) else default 0 (len !! q)) ∧
  ready' !! q =
    (if decide (q ∈ order ∧ a q ≠ 0%nat) then Some (take (a q) (default [] (pending !! q)))
     else ready !! q).
Proof.
  induction order as [|x order IH]; intros Hnd pending len ready; cbv zeta; cbn [foldl].
  { cbn iota. intros q. rewrite !(decide_False (P := q ∈ [])) by (by intros ?%elem_of_nil).
    rewrite decide_False by (by intros [?%elem_of_nil _]). done. }
  apply NoDup_cons in Hnd as [Hx Hnd].
  pose proof (build_ready_step_spec cap pending len ready x) as Hs. cbv zeta in Hs.
  destruct (build_ready_step cap (pending, len, ready) x) as [[p1 l1] r1].
  destruct Hs as (S1 & S2 & S3).
  specialize (IH Hnd p1 l1 r1). cbv zeta in IH.
  destruct (foldl (build_ready_step cap) (p1, l1, r1) order) as [[p2 l2] r2].
  intros q. destruct (IH q) as (I1 & I2 & I3). rewrite I1, I2, I3, S1, S2.
  destruct (decide (q = x)) as [->|Hne].
  - rewrite !(decide_False (P := x ∈ order)) by done.
    rewrite !(decide_True (P := x ∈ x :: order)) by (by left).
    rewrite (decide_False (P := x ∈ order ∧ _)) by naive_solver.
    split; [done|]. split; [done|]. rewrite S3.
    match goal with |- context [amount ?z ?n] => set (a := amount z n) end.
    destruct (decide (x = x ∧ a ≠ 0%nat)) as [[_ H]|H].
    + rewrite decide_True; [done|]. split; [by left|done].
    + rewrite decide_False; [done|]. intros [_ ?]. naive_solver.
  - assert (r1 !! q = ready !! q) as Hr1.
    { rewrite S3. rewrite decide_False; [done|]. naive_solver. }
    rewrite Hr1.
    assert (q ∈ order ↔ q ∈ x :: order) as Hq by (rewrite elem_of_cons; naive_solver).
    split; [|split].
    + destruct (decide (q ∈ order)) as [H|H]; [rewrite decide_True by naive_solver|
        rewrite decide_False by naive_solver]; done.
    + destruct (decide (q ∈ order)) as [H|H]; [rewrite decide_True by naive_solver|
        rewrite decide_False by naive_solver]; done.
    + match goal with |- context [amount ?z ?n] => set (a := amount z n) end.
      destruct (decide (q ∈ order ∧ a ≠ 0%nat)) as [H|H]; [rewrite decide_True by naive_solver|
        rewrite decide_False by naive_solver]; done.
Qed.

Lemma build_ready_spec order s :
  range_of (s_pending s) order →
  let ts q := default [] (s_pending s !! q) in
  let a q := amount (default 0 (s_cap s !! q) - default 0 (s_len s !! q)) (length (ts q)) in
  let '(s', ready) := build_ready order s in
  s_deps s' = s_deps s ∧ s_tasks s' = s_tasks s ∧ s_cap s' = s_cap s ∧
  ∀ q, default [] (s_pending s' !! q) = drop (a q) (ts q) ∧
       default 0 (s_len s' !! q) = default 0 (s_len s !! q) + Z.of_nat (a q) ∧
       ready !! q = (if decide (a q ≠ 0%nat) then Some (take (a q) (ts q)) else None).
Proof.
  intros Ho ts a. unfold build_ready.
  pose proof (build_ready_fold (s_cap s) order (range_of_NoDup _ _ Ho) (s_pending s) (s_len s) ∅) as H.
  cbv zeta in H. fold ts in H.
  destruct (foldl _ _ order) as [[p l] r]. simpl. do 3 (split; [done|]). intros q.
  destruct (H q) as (H1 & H2 & H3). rewrite H1, H2, H3. fold (ts q). fold (a q).
  destruct (decide (q ∈ order)) as [Hq|Hq].
  - split; [done|]. split; [done|]. destruct (decide (a q ≠ 0%nat)) as [Ha|Ha].
    + by rewrite decide_True.
    + rewrite decide_False; [done|]. naive_solver.
  - assert (a q = 0%nat) as Ha.
    { rewrite (range_of_elem _ _ _ Ho), not_elem_of_dom in Hq.
      unfold a, ts, amount. rewrite Hq. simpl. lia. }
    rewrite Ha. split; [done|]. split; [lia|].
    rewrite decide_False by naive_solver. rewrite decide_False by naive_solver. done.
Qed.

(** * Answers as lists of pairs *)
Lemma elem_of_pairs_of ready q t :
  (q, t) ∈ pairs_of ready ↔ ∃ ts, ready !! q = Some ts ∧ t ∈ ts.
Proof.
  unfold pairs_of. rewrite elem_of_list_bind. split.
  - intros ([q' ts] & Hin & Hm). apply elem_of_list_fmap in Hin as (t' & [= -> ->] & Ht).
    apply elem_of_map_to_list in Hm. eauto.
  - intros (ts & Hts & Ht). exists (q, ts). split.
    + apply elem_of_list_fmap. eauto.
    + by apply elem_of_map_to_list.
Qed.

Lemma NoDup_snd_filter {A B} (P : A * B → Prop) `{HP : ∀ e, Decision (P e)} (l : list (A * B)) :
  NoDup l.*2 → NoDup (filter P l).*2.
Proof.
  induction l as [|[a b] l IH]; intros Hnd; [constructor|].
  rewrite fmap_cons in Hnd. apply NoDup_cons in Hnd as [Hb Hnd]. rewrite filter_cons.
  destruct (decide (P (a, b))); [|by apply IH]. rewrite fmap_cons. constructor; [|by apply IH].
  intros Hin. apply Hb. apply elem_of_list_fmap in Hin as (e & He & Hin).
  apply elem_of_list_filter in Hin as [_ Hin]. apply elem_of_list_fmap. eauto.
Qed.

Definition for_target (q : string) (l : list (string * string)) : list string :=
  (filter (λ e, e.1 = q) l).*2.

Lemma for_target_app q l1 l2 : for_target q (l1 ++ l2) = for_target q l1 ++ for_target q l2.
Proof. unfold for_target. by rewrite filter_app, fmap_app. Qed.

Global Instance for_target_perm q : Proper ((≡ₚ) ==> (≡ₚ)) (for_target q).
Proof. intros l1 l2 H. unfold for_target. by rewrite H. Qed.

Lemma elem_of_for_target q l t : t ∈ for_target q l ↔ (q, t) ∈ l.
Proof.
  unfold for_target. rewrite elem_of_list_fmap. split.
  - intros ([q' t'] & -> & H). apply elem_of_list_filter in H as [H1 H2]. simpl in *. by subst.
  - intros H. exists (q, t). split; [done|]. by apply elem_of_list_filter.
Qed.

Lemma for_target_block q q' ts :
  for_target q (pair q' <$> ts) = if decide (q' = q) then ts else [].
Proof.
  unfold for_target. induction ts as [|t ts IH]; [by simpl; destruct (decide _)|].
  rewrite fmap_cons, filter_cons. cbn [fst]. destruct (decide (q' = q)) as [->|Hne].
  - rewrite fmap_cons, IH. done.
  - done.
Qed.

Lemma for_target_pairs_of_list q (l : list (string * list string)) :
  NoDup l.*1 →
  for_target q (l ≫= λ '(q, ts), pair q <$> ts) =
  default [] (list_to_map (M := gmap string (list string)) l !! q).
Proof.
  induction l as [|[q' ts] l IH]; intros Hnd; [done|].
  rewrite fmap_cons in Hnd. apply NoDup_cons in Hnd as [Hq' Hnd].
  rewrite bind_cons, for_target_app, for_target_block, IH by done. cbn [list_to_map foldr fst snd].
  destruct (decide (q' = q)) as [->|Hne].
  - rewrite lookup_insert. simpl.
    rewrite (not_elem_of_list_to_map_1 l q Hq'). simpl. by rewrite app_nil_r.
  - by rewrite lookup_insert_ne.
Qed.

Lemma for_target_pairs_of q ready : for_target q (pairs_of ready) = default [] (ready !! q).
Proof.
  unfold pairs_of. rewrite for_target_pairs_of_list by apply NoDup_fst_map_to_list.
  by rewrite list_to_map_to_list.
Qed.

(** * The invariant *)
Section inv.
Context (targets : gmap string Z) (tasks : gmap string task).

Definition tgt (t : string) : string := default "" (t_target <$> tasks !! t).
Definition pend (s : sched) (q : string) : list string := default [] (s_pending s !! q).
Definition cap (q : string) : Z := default 0 (targets !! q).

Record SInv (s : sched) (C : list string) (H : list (string * string)) (rel : list string) : Prop := {
  si_dag : DInv (t_after <$> tasks) (s_deps s) ("" :: C) rel;
  si_tasks : s_tasks s = t_target <$> tasks;
  si_cap : s_cap s = targets;
  si_hist : dg_history (t_after <$> tasks) (s_deps s) ("" :: C) rel;
  si_split : ∀ q, for_target q H ++ pend s q = filter (λ t, tgt t = q) rel;
  si_len : ∀ q, default 0 (s_len s !! q) =
             Z.of_nat (length (for_target q H)) - Z.of_nat (length (filter (λ t, tgt t = q) C));
  si_full : ∀ q, pend s q ≠ [] → cap q ≤ default 0 (s_len s !! q);
  si_room : ∀ q, default 0 (s_len s !! q) ≤ Z.max 0 (cap q);
  si_head : ∀ h l, dg_pending (s_deps s) = h :: l → ∃ m, after tasks h m ∧ m ∉ "" :: C;
}.

Lemma tgt_lookup t : default "" ((t_target <$> tasks) !! t) = tgt t.
Proof. unfold tgt. by rewrite lookup_fmap. Qed.

Lemma filter_tgt_perm q (l1 l2 : list string) : l1 ≡ₚ l2 →
  filter (λ t, tgt t = q) l1 ≡ₚ filter (λ t, tgt t = q) l2.
Proof. intros H. by rewrite H. Qed.

Lemma amount_le room n : (amount room n ≤ n)%nat.
Proof. unfold amount. lia. Qed.
Lemma amount_full room n : (amount room n < n)%nat → Z.of_nat (amount room n) = Z.max 0 room.
Proof. unfold amount. lia. Qed.
Lemma amount_room room n : Z.of_nat (amount room n) ≤ Z.max 0 room.
Proof. unfold amount. lia. Qed.

(** The common part of New and Next: after the dag step. *)
Lemma fill_build_inv g' rel out C H pending len order :
  DInv (t_after <$> tasks) g' ("" :: C) (rel ++ out) →
  dg_history (t_after <$> tasks) g' ("" :: C) (rel ++ out) →
  (∀ h l, dg_pending g' = h :: l → ∃ m, listed (t_after <$> tasks) h m ∧ m ∉ "" :: C) →
  (∀ q, for_target q H ++ default [] (pending !! q) = filter (λ t, tgt t = q) rel) →
  (∀ q, default 0 (len !! q) =
     Z.of_nat (length (for_target q H)) - Z.of_nat (length (filter (λ t, tgt t = q) C))) →
  (∀ q, default 0 (len !! q) ≤ Z.max 0 (cap q)) →
  let pending' := fill_pending (t_target <$> tasks) pending out in
  range_of pending' order →
  let '(s', ready) := build_ready order (Sched g' (t_target <$> tasks) pending' targets len) in
  SInv s' C (H ++ pairs_of ready) (rel ++ out).
Proof.
  intros Hd Hhist Hhead Hsplit Hlen Hroom pending' Ho.
  pose proof (build_ready_spec order (Sched g' (t_target <$> tasks) pending' targets len) Ho) as Hb.
  cbv zeta in Hb.
  destruct (build_ready order _) as [s' ready]. destruct Hb as (B1 & B2 & B3 & B4). simpl in *.
  assert (∀ q, default [] (pending' !! q) =
               default [] (pending !! q) ++ filter (λ t, tgt t = q) out) as Hp'.
  { intros q. unfold pending'. rewrite fill_pending_spec. f_equal.
    apply filter_ext_in. intros t _. by rewrite tgt_lookup. }
  assert (∀ q, for_target q (pairs_of ready) ++ pend s' q = default [] (pending' !! q)) as Hrp.
  { intros q. rewrite for_target_pairs_of. unfold pend. destruct (B4 q) as (-> & _ & ->).
    destruct (decide _) as [Hne|Heq].
    - simpl. by rewrite take_drop.
    - apply dec_stable in Heq. rewrite Heq. done. }
  split.
  - by rewrite B1.
  - done.
  - done.
  - by rewrite B1.
  - intros q. rewrite for_target_app, <-app_assoc, Hrp, Hp', app_assoc, Hsplit.
    by rewrite filter_app.
  - intros q. destruct (B4 q) as (_ & -> & B5). rewrite for_target_app, app_length.
    rewrite for_target_pairs_of, B5, Hlen.
    match goal with |- context [amount ?z ?n] => pose proof (amount_le z n); set (a := amount z n) in * end.
    destruct (decide (a ≠ 0%nat)) as [Ha|Ha]; simpl.
    + rewrite take_length. lia.
    + lia.
  - intros q Hne. unfold pend in Hne. destruct (B4 q) as (B5 & B6 & _). rewrite B5 in Hne. rewrite B6.
    match goal with |- context [amount ?z ?n] => pose proof (amount_full z n); set (a := amount z n) in * end.
    fold (cap q) in *.
    assert (a < length (default [] (pending' !! q)))%nat as Hlt.
    { destruct (decide (length (default [] (pending' !! q)) ≤ a)%nat) as [Hge|]; [|lia].
      by rewrite drop_ge in Hne. }
    lia.
  - intros q. destruct (B4 q) as (_ & -> & _). fold (cap q).
    match goal with |- context [amount ?z ?n] => pose proof (amount_room z n) end.
    specialize (Hroom q). lia.
  - intros h l Hp. rewrite B1 in Hp. destruct (Hhead _ _ Hp) as (m & Hm%listed_after & Hn). eauto.
Qed.

Lemma sched_new_spec o :
  ok_new_orders targets tasks o →
  (∃ e, sched_new o targets tasks = Some (inl e) ∧
        (dangling (t_after <$> tasks) ∨ circular (t_after <$> tasks))) ∨
  (∃ s ready rel, sched_new o targets tasks = Some (inr (s, ready)) ∧
     ¬ dangling (t_after <$> tasks) ∧ ¬ circular (t_after <$> tasks) ∧
     SInv s [] (pairs_of ready) rel).
Proof.
  intros (O1 & O2 & O3 & O4 & O5). unfold sched_new.
  rewrite (fill_caps_spec _ _ O1), (fill_tasks_spec _ _ O2).
  destruct (new_dependency_graph_total _ _ O3) as (r & Hg & Hr). rewrite Hg.
  destruct r as [e|g].
  { left. exists e. split; [done|]. destruct e as [n m|c].
    - left. destruct Hr as [? ?]. exists n, m. done.
    - right. by destruct Hr as (_ & ? & _). }
  right. destruct Hr as (Hnd & Hnc & Hinv).
  destruct (dg_next (no_next o) g "") as [g' out] eqn:E.
  destruct (dg_next_inv _ _ _ _ _ _ _ _ Hinv O4 E) as (I1 & I2 & I3 & I4 & I5). simpl in I1, I4.
  pose proof (fill_build_inv g' [] out [] [] ∅ ((λ _, 0) <$> targets)
    (no_ready o (fill_pending (t_target <$> tasks) ∅ out))) as Hf.
  cbv zeta in Hf.
  destruct (build_ready _ _) as [s ready]. exists s, ready, out. split; [done|].
  split; [done|]. split; [done|]. apply Hf; [done| |done|done| | |apply O5].
  { exact (dgh_next _ _ _ _ _ _ _ _ (dgh_new _ _ _ O3 Hg) O4 E). }
  - intros q. rewrite lookup_fmap. destruct (targets !! q); simpl; done.
  - intros q. rewrite lookup_fmap. destruct (targets !! q); simpl; lia.
Qed.

(** Everything has been handed out. *)
Definition all_out (s : sched) : Prop :=
  dg_pending (s_deps s) = [] ∧ ∀ q, pend s q = [].

Lemma no_pending_loop_spec order : ∀ pending : gmap string (list string),
  let '(b, pending') := no_pending_loop order pending in
  (∀ q, default [] (pending' !! q) = default [] (pending !! q)) ∧
  (b = true ↔ ∀ q, q ∈ order → default [] (pending !! q) = []).
Proof.
  induction order as [|x order IH]; intros pending; simpl.
  { split; [done|]. split; [|done]. by intros _ q ?%elem_of_nil. }
  destruct (default [] (pending !! x)) as [|t ts] eqn:Hx.
  - specialize (IH (delete x pending)). destruct (no_pending_loop order _) as [b p].
    destruct IH as [I1 I2].
    assert (∀ q, default [] (delete x pending !! q) = default [] (pending !! q)) as Hdel.
    { intros q. destruct (decide (q = x)) as [->|Hne].
      - rewrite lookup_delete. by rewrite Hx.
      - by rewrite lookup_delete_ne. }
    split; [intros q; by rewrite I1|]. rewrite I2. split.
    + intros H q [->|Hq]%elem_of_cons; [done|]. rewrite <-Hdel. by apply H.
    + intros H q Hq. rewrite Hdel. apply H. by right.
  - split; [done|]. split; [done|]. intros H. specialize (H x (elem_of_list_here _ _)). congruence.
Qed.

Lemma no_pending_tasks_spec order s :
  range_of (s_pending s) order →
  let '(b, s') := no_pending_tasks order s in
  s_deps s' = s_deps s ∧ s_tasks s' = s_tasks s ∧ s_cap s' = s_cap s ∧ s_len s' = s_len s ∧
  (∀ q, pend s' q = pend s q) ∧ (b = true ↔ all_out s).
Proof.
  intros Ho. unfold no_pending_tasks, has_pending, all_out.
  destruct (dg_pending (s_deps s)) as [|h l] eqn:Hp.
  - pose proof (no_pending_loop_spec order (s_pending s)) as H.
    destruct (no_pending_loop order (s_pending s)) as [b p]. destruct H as [H1 H2]. simpl.
    do 4 (split; [done|]). split; [done|]. rewrite H2. split.
    + intros Hq. split; [done|]. intros q. destruct (s_pending s !! q) as [l|] eqn:Hl.
      * apply Hq, (range_of_elem _ _ _ Ho), elem_of_dom. eauto.
      * unfold pend. by rewrite Hl.
    + intros [_ Hq] q _. apply Hq.
  - do 5 (split; [done|]). split; [done|]. naive_solver.
Qed.

Lemma SInv_pend s s' C H rel :
  SInv s C H rel →
  s_deps s' = s_deps s → s_tasks s' = s_tasks s → s_cap s' = s_cap s → s_len s' = s_len s →
  (∀ q, pend s' q = pend s q) → SInv s' C H rel.
Proof.
  intros [] E1 E2 E3 E4 E5. split; rewrite ?E1, ?E2, ?E3, ?E4; try done.
  - intros q. by rewrite E5.
  - intros q. rewrite E5. auto.
Qed.

Lemma sched_next_spec o s C H rel t :
  ok_next_orders o → SInv s C H rel →
  let '(s', r) := sched_next o s t in
  (all_out s ∧ r = ErrNoPendingTasks ∧ all_out s' ∧ SInv s' C H rel) ∨
  (¬ all_out s ∧ ∃ ready out, r = Ready ready ∧ SInv s' (C ++ [t]) (H ++ pairs_of ready) (rel ++ out) ∧
     (out = [] → ∀ x, x ∈ dg_pending (s_deps s') → ∃ m, after tasks x m ∧ m ∉ "" :: C ++ [t])).
Proof.
  intros (O1 & O2 & O3) Hinv. unfold sched_next.
  pose proof (no_pending_tasks_spec (xo_check o (s_pending s)) s (O1 _)) as Hnp.
  destruct (no_pending_tasks _ s) as [b s1]. destruct Hnp as (E1 & E2 & E3 & E4 & E5 & Eb).
  pose proof (SInv_pend s s1 C H rel Hinv E1 E2 E3 E4 E5) as Hinv1.
  destruct b.
  { left. assert (all_out s) as Ha by (by apply Eb). split; [done|]. split; [done|].
    split; [|done]. destruct Ha as [A1 A2]. split; [by rewrite E1|]. intros q. by rewrite E5. }
  clear Hinv. rename Hinv1 into Hinv.
  assert (¬ all_out s) as Hna by (intros ?%Eb; done).
  destruct (dg_next (xo_next o) (s_deps s1) t) as [g' out] eqn:E.
  destruct (dg_next_inv _ _ _ _ _ _ _ _ (si_dag _ _ _ _ Hinv) O2 E) as (I1 & I2 & I3 & I4 & I5).
  rewrite (si_tasks _ _ _ _ Hinv), (si_cap _ _ _ _ Hinv).
  set (len := <[ _ := _ ]> (s_len s1)).
  pose proof (fill_build_inv g' rel out (C ++ [t]) H (s_pending s1) len
    (xo_ready o (fill_pending (t_target <$> tasks) (s_pending s1) out)) I1
    (dgh_next _ _ _ _ _ _ _ _ (si_hist _ _ _ _ Hinv) O2 E) I4 (si_split _ _ _ _ Hinv)) as Hf.
  cbv zeta in Hf.
  assert (∀ q, default 0 (len !! q) = default 0 (s_len s1 !! q) -
     Z.of_nat (length (filter (λ t, tgt t = q) [t]))) as Hlen.
  { intros q. unfold len. rewrite tgt_lookup. destruct (decide (tgt t = q)) as [<-|Hne].
    - rewrite lookup_insert. rewrite filter_cons_True by done. simpl. done.
    - rewrite lookup_insert_ne by done. rewrite filter_cons_False by done. simpl. lia. }
  destruct (build_ready _ _) as [s' ready] eqn:Eb'. right. split; [done|].
  exists ready, out. split; [done|].
  assert (s_deps s' = g') as ->.
  { unfold build_ready in Eb'. destruct (foldl _ _ _) as [[? ?] ?]. by injection Eb' as <- _. }
  split.
  2:{ intros Hout x Hx. destruct (I3 Hout x Hx) as (m & Hm%listed_after & Hn). eauto. }
  apply Hf; [| |apply O3].
  - intros q. rewrite Hlen, (si_len _ _ _ _ Hinv), filter_app, app_length. lia.
  - intros q. rewrite Hlen. pose proof (si_room _ _ _ _ Hinv q). lia.
Qed.

(** * Consequences *)
Lemma elem_of_filter_rel q (rel : list string) t :
  t ∈ filter (λ t, tgt t = q) rel ↔ tgt t = q ∧ t ∈ rel.
Proof. by rewrite elem_of_list_filter. Qed.

Lemma SInv_handed s C H rel q t :
  SInv s C H rel → (q, t) ∈ H → t ∈ dom tasks ∧ tgt t = q ∧ t ∈ rel.
Proof.
  intros Hinv Hin%elem_of_for_target.
  assert (t ∈ filter (λ t, tgt t = q) rel) as [Ht Hr]%elem_of_filter_rel.
  { rewrite <-(si_split _ _ _ _ Hinv). apply elem_of_app. by left. }
  split; [|done].
  assert (t ∈ dom (t_after <$> tasks)) as Hd.
  { apply (di_all _ _ _ _ (si_dag _ _ _ _ Hinv)), elem_of_app. by left. }
  by rewrite dom_fmap_L in Hd.
Qed.

Lemma SInv_rel_nodup s C H rel : SInv s C H rel → NoDup rel.
Proof.
  intros Hinv. pose proof (di_nodup _ _ _ _ (si_dag _ _ _ _ Hinv)) as Hn.
  by apply NoDup_app in Hn as (? & _).
Qed.

Lemma SInv_handed_nodup s C H rel : SInv s C H rel → NoDup H.*2.
Proof.
  intros Hinv. pose proof (SInv_rel_nodup _ _ _ _ Hinv) as Hrel.
  assert (∀ q, NoDup (for_target q H)) as Hq.
  { intros q. assert (NoDup (for_target q H ++ pend s q)) as Hn.
    { rewrite (si_split _ _ _ _ Hinv). by apply NoDup_filter. }
    by apply NoDup_app in Hn as (? & _). }
  assert (∀ e, e ∈ H → tgt e.2 = e.1) as Hsame.
  { intros [q t] He. simpl. by eapply SInv_handed. }
  clear -Hq Hsame. induction H as [|[q t] H IH]; simpl; [constructor|].
  constructor.
  - intros Hin. apply elem_of_list_fmap in Hin as ([q' t'] & Heq & Hin). simpl in Heq. subst t'.
    assert (q' = q) as ->.
    { assert (tgt t = q) by (apply (Hsame (q, t)); by left).
      assert (tgt t = q') by (apply (Hsame (q', t)); by right). congruence. }
    specialize (Hq q). unfold for_target in Hq. rewrite filter_cons_True in Hq by done.
    simpl in Hq. apply NoDup_cons in Hq as [Hq _]. apply Hq. by apply elem_of_for_target.
  - apply IH.
    + intros q0. specialize (Hq q0). unfold for_target in *. rewrite filter_cons in Hq.
      destruct (decide _); [|done]. simpl in Hq. by apply NoDup_cons in Hq as [_ ?].
    + intros e He. apply Hsame. by right.
Qed.

Lemma SInv_after s C H rel q t m :
  SInv s C H rel → (q, t) ∈ H → after tasks t m → m ∈ "" :: C.
Proof.
  intros Hinv Hin Ha. apply (di_released _ _ _ _ (si_dag _ _ _ _ Hinv) t).
  - by eapply SInv_handed.
  - by apply listed_after.
Qed.

Lemma SInv_all_out s C H rel :
  SInv s C H rel → all_out s ↔ (∀ t, t ∈ dom tasks → t ∈ H.*2).
Proof.
  intros Hinv. pose proof (si_dag _ _ _ _ Hinv) as Hd.
  assert (∀ t, t ∈ dom tasks ↔ t ∈ rel ∨ t ∈ dg_pending (s_deps s)) as Hall.
  { intros t. rewrite <-elem_of_app. rewrite (di_all _ _ _ _ Hd). by rewrite dom_fmap_L. }
  split.
  - intros [H1 H2] t [Ht|Ht]%Hall; [|rewrite H1 in Ht; by apply elem_of_nil in Ht].
    assert (t ∈ for_target (tgt t) H ++ pend s (tgt t)) as Hin.
    { rewrite (si_split _ _ _ _ Hinv). by apply elem_of_filter_rel. }
    rewrite H2, app_nil_r in Hin. apply elem_of_for_target in Hin.
    apply elem_of_list_fmap. by exists (tgt t, t).
  - intros Hout. split.
    + destruct (dg_pending (s_deps s)) as [|h l] eqn:Hp; [done|]. exfalso.
      assert (h ∈ H.*2) as Hh by (apply Hout, Hall; right; by left).
      apply elem_of_list_fmap in Hh as ([q t] & -> & Hh).
      destruct (SInv_handed _ _ _ _ _ _ Hinv Hh) as (_ & _ & Hrel).
      pose proof (di_nodup _ _ _ _ Hd) as Hn. apply NoDup_app in Hn as (_ & Hn & _).
      apply (Hn t Hrel). rewrite Hp. by left.
    + intros q. destruct (pend s q) as [|t l] eqn:Hp; [done|]. exfalso.
      assert (t ∈ filter (λ t, tgt t = q) rel) as [Ht Hr]%elem_of_filter_rel.
      { rewrite <-(si_split _ _ _ _ Hinv), Hp. apply elem_of_app. right. by left. }
      assert (t ∈ H.*2) as Hh by (apply Hout, Hall; by left).
      apply elem_of_list_fmap in Hh as ([q' t'] & Heq & Hh). simpl in Heq. subst t'.
      destruct (SInv_handed _ _ _ _ _ _ Hinv Hh) as (_ & Hq' & _).
      assert (q' = q) as -> by congruence.
      assert (NoDup (for_target q H ++ pend s q)) as Hn.
      { rewrite (si_split _ _ _ _ Hinv). apply NoDup_filter. by eapply SInv_rel_nodup. }
      apply NoDup_app in Hn as (_ & Hn & _). apply (Hn t); [by apply elem_of_for_target|].
      rewrite Hp. by left.
Qed.

(** With each task reported at most once, [len] counts the tasks in flight. *)
Lemma SInv_in_flight s C H rel q :
  SInv s C H rel → NoDup C → (∀ t, t ∈ C → t ∈ H.*2) →
  Z.of_nat (length (in_flight C H q)) = default 0 (s_len s !! q).
Proof.
  intros Hinv HC Hsub. rewrite (si_len _ _ _ _ Hinv).
  assert (for_target q H ≡ₚ in_flight C H q ++ filter (λ t, tgt t = q) C) as Hp.
  { pose proof (SInv_handed_nodup _ _ _ _ Hinv) as Hnd.
    assert (∀ (P : string * string → Prop) `{HP : ∀ e, Decision (P e)}, NoDup (filter P H).*2) as Hf.
    { intros P ?. by apply NoDup_snd_filter. }
    apply NoDup_Permutation.
    - apply Hf.
    - apply NoDup_app. split; [apply Hf|]. split; [|by apply NoDup_filter].
      intros t Ht [_ HtC]%elem_of_filter_rel. unfold in_flight in Ht.
      apply elem_of_list_fmap in Ht as ([q' t'] & -> & Ht).
      apply elem_of_list_filter in Ht as [[_ Hn] _]. done.
    - intros t. rewrite elem_of_app, elem_of_for_target. unfold in_flight.
      rewrite elem_of_list_fmap. rewrite elem_of_filter_rel. split.
      + intros Ht. destruct (decide (t ∈ C)) as [HtC|HtC].
        * right. split; [|done]. by eapply SInv_handed.
        * left. exists (q, t). split; [done|]. by apply elem_of_list_filter.
      + intros [([q' t'] & -> & Ht)|[Hq HtC]].
        * apply elem_of_list_filter in Ht as [[Hq _] Ht]. simpl in *. by subst.
        * apply Hsub in HtC. apply elem_of_list_fmap in HtC as ([q' t'] & -> & Ht).
          destruct (SInv_handed _ _ _ _ _ _ Hinv Ht) as (_ & Hq' & _). simpl in *. congruence. }
  rewrite (Permutation_length Hp), app_length. lia.
Qed.

(** Progress: with nothing in flight everything has been handed out. *)
Lemma SInv_progress s C H rel :
  SInv s C H rel → runnable targets tasks →
  NoDup C → (∀ t, t ∈ C ↔ t ∈ H.*2) → all_out s.
Proof.
  intros Hinv Hrun HC Heq.
  assert (∀ q, in_flight C H q = []) as Hnone.
  { intros q. unfold in_flight. destruct (filter _ H) as [|[q' t] l] eqn:Hf; [done|]. exfalso.
    assert ((q', t) ∈ filter (λ e, e.1 = q ∧ e.2 ∉ C) H) as Hin by (rewrite Hf; by left).
    apply elem_of_list_filter in Hin as [[_ Hn] Hin]. apply Hn, Heq.
    apply elem_of_list_fmap. by exists (q', t). }
  assert (∀ q, default 0 (s_len s !! q) = 0) as Hlen.
  { intros q. rewrite <-(SInv_in_flight _ _ _ _ q Hinv HC); [by rewrite Hnone|].
    intros t. by apply Heq. }
  pose proof (si_dag _ _ _ _ Hinv) as Hd.
  assert (∀ q, pend s q = []) as Hpend.
  { intros q. destruct (pend s q) as [|t l] eqn:Hp; [done|]. exfalso.
    assert (t ∈ filter (λ t, tgt t = q) rel) as [Ht Hr]%elem_of_filter_rel.
    { rewrite <-(si_split _ _ _ _ Hinv), Hp. apply elem_of_app. right. by left. }
    assert (t ∈ dom (t_after <$> tasks)) as Htd.
    { apply (di_all _ _ _ _ Hd), elem_of_app. by left. }
    rewrite dom_fmap_L in Htd. apply elem_of_dom in Htd as [v Hv].
    destruct (Hrun t v Hv) as (n & Hn & Hn1).
    pose proof (si_full _ _ _ _ Hinv q) as Hfull. rewrite Hlen, Hp in Hfull.
    assert (cap q ≤ 0) as Hc by (by apply Hfull). unfold cap in Hc.
    unfold tgt in Ht. rewrite Hv in Ht. simpl in Ht. subst q. rewrite Hn in Hc. simpl in Hc. lia. }
  split; [|done].
  destruct (dg_pending (s_deps s)) as [|h l] eqn:Hp; [done|]. exfalso.
  destruct (si_head _ _ _ _ Hinv h l Hp) as (m & Hm & Hnm).
  destruct (di_order _ _ _ _ Hd [] h l Hp m) as [Hr|?%elem_of_nil]; [| |done].
  { by apply listed_after. }
  apply Hnm. right. apply Heq.
  assert (m ∈ for_target (tgt m) H ++ pend s (tgt m)) as Hin.
  { rewrite (si_split _ _ _ _ Hinv). by apply elem_of_filter_rel. }
  rewrite Hpend, app_nil_r in Hin. apply elem_of_for_target in Hin.
  apply elem_of_list_fmap. by exists (tgt m, m).
Qed.

(** * Histories *)
Lemma sched_history_inv s C H :
  sched_history targets tasks s C H →
  ∃ C' L rel, C = C' ++ L ∧ SInv s C' H rel ∧ (L ≠ [] → all_out s).
Proof.
  induction 1 as [o s ready Ho Hnew|o s s' C H t r _ IH Ho Hn].
  - destruct (sched_new_spec o Ho) as [(e & He & _)|(s1 & r1 & rel & He & _ & _ & Hinv)].
    { rewrite Hnew in He. done. }
    rewrite Hnew in He. injection He as <- <-. exists [], [], rel. done.
  - destruct IH as (C' & L & rel & -> & Hinv & HL).
    pose proof (sched_next_spec o s C' H rel t Ho Hinv) as Hs. rewrite Hn in Hs.
    destruct Hs as [(Ha & -> & Ha' & Hinv')|(Hna & ready & out & -> & Hinv' & _)].
    + exists C', (L ++ [t]), rel. simpl. rewrite app_nil_r, app_assoc. done.
    + destruct L as [|x L]; [|exfalso; by apply Hna, HL].
      exists (C' ++ [t]), [], (rel ++ out). rewrite !app_nil_r. done.
Qed.

Lemma sched_run_history s C H :
  sched_run targets tasks s C H →
  sched_history targets tasks s C H ∧ NoDup C ∧ (∀ t, t ∈ C → t ∈ H.*2).
Proof.
  induction 1 as [o s ready Ho Hnew|o s s' C H t r _ IH Ho Ht Hnt Hn].
  - split; [by eapply sh_new|]. split; [constructor|]. by intros t ?%elem_of_nil.
  - destruct IH as (Hh & Hnd & Hsub). split; [by eapply sh_next|]. split.
    + apply NoDup_app. split; [done|]. split; [|apply NoDup_singleton].
      intros x Hx ->%elem_of_list_singleton. done.
    + intros x Hx. rewrite fmap_app, elem_of_app. left.
      apply elem_of_app in Hx as [Hx| ->%elem_of_list_singleton]; [by apply Hsub|done].
Qed.

End inv.

(** * Iteration orders do not matter *)
Definition seq_sched (s1 s2 : sched) : Prop :=
  s_deps s1 = s_deps s2 ∧ s_tasks s1 = s_tasks s2 ∧ s_cap s1 = s_cap s2 ∧
  (∀ q, default 0 (s_len s1 !! q) = default 0 (s_len s2 !! q)) ∧
  (∀ q, default [] (s_pending s1 !! q) = default [] (s_pending s2 !! q)).

Lemma build_ready_seq o1 o2 s1 s2 :
  range_of (s_pending s1) o1 → range_of (s_pending s2) o2 → seq_sched s1 s2 →
  seq_sched (build_ready o1 s1).1 (build_ready o2 s2).1 ∧
  (build_ready o1 s1).2 = (build_ready o2 s2).2.
Proof.
  intros Ho1 Ho2 (E1 & E2 & E3 & E4 & E5).
  pose proof (build_ready_spec o1 s1 Ho1) as H1. pose proof (build_ready_spec o2 s2 Ho2) as H2.
  cbv zeta in H1, H2. destruct (build_ready o1 s1) as [t1 r1]. destruct (build_ready o2 s2) as [t2 r2].
  destruct H1 as (A1 & A2 & A3 & A4), H2 as (B1 & B2 & B3 & B4). simpl. split.
  - split; [congruence|]. split; [congruence|]. split; [congruence|]. split.
    + intros q. destruct (A4 q) as (_ & -> & _), (B4 q) as (_ & -> & _). by rewrite E3, E4, E5.
    + intros q. destruct (A4 q) as (-> & _ & _), (B4 q) as (-> & _ & _). by rewrite E3, E4, E5.
  - apply map_eq. intros q. destruct (A4 q) as (_ & _ & ->), (B4 q) as (_ & _ & ->).
    by rewrite E3, E4, E5.
Qed.

Lemma sched_next_seq o1 o2 s1 s2 t :
  ok_next_orders o1 → ok_next_orders o2 → seq_sched s1 s2 →
  seq_sched (sched_next o1 s1 t).1 (sched_next o2 s2 t).1 ∧
  (sched_next o1 s1 t).2 = (sched_next o2 s2 t).2.
Proof.
  intros (A1 & A2 & A3) (B1 & B2 & B3) (E1 & E2 & E3 & E4 & E5). unfold sched_next.
  pose proof (no_pending_tasks_spec (xo_check o1 (s_pending s1)) s1 (A1 _)) as H1.
  pose proof (no_pending_tasks_spec (xo_check o2 (s_pending s2)) s2 (B1 _)) as H2.
  destruct (no_pending_tasks (xo_check o1 _) s1) as [b1 t1].
  destruct (no_pending_tasks (xo_check o2 _) s2) as [b2 t2].
  destruct H1 as (F1 & F2 & F3 & F4 & F5 & F6), H2 as (G1 & G2 & G3 & G4 & G5 & G6).
  assert (b1 = b2) as <-.
  { assert (all_out s1 ↔ all_out s2) as Ha.
    { unfold all_out, pend. rewrite E1. split; intros [? Hq]; (split; [done|]); intros q;
        specialize (Hq q); [by rewrite <-E5|by rewrite E5]. }
    destruct b1, b2; try done; exfalso; naive_solver. }
  assert (seq_sched t1 t2) as Ht.
  { split; [congruence|]. split; [congruence|]. split; [congruence|]. split.
    - intros q. by rewrite F4, G4.
    - intros q. specialize (F5 q). specialize (G5 q). unfold pend in *. by rewrite F5, G5. }
  destruct b1; [done|]. clear -Ht A2 A3 B2 B3. destruct Ht as (E1 & E2 & E3 & E4 & E5).
  rewrite <-E1, <-E2, <-E3. rewrite (dg_next_order_irrelevant (xo_next o1) (xo_next o2)) by done.
  destruct (dg_next (xo_next o2) (s_deps t1) t) as [g out].
  set (p1 := fill_pending _ (s_pending t1) out). set (p2 := fill_pending _ (s_pending t2) out).
  set (l1 := <[_:=_]> (s_len t1)). set (l2 := <[_:=_]> (s_len t2)).
  destruct (build_ready_seq (xo_ready o1 p1) (xo_ready o2 p2)
    (Sched g (s_tasks t1) p1 (s_cap t1) l1) (Sched g (s_tasks t1) p2 (s_cap t1) l2)) as [H1 H2].
  { apply A3. } { apply B3. }
  { split; [done|]. split; [done|]. split; [done|]. split; intros q; simpl.
    - subst l1 l2. destruct (decide (default "" (s_tasks t1 !! t) = q)) as [<-|Hne].
      + rewrite !lookup_insert. simpl. by rewrite E4.
      + by rewrite !lookup_insert_ne.
    - unfold p1, p2. rewrite !fill_pending_spec. by rewrite E5. }
  destruct (build_ready (xo_ready o1 p1) _) as [u1 r1].
  destruct (build_ready (xo_ready o2 p2) _) as [u2 r2]. simpl in *. by subst.
Qed.

Lemma answers_seq calls1 : ∀ calls2 s1 s2,
  calls1.*2 = calls2.*2 →
  Forall (λ c, ok_next_orders c.1) calls1 → Forall (λ c, ok_next_orders c.1) calls2 →
  seq_sched s1 s2 → answers s1 calls1 = answers s2 calls2.
Proof.
  induction calls1 as [|[o1 t1] calls1 IH]; intros [|[o2 t2] calls2] s1 s2 Heq Hf1 Hf2 Hs; try done.
  simpl in Heq. injection Heq as -> Heq.
  apply Forall_cons in Hf1 as [Ho1 Hf1]. apply Forall_cons in Hf2 as [Ho2 Hf2]. simpl in *.
  destruct (sched_next_seq o1 o2 s1 s2 t2 Ho1 Ho2 Hs) as [H1 H2].
  destruct (sched_next o1 s1 t2) as [s1' r1]. destruct (sched_next o2 s2 t2) as [s2' r2].
  simpl in *. rewrite H2. f_equal. by apply IH.
Qed.

Lemma sched_new_seq targets tasks o1 o2 :
  ok_new_orders targets tasks o1 → ok_new_orders targets tasks o2 →
  match sched_new o1 targets tasks, sched_new o2 targets tasks with
  | Some (inl _), Some (inl _) => True
  | Some (inr (s1, r1)), Some (inr (s2, r2)) => r1 = r2 ∧ seq_sched s1 s2
  | _, _ => False
  end.
Proof.
  intros (A1 & A2 & A3 & A4 & A5) (B1 & B2 & B3 & B4 & B5). unfold sched_new.
  rewrite (fill_caps_spec _ _ A1), (fill_tasks_spec _ _ A2).
  rewrite (fill_caps_spec _ _ B1), (fill_tasks_spec _ _ B2).
  pose proof (new_dependency_graph_order_irrelevant _ _ _ A3 B3) as Hd.
  destruct (new_dependency_graph (no_dag o1) (t_after <$> tasks)) as [[e1|g1]|];
    destruct (new_dependency_graph (no_dag o2) (t_after <$> tasks)) as [[e2|g2]|]; try done; try (by destruct e1).
  - injection Hd as <-. rewrite (dg_next_order_irrelevant (no_next o1) (no_next o2)) by done.
    destruct (dg_next (no_next o2) g1 "") as [g out].
    set (p := fill_pending _ ∅ out).
    destruct (build_ready_seq (no_ready o1 p) (no_ready o2 p)
      (Sched g (t_target <$> tasks) p targets ((λ _, 0) <$> targets))
      (Sched g (t_target <$> tasks) p targets ((λ _, 0) <$> targets))) as [H1 H2]; [apply A5|apply B5|done|].
    destruct (build_ready (no_ready o1 p) _) as [u1 r1].
    destruct (build_ready (no_ready o2 p) _) as [u2 r2]. simpl in *. done.
Qed.

(** * The forms used by the property theorems *)
Section props.
Context (targets : gmap string Z) (tasks : gmap string task).

Lemma dangling_after : dangling (t_after <$> tasks) ↔ ∃ t m, after tasks t m ∧ m ∉ dom tasks.
Proof.
  unfold dangling. setoid_rewrite listed_after. by rewrite dom_fmap_L.
Qed.
Lemma circular_after : circular (t_after <$> tasks) ↔ ∃ t, tc (after tasks) t t.
Proof.
  unfold circular.
  assert (∀ x y, tc (listed (t_after <$> tasks)) x y ↔ tc (after tasks) x y) as Htc.
  { intros x y. split; intros H; induction H as [? ? H|? ? ? H _ IH].
    - apply tc_once. by apply listed_after.
    - eapply tc_l; [by apply listed_after|done].
    - apply tc_once. by apply listed_after.
    - eapply tc_l; [by apply listed_after|done]. }
  by setoid_rewrite Htc.
Qed.

Lemma sched_new_exact_lem o :
  ok_new_orders targets tasks o →
  match sched_new o targets tasks with
  | None => False
  | Some (inl _) => (∃ t m, after tasks t m ∧ m ∉ dom tasks) ∨ (∃ t, tc (after tasks) t t)
  | Some (inr _) => ¬ (∃ t m, after tasks t m ∧ m ∉ dom tasks) ∧ ¬ (∃ t, tc (after tasks) t t)
  end.
Proof.
  intros Ho. destruct (sched_new_spec targets tasks o Ho) as
    [(e & -> & H)|(s & r & rel & -> & H1 & H2 & _)].
  - by rewrite <-dangling_after, <-circular_after.
  - by rewrite <-dangling_after, <-circular_after.
Qed.

Lemma sched_history_accepted s C H :
  sched_history targets tasks s C H →
  ¬ (∃ t m, after tasks t m ∧ m ∉ dom tasks) ∧ ¬ (∃ t, tc (after tasks) t t).
Proof.
  induction 1 as [o s ready Ho Hnew|]; [|done].
  pose proof (sched_new_exact_lem o Ho) as H. by rewrite Hnew in H.
Qed.

Lemma sched_after_lem s C H q t m :
  sched_history targets tasks s C H → "" ∉ dom tasks →
  (q, t) ∈ H → after tasks t m → m ∈ C.
Proof.
  intros Hh He Hin Ha.
  destruct (sched_history_accepted _ _ _ Hh) as [Hd _].
  destruct (sched_history_inv _ _ _ _ _ Hh) as (C' & L & rel & -> & Hinv & _).
  pose proof (SInv_after _ _ _ _ _ _ _ _ _ Hinv Hin Ha) as Hm.
  apply elem_of_app. left. apply elem_of_cons in Hm as [->|?]; [|done]. exfalso.
  apply Hd. exists t, "". done.
Qed.

Lemma sched_limit_lem s C H q :
  sched_run targets tasks s C H →
  Z.of_nat (length (in_flight C H q)) ≤ Z.max 0 (default 0 (targets !! q)).
Proof.
  intros (Hh & Hnd & Hsub)%sched_run_history.
  destruct (sched_history_inv _ _ _ _ _ Hh) as (C' & L & rel & -> & Hinv & _).
  apply NoDup_app in Hnd as (Hnd & _ & _).
  pose proof (SInv_in_flight _ _ _ _ _ _ q Hinv Hnd) as Hf.
  pose proof (si_room _ _ _ _ _ _ Hinv q) as Hr. unfold cap in Hr.
  assert (length (in_flight (C' ++ L) H q) ≤ length (in_flight C' H q))%nat as Hle.
  { unfold in_flight. rewrite !fmap_length. clear. induction H as [|[q' t] H IH]; [done|].
    rewrite !filter_cons. simpl. repeat case_decide; simpl; try lia.
    exfalso. naive_solver set_solver. }
  rewrite Hf in Hle || (rewrite <-Hf in Hr; [lia|]).
  intros t Ht. apply Hsub, elem_of_app. by left.
Qed.

Lemma sched_once_lem s C H :
  sched_history targets tasks s C H →
  NoDup H.*2 ∧ ∀ q t, (q, t) ∈ H → ∃ v, tasks !! t = Some v ∧ t_target v = q.
Proof.
  intros Hh. destruct (sched_history_inv _ _ _ _ _ Hh) as (C' & L & rel & -> & Hinv & _).
  split; [by eapply SInv_handed_nodup|]. intros q t Hin.
  destruct (SInv_handed _ _ _ _ _ _ _ _ Hinv Hin) as ((v & Hv)%elem_of_dom & Ht & _).
  exists v. split; [done|]. unfold tgt in Ht. by rewrite Hv in Ht.
Qed.

Lemma sched_progress_lem s C H :
  sched_run targets tasks s C H → runnable targets tasks →
  (∃ t, t ∈ dom tasks ∧ t ∉ H.*2) → ∃ t, t ∈ H.*2 ∧ t ∉ C.
Proof.
  intros (Hh & Hnd & Hsub)%sched_run_history Hrun (t & Ht & Hnt).
  destruct (decide (Exists (λ t, t ∉ C) H.*2)) as [He|He].
  { by apply Exists_exists in He. }
  exfalso. apply Hnt.
  assert (∀ t, t ∈ H.*2 → t ∈ C) as Hall.
  { intros x Hx. destruct (decide (x ∈ C)) as [?|Hn]; [done|]. exfalso. apply He.
    apply Exists_exists. eauto. }
  destruct (sched_history_inv _ _ _ _ _ Hh) as (C' & L & rel & -> & Hinv & HL).
  assert (all_out s) as Ho.
  { destruct (decide (L = [])) as [->|Hne]; [|by apply HL].
    rewrite app_nil_r in *. eapply SInv_progress; [done..|]. split; auto. }
  by eapply (SInv_all_out targets tasks).
Qed.

Lemma sched_end_lem s C H o t s' r :
  sched_history targets tasks s C H → ok_next_orders o → sched_next o s t = (s', r) →
  r = ErrNoPendingTasks ↔ (∀ t, t ∈ dom tasks → t ∈ H.*2).
Proof.
  intros Hh Ho Hn. destruct (sched_history_inv _ _ _ _ _ Hh) as (C' & L & rel & -> & Hinv & _).
  pose proof (sched_next_spec targets tasks o s C' H rel t Ho Hinv) as Hs. rewrite Hn in Hs.
  rewrite <-(SInv_all_out _ _ _ _ _ _ Hinv).
  destruct Hs as [(? & -> & _)|(? & ready & out & -> & _)]; naive_solver.
Qed.

Lemma sched_complete_lem s C H :
  sched_run targets tasks s C H → runnable targets tasks →
  (∀ t, t ∈ H.*2 → t ∈ C) → H.*2 ≡ₚ elements (dom tasks).
Proof.
  intros Hrun Hr Hall. pose proof (sched_run_history _ _ _ _ _ Hrun) as (Hh & Hnd & Hsub).
  destruct (sched_once_lem _ _ _ Hh) as [Hn1 Hn2].
  apply NoDup_Permutation; [done|apply NoDup_elements|]. intros t. rewrite elem_of_elements. split.
  - intros ([q t'] & -> & Hin)%elem_of_list_fmap.
    destruct (Hn2 _ _ Hin) as (v & Hv & _). apply elem_of_dom. eauto.
  - intros Ht. destruct (decide (t ∈ H.*2)) as [?|Hn]; [done|]. exfalso.
    destruct (sched_progress_lem _ _ _ Hrun Hr) as (x & Hx & Hxn); [eauto|]. by apply Hxn, Hall.
Qed.

(** A target with a task waiting in its queue is full. *)
Lemma SInv_full s C H rel q :
  SInv targets tasks s C H rel → NoDup C → (∀ t, t ∈ C → t ∈ H.*2) → pend s q ≠ [] →
  Z.of_nat (length (in_flight C H q)) = Z.max 0 (default 0 (targets !! q)).
Proof.
  intros Hinv Hnd Hsub Hp. pose proof (SInv_in_flight _ _ _ _ _ _ q Hinv Hnd Hsub) as Hf.
  pose proof (si_full _ _ _ _ _ _ Hinv q Hp) as H1. pose proof (si_room _ _ _ _ _ _ Hinv q) as H2.
  unfold cap in *. lia.
Qed.

Lemma SInv_waiting s C H rel t :
  SInv targets tasks s C H rel → t ∈ rel → t ∉ H.*2 → t ∈ pend s (target_of tasks t).
Proof.
  intros Hinv Ht Hn.
  assert (t ∈ for_target (tgt tasks t) H ++ pend s (tgt tasks t)) as Hin.
  { rewrite (si_split _ _ _ _ _ _ Hinv). by apply elem_of_filter_rel. }
  apply elem_of_app in Hin as [Hin|Hin]; [|done]. exfalso. apply Hn.
  apply elem_of_for_target in Hin. apply elem_of_list_fmap. by exists (tgt tasks t, t).
Qed.

(** With nothing pending Next of the dependency graph releases nothing. *)
Lemma dg_history_idle nodes g P rel L :
  dg_history nodes g P rel → dg_pending g = [] → ∃ g', dg_history nodes g' (P ++ L) rel.
Proof.
  intros Hh Hp. revert g P Hh Hp. induction L as [|c L IH]; intros g P Hh Hp.
  { rewrite app_nil_r. eauto. }
  destruct (dg_next elements g c) as [g' out] eqn:E.
  assert (ok_set_ranger elements) as Hr by (intros X; unfold range_of_set; done).
  pose proof (dgh_next _ _ _ _ _ _ _ _ Hh Hr E) as Hh'.
  unfold dg_next in E. rewrite Hp in E. simpl in E. injection E as <- <-.
  rewrite app_nil_r in Hh'. destruct (IH _ _ Hh') as [g' H']; [done|].
  rewrite <-app_assoc in H'. eauto.
Qed.

Lemma sched_queue_lem s C H :
  sched_run targets tasks s C H →
  ∃ g released, dg_history (t_after <$> tasks) g ("" :: C) released ∧
    ∀ q, let mine := filter (λ t, target_of tasks t = q) released in
      handed_to q H `prefix_of` mine ∧
      (handed_to q H = mine ∨
       Z.of_nat (length (in_flight C H q)) = Z.max 0 (default 0 (targets !! q))).
Proof.
  intros (Hh & Hnd & Hsub)%sched_run_history.
  destruct (sched_history_inv _ _ _ _ _ Hh) as (C' & L & rel & -> & Hinv & HL).
  assert (∃ g, dg_history (t_after <$> tasks) g ("" :: C' ++ L) rel) as [g Hg].
  { pose proof (si_hist _ _ _ _ _ _ Hinv) as H1. destruct (decide (L = [])) as [->|Hne].
    - rewrite app_nil_r. eauto.
    - destruct (HL Hne) as [Hp _].
      destruct (dg_history_idle _ _ _ _ L H1 Hp) as [g' H2]. eauto. }
  exists g, rel. split; [done|]. intros q mine.
  assert (handed_to q H ++ pend s q = mine) as Hm by exact (si_split _ _ _ _ _ _ Hinv q).
  split; [by exists (pend s q)|].
  destruct (decide (pend s q = [])) as [Hp|Hp].
  { left. by rewrite Hp, app_nil_r in Hm. }
  right. assert (L = []) as ->.
  { destruct (decide (L = [])) as [?|Hne]; [done|]. destruct (HL Hne) as [_ Hq]. by rewrite Hq in Hp. }
  rewrite app_nil_r in *. by eapply SInv_full.
Qed.

Lemma sched_idle_lem s C H o t s' x :
  sched_run targets tasks s C H → "" ∉ dom tasks → ok_next_orders o → t ∈ H.*2 → t ∉ C →
  (sched_next o s t).1 = s' → handed_by (sched_next o s t).2 = [] →
  startable tasks (C ++ [t]) H x →
  ∃ y, startable tasks (C ++ [t]) H y ∧
    Z.of_nat (length (in_flight (C ++ [t]) H (target_of tasks y))) =
    Z.max 0 (default 0 (targets !! target_of tasks y)).
Proof.
  intros Hrun He Ho Ht Htn Hs' Hr (Hx1 & Hx2 & Hx3).
  pose proof (sched_run_history _ _ _ _ _ Hrun) as (Hh & Hnd & Hsub).
  destruct (sched_history_accepted _ _ _ Hh) as [Hdang _].
  destruct (sched_history_inv _ _ _ _ _ Hh) as (C' & L & rel & -> & Hinv & HL).
  pose proof (SInv_all_out _ _ _ _ _ _ Hinv) as Hall.
  assert (¬ all_out s) as Hna.
  { intros Ha. apply Hx2. by apply Hall. }
  assert (L = []) as ->. { destruct (decide (L = [])) as [?|Hne]; [done|]. by apply HL in Hne. }
  rewrite app_nil_r in *.
  pose proof (sched_next_spec targets tasks o s C' H rel t Ho Hinv) as Hsp.
  destruct (sched_next o s t) as [s1 r]. simpl in Hs', Hr. subst s1.
  destruct Hsp as [(Ha & _)|(_ & ready & out & -> & Hinv' & Hout)]; [done|].
  simpl in Hr. rewrite Hr, app_nil_r in Hinv'.
  assert (NoDup (C' ++ [t])) as Hnd'.
  { apply NoDup_app. split; [done|]. split; [|apply NoDup_singleton].
    intros y Hy ->%elem_of_list_singleton. done. }
  assert (∀ y, y ∈ C' ++ [t] → y ∈ H.*2) as Hsub'.
  { intros y [Hy| ->%elem_of_list_singleton]%elem_of_app; [by apply Hsub|done]. }
  assert (∀ y, y ∈ rel ++ out → y ∉ H.*2 →
    Z.of_nat (length (in_flight (C' ++ [t]) H (target_of tasks y))) =
    Z.max 0 (default 0 (targets !! target_of tasks y))) as Hfull.
  { intros y Hy Hn. eapply SInv_full; [done..|].
    pose proof (SInv_waiting _ _ _ _ _ Hinv' Hy Hn) as Hw. intros Hp. rewrite Hp in Hw.
    by apply elem_of_nil in Hw. }
  pose proof (si_dag _ _ _ _ _ _ Hinv') as Hd.
  destruct (decide (out = [])) as [->|Hne].
  - exists x. split; [done|]. apply Hfull; [|done].
    assert (x ∈ (rel ++ []) ++ dg_pending (s_deps s')) as Hin.
    { apply (di_all _ _ _ _ Hd). by rewrite dom_fmap_L. }
    apply elem_of_app in Hin as [?|Hin]; [done|]. exfalso.
    destruct (Hout eq_refl x Hin) as (m & Hm & Hmn). apply Hmn. right. by apply Hx3.
  - destruct out as [|y out]; [done|]. exists y.
    assert (y ∈ rel ++ y :: out) as Hy by (apply elem_of_app; right; left).
    assert (y ∉ H.*2) as Hyn.
    { intros ([q z] & -> & Hz)%elem_of_list_fmap.
      destruct (SInv_handed _ _ _ _ _ _ _ _ Hinv Hz) as (_ & _ & Hz').
      pose proof (SInv_rel_nodup _ _ _ _ _ _ Hinv') as Hn. apply NoDup_app in Hn as (_ & Hn & _).
      apply (Hn z Hz'). left. }
    split; [|by apply Hfull]. split; [|split; [done|]].
    + assert (y ∈ dom (t_after <$> tasks)) as Hyd.
      { apply (di_all _ _ _ _ Hd), elem_of_app. by left. }
      by rewrite dom_fmap_L in Hyd.
    + intros m Hm.
      assert (m ∈ "" :: C' ++ [t]) as [->|?]%elem_of_cons; [|exfalso; apply Hdang; eauto|done].
      apply (di_released _ _ _ _ Hd y); [done|]. by apply listed_after.
Qed.

Lemma sched_flat_lem s C H t :
  sched_run targets tasks s C H → (∀ t m, ¬ after tasks t m) →
  startable tasks C H t →
  Z.of_nat (length (in_flight C H (target_of tasks t))) =
  Z.max 0 (default 0 (targets !! target_of tasks t)).
Proof.
  intros (Hh & Hnd & Hsub)%sched_run_history Hflat (Ht & Hn & _).
  destruct (sched_history_inv _ _ _ _ _ Hh) as (C' & L & rel & -> & Hinv & HL).
  assert (L = []) as ->.
  { destruct (decide (L = [])) as [?|Hne]; [done|]. exfalso. apply Hn.
    by apply (SInv_all_out _ _ _ _ _ _ Hinv); [apply HL|]. }
  rewrite app_nil_r in *. eapply SInv_full; [done..|].
  assert (t ∈ rel) as Hr.
  { assert (t ∈ rel ++ dg_pending (s_deps s)) as Hin.
    { apply (di_all _ _ _ _ (si_dag _ _ _ _ _ _ Hinv)). by rewrite dom_fmap_L. }
    destruct (dg_pending (s_deps s)) as [|h l] eqn:Hp; [by rewrite app_nil_r in Hin|].
    destruct (si_head _ _ _ _ _ _ Hinv h l Hp) as (m & Hm & _). by apply Hflat in Hm. }
  pose proof (SInv_waiting _ _ _ _ _ Hinv Hr Hn) as Hw. intros Hp. rewrite Hp in Hw.
  by apply elem_of_nil in Hw.
Qed.

Lemma sched_bounded_lem s C H :
  sched_run targets tasks s C H → (length C ≤ size (dom tasks))%nat.
Proof.
  intros Hrun. pose proof (sched_run_history _ _ _ _ _ Hrun) as (Hh & Hnd & Hsub).
  destruct (sched_once_lem _ _ _ Hh) as [Hn1 Hn2].
  rewrite <-(size_list_to_set (C := gset string) C Hnd).
  apply subseteq_size. intros t Ht%elem_of_list_to_set.
  apply Hsub, elem_of_list_fmap in Ht as ([q t'] & -> & Hin).
  destruct (Hn2 _ _ Hin) as (v & Hv & _). apply elem_of_dom. eauto.
Qed.
End props.

Lemma sched_deterministic_lem targets tasks o1 o2 :
  ok_new_orders targets tasks o1 → ok_new_orders targets tasks o2 →
  match sched_new o1 targets tasks, sched_new o2 targets tasks with
  | Some (inl _), Some (inl _) => True
  | Some (inr (s1, r1)), Some (inr (s2, r2)) =>
    r1 = r2 ∧
    ∀ calls1 calls2, calls1.*2 = calls2.*2 →
      Forall (λ c, ok_next_orders c.1) calls1 → Forall (λ c, ok_next_orders c.1) calls2 →
      answers s1 calls1 = answers s2 calls2
  | _, _ => False
  end.
Proof.
  intros H1 H2. pose proof (sched_new_seq targets tasks o1 o2 H1 H2) as H.
  destruct (sched_new o1 targets tasks) as [[e1|[s1 r1]]|];
    destruct (sched_new o2 targets tasks) as [[e2|[s2 r2]]|]; try done.
  destruct H as [-> Hs]. split; [done|]. intros. by apply answers_seq.
Qed.
