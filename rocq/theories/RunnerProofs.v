(** Runner proofs, part 4: the property lemmas. *)
From stdpp Require Import gmap sets list strings numbers relations.
From Verif Require Import GoBase GoBaseProofs DagModel DagSpec SchedModel SchedSpec SchedProofs DagExamples
  SchedExamples RunnerModel RunnerSpec RunnerInvA RunnerInvT RunnerInvB.

(** * Capacity *)
Definition total (m : gmap string Z) : Z := map_fold (λ _ n s, n + s)%Z 0%Z m.

Lemma total_insert m q n : m !! q = None → total (<[q:=n]> m) = (n + total m)%Z.
Proof. intros H. unfold total. rewrite map_fold_insert_L; [done|intros; lia|done]. Qed.

Lemma filter_length_split {A} (P : A → Prop) `{HP : ∀ x, Decision (P x)} (l : list A) :
  length l = (length (filter P l) + length (filter (λ x, ¬ P x) l))%nat.
Proof.
  induction l as [|x l IH]; [done|]. rewrite !filter_cons.
  repeat case_decide; simpl; try tauto; lia.
Qed.

Lemma total_bound (m : gmap string Z) : ∀ l : list (string * string),
  (∀ q n, m !! q = Some n → (0 ≤ n)%Z) →
  (∀ q, (Z.of_nat (length (filter (λ e, e.1 = q) l)) ≤ Z.max 0 (default 0%Z (m !! q)))%Z) →
  (Z.of_nat (length l) ≤ total m)%Z.
Proof.
  induction m as [|q n m Hq IH] using map_ind; intros l Hpos Hl.
  - destruct l as [|[q t] l]; [done|]. exfalso. specialize (Hl q).
    rewrite filter_cons_True in Hl by done. rewrite lookup_empty in Hl. simpl in Hl. lia.
  - rewrite total_insert by done.
    assert (0 ≤ n)%Z as Hn by (apply (Hpos q); by rewrite lookup_insert).
    rewrite (filter_length_split (λ e, e.1 = q) l).
    pose proof (Hl q) as Hlq. rewrite lookup_insert in Hlq. simpl in Hlq.
    assert (Z.of_nat (length (filter (λ x, ¬ (λ e : string * string, e.1 = q) x) l)) ≤ total m)%Z; [|lia].
    apply IH.
    + intros q' n' H. apply (Hpos q'). rewrite lookup_insert_ne; [done|]. intros ->. congruence.
    + intros q'. rewrite list_filter_filter. destruct (decide (q' = q)) as [->|Hne].
      * rewrite Hq. simpl. assert (filter (λ a : string * string, a.1 = q ∧ ¬ a.1 = q) l = []) as ->.
        { apply elem_of_nil_inv. intros e He%elem_of_list_filter. tauto. }
        simpl. lia.
      * specialize (Hl q'). rewrite lookup_insert_ne in Hl by done.
        assert (length (filter (λ a : string * string, a.1 = q' ∧ ¬ a.1 = q) l) ≤
                length (filter (λ a : string * string, a.1 = q') l))%nat; [|lia].
        clear. induction l as [|e l IH]; [done|]. rewrite !filter_cons.
        repeat case_decide; simpl; try tauto; lia.
Qed.

Lemma total_nonneg (m : gmap string Z) :
  (∀ q n, m !! q = Some n → (0 ≤ n)%Z) → (0 ≤ total m)%Z.
Proof.
  intros H. pose proof (total_bound m [] H) as Hb. simpl in Hb. apply Hb. intros. lia.
Qed.

Lemma length_filter_notin (C : list string) : ∀ H : list (string * string),
  NoDup H.*2 → NoDup C → (∀ t, t ∈ C → t ∈ H.*2) →
  length H = (length (filter (λ e, e.2 ∉ C) H) + length C)%nat.
Proof.
  intros H Hnd HC Hsub.
  rewrite (filter_length_split (λ e, e.2 ∉ C) H). f_equal.
  rewrite <-(fmap_length snd (filter _ H)). apply Permutation_length.
  apply NoDup_Permutation; [by apply NoDup_snd_filter|done|].
  intros t. rewrite elem_of_list_fmap. split.
  - intros ([q t'] & -> & He). apply elem_of_list_filter in He as [He _]. simpl in *.
    destruct (decide (t' ∈ C)); [done|tauto].
  - intros Ht. pose proof (Hsub t Ht) as Hs.
    apply elem_of_list_fmap in Hs as ([q t'] & -> & He).
    exists (q, t'). split; [done|]. apply elem_of_list_filter. simpl in *. tauto.
Qed.

Lemma tbegun_titem pc x : x ∈ tbegun pc → x ∈ titem pc.
Proof. destruct pc; simpl; set_solver. Qed.

Section props.
Context (inp : run_input).
Notation tasks := (ri_tasks inp).
Notation limits := (ri_limits inp).

Lemma InvB_inflight st tr H C D :
  limits_ok inp → InvB inp st tr H C D →
  (Z.of_nat (length D + length (ch_buf (r_done st)) + length (main_q (r_main st)) +
     length (ch_buf (r_ended st)) + length (collect titem (r_targets st)) +
     length (upstream st)) ≤ total limits)%Z.
Proof.
  intros Hlim Hi. destruct (sched_ok_nodup _ _ _ _ _ (b_sched _ _ _ _ _ _ Hi))
    as (N1 & N2 & N3 & _ & N5 & _).
  pose proof (Permutation_length (b_part _ _ _ _ _ _ Hi)) as Hlen.
  rewrite fmap_length, (length_filter_notin C H N1 N2 N3) in Hlen.
  assert (Z.of_nat (length (filter (λ e, e.2 ∉ C) H)) ≤ total limits)%Z as Hb.
  { apply total_bound; [done|]. intros q. rewrite list_filter_filter.
    specialize (N5 q). unfold in_flight in N5. by rewrite fmap_length in N5. }
  unfold settled in Hlen. rewrite !app_length, !fmap_length in Hlen. lia.
Qed.

Lemma capacity_total : run_capacity inp = (2 * total limits)%Z.
Proof. done. Qed.

(** * Traces are prefix closed *)
Lemma executes_snoc st tr ev :
  executes inp st (tr ++ [ev]) →
  ∃ st1 st2, executes inp st1 tr ∧ steps_to inp st1 (Some ev) st2.
Proof.
  intros H. remember (tr ++ [ev]) as tr' eqn:E. revert tr ev E.
  induction H as [order Ho|st ev' st' tr0 He IH Hs]; intros tr ev E.
  - by destruct tr.
  - destruct ev' as [ev'|]; simpl in E.
    + apply app_inj_2 in E as [-> [= ->]]; [|done]. eauto.
    + rewrite app_nil_r in E. eauto.
Qed.
Lemma executes_prefix tr2 : ∀ st tr1, executes inp st (tr1 ++ tr2) → ∃ st1, executes inp st1 tr1.
Proof.
  induction tr2 as [|ev tr2 IH] using rev_ind; intros st tr1 H.
  - rewrite app_nil_r in H. eauto.
  - rewrite app_assoc in H. apply executes_snoc in H as (st1 & st2 & H & _). eauto.
Qed.

(** * C16, C23: order *)
Lemma run_once_lem st tr : executes inp st tr → NoDup (begun tr).
Proof.
  intros He. destruct (executes_InvB _ _ _ He) as (H & C & D & Hi).
  destruct (sched_ok_nodup _ _ _ _ _ (b_sched _ _ _ _ _ _ Hi)) as (N1 & _).
  rewrite (b_part _ _ _ _ _ _ Hi) in N1. rewrite (b_begun _ _ _ _ _ _ Hi).
  apply NoDup_app in N1 as (N1 & N2 & N3). apply NoDup_app in N3 as (N3 & _ & _).
  assert (∀ ts, NoDup (collect titem ts) → NoDup (collect tbegun ts)) as Hc.
  { intros ts. unfold collect. generalize (map_to_list ts). intros l. induction l as [|[q pc] l IH]; [done|].
    rewrite !bind_cons. simpl. intros (M1 & M2 & M3)%NoDup_app. apply NoDup_app.
    split; [destruct pc; simpl in *; by first [apply NoDup_nil_2|apply NoDup_singleton]|]. split; [|by apply IH].
    intros x Hx Hin. apply (M2 x); [by apply tbegun_titem|].
    apply elem_of_list_bind in Hin as ([q' pc'] & Hin & Hl). apply elem_of_list_bind.
    exists (q', pc'). split; [|done]. by apply tbegun_titem. }
  apply NoDup_app. split; [done|]. split; [|by apply Hc].
  intros x Hx (q & pc & Hq & Hin)%elem_of_collect. apply (N2 x Hx).
  apply elem_of_app. left. apply elem_of_collect. exists q, pc. split; [done|]. by apply tbegun_titem.
Qed.

Lemma run_on_target_lem st tr q t :
  executes inp st tr → EvHandle q t ∈ tr → ∃ v, tasks !! t = Some v ∧ t_target v = q.
Proof.
  intros He Hin. destruct (executes_InvB _ _ _ He) as (H & C & D & Hi).
  destruct (sched_ok_nodup _ _ _ _ _ (b_sched _ _ _ _ _ _ Hi)) as (_ & _ & _ & N & _).
  apply N. by apply (b_evH _ _ _ _ _ _ Hi).
Qed.

Lemma run_after_lem st tr1 q t tr2 m :
  executes inp st (tr1 ++ EvHandle q t :: tr2) → "" ∉ dom tasks →
  tc (after tasks) t m → ∃ q', EvHandled q' m None ∈ tr1.
Proof.
  intros He Hn Htc. revert st tr1 q tr2 He. induction Htc as [t m Ha|t m' m Ha _ IH];
    intros st tr1 q tr2 He.
  - destruct (executes_InvB _ _ _ He) as (H & C & D & Hi).
    by apply (b_order _ _ _ _ _ _ Hi Hn _ q t tr2).
  - destruct (executes_InvB _ _ _ He) as (H & C & D & Hi).
    destruct (b_order _ _ _ _ _ _ Hi Hn _ q t tr2 eq_refl m' Ha) as [q' Hq'].
    destruct (executes_prefix _ _ _ He) as [st1 He1].
    destruct (t_result _ _ _ (executes_InvT _ _ _ He1) _ _ _ Hq') as [_ Hb].
    apply elem_of_list_split in Hb as (l1 & l2 & ->).
    destruct (IH _ _ _ _ He1) as [q'' Hq'']. exists q''. apply elem_of_app. by left.
Qed.

Lemma elem_of_begun tr t : t ∈ begun tr ↔ ∃ q, EvHandle q t ∈ tr.
Proof.
  unfold begun. rewrite elem_of_list_omap. split.
  - intros (x & Hx & Hx'). destruct x; simplify_eq. eauto.
  - intros [q Hq]. by exists (EvHandle q t).
Qed.

Lemma run_result_lem st tr q t e :
  executes inp st tr → EvHandled q t e ∈ tr → e = ri_handle inp t.
Proof. intros He H. by destruct (t_result _ _ _ (executes_InvT _ _ _ He) _ _ _ H). Qed.

Lemma run_downstream_lem st tr q t e t' :
  executes inp st tr → "" ∉ dom tasks → EvHandled q t (Some e) ∈ tr → tc (after tasks) t' t →
  ∀ q', EvHandle q' t' ∉ tr.
Proof.
  intros He Hn Hf Htc q' Hin. apply elem_of_list_split in Hin as (tr1 & tr2 & ->).
  destruct (run_after_lem _ _ _ _ _ _ He Hn Htc) as [q'' Hok].
  pose proof (run_result_lem _ _ _ _ _ He Hf).
  assert (EvHandled q'' t None ∈ tr1 ++ EvHandle q' t' :: tr2) as Hok' by (apply elem_of_app; by left).
  pose proof (run_result_lem _ _ _ _ _ He Hok'). congruence.
Qed.

(** * C17 *)
Lemma run_sequential_lem st tr q :
  executes inp st tr → begun_on q tr = ended_on q tr ∨ ∃ t, begun_on q tr = ended_on q tr ++ [t].
Proof.
  intros He. rewrite (t_alt _ _ _ (executes_InvT _ _ _ He) q).
  destruct (r_targets st !! q) as [[]|]; simpl; rewrite ?app_nil_r; eauto.
Qed.

(** * C18, C19 *)
Lemma run_success_lem st tr :
  executes inp st tr → EvReturn None ∈ tr →
  (well_ordered tasks → ∀ t, t ∈ dom tasks → ∃ q, EvHandled q t None ∈ tr) ∧
  (∀ q t e, EvHandled q t e ∈ tr → e = None).
Proof.
  intros He Hret. pose proof (executes_InvT _ _ _ He) as HT. pose proof (executes_InvA _ _ _ He) as HA.
  apply (t_ret _ _ _ HT) in Hret. destruct (executes_InvB _ _ _ He) as (H & C & D & Hi).
  pose proof (a_main _ _ HA) as Hm. rewrite Hret in Hm. simpl in Hm.
  destruct Hm as (_ & Hr & Heb & Hdom).
  pose proof (a_router _ _ HA) as Ho. rewrite Hr in Ho. simpl in Ho.
  destruct Ho as (Hrc & Hrb & _ & _ & Hdone). apply (a_ready _ _ HA) in Hrc.
  assert (D = []) as -> by (apply (b_drop _ _ _ _ _ _ Hi); by rewrite Hret).
  assert (settled st C [] = C ++ ch_buf (r_done st)) as Hset.
  { unfold settled. rewrite Hret, Heb. simpl. by rewrite app_nil_r. }
  assert (∀ t, t ∈ settled st C [] → ∃ q, EvHandled q t None ∈ tr) as Hset'.
  { intros t Ht. destruct (b_handled _ _ _ _ _ _ Hi t Ht) as [q Hq]. exists q.
    rewrite (b_ok _ _ _ _ _ _ Hi t) in Hq; [done|]. rewrite Hset in Ht. set_solver. }
  split.
  - intros Hw t Ht. apply Hset'.
    destruct (b_nil _ _ _ _ _ _ Hi) as [(_ & _ & ?)|Hall]; [by rewrite Hret|done|].
    apply Hall in Ht. rewrite (b_part _ _ _ _ _ _ Hi) in Ht.
    rewrite collect_done in Ht by done. unfold upstream in Ht. rewrite Hr, Hrb, Hrc in Ht.
    simpl in Ht. by rewrite app_nil_r in Ht.
  - intros q t e Hev. destruct (t_result _ _ _ HT _ _ _ Hev) as [Hres Hb].
    assert (t ∈ begun tr) as Hbt by (apply elem_of_begun; eauto).
    rewrite (b_begun _ _ _ _ _ _ Hi), collect_done, app_nil_r in Hbt by done.
    destruct (Hset' t Hbt) as [q' Hq'].
    destruct (t_result _ _ _ HT _ _ _ Hq') as [Hres' _]. congruence.
Qed.

Lemma run_error_lem st tr e :
  executes inp st tr → EvReturn (Some e) ∈ tr → all_started tr →
  ∃ q t, t ∈ dom tasks ∧ EvHandled q t (Some e) ∈ tr.
Proof.
  intros He Hret Hall. pose proof (executes_InvT _ _ _ He) as HT.
  apply (t_ret _ _ _ HT) in Hret.
  destruct (t_err _ _ _ HT e) as [[q Hq]|[(q & t & Ht) _]]; [by rewrite Hret|by apply Hall in Hq|].
  exists q, t. split; [|done]. destruct (t_result _ _ _ HT _ _ _ Ht) as [_ Hb].
  destruct (run_on_target_lem _ _ _ _ He Hb) as (v & Hv & _). apply elem_of_dom. eauto.
Qed.

(** * C21 *)
Lemma run_no_panic_lem st tr : executes inp st tr → r_panic st = false.
Proof. intros He. apply (a_panic _ _ (executes_InvA _ _ _ He)). Qed.

Lemma run_room_lem st tr :
  limits_ok inp → executes inp st tr →
  (∀ t, r_main st = MSend t → (Z.of_nat (length (ch_buf (r_done st))) < run_capacity inp)%Z) ∧
  (∀ s x l, r_sched st = SSend s (x :: l) →
    (Z.of_nat (length (ch_buf (r_ready st))) < run_capacity inp)%Z) ∧
  (∀ q t e, r_targets st !! q = Some (TSend t e) →
    (Z.of_nat (length (ch_buf (r_ended st))) < run_capacity inp)%Z).
Proof.
  intros Hlim He. destruct (executes_InvB _ _ _ He) as (H & C & D & Hi).
  pose proof (InvB_inflight _ _ _ _ _ Hlim Hi) as Hb. rewrite capacity_total.
  pose proof (total_nonneg _ Hlim) as Hpos. unfold upstream in Hb. rewrite !app_length in Hb.
  split_and!.
  - intros t Hm. rewrite Hm in Hb. simpl in Hb. lia.
  - intros s x l Hs. rewrite Hs in Hb. simpl in Hb. lia.
  - intros q t e Hq. assert (length (collect titem (r_targets st)) ≠ 0)%nat; [|lia].
    intros Hz%nil_length_inv. assert (t ∈ collect titem (r_targets st)) as Ht.
    { apply elem_of_collect. exists q, (TSend t e). split; [done|by left]. }
    rewrite Hz in Ht. by apply elem_of_nil in Ht.
Qed.

(** * C22 *)
Lemma step_events st ev st' :
  steps_to inp st (Some ev) st' →
  match ev with
  | EvHandle q t => r_targets st !! q = Some (TGot t)
  | EvHandled q t _ => r_targets st !! q = Some (THandle t)
  | EvStop q => r_targets st !! q = Some TStop
  | EvStart q => r_main st ≠ MLoop ∧ ∃ l, r_main st = MStart (q :: l)
  | EvStartFail q e => ∃ l, r_main st = MStart (q :: l)
  | EvReturn r => r_main st = MDefer r
  end.
Proof.
  intros (a & _ & Hs). unfold run_step in Hs. destruct (r_panic st); [done|].
  destruct a; unfold main_step, sched_step, router_step, target_step in Hs.
  - destruct (r_main st) as [[|x l]| |t|e|r|r|r]; simplify_eq; try done.
    + destruct (ri_start inp x); simplify_eq; eauto.
    + destruct (recv _) as [[? []]| |]; simplify_eq.
    + destruct (r_done_nil st); [done|]. destruct (send _ _ _); simplify_eq.
    + destruct (recv _) as [[? []]| |]; simplify_eq.
  - destruct (r_sched st) as [|s [|x l]|s| |]; simplify_eq.
    + destruct (sched_new _ _ _) as [[|[]]|]; simplify_eq.
    + destruct (send _ _ _); simplify_eq.
    + destruct (recv _); simplify_eq. destruct (sched_next _ _ _) as [? []]; simplify_eq.
    + destruct (ch_closed _); simplify_eq.
  - destruct (r_router st) as [| |x t|[|x l]| |]; simplify_eq.
    + destruct (recv _) as [[] ?| |]; simplify_eq.
    + destruct (r_targets st !! x) as [[]|]; simplify_eq; destruct (decide _); simplify_eq.
    + destruct (decide _); simplify_eq.
    + destruct (decide _); [|done]. destruct (ch_closed _); simplify_eq.
  - destruct (r_targets st !! q) as [[]|] eqn:Hq; simplify_eq; try done.
    + destruct (decide _); simplify_eq.
    + destruct (send _ _ _); simplify_eq.
Qed.

Lemma run_stop_at_lem st tr1 q tr2 :
  executes inp st (tr1 ++ EvStop q :: tr2) →
  begun_on q tr1 = ended_on q tr1 ∧ EvStart q ∈ tr1 ∧
  (∀ t, EvHandle q t ∉ tr2) ∧ (∀ t e, EvHandled q t e ∉ tr2) ∧ EvStop q ∉ tr2.
Proof.
  intros He.
  assert (∃ st1 st2, executes inp st1 tr1 ∧ steps_to inp st1 (Some (EvStop q)) st2)
    as (st1 & st2 & He1 & Hs1).
  { assert (executes inp st ((tr1 ++ [EvStop q]) ++ tr2)) as He' by (by rewrite <-app_assoc).
    apply executes_prefix in He' as [st' He']. by apply executes_snoc in He'. }
  apply step_events in Hs1. pose proof (executes_InvT _ _ _ He1) as HT1.
  split; [|split].
  { rewrite (t_alt _ _ _ HT1), Hs1. by rewrite app_nil_r. }
  { apply (t_start _ _ _ HT1). by eapply elem_of_dom_2. }
  assert (∀ ev, ev ∈ tr2 → ∃ st3 st4 tr3, executes inp st3 tr3 ∧ EvStop q ∈ tr3 ∧
    steps_to inp st3 (Some ev) st4) as Hlater.
  { intros ev Hev. apply elem_of_list_split in Hev as (l1 & l2 & ->).
    assert (executes inp st (((tr1 ++ EvStop q :: l1) ++ [ev]) ++ l2)) as He'.
    { rewrite <-!app_assoc. simpl. by rewrite <-?app_assoc. }
    apply executes_prefix in He' as [st' He']. apply executes_snoc in He' as (st3 & st4 & He3 & Hs3).
    exists st3, st4, (tr1 ++ EvStop q :: l1). split; [done|]. split; [|done]. set_solver. }
  assert (∀ st3 tr3, executes inp st3 tr3 → EvStop q ∈ tr3 →
    r_targets st3 !! q = Some TWg ∨ r_targets st3 !! q = Some TDone) as Hst.
  { intros st3 tr3 He3 Hin. apply (t_stop _ _ _ (executes_InvT _ _ _ He3)) in Hin.
    destruct (r_targets st3 !! q) as [[]|]; simpl in Hin; try done; eauto. }
  split_and!.
  - intros t Hin. destruct (Hlater _ Hin) as (st3 & st4 & tr3 & He3 & Hin3 & Hs3).
    apply step_events in Hs3. destruct (Hst _ _ He3 Hin3); congruence.
  - intros t e Hin. destruct (Hlater _ Hin) as (st3 & st4 & tr3 & He3 & Hin3 & Hs3).
    apply step_events in Hs3. destruct (Hst _ _ He3 Hin3); congruence.
  - intros Hin. destruct (Hlater _ Hin) as (st3 & st4 & tr3 & He3 & Hin3 & Hs3).
    apply step_events in Hs3. destruct (Hst _ _ He3 Hin3); congruence.
Qed.

Lemma run_stopped_lem st tr r :
  executes inp st tr → EvReturn r ∈ tr → all_started tr →
  ∀ q, q ∈ dom limits → EvStop q ∈ tr.
Proof.
  intros He Hret Hall q Hq. pose proof (executes_InvT _ _ _ He) as HT.
  pose proof (executes_InvA _ _ _ He) as HA. apply (t_ret _ _ _ HT) in Hret.
  assert (r_router st = RDone ∧ dom (r_targets st) = dom limits) as [Hr Hd].
  { pose proof (a_main _ _ HA) as Hm. rewrite Hret in Hm. destruct r as [e|]; simpl in Hm; [|naive_solver].
    destruct Hm as (_ & [(? & _ & ?)|(_ & Hsub)]); [done|]. exfalso.
    destruct (t_err _ _ _ HT e) as [[q' Hq']|[_ Heq]]; [by rewrite Hret|by apply Hall in Hq'|].
    rewrite Heq in Hsub. by apply (irreflexivity (⊂)) in Hsub. }
  pose proof (a_router _ _ HA) as Ho. rewrite Hr in Ho. simpl in Ho.
  destruct Ho as (_ & _ & _ & _ & Hdone). rewrite <-Hd in Hq. apply elem_of_dom in Hq as [pc Hpc].
  apply (t_stop _ _ _ HT). rewrite Hpc, (Hdone q pc Hpc). done.
Qed.

(** * C24 *)
Lemma run_start_fail_lem st tr q e :
  executes inp st tr → EvStartFail q e ∈ tr →
  (∀ r, EvReturn r ∈ tr → r = Some e) ∧ (stuck inp st → EvReturn (Some e) ∈ tr) ∧
  (∀ q' t, EvHandle q' t ∈ tr → EvStart q' ∈ tr ∧ q' ≠ q).
Proof.
  intros He Hf. pose proof (executes_InvT _ _ _ He) as HT.
  destruct (t_fail _ _ _ HT _ _ Hf) as [Hm Hq]. split_and!.
  - intros r Hr. apply (t_ret _ _ _ HT) in Hr. destruct Hm; congruence.
  - intros Hst. apply (t_ret _ _ _ HT). destruct Hm as [Hm|Hm]; [|done]. exfalso. apply Hst.
    exists (Some (EvReturn (Some e))). eexists. exists AMain. split; [done|].
    unfold run_step. rewrite (a_panic _ _ (executes_InvA _ _ _ He)). unfold main_step. by rewrite Hm.
  - intros q' t Hin. apply elem_of_list_split in Hin as (tr1 & tr2 & ->).
    assert (executes inp st ((tr1 ++ [EvHandle q' t]) ++ tr2)) as He' by (by rewrite <-app_assoc).
    apply executes_prefix in He' as [st' He']. apply executes_snoc in He' as (st3 & st4 & He3 & Hs3).
    apply step_events in Hs3.
    assert (EvStart q' ∈ tr1) as Hs.
    { apply (t_start _ _ _ (executes_InvT _ _ _ He3)). by eapply elem_of_dom_2. }
    assert (EvStart q' ∈ tr1 ++ EvHandle q' t :: tr2) as Hs' by (apply elem_of_app; by left).
    split; [done|]. intros ->. apply Hq. by apply (t_start _ _ _ HT).
Qed.

(** * C20: no deadlock *)
Definition default_choice : sched_choice :=
  SchedChoice (ex_new_orders limits tasks) ex_next_orders (λ m, elements (dom m)).
Lemma default_choice_ok : ok_action inp (ASched default_choice).
Proof.
  split; [apply ex_new_orders_ok|]. split; [apply ex_next_orders_ok|].
  intros m. by unfold range_of.
Qed.
End props.
