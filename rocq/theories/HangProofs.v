(** Proofs for C142: what is left waiting when a Handle call does not return. *)
From stdpp Require Import gmap sets list strings numbers relations.
From Verif Require Import GoBase GoBaseProofs DagModel DagSpec SchedModel SchedSpec SchedProofs
  DagExamples SchedExamples RunnerModel RunnerSpec RunnerInvA RunnerInvT RunnerInvB RunnerProofs
  RunnerLive HangSpec.

Section hang.
Context (inp : run_input).
Notation tasks := (ri_tasks inp).
Notation limits := (ri_limits inp).

(** Only targets show the return of Handle. *)
Lemma still_blocked st a :
  r_panic st = false → ok_action inp a → still inp st →
  match a with
  | AMain => main_step inp st = None
  | ASched c => sched_step inp c st = None
  | ARouter o => router_step inp o st = None
  | ATarget q => ∀ st' ev, target_step inp q st = Some (st', ev) →
                   ∃ q t e, ev = Some (EvHandled q t e)
  end.
Proof.
  intros Hp Ha Hst.
  assert (∀ st' ev, run_step inp a st = Some (st', ev) → ∃ q t e, ev = Some (EvHandled q t e)) as Hn.
  { intros st' ev Hs. apply (Hst ev st'). by exists a. }
  unfold run_step in Hn. rewrite Hp in Hn. destruct a as [|c|o|q]; [| | |done].
  - destruct (main_step inp st) as [[st' ev]|] eqn:Hs; [|done]. exfalso.
    destruct (Hn _ _ eq_refl) as (q & t & e & ->). unfold main_step in Hs.
    destruct (r_main st) as [[|x l]| |y|e'|r|r|r]; simplify_eq.
    + destruct (ri_start inp x); simplify_eq.
    + destruct (recv _) as [[? []]| |]; simplify_eq.
    + destruct (r_done_nil st); [done|]. destruct (send _ _ _); simplify_eq.
    + destruct (recv _) as [[? []]| |]; simplify_eq.
  - destruct (sched_step inp c st) as [[st' ev]|] eqn:Hs; [|done]. exfalso.
    destruct (Hn _ _ eq_refl) as (q & t & e & ->). unfold sched_step in Hs.
    destruct (r_sched st) as [|s [|x l]|s| |]; simplify_eq.
    + destruct (sched_new _ _ _) as [[|[]]|]; simplify_eq.
    + destruct (send _ _ _); simplify_eq.
    + destruct (recv _); simplify_eq. destruct (sched_next _ _ _) as [? []]; simplify_eq.
    + destruct (ch_closed _); simplify_eq.
  - destruct (router_step inp o st) as [[st' ev]|] eqn:Hs; [|done]. exfalso.
    destruct (Hn _ _ eq_refl) as (q & t & e & ->). unfold router_step in Hs.
    destruct (r_router st) as [| |x y|[|x l]| |]; simplify_eq.
    + destruct (recv _) as [[] ?| |]; simplify_eq.
    + destruct (r_targets st !! x) as [[]|]; simplify_eq; destruct (decide _); simplify_eq.
    + destruct (decide _); simplify_eq.
    + destruct (decide _); [|done]. destruct (ch_closed _); simplify_eq.
Qed.

Lemma still_targets st tr :
  executes inp st tr → still inp st → limits_ok inp →
  ∀ q pc, r_targets st !! q = Some pc →
    (pc = TRecv ∧ q ∉ r_tclosed st) ∨ pc = TDone ∨ ∃ t, pc = THandle t.
Proof.
  intros He Hst Hlim q pc Hq. pose proof (executes_InvA _ _ _ He) as HA.
  destruct (run_room_lem _ _ _ Hlim He) as (_ & _ & R3).
  pose proof (still_blocked st (ATarget q) (a_panic _ _ HA) I Hst) as Hb. simpl in Hb.
  unfold target_step in Hb. rewrite Hq in Hb.
  destruct pc as [|t|t|t e| | |]; try (by eauto).
  - destruct (decide _); [|by left]. destruct (Hb _ _ eq_refl) as (? & ? & ? & ?). done.
  - destruct (Hb _ _ eq_refl) as (? & ? & ? & ?). done.
  - exfalso. unfold send in Hb. destruct (ch_closed _).
    + destruct (Hb _ _ eq_refl) as (? & ? & ? & ?). done.
    + rewrite decide_True in Hb by eauto. destruct (Hb _ _ eq_refl) as (? & ? & ? & ?). done.
  - destruct (Hb _ _ eq_refl) as (? & ? & ? & ?). done.
  - destruct (Hb _ _ eq_refl) as (? & ? & ? & ?). done.
Qed.

Lemma still_sched st tr :
  executes inp st tr → still inp st → limits_ok inp →
  (∃ s, r_sched st = SRecv s ∧ ch_buf (r_done st) = [] ∧ ch_closed (r_done st) = false) ∨
  r_sched st = SDone.
Proof.
  intros He Hst Hlim. pose proof (executes_InvA _ _ _ He) as HA.
  destruct (run_room_lem _ _ _ Hlim He) as (_ & R2 & _).
  pose proof (still_blocked st (ASched (default_choice inp)) (a_panic _ _ HA)
    (default_choice_ok inp) Hst) as Hb. simpl in Hb.
  unfold sched_step in Hb. destruct (r_sched st) as [|s [|x l]|s| |] eqn:Hs; try done; try (by right).
  - exfalso. pose proof (sched_new_exact_lem limits tasks _ (ex_new_orders_ok limits tasks)) as Hn.
    simpl in Hb. destruct (sched_new _ _ _) as [[e|[s r]]|]; done.
  - exfalso. unfold send in Hb. destruct (ch_closed _); [done|].
    rewrite decide_True in Hb by eauto. done.
  - left. exists s. split; [done|]. unfold recv in Hb.
    destruct (ch_buf (r_done st)) as [|t l].
    + destruct (ch_closed _); done.
    + exfalso. by destruct (sched_next _ _ _) as [s' []].
  - destruct (ch_closed _); done.
Qed.

Lemma still_main st tr :
  executes inp st tr → still inp st → limits_ok inp →
  (∃ r, r_main st = MReturned r) ∨
  ((r_main st = MLoop ∨ ∃ r, r_main st = MDrain r) ∧
   ch_buf (r_ended st) = [] ∧ ch_closed (r_ended st) = false).
Proof.
  intros He Hst Hlim. pose proof (executes_InvA _ _ _ He) as HA.
  destruct (run_room_lem _ _ _ Hlim He) as (R1 & _ & _).
  pose proof (still_blocked st AMain (a_panic _ _ HA) I Hst) as Hb. simpl in Hb.
  pose proof (a_main _ _ HA) as Hm. pose proof (a_nil _ _ HA) as Hn.
  unfold main_step in Hb. destruct (r_main st) as [[|q l]| |t|e|r|r|r] eqn:Hs; try done.
  - by destruct (ri_start inp q).
  - right. split; [by left|]. unfold recv in Hb.
    destruct (ch_buf (r_ended st)) as [|[t [e|]] l]; [|done|done].
    by destruct (ch_closed (r_ended st)).
  - exfalso. simpl in Hm. destruct Hm as (Hd & _). rewrite Hn, Hd in Hb. unfold send in Hb.
    rewrite Hd in Hb. rewrite decide_True in Hb by eauto. done.
  - right. split; [eauto|]. unfold recv in Hb.
    destruct (ch_buf (r_ended st)) as [|[t e] l]; [|done]. by destruct (ch_closed (r_ended st)).
  - left. eauto.
Qed.

Lemma still_router st tr :
  executes inp st tr → still inp st → limits_ok inp →
  (r_router st = RRecv ∧ ch_buf (r_ready st) = [] ∧ ch_closed (r_ready st) = false) ∨
  (∃ q t, r_router st = RSend q t ∧ r_targets st !! q ≠ Some TRecv) ∨
  (ch_closed (r_ready st) = true ∧ ch_buf (r_ready st) = [] ∧ router_q (r_router st) = []).
Proof.
  intros He Hst Hlim. pose proof (executes_InvA _ _ _ He) as HA.
  assert (ok_map_ranger (λ m : gmap string target_pc, elements (dom m))) as Hok.
  { intros m. by unfold range_of. }
  pose proof (still_blocked st (ARouter _) (a_panic _ _ HA) Hok Hst) as Hb. simpl in Hb.
  pose proof (a_router _ _ HA) as Ho. pose proof (a_main _ _ HA) as Hm.
  pose proof (still_main _ _ He Hst Hlim) as Hmain.
  unfold router_step in Hb. destruct (r_router st) as [| |q t|[|q l]| |] eqn:Hs; try done.
  - exfalso. destruct Hmain as [[[e|] Hr]|[[Hr|[[e|] Hr]] _]]; rewrite Hr in Hm; simpl in Hm; naive_solver.
  - left. split; [done|]. unfold recv in Hb.
    destruct (ch_buf (r_ready st)) as [|[q t] l]; [|done]. by destruct (ch_closed _).
  - right. left. exists q, t. split; [done|]. intros Hq. rewrite Hq in Hb.
    destruct (decide _); done.
  - destruct (decide _); done.
  - right. right. simpl in Ho. by destruct Ho as (? & ? & _).
  - right. right. simpl in Ho. by destruct Ho as (? & ? & _).
Qed.

Lemma busy_handle st tr q t :
  executes inp st tr → r_targets st !! q = Some (THandle t) → busy tr q.
Proof.
  intros He Hq. pose proof (executes_InvT _ _ _ He) as HT.
  pose proof (t_alt _ _ _ HT q) as Halt. rewrite Hq in Halt. simpl in Halt.
  assert (EvHandle q t ∈ tr) as Hin.
  { assert (t ∈ begun_on q tr) as Hb by (rewrite Halt; set_solver).
    unfold begun_on in Hb. apply elem_of_list_omap in Hb as (ev & Hev & Heq).
    destruct ev; try done. destruct (decide _); [|done]. by simplify_eq. }
  exists t. split; [done|]. intros q' e Hd.
  destruct (t_result _ _ _ HT _ _ _ Hd) as [_ Hin'].
  destruct (run_on_target_lem _ _ _ _ _ He Hin) as (v & Hv & <-).
  destruct (run_on_target_lem _ _ _ _ _ He Hin') as (v' & Hv' & <-). simplify_eq.
  assert (t ∈ ended_on (t_target v) tr) as Hen.
  { unfold ended_on. apply elem_of_list_omap. exists (EvHandled (t_target v) t e). split; [done|].
    by rewrite decide_True. }
  assert (∀ tr0, NoDup (begun tr0) → NoDup (begun_on (t_target v) tr0)) as Hsub.
  { intros tr0. induction tr0 as [|ev tr0 IH]; [done|]. unfold begun_on, begun in *. simpl.
    destruct ev; simpl; try done. intros [Hni Hnd]%NoDup_cons. specialize (IH Hnd).
    destruct (decide _); [|done]. apply NoDup_cons. split; [|done]. intros Hx. apply Hni.
    apply elem_of_list_omap in Hx as (ev & Hev & Heq). apply elem_of_list_omap.
    exists ev. split; [done|]. destruct ev; try done. by destruct (decide _). }
  pose proof (Hsub _ (run_once_lem _ _ _ He)) as Hnd. rewrite Halt in Hnd.
  apply NoDup_app in Hnd as (_ & Hnd & _). apply (Hnd t Hen). by left.
Qed.

Lemma hang_isolated_lem st tr t v :
  executes inp st tr → still inp st → all_started tr → none_failed tr →
  (∀ q n, limits !! q = Some n → n = 1%Z) → (∀ t v, tasks !! t = Some v → t_target v ∈ dom limits) →
  (∀ t m, ¬ after tasks t m) →
  tasks !! t = Some v → busy tr (t_target v) ∨ EvHandled (t_target v) t None ∈ tr.
Proof.
  intros He Hst Hall Hnf Hone Hdomt Hflat Hv.
  assert (limits_ok inp) as Hlim by (intros q n Hn; rewrite (Hone _ _ Hn); done).
  pose proof (executes_InvA _ _ _ He) as HA. pose proof (executes_InvT _ _ _ He) as HT.
  destruct (executes_InvB _ _ _ He) as (H & C & D & HB).
  pose proof (still_targets _ _ He Hst Hlim) as Htgt.
  pose proof (still_main _ _ He Hst Hlim) as Hmain.
  pose proof (still_sched _ _ He Hst Hlim) as Hsched.
  pose proof (still_router _ _ He Hst Hlim) as Hrouter.
  pose proof (sched_ok_nodup _ _ _ _ _ (b_sched _ _ _ _ _ _ HB)) as (N1 & N2 & N3 & N4 & N5 & N6).
  pose proof (a_main _ _ HA) as Hm. pose proof (a_router _ _ HA) as Ho.
  pose proof (b_part _ _ _ _ _ _ HB) as Hpart.
  assert (t ∈ dom tasks) as Htd by (apply elem_of_dom; eauto).
  (* the main goroutine has met no error *)
  assert (main_err (r_main st) = None) as Herr.
  { destruct (main_err (r_main st)) as [e|] eqn:E; [|done]. exfalso.
    destruct (t_err _ _ _ HT e E) as [[q' Hq']|[(q' & t' & Hq') _]]; [by apply Hall in Hq'|by apply Hnf in Hq']. }
  (* a task settled is done, one at a target is under way *)
  assert (t ∈ settled st C D → EvHandled (t_target v) t None ∈ tr) as Hset.
  { intros Hin. destruct (b_handled _ _ _ _ _ _ HB t Hin) as [q Hq].
    destruct (t_result _ _ _ HT _ _ _ Hq) as [_ Hb].
    destruct (run_on_target_lem _ _ _ _ _ He Hb) as (v' & Hv' & <-). simplify_eq.
    destruct (ri_handle inp t) as [e|] eqn:E; [by apply Hnf in Hq|done]. }
  assert (∀ t' v', tasks !! t' = Some v' → t' ∈ collect titem (r_targets st) → busy tr (t_target v')) as Hcol.
  { intros t' v' Hv' Hc. apply elem_of_collect in Hc as (q & pc & Hq & Hin).
    destruct (N4 q t' (b_tgt _ _ _ _ _ _ HB q pc t' Hq Hin)) as (v'' & Hv'' & Heq).
    rewrite Hv' in Hv''. injection Hv'' as <-. rewrite Heq.
    destruct (Htgt q pc Hq) as [[-> _]|[->|[x ->]]]; simpl in Hin; try by apply elem_of_nil in Hin.
    by eapply busy_handle. }
  assert (t ∈ H.*2 → t ∉ (upstream st).*2 → busy tr (t_target v) ∨ EvHandled (t_target v) t None ∈ tr) as Hin.
  { intros Hin Hnup. rewrite Hpart in Hin. rewrite !elem_of_app in Hin.
    destruct Hin as [Hin|[Hin|Hin]]; [by right; apply Hset|by left; eapply Hcol|done]. }
  destruct Hrouter as [(Hr & Hrb & Hrc)|[(q & x & Hr & Hq)|(Hrc & Hrb & Hr)]].
  - (* the router waits for the scheduler *)
    destruct Hsched as [(s & Hs & Hdb & Hdc)|Hs]; [|apply (a_ready _ _ HA) in Hs; congruence].
    assert ((upstream st).*2 = []) as Hup.
    { unfold upstream. by rewrite Hr, Hrb, Hs. }
    destruct (decide (t ∈ H.*2)) as [Hth|Hth]; [apply Hin; [done|]; rewrite Hup; apply not_elem_of_nil|].
    pose proof (b_sched _ _ _ _ _ _ HB) as Hsc. rewrite Hs in Hsc. simpl in Hsc. destruct Hsc as [Hsr _].
    assert (startable tasks C H t) as Hstart.
    { split; [done|]. split; [done|]. intros m Hm'. by apply Hflat in Hm'. }
    pose proof (sched_flat_lem _ _ _ _ _ _ Hsr Hflat Hstart) as Hlen.
    unfold target_of in Hlen. rewrite Hv in Hlen. simpl in Hlen.
    specialize (Hdomt _ _ Hv). apply elem_of_dom in Hdomt as [n Hn].
    rewrite Hn, (Hone _ _ Hn) in Hlen. simpl in Hlen.
    destruct (in_flight C H (t_target v)) as [|x l] eqn:E; [simpl in Hlen; lia|].
    assert (x ∈ in_flight C H (t_target v)) as Hx by (rewrite E; by left).
    unfold in_flight in Hx. apply elem_of_list_fmap in Hx as ([q' x'] & -> & Hx).
    apply elem_of_list_filter in Hx as [[Hq' Hx'] HxH]. simpl in Hq', Hx', E. subst q'. left.
    destruct (N4 _ _ HxH) as (v' & Hv' & Heq). rewrite <-Heq. apply (Hcol x' v' Hv').
    assert (x' ∈ H.*2) as Hxh by (apply elem_of_list_fmap; by exists (t_target v, x')).
    rewrite Hpart, !elem_of_app, Hup in Hxh.
    destruct Hxh as [Hxh|[Hxh|Hxh]]; [|done|by apply elem_of_nil in Hxh]. exfalso.
    assert (r_main st = MLoop ∧ ch_buf (r_ended st) = []) as [Hml Heb].
    { rewrite Hr in Hm. destruct Hmain as [[[e|] Hmr]|[[Hmr|[[e|] Hmr]] [Heb _]]]; rewrite Hmr in Hm, Herr;
        simpl in Hm, Herr; [done| |done|done|]; exfalso; naive_solver. }
    assert (D = []) as -> by (apply (b_drop _ _ _ _ _ _ HB); by rewrite Hml).
    unfold settled in Hxh. rewrite Hdb, Hml, Heb in Hxh. simpl in Hxh. rewrite app_nil_r in Hxh. done.
  - (* the router waits for a target: but each has one task at a time *)
    exfalso. rewrite Hr in Ho. simpl in Ho. destruct Ho as [Htc _].
    assert ((q, x) ∈ H) as HqH.
    { apply (b_front _ _ _ _ _ _ HB). unfold upstream. rewrite Hr. by left. }
    destruct (N4 _ _ HqH) as (w & Hw & Hwq).
    pose proof (Hdomt _ _ Hw) as Hqd. rewrite Hwq in Hqd.
    apply elem_of_dom in Hqd as [n Hn]. pose proof (Hone _ _ Hn) as ->.
    assert (dom (r_targets st) = dom limits) as Hdom.
    { rewrite Hr in Hm. destruct Hmain as [[[e|] Hmr]|[[Hmr|[[e|] Hmr]] _]]; rewrite Hmr in Hm, Herr;
        simpl in Hm, Herr; naive_solver. }
    assert (q ∈ dom (r_targets st)) as Hqd by (rewrite Hdom; apply elem_of_dom; eauto).
    apply elem_of_dom in Hqd as [pc Hpc].
    destruct (Htgt _ _ Hpc) as [[-> _]|[->|[y ->]]]; [done| |].
    { destruct (t_why _ _ _ HT q TDone Hpc I) as [Hin'|(t' & e & Hf)]; [rewrite Htc in Hin'; set_solver|].
      by apply Hnf in Hf. }
    pose proof (b_tgt _ _ _ _ _ _ HB q _ y Hpc ltac:(by left)) as HyH.
    rewrite Hpart in N1. apply NoDup_app in N1 as (_ & M1 & N1). apply NoDup_app in N1 as (_ & M2 & _).
    assert (y ∈ collect titem (r_targets st)) as Hyc.
    { apply elem_of_collect. exists q, (THandle y). split; [done|by left]. }
    assert (x ∈ (upstream st).*2) as Hxu by (unfold upstream; rewrite Hr; by left).
    assert (x ∉ settled st C D) as Hxs by (intros Hin'; apply (M1 x Hin'); set_solver).
    assert (y ∉ settled st C D) as Hys by (intros Hin'; apply (M1 y Hin'); set_solver).
    assert (x ≠ y) as Hxy by (intros ->; by apply (M2 y)).
    specialize (N5 q). rewrite Hn in N5. simpl in N5.
    assert (∀ z, (q, z) ∈ H → z ∉ settled st C D → z ∈ in_flight C H q) as Hfl.
    { intros z Hz Hzs. unfold in_flight. apply elem_of_list_fmap. exists (q, z). split; [done|].
      apply elem_of_list_filter. split; [|done]. split; [done|]. simpl. unfold settled in Hzs. set_solver. }
    pose proof (Hfl x HqH Hxs) as F1. pose proof (Hfl y HyH Hys) as F2.
    destruct (in_flight C H q) as [|a [|b l]]; simpl in N5; [by apply elem_of_nil in F1| |lia].
    apply elem_of_list_singleton in F1, F2. congruence.
  - (* everything was handed out *)
    assert (r_sched st = SDone) as Hs by (by apply (a_ready _ _ HA)).
    assert ((upstream st).*2 = []) as Hup by (unfold upstream; by rewrite Hr, Hrb, Hs).
    apply Hin; [|rewrite Hup; apply not_elem_of_nil].
    assert (well_ordered tasks) as Hwo.
    { split; [intros ? ? Ha; by apply Hflat in Ha|]. intros [y Hy].
      apply tc_nsteps in Hy as (n & Hn & Hy). destruct Hy as [|n y z w Hyz]; [lia|]. by apply Hflat in Hyz. }
    assert (success (r_main st) ∨ ch_closed (r_done st) = false) as [Hsu|Hdc].
    { destruct Hmain as [[[e|] Hmr]|[[Hmr|[[e|] Hmr]] _]]; rewrite Hmr in *; simpl in Hm, Herr; try done.
      - by left.
      - right. by destruct Hm.
      - by left. }
    + destruct (b_nil _ _ _ _ _ _ HB Hsu) as [(_ & _ & ?)|Hah]; [done|by apply Hah].
    + pose proof (b_sched _ _ _ _ _ _ HB) as Hsc. rewrite Hs in Hsc. simpl in Hsc.
      destruct Hsc as [(_ & _ & ?)|(s & _ & [Hah|?])]; [done|by apply Hah|congruence].
Qed.

(** * Every execution comes to rest, whichever Handle calls do not return *)

Lemma sched_choice c c' st r :
  ok_action inp (ASched c') → sched_step inp c st = Some r → ∃ r', sched_step inp c' st = Some r'.
Proof.
  intros (Hok & _) Hs. unfold sched_step in *. destruct (r_sched st) as [|s [|x l]|s| |]; try eauto.
  - pose proof (sched_new_exact_lem limits tasks _ Hok) as Hn.
    destruct (sched_new (sc_new c') _ _) as [[e|[s rd]]|]; eauto. done.
  - destruct (recv _); try eauto. destruct (sched_next (sc_next c') _ _) as [s' []]; eauto.
Qed.
Lemma router_choice o o' st r :
  router_step inp o st = Some r → ∃ r', router_step inp o' st = Some r'.
Proof.
  intros Hs. unfold router_step in *. destruct (r_router st) as [| |q t|[|q l]| |]; try eauto.
  destruct (recv _) as [[] ?| |]; eauto.
Qed.

Definition moves (q : string) (st : rstate) : bool :=
  match target_step inp q st with
  | Some (_, Some (EvHandled _ _ _)) => false | Some _ => true | None => false
  end.

Lemma move_or_still st tr :
  executes inp st tr →
  (∃ ev st', steps_to inp st ev st' ∧ ∀ q t e, ev ≠ Some (EvHandled q t e)) ∨ still inp st.
Proof.
  intros He. pose proof (a_panic _ _ (executes_InvA _ _ _ He)) as Hp.
  assert (∀ ev st' q t e, steps_to inp st ev st' → ev = Some (EvHandled q t e) →
    r_targets st !! q = Some (THandle t)) as Hret.
  { intros ev st' q t e Hs ->. by apply step_events in Hs. }
  assert (ok_map_ranger (λ m : gmap string target_pc, elements (dom m))) as Hok.
  { intros m. by unfold range_of. }
  destruct (main_step inp st) as [[st' ev]|] eqn:Hm.
  { left. exists ev, st'. split; [exists AMain; split; [done|]; unfold run_step; by rewrite Hp|].
    intros q t e ->. unfold main_step in Hm.
    destruct (r_main st) as [[|x l]| |y|e'|r|r|r]; simplify_eq.
    + destruct (ri_start inp x); simplify_eq.
    + destruct (recv _) as [[? []]| |]; simplify_eq.
    + destruct (r_done_nil st); [done|]. destruct (send _ _ _); simplify_eq.
    + destruct (recv _) as [[? []]| |]; simplify_eq. }
  destruct (sched_step inp (default_choice inp) st) as [[st' ev]|] eqn:Hsc.
  { left. exists ev, st'. split.
    { exists (ASched (default_choice inp)). split; [apply default_choice_ok|]. unfold run_step. by rewrite Hp. }
    intros q t e ->. unfold sched_step in Hsc.
    destruct (r_sched st) as [|s [|x l]|s| |]; simplify_eq.
    + destruct (sched_new _ _ _) as [[|[]]|]; simplify_eq.
    + destruct (send _ _ _); simplify_eq.
    + destruct (recv _); simplify_eq. destruct (sched_next _ _ _) as [? []]; simplify_eq.
    + destruct (ch_closed _); simplify_eq. }
  destruct (router_step inp (λ m, elements (dom m)) st) as [[st' ev]|] eqn:Hro.
  { left. exists ev, st'. split; [exists (ARouter (λ m, elements (dom m))); split; [done|]; unfold run_step; by rewrite Hp|].
    intros q t e ->. unfold router_step in Hro.
    destruct (r_router st) as [| |x y|[|x l]| |]; simplify_eq.
    + destruct (recv _) as [[] ?| |]; simplify_eq.
    + destruct (r_targets st !! x) as [[]|]; simplify_eq; destruct (decide _); simplify_eq.
    + destruct (decide _); simplify_eq.
    + destruct (decide _); [|done]. destruct (ch_closed _); simplify_eq. }
  destruct (decide (Exists (λ q, moves q st = true) (elements (dom (r_targets st))))) as [Hex|Hno].
  { left. apply Exists_exists in Hex as (q & _ & Hq). unfold moves in Hq.
    destruct (target_step inp q st) as [[st' ev]|] eqn:Ht; [|done]. exists ev, st'.
    split; [exists (ATarget q); split; [done|]; unfold run_step; by rewrite Hp|].
    by intros q' t e ->. }
  right. intros ev st' (a & Ha & Hs). unfold run_step in Hs. rewrite Hp in Hs. destruct a as [|c|o|q].
  - congruence.
  - destruct (sched_choice c (default_choice inp) st _ (default_choice_ok inp) Hs). congruence.
  - destruct (router_choice o (λ m, elements (dom m)) st _ Hs). congruence.
  - assert (moves q st ≠ true) as Hn.
    { intros Hq. apply Hno, Exists_exists. exists q. split; [|done].
      apply elem_of_elements, elem_of_dom. unfold target_step in Hs.
      destruct (r_targets st !! q); [by eexists|done]. }
    unfold moves in Hn. rewrite Hs in Hn. destruct ev as [[]|]; try done. eauto.
Qed.

Lemma comes_to_rest_lem st tr :
  executes inp st tr →
  ∃ st' evs, executes inp st' (tr ++ evs) ∧ Forall (λ ev, is_return ev = false) evs ∧ still inp st'.
Proof.
  remember (measure inp st tr) as n eqn:En. revert st tr En.
  induction (lt_wf n) as [n _ IH]. intros st tr -> He.
  destruct (move_or_still st tr He) as [(ev & st1 & Hs & Hev)|Hst].
  2: { exists st, []. rewrite app_nil_r. done. }
  assert (executes inp st1 (tr ++ option_list ev)) as He1 by (by econstructor).
  destruct (IH (measure inp st1 (tr ++ option_list ev))
    ltac:(by apply measure_step; [by eapply executes_InvA|by apply n_handed_le|by apply n_handed_le|])
    st1 _ eq_refl He1) as (st' & evs & He' & Hf & Hst').
  exists st', (option_list ev ++ evs). rewrite app_assoc. split; [done|]. split; [|done].
  apply Forall_app. split; [|done]. destruct ev as [ev|]; [|constructor].
  constructor; [|constructor]. destruct ev; try done. by edestruct Hev.
Qed.
End hang.

(** * Two runs that leave a target idle for ever *)

(** A checkable sufficient condition for [still]. *)
Definition target_rests (tc : gset string) (e : string * target_pc) : bool :=
  match e.2 with
  | TDone | THandle _ => true
  | TRecv => negb (bool_decide (e.1 ∈ tc))
  | _ => false
  end.
Definition stillb (st : rstate) : bool :=
  match r_main st with
  | MLoop => match recv (r_ended st) with RecvBlocks => true | _ => false end
  | _ => false
  end &&
  match r_sched st with
  | SRecv _ => match recv (r_done st) with RecvBlocks => true | _ => false end
  | SDone => true
  | _ => false
  end &&
  match r_router st with
  | RRecv => match recv (r_ready st) with RecvBlocks => true | _ => false end
  | RSend q t =>
    match r_targets st !! q with
    | Some (THandle _) => negb (bool_decide (q ∈ r_tclosed st))
    | _ => false
    end
  | RWait => negb (bool_decide (map_Forall (λ _ pc, pc = TDone) (r_targets st)))
  | _ => false
  end &&
  forallb (target_rests (r_tclosed st)) (map_to_list (r_targets st)).

Lemma stillb_sound inp st : stillb st = true → still inp st.
Proof.
  unfold stillb. rewrite !andb_true_iff. intros [[[Hm Hs] Hr] Ht] ev st' (a & _ & Hst).
  unfold run_step in Hst. destruct (r_panic st); [done|]. destruct a as [|c|o|q].
  - exfalso. unfold main_step in Hst. destruct (r_main st); try done. by destruct (recv (r_ended st)).
  - exfalso. unfold sched_step in Hst. destruct (r_sched st); try done. by destruct (recv (r_done st)).
  - exfalso. unfold router_step in Hst. destruct (r_router st) as [| |q t|l| |]; try done.
    + by destruct (recv (r_ready st)).
    + destruct (r_targets st !! q) as [[]|]; try done.
      destruct (decide (q ∈ r_tclosed st)) as [Hq|]; [|done].
      rewrite bool_decide_true in Hr by done. done.
    + destruct (decide _) as [Hd|]; [|done]. rewrite bool_decide_true in Hr by done. done.
  - unfold target_step in Hst. destruct (r_targets st !! q) as [pc|] eqn:Hq; [|done].
    apply elem_of_map_to_list in Hq. rewrite forallb_forall in Ht.
    specialize (Ht (q, pc) (proj1 (elem_of_list_In _ _) Hq)). unfold target_rests in Ht. simpl in Ht.
    destruct pc; try done; [|by simplify_eq; eauto].
    destruct (decide (q ∈ r_tclosed st)) as [Hc|]; [|done].
    rewrite bool_decide_true in Ht by done. done.
Qed.
