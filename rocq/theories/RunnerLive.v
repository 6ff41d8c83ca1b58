(** Runner proofs, part 5: absence of deadlock and termination (C20). *)
From stdpp Require Import gmap sets list strings numbers relations.
From Verif Require Import GoBase GoBaseProofs DagModel DagSpec SchedModel SchedSpec SchedProofs
  DagExamples SchedExamples RunnerModel RunnerSpec RunnerInvA RunnerInvT RunnerInvB RunnerProofs.

Section live.
Context (inp : run_input).
Notation tasks := (ri_tasks inp).
Notation limits := (ri_limits inp).

Lemma stuck_blocked st a :
  r_panic st = false → ok_action inp a → stuck inp st →
  match a with
  | AMain => main_step inp st
  | ASched c => sched_step inp c st
  | ARouter o => router_step inp o st
  | ATarget q => target_step inp q st
  end = None.
Proof.
  intros Hp Ha Hst. assert (run_step inp a st = None) as Hn.
  { destruct (run_step inp a st) as [[st' ev]|] eqn:Hs; [|done]. exfalso. apply Hst.
    exists ev, st', a. done. }
  unfold run_step in Hn. by rewrite Hp in Hn.
Qed.

Lemma stuck_targets st tr :
  executes inp st tr → stuck inp st → limits_ok inp →
  ∀ q pc, r_targets st !! q = Some pc → (pc = TRecv ∧ q ∉ r_tclosed st) ∨ pc = TDone.
Proof.
  intros He Hst Hlim q pc Hq. pose proof (executes_InvA _ _ _ He) as HA.
  destruct (run_room_lem _ _ _ Hlim He) as (_ & _ & R3).
  pose proof (stuck_blocked st (ATarget q) (a_panic _ _ HA) I Hst) as Hb. simpl in Hb.
  unfold target_step in Hb. rewrite Hq in Hb.
  destruct pc as [|t|t|t e| | |]; try done; try (by right).
  - destruct (decide _); [done|]. by left.
  - exfalso. unfold send in Hb. destruct (ch_closed _); [done|].
    rewrite decide_True in Hb by eauto. done.
Qed.

Lemma stuck_sched st tr :
  executes inp st tr → stuck inp st → limits_ok inp →
  (∃ s, r_sched st = SRecv s ∧ ch_buf (r_done st) = [] ∧ ch_closed (r_done st) = false) ∨
  r_sched st = SDone.
Proof.
  intros He Hst Hlim. pose proof (executes_InvA _ _ _ He) as HA.
  destruct (run_room_lem _ _ _ Hlim He) as (_ & R2 & _).
  pose proof (stuck_blocked st (ASched (default_choice inp)) (a_panic _ _ HA)
    (default_choice_ok inp) Hst) as Hb. simpl in Hb.
  unfold sched_step in Hb. destruct (r_sched st) as [|s [|x l]|s| |] eqn:Hs; try done; try (by right).
  - exfalso. pose proof (sched_new_exact_lem limits tasks _ (ex_new_orders_ok limits tasks)) as Hn.
    simpl in Hb. destruct (sched_new _ _ _) as [[e|[s r]]|]; done.
  - exfalso. unfold send in Hb. destruct (ch_closed _); [done|].
    rewrite decide_True in Hb by eauto. done.
  - left. exists s. split; [done|]. unfold recv in Hb.
    destruct (ch_buf (r_done st)) as [|t l].
    + destruct (ch_closed _); done.
    + exfalso. by destruct (sched_next _ _ _) as [s' []].
  - destruct (ch_closed _); done.
Qed.

Lemma stuck_main st tr :
  executes inp st tr → stuck inp st → limits_ok inp →
  (∃ r, r_main st = MReturned r) ∨
  ((r_main st = MLoop ∨ ∃ r, r_main st = MDrain r) ∧
   ch_buf (r_ended st) = [] ∧ ch_closed (r_ended st) = false).
Proof.
  intros He Hst Hlim. pose proof (executes_InvA _ _ _ He) as HA.
  destruct (run_room_lem _ _ _ Hlim He) as (R1 & _ & _).
  pose proof (stuck_blocked st AMain (a_panic _ _ HA) I Hst) as Hb. simpl in Hb.
  pose proof (a_main _ _ HA) as Hm. pose proof (a_nil _ _ HA) as Hn.
  unfold main_step in Hb. destruct (r_main st) as [[|q l]| |t|e|r|r|r] eqn:Hs; try done.
  - by destruct (ri_start inp q).
  - right. split; [by left|]. unfold recv in Hb.
    destruct (ch_buf (r_ended st)) as [|[t [e|]] l]; [|done|done].
    by destruct (ch_closed (r_ended st)).
  - exfalso. simpl in Hm. destruct Hm as (Hd & _). rewrite Hn, Hd in Hb. unfold send in Hb.
    rewrite Hd in Hb. rewrite decide_True in Hb by eauto. done.
  - right. split; [eauto|]. unfold recv in Hb.
    destruct (ch_buf (r_ended st)) as [|[t e] l]; [|done]. by destruct (ch_closed (r_ended st)).
  - left. eauto.
Qed.

Lemma stuck_router st tr :
  executes inp st tr → stuck inp st → limits_ok inp →
  r_router st ≠ RNotStarted ∧
  ((r_router st = RRecv ∧ ch_buf (r_ready st) = [] ∧ ch_closed (r_ready st) = false) ∨
   (∃ q t, r_router st = RSend q t ∧ r_targets st !! q ≠ Some TRecv) ∨
   r_router st = RDone).
Proof.
  intros He Hst Hlim. pose proof (executes_InvA _ _ _ He) as HA.
  assert (ok_map_ranger (λ m : gmap string target_pc, elements (dom m))) as Hok.
  { intros m. by unfold range_of. }
  pose proof (stuck_blocked st (ARouter _) (a_panic _ _ HA) Hok Hst) as Hb. simpl in Hb.
  pose proof (a_router _ _ HA) as Ho. pose proof (a_main _ _ HA) as Hm.
  pose proof (stuck_main _ _ He Hst Hlim) as Hmain.
  unfold router_step in Hb. destruct (r_router st) as [| |q t|[|q l]| |] eqn:Hs; try done.
  - exfalso. destruct Hmain as [[[e|] Hr]|[[Hr|[[e|] Hr]] _]]; rewrite Hr in Hm; simpl in Hm; naive_solver.
  - split; [done|]. left. split; [done|]. unfold recv in Hb.
    destruct (ch_buf (r_ready st)) as [|[q t] l]; [|done]. by destruct (ch_closed _).
  - split; [done|]. right. left. exists q, t. split; [done|]. intros Hq. rewrite Hq in Hb.
    destruct (decide _); done.
  - destruct (decide _); done.
  - exfalso. rewrite decide_True in Hb.
    + by destruct (ch_closed _).
    + simpl in Ho. destruct Ho as (_ & _ & _ & Hc). intros q pc Hq.
      destruct (stuck_targets _ _ He Hst Hlim q pc Hq) as [[-> Hn]| ->]; [|done].
      exfalso. apply Hn. rewrite Hc. by eapply elem_of_dom_2.
  - split; [done|]. by right; right.
Qed.

Lemma collect_rest st f :
  (∀ q pc, r_targets st !! q = Some pc → (pc = TRecv ∧ q ∉ r_tclosed st) ∨ pc = TDone) →
  f TRecv = [] → f TDone = [] → collect f (r_targets st) = [].
Proof.
  intros H H1 H2. apply elem_of_nil_inv. intros t (q & pc & Hq & Ht)%elem_of_collect.
  destruct (H q pc Hq) as [[-> _]| ->]; rewrite ?H1, ?H2 in Ht; by apply elem_of_nil in Ht.
Qed.

Lemma stuck_finished st tr :
  executes inp st tr → stuck inp st → limits_ok inp →
  dom tasks ≠ ∅ → runnable limits tasks → all_started tr →
  failures_alone inp → all_finished inp st.
Proof.
  intros He Hst Hlim Hne Hrun Hall Halone.
  pose proof (executes_InvA _ _ _ He) as HA. pose proof (executes_InvT _ _ _ He) as HT.
  destruct (executes_InvB _ _ _ He) as (H & C & D & HB).
  pose proof (stuck_targets _ _ He Hst Hlim) as Htgt.
  pose proof (stuck_main _ _ He Hst Hlim) as Hmain.
  pose proof (stuck_sched _ _ He Hst Hlim) as Hsched.
  destruct (stuck_router _ _ He Hst Hlim) as [_ Hrouter].
  pose proof (sched_ok_nodup _ _ _ _ _ (b_sched _ _ _ _ _ _ HB)) as (N1 & N2 & N3 & N4 & N5 & N6).
  pose proof (a_main _ _ HA) as Hm. pose proof (a_router _ _ HA) as Ho.
  (* every target was started *)
  assert (dom (r_targets st) = dom limits) as Hdom.
  { destruct Hmain as [[[e|] Hr]|[[Hr|[[e|] Hr]] _]]; rewrite Hr in Hm; simpl in Hm;
      [|by destruct Hm as (_ & _ & _ & ?)|by destruct Hm as (_ & _ & ?)
      |by destruct Hm as (_ & _ & ?)|by destruct Hm as (_ & _ & _ & ?)].
    destruct Hm as (_ & [(_ & _ & ?)|(_ & Hsub)]); [done|]. exfalso.
    destruct (t_err _ _ _ HT e) as [[q' Hq']|[_ Heq]]; [by rewrite Hr|by apply Hall in Hq'|].
    rewrite Heq in Hsub. by apply (irreflexivity (⊂)) in Hsub. }
  destruct Hrouter as [(Hr & Hrb & Hrc)|[(q & t & Hr & Hq)|Hr]].
  - (* router waits for ready *)
    exfalso. rewrite Hr in Ho. simpl in Ho.
    destruct Hsched as [(s & Hs & Hdb & Hdc)|Hs]; [|apply (a_ready _ _ HA) in Hs; congruence].
    assert (r_main st = MLoop ∧ ch_buf (r_ended st) = []) as [Hml Heb].
    { destruct Hmain as [[[e|] Hmr]|[[Hmr|[[e|] Hmr]] [Heb _]]]; rewrite Hmr in Hm; simpl in Hm;
        [| |done| |]; exfalso.
      - destruct Hm as (? & _). congruence.
      - destruct Hm as (? & _). congruence.
      - destruct Hm as (? & _). congruence.
      - destruct Hm as (_ & ? & _). congruence. }
    assert (D = []) as -> by (apply (b_drop _ _ _ _ _ _ HB); by rewrite Hml).
    pose proof (b_sched _ _ _ _ _ _ HB) as Hsc. rewrite Hs in Hsc. simpl in Hsc.
    destruct Hsc as [Hsr Hx]. destruct (Hx Hne) as (x & Hx1 & Hx2).
    pose proof (b_part _ _ _ _ _ _ HB) as Hpart.
    rewrite collect_rest in Hpart by done. unfold settled, upstream in Hpart.
    rewrite Hml, Hdb, Heb, Hr, Hrb, Hs in Hpart. simpl in Hpart. rewrite !app_nil_r in Hpart.
    assert (∃ t, t ∈ H.*2 ∧ t ∉ C) as (y & Hy1 & Hy2).
    { destruct (decide (x ∈ H.*2)) as [Hxh|Hxh]; [eauto|].
      eapply sched_progress_lem; [done|done|]. eauto. }
    apply Hy2. by rewrite <-Hpart.
  - (* router waits for a target that left its loop *)
    exfalso. rewrite Hr in Ho. simpl in Ho. destruct Ho as [Htc _].
    assert ((q, t) ∈ H) as HqH.
    { apply (b_front _ _ _ _ _ _ HB). unfold upstream. rewrite Hr. by left. }
    destruct (N4 _ _ HqH) as (v & Hv & Hvq).
    destruct (Hrun _ _ Hv) as (n & Hn & Hn1). rewrite Hvq in Hn.
    assert (q ∈ dom (r_targets st)) as Hqd by (rewrite Hdom; apply elem_of_dom; eauto).
    apply elem_of_dom in Hqd as [pc Hpc].
    destruct (Htgt _ _ Hpc) as [[-> _]| ->]; [done|].
    destruct (t_why _ _ _ HT q TDone Hpc I) as [Hin|(t' & e & Hf)]; [rewrite Htc in Hin; set_solver|].
    destruct (t_result _ _ _ HT _ _ _ Hf) as [Hres Hb].
    pose proof (b_evH _ _ _ _ _ _ HB _ _ Hb) as Ht'H.
    destruct (N4 _ _ Ht'H) as (v' & Hv' & Hvq').
    pose proof (Halone _ _ _ Hv' (eq_sym Hres)) as Hone. rewrite Hvq' in Hone.
    (* t and t' are both in flight for q *)
    assert (t' ∉ C) as Ht'C.
    { intros Hin. rewrite (b_ok _ _ _ _ _ _ HB t') in Hres; [done|]. apply elem_of_app. by left. }
    pose proof (b_part _ _ _ _ _ _ HB) as Hpart. rewrite Hpart in N1.
    assert (t ∈ (upstream st).*2) as Htup.
    { unfold upstream. rewrite Hr. simpl. by left. }
    apply NoDup_app in N1 as (_ & N1 & _).
    assert (t ∉ settled st C D) as Hts.
    { intros Hin. apply (N1 t Hin). apply elem_of_app. by right. }
    assert (t ∉ C) as HtC by (unfold settled in Hts; set_solver).
    assert (t ≠ t') as Htt.
    { intros <-. assert (t ∈ begun tr) as Hbt by (apply elem_of_begun; eauto).
      rewrite (b_begun _ _ _ _ _ _ HB), collect_rest, app_nil_r in Hbt by done. done. }
    specialize (N5 q). rewrite Hone in N5. simpl in N5.
    assert (t ∈ in_flight C H q) as F1.
    { unfold in_flight. apply elem_of_list_fmap. exists (q, t). split; [done|].
      by apply elem_of_list_filter. }
    assert (t' ∈ in_flight C H q) as F2.
    { unfold in_flight. apply elem_of_list_fmap. exists (q, t'). split; [done|].
      by apply elem_of_list_filter. }
    destruct (in_flight C H q) as [|a [|b l]]; simpl in N5; [by apply elem_of_nil in F1| |lia].
    apply elem_of_list_singleton in F1, F2. congruence.
  - (* router finished *)
    rewrite Hr in Ho. simpl in Ho. destruct Ho as (Hrc & Hrb & Hec & Htc & Hdone).
    split; [|split; [by apply (a_ready _ _ HA)|]]; [|done].
    destruct Hmain as [?|(_ & _ & ?)]; [done|congruence].
Qed.

(** * Termination *)
Definition tsum (w : target_pc → nat) (ts : gmap string target_pc) : nat :=
  sum_list (w ∘ snd <$> map_to_list ts).

Lemma tsum_new w ts q pc : ts !! q = None → tsum w (<[q:=pc]> ts) = (w pc + tsum w ts)%nat.
Proof.
  intros Hq. unfold tsum. rewrite (map_to_list_insert ts q pc Hq). done.
Qed.
Lemma tsum_insert w ts q pc pc' :
  ts !! q = Some pc → (w pc + tsum w (<[q:=pc']> ts) = w pc' + tsum w ts)%nat.
Proof.
  intros Hq.
  assert (tsum w ts = (w pc + tsum w (delete q ts))%nat) as ->.
  { rewrite <-(tsum_new w _ q) by apply lookup_delete. by rewrite insert_delete. }
  assert (tsum w (<[q:=pc']> ts) = (w pc' + tsum w (delete q ts))%nat) as ->.
  { rewrite <-(tsum_new w _ q) by apply lookup_delete. by rewrite insert_delete_insert. }
  lia.
Qed.

Definition w_got (pc : target_pc) : nat := match pc with TGot _ => 1 | _ => 0 end.
(** Handed out, from the state and the trace alone. *)
Definition n_handed (st : rstate) (tr : list event) : nat :=
  length (begun tr) + tsum w_got (r_targets st) + length (upstream st).

Definition w_target (pc : target_pc) : nat :=
  match pc with
  | TRecv => 3 | TGot _ => 11 | THandle _ => 10 | TSend _ _ => 9
  | TStop => 2 | TWg => 1 | TDone => 0
  end.
Definition w_main (m : main_pc) : nat :=
  match m with
  | MStart l => 6 + 4 * length l | MLoop => 5 | MSend _ => 9 | MFail _ => 4
  | MDrain _ => 3 | MDefer _ => 2 | MReturned _ => 0
  end.
Definition w_sched (sc : sched_pc) : nat :=
  match sc with
  | SInit => 4 | SSend _ l => 3 + 11 * length l | SRecv _ => 2 | SClose => 1 | SDone => 0
  end.
Definition w_router (ro : router_pc) : nat :=
  match ro with
  | RNotStarted | RRecv => size limits + 4 | RSend _ _ => size limits + 13
  | RClose l => 2 + length l | RWait => 1 | RDone => 0
  end.
Definition measure (st : rstate) (tr : list event) : nat :=
  12 * (size tasks - n_handed st tr) + w_main (r_main st) + w_sched (r_sched st) +
  w_router (r_router st) + tsum w_target (r_targets st) +
  10 * length (ch_buf (r_ready st)) + 5 * length (ch_buf (r_ended st)) +
  3 * length (ch_buf (r_done st)).

Lemma collect_length ts :
  (length (collect titem ts) = tsum w_got ts + length (collect tbegun ts))%nat.
Proof.
  unfold collect, tsum. induction (map_to_list ts) as [|[q pc] l IH]; [done|].
  rewrite fmap_cons, !bind_cons, !app_length. simpl. destruct pc; simpl; lia.
Qed.

Lemma n_handed_le st tr : executes inp st tr → (n_handed st tr ≤ size tasks)%nat.
Proof.
  intros He. destruct (executes_InvB _ _ _ He) as (H & C & D & HB).
  pose proof (sched_ok_nodup _ _ _ _ _ (b_sched _ _ _ _ _ _ HB)) as (N1 & _ & _ & N4 & _).
  pose proof (Permutation_length (b_part _ _ _ _ _ _ HB)) as L1.
  pose proof (Permutation_length (b_begun _ _ _ _ _ _ HB)) as L2.
  rewrite app_length, app_length in L1. rewrite app_length in L2. rewrite collect_length in L1.
  rewrite (fmap_length snd (upstream st)) in L1. unfold n_handed.
  assert (length H.*2 ≤ size tasks)%nat; [|lia].
  rewrite <-size_dom, <-(size_list_to_set (C := gset string) H.*2 N1).
  apply subseteq_size. intros t Ht%elem_of_list_to_set.
  apply elem_of_list_fmap in Ht as ([q t'] & -> & Hin).
  destruct (N4 _ _ Hin) as (v & Hv & _). apply elem_of_dom. eauto.
Qed.

Lemma dom_size_le st : InvA inp st → (size (r_targets st) ≤ size limits)%nat.
Proof.
  intros HA. rewrite <-!size_dom. apply subseteq_size.
  pose proof (a_main _ _ HA) as Hm.
  destruct (r_main st) as [l| |t|e|[e|]|[e|]|[e|]]; simpl in Hm; set_solver.
Qed.

Local Arguments Nat.mul : simpl never.
Local Arguments Nat.sub : simpl never.
Ltac len :=
  simpl in *;
  repeat match goal with H : ch_buf ?c = _ |- context [ch_buf ?c] => rewrite !H end;
  repeat (rewrite app_length in *; simpl in *); lia.

Lemma measure_step st st' tr ev :
  InvA inp st → (n_handed st tr ≤ size tasks)%nat →
  (n_handed st' (tr ++ option_list ev) ≤ size tasks)%nat →
  steps_to inp st ev st' → (measure st' (tr ++ option_list ev) < measure st tr)%nat.
Proof.
  intros HA Hb Hb' (a & Hok & Hs). pose proof (dom_size_le st HA) as Hdom.
  pose proof (a_panic _ _ HA) as Hp. unfold run_step in Hs. rewrite Hp in Hs.
  pose proof (a_main _ _ HA) as Hm. pose proof (a_nil _ _ HA) as Hn.
  pose proof (a_ready _ _ HA) as Hrd. pose proof (a_router _ _ HA) as Ho.
  destruct st as [m sc ro ts dn nl en rd tc pn]. simpl in *. subst nl pn.
  unfold measure, n_handed, upstream in *. rewrite begun_app in *.
  destruct a as [|c|o|q]; simpl in *.
  - unfold main_step in Hs. simpl in Hs. destruct m as [[|q l]| |t|e|r|r|r].
    + injection Hs as <- <-. destruct Hm as (_ & -> & _). len.
    + destruct Hm as (_ & -> & _ & _ & Hdis).
      assert (ts !! q = None) as Hqn by (apply not_elem_of_dom, Hdis; by left).
      destruct (ri_start inp q) as [e|]; injection Hs as <- <-; simpl in *;
        rewrite ?(tsum_new _ _ _ _ Hqn) in *; len.
    + unfold recv in Hs. destruct (ch_buf en) as [|[t [e|]] eb] eqn:Heb; simpl in Hs.
      * destruct (ch_closed en) eqn:Hc; [|done]. injection Hs as <- <-.
        len.
      * injection Hs as <- <-. len.
      * injection Hs as <- <-. len.
    + destruct Hm as (Hd & Hnr & _). rewrite Hd in Hs. unfold send in Hs. rewrite Hd in Hs.
      destruct (decide _); [|done]. injection Hs as <- <-. len.
    + destruct Hm as (Hd & Hnr & _). injection Hs as <- <-. unfold close_done. simpl.
      rewrite Hd. len.
    + unfold recv in Hs. destruct (ch_buf en) as [|[t e] eb] eqn:Heb; simpl in Hs.
      * destruct (ch_closed en) eqn:Hc; [|done]. injection Hs as <- <-.
        rewrite ?Heb in *; len.
      * injection Hs as <- <-. len.
    + injection Hs as <- <-. unfold close_done in *. simpl in *.
      destruct (ch_closed dn) eqn:Hd; simpl in *; rewrite ?Hd in *; len.
    + done.
  - unfold sched_step in Hs. simpl in Hs.
    assert (sc ≠ SDone → ch_closed rd = false) as Hopen.
    { intros H. destruct (ch_closed rd); [|done]. exfalso. by apply H, Hrd. }
    destruct sc as [|s [|x l]|s| |].
    + destruct (sched_new _ _ _) as [[e|[s ready]]|]; [..|done]; injection Hs as <- <-;
        len.
    + injection Hs as <- <-. len.
    + unfold send in Hs. rewrite (Hopen ltac:(done)) in Hs. destruct (decide _); [|done].
      injection Hs as <- <-. len.
    + unfold recv in Hs. destruct (ch_buf dn) as [|t l] eqn:Hdb; simpl in Hs.
      * destruct (ch_closed dn) eqn:Hd; [|done]. injection Hs as <- <-.
        rewrite ?Hdb in *; len.
      * destruct (sched_next _ _ _) as [s' [ready|]]; injection Hs as <- <-;
          len.
    + rewrite (Hopen ltac:(done)) in Hs. injection Hs as <- <-.
      len.
    + done.
  - unfold router_step in Hs. simpl in Hs. destruct ro as [| |q t|[|q l]| |]; simpl in *.
    + done.
    + unfold recv in Hs. destruct (ch_buf rd) as [|[q t] l] eqn:Hrb; simpl in Hs.
      * destruct (ch_closed rd) eqn:Hc; [|done]. injection Hs as <- <-.
        pose proof (Permutation_length (Hok ts)) as Hlen. fold (size (dom ts)) in Hlen.
        change (length (elements (dom ts))) with (size (dom ts)) in Hlen. rewrite size_dom in Hlen.
        rewrite ?Hrb in *; len.
      * injection Hs as <- <-. len.
    + destruct (ts !! q) as [pc|] eqn:Hq; [|done]. destruct Ho as [-> Hec].
      destruct (decide (q ∈ ∅)) as [?|_]; [set_solver|]. destruct pc; try done. injection Hs as <- <-.
      pose proof (tsum_insert w_got ts q _ (TGot t) Hq) as E1.
      pose proof (tsum_insert w_target ts q _ (TGot t) Hq) as E2.
      len.
    + injection Hs as <- <-. len.
    + destruct Ho as (H1 & H2 & H3 & Hnd & H4 & H5).
      destruct (decide (q ∈ tc)) as [Hc|_]; [exfalso; apply (H5 q); [by left|done]|].
      injection Hs as <- <-. len.
    + destruct Ho as (H1 & H2 & H3 & ->). rewrite H3 in Hs.
      destruct (decide _) as [Hd|]; [|done]. injection Hs as <- <-.
      len.
    + done.
  - unfold target_step in Hs. simpl in Hs. destruct (ts !! q) as [pc|] eqn:Hq; [|done].
    assert (pc ≠ TDone → ch_closed en = false) as Hen.
    { intros Hpc. destruct ro; simpl in Ho; try (by destruct Ho as (? & ? & ? & ?));
        try (by destruct Ho). exfalso. apply Hpc. destruct Ho as (_ & _ & _ & _ & Ho).
      by apply (Ho q). }
    pose proof (λ pc', tsum_insert w_got ts q _ pc' Hq) as E1.
    pose proof (λ pc', tsum_insert w_target ts q _ pc' Hq) as E2.
    destruct pc as [|t|t|t e| | |]; simpl in *.
    + destruct (decide _); [|done]. injection Hs as <- <-.
      specialize (E1 TStop). specialize (E2 TStop). len.
    + injection Hs as <- <-. specialize (E1 (THandle t)). specialize (E2 (THandle t)).
      len.
    + injection Hs as <- <-. specialize (E1 (TSend t (ri_handle inp t))).
      specialize (E2 (TSend t (ri_handle inp t))).
      len.
    + unfold send in Hs. rewrite (Hen ltac:(done)) in Hs. destruct (decide _); [|done].
      injection Hs as <- <-.
      specialize (E1 (match e with None => TRecv | Some _ => TStop end)).
      specialize (E2 (match e with None => TRecv | Some _ => TStop end)).
      destruct e; len.
    + injection Hs as <- <-. specialize (E1 TWg). specialize (E2 TWg).
      len.
    + injection Hs as <- <-. specialize (E1 TDone). specialize (E2 TDone).
      len.
    + done.
Qed.

(** Every execution of [n] steps. *)
Lemma run_bounded_lem n st tr :
  executes_in inp n st tr →
  executes inp st tr ∧ (n + measure st tr ≤ 12 * size tasks + 5 * size limits + 14)%nat.
Proof.
  induction 1 as [order Ho|n st ev st' tr He [IH1 IH2] Hs].
  - split; [by constructor|]. unfold measure, n_handed, upstream. simpl.
    pose proof (Permutation_length Ho) as Hlen.
    change (length (elements (dom limits))) with (size (dom limits)) in Hlen. rewrite size_dom in Hlen.
    unfold tsum. rewrite map_to_list_empty. simpl. lia.
  - assert (executes inp st' (tr ++ option_list ev)) as He' by (by econstructor).
    split; [done|].
    pose proof (measure_step st st' tr ev (executes_InvA _ _ _ IH1) (n_handed_le _ _ IH1)
      (n_handed_le _ _ He') Hs). lia.
Qed.
End live.

Lemma run_returned_ev inp st tr r : executes inp st tr → r_main st = MReturned r → EvReturn r ∈ tr.
Proof. intros He Hr. by apply (t_ret _ _ _ (executes_InvT _ _ _ He)). Qed.
