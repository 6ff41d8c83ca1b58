From Coq Require Import String Ascii.
From stdpp Require Import gmap list strings numbers relations.
From Verif Require Import GoBase GoStrings GoStringsProofs DemoModel ParserModel ParserSpec ParserProofs TasksetModel TasksetSpec.
Local Open Scope Z_scope.

(** * Counting *)
Section count.
  Context {A : Type} `{EqDecision A}.
  Definition one (a x : A) : nat := if decide (a = x) then 1 else 0.
  Fixpoint count (l : list A) (x : A) : nat := match l with [] => 0%nat | a :: l => (one a x + count l x)%nat end.
  Lemma count_app l k x : count (l ++ k) x = (count l x + count k x)%nat.
  Proof. induction l as [|a l IH]; cbn; [done|]. rewrite IH. lia. Qed.
  Lemma count_cons a l x : count (a :: l) x = (one a x + count l x)%nat.
  Proof. done. Qed.
  Lemma count_nil x : count [] x = 0%nat.
  Proof. done. Qed.
  Lemma count_perm l k : l ≡ₚ k ↔ ∀ x, count l x = count k x.
  Proof.
    split.
    - intros H x. induction H; cbn; lia.
    - revert k. induction l as [|a l IH]; intros k H.
      + destruct k as [|b k]; [done|]. specialize (H b). cbn in H. unfold one in H. rewrite decide_True in H by done. done.
      + assert (a ∈ k) as [k1 [k2 ->]]%elem_of_list_split.
        { assert (count k a ≠ 0%nat) as Hk. { rewrite <-H. cbn. unfold one. rewrite decide_True by done. done. }
          clear -Hk. induction k as [|b k IH]; [done|]. cbn in Hk. unfold one in Hk. destruct (decide (b = a)) as [->|]; [left|right].
          by apply IH. }
        rewrite <-Permutation_middle. constructor. apply IH. intros x. specialize (H x). rewrite !count_app in *. cbn in H. lia.
  Qed.
End count.
Local Opaque one.
Ltac by_count :=
  repeat match goal with H : _ ≡ₚ _ |- _ => rewrite count_perm in H end;
  try apply count_perm; try (let x := fresh "x" in intros x; repeat match goal with H : ∀ _, count _ _ = _ |- _ => specialize (H x) end);
  rewrite ?count_app, ?count_cons, ?count_nil in *; lia.

(** * RunTasks *)

Definition job_id (j : job) : string := match j with Executing id | Sending id _ => id end.
Definition sending (js : list job) : list (string * option string) :=
  omap (λ j, match j with Executing _ => None | Sending id r => Some (id, r) end) js.
Definition in_hand (w : worker) : list (string * option string) :=
  match w with Delivering id r | DrainDelivering id r => [(id, r)] | _ => [] end.
Definition to_launch (w : worker) : list string := match w with Launching ids => ids | _ => [] end.
Definition phase (s : rt_state) : Prop :=
  match rt_worker s with
  | Selecting | Launching _ | Delivering _ _ => rt_results_closed s = false ∧ rt_relay_closed s = false
  | Draining => rt_queue s = [] ∧ rt_queue_closed s = true ∧ rt_results_closed s = rt_relay_closed s ∧
      (rt_relay_closed s = true → rt_jobs s = [])
  | DrainDelivering _ _ => rt_queue s = [] ∧ rt_queue_closed s = true ∧ rt_results_closed s = false ∧ rt_relay_closed s = false
  | Gone => rt_queue s = [] ∧ rt_queue_closed s = true ∧ rt_results_closed s = true ∧ rt_relay_closed s = true ∧ rt_jobs s = []
  | Crashed => False
  end.
Definition rt_inv (n : Z) (s : rt_state) : Prop :=
  rt_running s = Z.of_nat (length (rt_jobs s)) + Z.of_nat (length (in_hand (rt_worker s))) ∧
  rt_sent s ≡ₚ List.concat (rt_queue s) ++ to_launch (rt_worker s) ++ (job_id <$> rt_jobs s) ++
    (in_hand (rt_worker s)).*1 ++ (rt_results s).*1 ++ (rt_received s).*1 ∧
  rt_finished s ≡ₚ sending (rt_jobs s) ++ in_hand (rt_worker s) ++ rt_results s ++ rt_received s ∧
  phase s ∧ Z.of_nat (length (rt_queue s)) ≤ n ∧ Z.of_nat (length (rt_results s)) ≤ n.
Ltac projs := cbn [fst snd in_hand to_launch rt_queue rt_queue_closed rt_results rt_results_closed rt_relay_closed rt_running rt_worker rt_jobs rt_sent
     rt_finished rt_received phase length List.concat omap list_omap job_id fmap list_fmap] in *.
Ltac norm := unfold sending in *; projs; rewrite ?fmap_app, ?fmap_cons, ?fmap_nil, ?omap_app, ?app_length, ?concat_app, ?fmap_length in *; projs.
Lemma rt_inv_start n s : rt_start n = Some s → rt_inv n s.
Proof.
  unfold rt_start. case_bool_decide; [|done]. intros [= <-]. split; [done|]. split; [done|]. split; [done|]. split; [done|]. by cbn.
Qed.
Ltac bools := repeat match goal with H : context [bool_decide ?P] |- _ => destruct (bool_decide_reflect P) | |- context [bool_decide ?P] => destruct (bool_decide_reflect P) end.
Ltac empty_jobs := repeat match goal with
  | H : ?a ++ _ :: _ = [] |- _ => destruct a; discriminate
  | H : true = true → _ |- _ => specialize (H eq_refl)
  end.
Lemma rt_inv_step n s s' : 0 ≤ n → rt_inv n s → rt_step n s s' → rt_inv n s'.
Proof.
  intros Hn (H1 & H2 & H3 & H4 & H5 & H6) Hs.
  destruct Hs; unfold phase in H4; norm; unfold rt_inv, phase; norm.
  all: try match goal with H : _ = Delivering _ _ ∨ _ |- _ => destruct H; subst; norm; destruct_and?; done end.
  all: try match goal with H : ?w ≠ Crashed |- _ => exfalso; destruct w; destruct_and?; subst; empty_jobs; done end.
  all: try (destruct_and?; done).
  all: split; [try lia|split; [try by_count|split; [try by_count|split; [try tauto|split; try lia]]]].
  all: try match goal with w : worker |- _ => destruct w; destruct_and?; try done; intuition (empty_jobs; done) end.
  - destruct H4 as [-> ->]. done.
  - destruct_and?. subst. split_and!; try done. cbn. intros Hb%bool_decide_eq_true. destruct js; [done|]. cbn in *. lia.
  - destruct_and?. subst. split_and!; try done. cbn. intros Hb%bool_decide_eq_true. destruct js; [done|]. cbn in *. lia.
Qed.

Lemma rt_inv_rtc n s s' : 0 ≤ n → rt_inv n s → rtc (rt_step n) s s' → rt_inv n s'.
Proof. intros Hn Hi. induction 1 as [|s s1 s2 Hs _ IH]; [done|]. apply IH. by eapply rt_inv_step. Qed.
Lemma rt_reachable_inv n s : rt_reachable n s → 0 ≤ n ∧ rt_inv n s.
Proof.
  intros (s0 & H0 & Hs). assert (0 ≤ n) as Hn. { unfold rt_start in H0. by case_bool_decide. }
  split; [done|]. eapply rt_inv_rtc; [done| |done]. by apply rt_inv_start.
Qed.
Lemma job_ids js : job_id <$> js ≡ₚ
  omap (λ j, match j with Executing id => Some id | Sending _ _ => None end) js ++ (sending js).*1.
Proof.
  induction js as [|[id|id r] js IH]; cbn; [done| |].
  - by rewrite IH.
  - unfold sending in *. cbn. rewrite <-Permutation_middle. by rewrite IH.
Qed.
Lemma rt_conserved n s : rt_reachable n s →
  rt_sent s ≡ₚ waiting s ++ executing s ++ (undelivered s).*1 ++ (rt_received s).*1 ∧
  rt_finished s ≡ₚ undelivered s ++ rt_received s ∧ rt_worker s ≠ Crashed.
Proof.
  intros [_ (_ & H2 & H3 & H4 & _)]%rt_reachable_inv. split; [|split].
  - rewrite H2. rewrite job_ids. unfold waiting, executing, undelivered. rewrite !fmap_app.
    fold (to_launch (rt_worker s)).
    fold (in_hand (rt_worker s)).
    fold (sending (rt_jobs s)). by_count.
  - rewrite H3. unfold undelivered. 
    fold (in_hand (rt_worker s)).
    fold (sending (rt_jobs s)). by_count.
  - intros Hc. unfold phase in H4. by rewrite Hc in H4.
Qed.

(** ** After the queue is closed *)
Definition job_weight (j : job) : nat := match j with Executing _ => 4 | Sending _ _ => 3 end.
Definition worker_weight (w : worker) : nat :=
  match w with
  | Selecting => 3 | Launching ids => 4 + 5 * length ids | Delivering _ _ => 5 | Draining => 2 | DrainDelivering _ _ => 4
  | Gone => 1 | Crashed => 0
  end.
Definition rt_weight (s : rt_state) : nat :=
  6 * length (List.concat (rt_queue s)) + 2 * length (rt_queue s) + list_sum (job_weight <$> rt_jobs s) +
  length (rt_results s) + worker_weight (rt_worker s).
Lemma list_sum_cons a l : list_sum (a :: l) = (a + list_sum l)%nat.
Proof. done. Qed.
Lemma list_sum_nil : list_sum [] = 0%nat.
Proof. done. Qed.
Lemma rt_closed_step n s s' : rt_queue_closed s = true → rt_step n s s' →
  rt_queue_closed s' = true ∧ rt_sent s' = rt_sent s ∧ (rt_weight s' < rt_weight s)%nat.
Proof.
  intros Hq Hs. destruct Hs; cbn [rt_queue_closed] in Hq; try done; (split; [done|split; [done|]]); unfold rt_weight;
    cbn [rt_queue rt_results rt_worker rt_jobs]; rewrite ?fmap_app, ?fmap_cons, ?fmap_nil, ?List.list_sum_app, ?list_sum_cons, ?list_sum_nil, ?app_length;
    cbn [length List.concat worker_weight job_weight]; rewrite ?app_length;
    try match goal with H : _ ≡ₚ _ |- _ => rewrite H end; try lia.
  - destruct w; cbn; try done; lia.
  - destruct H; subst; cbn; lia.
Qed.
Lemma rt_closed_rtc n s s' : rt_queue_closed s = true → rtc (rt_step n) s s' →
  rt_queue_closed s' = true ∧ rt_sent s' = rt_sent s.
Proof.
  intros Hq Hs. induction Hs as [|s s1 s2 Hs _ IH]; [done|].
  apply rt_closed_step in Hs as (H1 & H2 & _); [|done]. destruct (IH H1) as [-> ->]. done.
Qed.
Lemma rt_closed_bounded n s k s' : rt_queue_closed s = true → nsteps (rt_step n) k s s' → (k ≤ rt_weight s)%nat.
Proof.
  intros Hq Hs. revert Hq. induction Hs as [|k s s1 s2 Hs _ IH]; intros Hq; [lia|].
  apply rt_closed_step in Hs as (H1 & _ & H2); [|done]. specialize (IH H1). lia.
Qed.
(** What keeps the goroutines from stopping early. *)
Lemma rt_progress n s : 0 ≤ n → rt_inv n s → stuck n s → rt_queue_closed s = true →
  rt_queue s = [] ∧ rt_jobs s = [] ∧ rt_results s = [] ∧
  (rt_worker s = Gone ∨ (rt_worker s = Draining ∧ rt_results_closed s = false)).
Proof.
  intros Hn (_ & _ & _ & H4 & _ & _) Hst Hq. destruct s as [q qc rs rsc rlc run w js sent fin rcv]. cbn in Hq. subst qc.
  unfold phase in H4. cbn in H4.
  assert (rs = []) as ->. { destruct rs; [done|]. exfalso. eapply Hst, step_receive. }
  assert (∀ j1 id j2, js ≠ j1 ++ Executing id :: j2) as Hex. { intros j1 id j2 ->. eapply Hst, (step_finish _ id None). }
  assert (w = Selecting ∨ w = Draining ∧ rlc = false → js = []) as Hse.
  { intros Hw. destruct js as [|[id|id r] js]; [done| |].
    - by destruct (Hex [] id js).
    - exfalso. destruct Hw as [->|[-> ->]].
      + destruct H4 as [-> ->]. eapply Hst, (step_relay _ id r []).
      + eapply Hst, (step_drain _ id r []). }
  destruct w.
  - exfalso. destruct q as [|b q]; [eapply Hst, step_closed|eapply Hst, (step_take _ b b); done].
  - exfalso. destruct ids; [eapply Hst, step_launched|eapply Hst, step_launch].
  - exfalso. destruct H4 as [-> ->]. destruct (decide (n = 0)) as [->|]; [by eapply Hst, step_deliver0|].
    eapply Hst, step_deliver. cbn. lia.
  - destruct H4 as (-> & _ & -> & Hj). destruct rlc.
    + exfalso. rewrite Hj in Hst by done. eapply Hst, step_gone.
    + split; [done|]. split; [by apply Hse; right|]. split; [done|]. by right.
  - exfalso. destruct H4 as (-> & _ & -> & ->). destruct (decide (n = 0)) as [->|]; [by eapply Hst, step_drain_deliver0|].
    eapply Hst, step_drain_deliver; cbn; [lia|done].
  - destruct H4 as (-> & _ & -> & -> & ->). cbn. auto.
  - done.
Qed.
(** Once the close was noticed with something running, it ends with closed results. *)
Definition will_close (s : rt_state) : Prop :=
  match rt_worker s with
  | Draining => rt_jobs s ≠ [] ∨ rt_results_closed s = true
  | DrainDelivering _ _ | Gone => True
  | _ => False
  end.
Lemma will_close_step n s s' : 0 ≤ n → rt_inv n s → will_close s → rt_step n s s' → will_close s'.
Proof.
  intros Hn Hi Hw Hs. pose proof (rt_inv_step n s s' Hn Hi Hs) as Hi'. destruct Hi as (H1 & _ & _ & H4 & _). destruct Hi' as (_ & _ & _ & H4' & _).
  revert H1 H4 H4' Hw. unfold will_close, phase. destruct Hs; cbn; try done.
  - intros _ _ _. destruct w; try done. intros [Hw|Hw]; [left|by right]. by destruct j1.
  - intros H1 _ _ _. case_bool_decide; [by right|left]. destruct js; [cbn in *; lia|done].
  - intros H1 _ _ _. case_bool_decide; [by right|left]. destruct js; [cbn in *; lia|done].
Qed.
Lemma will_close_rtc n s s' : 0 ≤ n → rt_inv n s → will_close s → rtc (rt_step n) s s' → will_close s'.
Proof.
  intros Hn Hi Hw Hs. revert Hi Hw. induction Hs as [|s s1 s2 Hs _ IH]; intros Hi Hw; [done|].
  apply IH; [by eapply rt_inv_step|by eapply will_close_step].
Qed.
(** Without anything running, nobody closes results. *)
Definition never_closes (s : rt_state) : Prop :=
  rt_queue_closed s = true ∧ List.concat (rt_queue s) = [] ∧ rt_jobs s = [] ∧ rt_results_closed s = false ∧
  match rt_worker s with Selecting | Launching [] | Draining => True | _ => False end.
Lemma never_closes_step n s s' : rt_inv n s → never_closes s → rt_step n s s' → never_closes s'.
Proof.
  intros (_ & _ & _ & H4 & _) Hc Hs. revert H4 Hc. unfold phase, never_closes.
  destruct Hs; cbn; intros H4 (Hqc & Hq & Hj & Hr & Hw); try done; empty_jobs; try done.
  - apply app_eq_nil in Hq as [-> Hq]. match goal with H : _ ≡ₚ [] |- _ => apply Permutation_nil_r in H as -> end. done.
  - exfalso. destruct H4 as (_ & _ & -> & _). done.
Qed.
Lemma never_closes_rtc n s s' : 0 ≤ n → rt_inv n s → never_closes s → rtc (rt_step n) s s' → never_closes s'.
Proof.
  intros Hn Hi Hw Hs. revert Hi Hw. induction Hs as [|s s1 s2 Hs _ IH]; intros Hi Hw; [done|].
  apply IH; [by eapply rt_inv_step|by eapply never_closes_step].
Qed.
Lemma all_received n s : rt_inv n s → (rt_received s).*1 ≡ₚ rt_sent s →
  List.concat (rt_queue s) = [] ∧ to_launch (rt_worker s) = [] ∧ rt_jobs s = [] ∧ in_hand (rt_worker s) = [] ∧ rt_results s = [].
Proof.
  intros (_ & H2 & _) H. rewrite H2 in H. apply Permutation_length in H. rewrite !app_length, !fmap_length in H.
  split_and!; apply nil_length_inv; lia.
Qed.

(** ** Runs that exist *)
Lemma rt_launch_all n ids q qc rs rsc rlc run js sent fin rcv :
  rtc (rt_step n) (RtState q qc rs rsc rlc run (Launching ids) js sent fin rcv)
    (RtState q qc rs rsc rlc (run + Z.of_nat (length ids)) Selecting (js ++ (Executing <$> ids)) sent fin rcv).
Proof.
  revert run js. induction ids as [|id ids IH]; intros run js.
  - rewrite fmap_nil, app_nil_r. replace (run + Z.of_nat (length [])) with run by (cbn; lia). apply rtc_once, step_launched.
  - eapply rtc_l; [apply step_launch|]. specialize (IH (run + 1) (js ++ [Executing id])).
    rewrite <-app_assoc in IH. replace (run + 1 + Z.of_nat (length ids)) with (run + Z.of_nat (length (id :: ids))) in IH by (cbn; lia). done.
Qed.
Lemma rt_submit n batch order rs rsc rlc run js sent fin rcv : 0 ≤ n → NoDup batch → order ≡ₚ batch →
  rtc (rt_step n) (RtState [] false rs rsc rlc run Selecting js sent fin rcv)
    (RtState [] false rs rsc rlc (run + Z.of_nat (length batch)) Selecting (js ++ (Executing <$> order)) (sent ++ batch) fin rcv).
Proof.
  intros Hn Hb Ho. rewrite <-(Permutation_length Ho). destruct (decide (n = 0)) as [->|].
  - eapply rtc_l; [by apply (step_send0 _ batch order)|]. apply rt_launch_all.
  - eapply rtc_l; [apply (step_send _ batch); cbn; [done|lia]|].
    eapply rtc_l; [by apply (step_take _ batch order)|]. apply rt_launch_all.
Qed.
Lemma rt_finish_one n r id js qc run sent fin rcv : 0 ≤ n →
  rtc (rt_step n) (RtState [] qc [] false false run Selecting (Executing id :: js) sent fin rcv)
    (RtState [] qc [] false false (run - 1) Selecting js sent (fin ++ [(id, r)]) (rcv ++ [(id, r)])).
Proof.
  intros Hn. eapply rtc_l; [apply (step_finish n id r [])|]. eapply rtc_l; [apply (step_relay n id r [])|]. cbn.
  destruct (decide (n = 0)) as [->|].
  - eapply rtc_once, step_deliver0. done.
  - eapply rtc_l; [apply step_deliver; cbn; lia|]. cbn. eapply rtc_once, step_receive.
Qed.
Lemma rt_finish_all n r ids qc run sent fin rcv : 0 ≤ n →
  rtc (rt_step n) (RtState [] qc [] false false run Selecting (Executing <$> ids) sent fin rcv)
    (RtState [] qc [] false false (run - Z.of_nat (length ids)) Selecting [] sent (fin ++ ((λ id, (id, r id)) <$> ids)) (rcv ++ ((λ id, (id, r id)) <$> ids))).
Proof.
  intros Hn. revert run fin rcv. induction ids as [|id ids IH]; intros run fin rcv.
  - rewrite !fmap_nil, !app_nil_r. replace (run - Z.of_nat (length [])) with run by (cbn; lia). done.
  - rewrite fmap_cons. etrans; [by apply (rt_finish_one n (r id))|].
    specialize (IH (run - 1) (fin ++ [(id, r id)]) (rcv ++ [(id, r id)])). rewrite <-!app_assoc in IH.
    replace (run - 1 - Z.of_nat (length ids)) with (run - Z.of_nat (length (id :: ids))) in IH by (cbn; lia). done.
Qed.

(** * Dependencies *)
Lemma task_prefix_inj x y : ("task:" +:+ x) = ("task:" +:+ y) → x = y.
Proof. by intros [= ->]. Qed.
Lemma deps_split a a' r r' :
  (∀ x, x ∈ r → ¬ ∃ i, x = "task:" +:+ i) → (∀ x, x ∈ r' → ¬ ∃ i, x = "task:" +:+ i) →
  ((λ id, "task:" +:+ id) <$> a) ++ r = ((λ id, "task:" +:+ id) <$> a') ++ r' → a = a' ∧ r = r'.
Proof.
  revert a'. induction a as [|x a IH]; intros [|y a'] Hr Hr' H; rewrite ?fmap_cons, ?fmap_nil in H.
  - done.
  - cbn [app] in H. subst r. destruct (Hr ("task:" +:+ y)); [left|by exists y].
  - cbn [app] in H. subst r'. destruct (Hr' ("task:" +:+ x)); [left|by exists x].
  - cbn [app] in H. injection H as H1 H2. apply IH in H2 as [-> ->]; [|done|done]. subst. done.
Qed.

(** * The parser *)
Lemma ts_defaults_lookup fs typ : ts_defaults fs !! typ = (λ f, {[ "" := ts_new_target f ]}) <$> (fs !! typ).
Proof. unfold ts_defaults. by rewrite lookup_fmap. Qed.
(** Every target is of its group's factory, and declared. *)
Definition good_targets {C} (fs : gmap string ts_factory) (l : list (target_block C)) (ts : gmap string (gmap string ts_target)) : Prop :=
  (∀ typ, is_Some (ts !! typ) ↔ is_Some (fs !! typ)) ∧
  (∀ typ g, ts !! typ = Some g → is_Some (g !! "")) ∧
  (∀ typ g, ts !! typ = Some g → ∀ id, is_Some (g !! id) ↔ id = "" ∨ ∃ b, b ∈ l ∧ tb_type b = typ ∧ tb_id b = id) ∧
  (∀ typ g id t, ts !! typ = Some g → g !! id = Some t → ∃ f, fs !! typ = Some f ∧ ts_target_class t = f).
Lemma ts_new_target_class f : ts_target_class (ts_new_target f) = f.
Proof. by destruct f. Qed.
Lemma good_defaults {C} fs : good_targets (C:=C) fs [] (ts_defaults fs).
Proof.
  split_and!.
  - intros typ. rewrite ts_defaults_lookup. by rewrite fmap_is_Some.
  - intros typ g. rewrite ts_defaults_lookup. destruct (fs !! typ); [|done]. intros [= <-]. rewrite lookup_singleton. eauto.
  - intros typ g Hg id. rewrite ts_defaults_lookup in Hg. destruct (fs !! typ); [|done]. injection Hg as <-. split.
    + intros [x [<- _]%lookup_singleton_Some]. by left.
    + intros [->|(b & []%elem_of_nil & _)]. rewrite lookup_singleton. eauto.
  - intros typ g id t Hg Ht. rewrite ts_defaults_lookup in Hg. destruct (fs !! typ) as [f|]; [|done]. injection Hg as <-.
    apply lookup_singleton_Some in Ht as [_ <-]. exists f. split; [done|]. apply ts_new_target_class.
Qed.
Lemma ts_load_targets_good {C} (dec : ts_decoder C) fs l l0 ts ts' : ok_ts_decoder dec → good_targets fs l0 ts →
  ts_load_targets dec fs l ts = inr ts' → good_targets fs (l0 ++ l) ts'.
Proof.
  intros [Hd _]. revert l0 ts. induction l as [|b l IH]; intros l0 ts Hg H; cbn in H.
  - rewrite app_nil_r. by injection H as <-.
  - destruct (fs !! tb_type b) as [f|] eqn:Hf; [|done]. destruct (tsd_target dec (ts_new_target f) (tb_config b)) as [x|] eqn:Hx; [|done].
    rewrite cons_middle, app_assoc. eapply IH; [|exact H]. clear H IH. destruct Hg as (G1 & G2 & G3 & G4).
    assert (ts_target_class x = f) as Hc. { apply Hd in Hx. by destruct f, x. }
    destruct (proj2 (G1 (tb_type b))) as [g Hg]; [eauto|]. rewrite Hg. cbn [default from_option id].
    split_and!.
    + intros typ. rewrite lookup_insert_is_Some'. rewrite G1. split; [|by right]. intros [<-|?]; eauto.
    + intros typ g' Hg'. apply lookup_insert_Some in Hg' as [[<- <-]|[? Hg']]; [|by eapply G2].
      rewrite lookup_insert_is_Some'. right. by eapply G2.
    + intros typ g' Hg' id. apply lookup_insert_Some in Hg' as [[<- <-]|[Hne Hg']].
      * rewrite lookup_insert_is_Some'. rewrite (G3 _ g Hg). split.
        -- intros [<-|[->|(b' & ? & ? & ?)]]; [right|by left|right].
           ++ exists b. rewrite elem_of_app, elem_of_list_singleton. auto.
           ++ exists b'. rewrite elem_of_app. auto.
        -- intros [->|(b' & [?|<-%elem_of_list_singleton]%elem_of_app & ? & ?)]; [auto| |auto]. right. right. eauto.
      * rewrite (G3 _ g' Hg'). split.
        -- intros [->|(b' & ? & ? & ?)]; [by left|right]. exists b'. rewrite elem_of_app. auto.
        -- intros [->|(b' & [?|<-%elem_of_list_singleton]%elem_of_app & ? & ?)]; [auto| |done]. right. eauto.
    + intros typ g' id t Hg' Ht. apply lookup_insert_Some in Hg' as [[<- <-]|[Hne Hg']]; [|by eapply G4].
      apply lookup_insert_Some in Ht as [[<- <-]|[_ Ht]]; [eauto|by eapply G4].
Qed.
Lemma ts_new_task_class t c x : ts_new_task t c = Some x →
  ts_base x = BaseTask [] [] [] ∧ ts_class (ts_settings_of x) = ts_kind (ts_target_class t) c ∧
  (∀ n, ts_settings_of x = TsDemo (Sleep n) → n = 0) ∧
  (ts_target_class t = DemoFactory → c ∈ ["echo"; "fail"; "rev"; "rot13"; "sleep"]).
Proof.
  unfold ts_new_task. destruct t; cbn [ts_target_class ts_kind].
  - repeat case_decide; intros [= <-]; subst; cbn; (split; [done|split; [done|split; [naive_solver|intros _; set_solver]]]).
  - intros [= <-]. cbn. naive_solver.
  - intros [= <-]. cbn. naive_solver.
Qed.
Lemma ts_load_task_spec {C} (dec : ts_decoder C) fs (l : list (target_block C)) ts k x : ok_ts_decoder dec → good_targets fs l ts → ts_load_task dec ts k = inr x →
  ∃ typ c f, names_target (kb_type k) typ c ∧ fs !! typ = Some f ∧
    (kb_target k = "" ∨ ∃ b, b ∈ l ∧ tb_type b = typ ∧ tb_id b = kb_target k) ∧
    (f = DemoFactory → c ∈ ["echo"; "fail"; "rev"; "rot13"; "sleep"]) ∧
    ts_class (ts_settings_of x) = ts_kind f c ∧ ts_base x = BaseTask [] [] [] ∧
    (∀ n, ts_settings_of x = TsDemo (Sleep n) → n = 0).
Proof.
  intros [_ Hd] (G1 & G2 & G3 & G4) H. unfold ts_load_task in H. pose proof (split_target_spec (kb_type k)) as Hs.
  destruct (split_target (kb_type k)) as [typ c]. cbn in Hs. destruct (ts !! typ) as [g|] eqn:Hg; [|done].
  destruct (g !! kb_target k) as [t|] eqn:Ht; [|done]. destruct (ts_new_task t c) as [y|] eqn:Hy; [|done].
  destruct (tsd_task dec (ts_settings_of y) (kb_config k)) as [z|] eqn:Hz; [|done]. injection H as <-.
  destruct (G4 typ g _ t Hg Ht) as (f & Hf & Hc). apply ts_new_task_class in Hy as (Hy1 & Hy2 & Hy3 & Hy4).
  apply Hd in Hz as [Hz1 Hz2]. exists typ, c, f. rewrite Hc in Hy2, Hy4. split_and!; try done.
  - apply (G3 typ g Hg). eauto.
  - cbn. by rewrite Hz1.
  - cbn. intros n ->. destruct (ts_settings_of y) as [[]| |] eqn:Hst; try done. rewrite (Hz2 seconds) in *; [|done]. naive_solver.
Qed.
Lemma ts_load_tasks_spec {C} (dec : ts_decoder C) ts l acc tasks : ts_load_tasks dec ts l acc = inr tasks →
  (∀ k, k ∈ l → ∃ x, ts_load_task dec ts k = inr x) ∧
  ∀ id x, tasks !! id = Some x ↔
    (∃ k, last_block l k ∧ kb_id k = id ∧ ts_load_task dec ts k = inr x) ∨ (id ∉ kb_id <$> l ∧ acc !! id = Some x).
Proof.
  revert acc. induction l as [|k l IH]; intros acc H; cbn in H.
  - injection H as <-. split; [by intros k ?%elem_of_nil|]. intros id x. split.
    + intros Hx. right. split; [apply not_elem_of_nil|done].
    + intros [(k & (l1 & l2 & Hl & _) & _)|[_ ?]]; [|done]. by destruct l1.
  - destruct (ts_load_task dec ts k) as [|y] eqn:Hk; [done|]. apply IH in H as [Ha Hb]. split.
    { intros k' [->|Hk']%elem_of_cons; [eauto|auto]. }
    intros id x. rewrite Hb. rewrite fmap_cons, not_elem_of_cons. split.
    + intros [(k' & (l1 & l2 & -> & Hn) & Hid & Hx)|[Hn Hx]].
      * left. exists k'. split; [|done]. by exists (k :: l1), l2.
      * apply lookup_insert_Some in Hx as [[<- <-]|[Hne Hx]]; [left|by right].
        exists k. split; [|done]. by exists [], l.
    + intros [(k' & (l1 & l2 & Hl & Hn) & Hid & Hx)|[[Hne Hn] Hx]].
      * destruct l1 as [|k1 l1]; cbn in Hl; injection Hl as <- ->.
        -- right. subst id. split; [done|]. rewrite lookup_insert. congruence.
        -- left. exists k'. split; [|done]. by exists l1, l2.
      * right. split; [done|]. by rewrite lookup_insert_ne by done.
Qed.

(** Every error has a reason. *)
Lemma ts_load_targets_err {C} (dec : ts_decoder C) fs l ts e : ts_load_targets dec fs l ts = inl e →
  (e = BadTargetType ∧ ∃ b, b ∈ l ∧ fs !! tb_type b = None) ∨
  (e = BadBody ∧ ∃ b f, b ∈ l ∧ fs !! tb_type b = Some f ∧ tsd_target dec (ts_new_target f) (tb_config b) = None).
Proof.
  revert ts. induction l as [|b l IH]; intros ts H; cbn in H; [done|].
  destruct (fs !! tb_type b) as [f|] eqn:Hf.
  - destruct (tsd_target dec (ts_new_target f) (tb_config b)) eqn:Hx.
    + apply IH in H as [(-> & b' & ? & ?)|(-> & b' & f' & ? & ? & ?)]; [left|right]; (split; [done|]).
      * exists b'. by rewrite elem_of_cons; auto.
      * exists b', f'. by rewrite elem_of_cons; auto.
    + injection H as <-. right. split; [done|]. exists b, f. by rewrite elem_of_cons; auto.
  - injection H as <-. left. split; [done|]. exists b. by rewrite elem_of_cons; auto.
Qed.
Lemma ts_new_task_none t c : ts_new_task t c = None → ts_target_class t = DemoFactory ∧ c ∉ ["echo"; "fail"; "rev"; "rot13"; "sleep"].
Proof.
  unfold ts_new_task. destruct t; [|done|done]. repeat case_decide; try done. intros _. split; [done|].
  rewrite !not_elem_of_cons. split_and!; try done. apply not_elem_of_nil.
Qed.
Lemma names_target_fun s t c t' c' : names_target s t c → names_target s t' c' → t = t' ∧ c = c'.
Proof.
  assert (∀ t t' c c', ¬ has_byte "/" t → ¬ has_byte "/" t' → t +:+ "/" +:+ c = t' +:+ "/" +:+ c' → t = t' ∧ c = c') as Hsp.
  { clear. induction t as [|a t IH]; intros [|b t'] c c' Ht Ht' H.
    - by injection H as ->.
    - rewrite app_str_cons in H. injection H as <- H. exfalso. apply Ht', has_byte_cons. by left.
    - rewrite app_str_cons in H. injection H as -> H. exfalso. apply Ht, has_byte_cons. by left.
    - rewrite !app_str_cons in H. injection H as -> H. apply IH in H as [-> ->]; [done| |].
      + intros Hb. apply Ht, has_byte_cons. by right.
      + intros Hb. apply Ht', has_byte_cons. by right. }
  intros [[-> Ht]|(-> & -> & Hs)] [[H' Ht']|(H' & -> & Hs')].
  - by apply Hsp.
  - exfalso. apply Hs'. by exists t, c.
  - subst. exfalso. apply Hs. by exists t', c'.
  - by subst.
Qed.
Lemma ts_load_task_err {C} (dec : ts_decoder C) fs (l : list (target_block C)) ts k e : good_targets fs l ts → ts_load_task dec ts k = inl e →
  ∃ typ c, names_target (kb_type k) typ c ∧
  ((e = BadTargetType ∧ fs !! typ = None) ∨
   (e = BadTarget ∧ is_Some (fs !! typ) ∧ ¬ (kb_target k = "" ∨ ∃ b, b ∈ l ∧ tb_type b = typ ∧ tb_id b = kb_target k)) ∨
   (e = BadTaskType ∧ fs !! typ = Some DemoFactory ∧ c ∉ ["echo"; "fail"; "rev"; "rot13"; "sleep"]) ∨
   (e = BadBody ∧ ∃ x, tsd_task dec x (kb_config k) = None)).
Proof.
  intros (G1 & G2 & G3 & G4) H. unfold ts_load_task in H. pose proof (split_target_spec (kb_type k)) as Hs.
  destruct (split_target (kb_type k)) as [typ c]. cbn in Hs. exists typ, c. split; [done|]. destruct (ts !! typ) as [g|] eqn:Hg.
  - right. destruct (g !! kb_target k) as [t|] eqn:Ht.
    + right. destruct (ts_new_task t c) as [y|] eqn:Hy.
      * right. destruct (tsd_task dec (ts_settings_of y) (kb_config k)) as [z|] eqn:Hz; [done|]. injection H as <-. eauto.
      * left. injection H as <-. split; [done|]. apply ts_new_task_none in Hy as [Hc Hn]. split; [|done].
        destruct (G4 typ g _ t Hg Ht) as (f & Hf & Hc'). congruence.
    + left. injection H as <-. split; [done|]. split; [apply G1; eauto|]. intros Hd%(G3 typ g Hg). rewrite Ht in Hd. by destruct Hd.
  - left. injection H as <-. split; [done|]. destruct (fs !! typ) eqn:Hf; [|done]. destruct (proj2 (G1 typ)) as [x Hx]; [eauto|congruence].
Qed.
Lemma ts_load_tasks_err {C} (dec : ts_decoder C) ts l acc e : ts_load_tasks dec ts l acc = inl e → ∃ k, k ∈ l ∧ ts_load_task dec ts k = inl e.
Proof.
  revert acc. induction l as [|k l IH]; intros acc H; cbn in H; [done|].
  destruct (ts_load_task dec ts k) eqn:Hk.
  - injection H as <-. exists k. by rewrite elem_of_cons; auto.
  - apply IH in H as (k' & ? & ?). exists k'. by rewrite elem_of_cons; auto.
Qed.

(** * The parser, exactly *)
Lemma fresh_new_target f t : fresh_ts_target f t ↔ t = ts_new_target f.
Proof. split; [by intros []|intros ->; destruct f; constructor]. Qed.
Lemma fresh_new_task t c x : fresh_ts_task t c x ↔ ts_new_task t c = Some (TsTask (BaseTask [] [] []) x).
Proof.
  split; [by intros []|]. unfold ts_new_task. destruct t.
  - repeat case_decide; intros [= <-]; subst; constructor.
  - intros [= <-]. constructor.
  - intros [= <-]. constructor.
Qed.
Lemma last_target_cons {C} (b : target_block C) l b' : last_target_block (b :: l) b' ↔ last_target_block l b' ∨ b' = b ∧ target_key b ∉ target_key <$> l.
Proof.
  split.
  - intros (l1 & l2 & Hl & Hn). destruct l1 as [|b1 l1]; cbn in Hl; injection Hl as <- ->; [by right|]. left. by exists l1, l2.
  - intros [(l1 & l2 & -> & Hn)|[-> Hn]]; [by exists (b :: l1), l2|by exists [], l].
Qed.
Definition look2 (ts : gmap string (gmap string ts_target)) (k : string * string) : option ts_target :=
  ts !! k.1 ≫= (.!! k.2).
Lemma look2_Some ts typ id t : look2 ts (typ, id) = Some t ↔ ∃ g, ts !! typ = Some g ∧ g !! id = Some t.
Proof. unfold look2. cbn. by rewrite bind_Some. Qed.
Lemma look2_insert {C} ts (b : target_block C) x k : look2 (<[tb_type b := <[tb_id b := x]> (default ∅ (ts !! tb_type b))]> ts) k =
  if decide (k = target_key b) then Some x else look2 ts k.
Proof.
  destruct k as [typ id]. unfold look2, target_key. cbn. destruct (decide (typ = tb_type b)) as [->|Hne].
  - rewrite lookup_insert. cbn. case_decide as Hk.
    + injection Hk as ->. by rewrite lookup_insert.
    + rewrite lookup_insert_ne by congruence. by destruct (ts !! tb_type b); cbn; rewrite ?lookup_empty.
  - rewrite lookup_insert_ne by done. rewrite decide_False by congruence. done.
Qed.
Lemma target_block_means_fun {C} (dec : ts_decoder C) fs b t t' : target_block_means dec fs b t → target_block_means dec fs b t' → t = t'.
Proof. intros (f & x & Hf & ->%fresh_new_target & Ht) (f' & x' & Hf' & ->%fresh_new_target & Ht'). congruence. Qed.
Lemma ts_load_targets_exact {C} (dec : ts_decoder C) fs l ts0 ts : ts_load_targets dec fs l ts0 = inr ts →
  (∀ b, b ∈ l → ∃ t, target_block_means dec fs b t) ∧
  (∀ typ, is_Some (ts !! typ) ↔ is_Some (ts0 !! typ) ∨ typ ∈ tb_type <$> l) ∧
  (∀ k t, look2 ts k = Some t ↔
    (∃ b, last_target_block l b ∧ target_key b = k ∧ target_block_means dec fs b t) ∨
    (k ∉ target_key <$> l ∧ look2 ts0 k = Some t)).
Proof.
  revert ts0. induction l as [|b l IH]; intros ts0 H; cbn in H.
  - injection H as <-. split_and!; [by intros ? ?%elem_of_nil| |].
    + intros typ. cbn. rewrite elem_of_nil. naive_solver.
    + intros k t. cbn. split; [by right; split; [apply not_elem_of_nil|]|]. intros [(b & (l1 & l2 & Hl & _) & _)|[_ ?]]; [|done]. by destruct l1.
  - destruct (fs !! tb_type b) as [f|] eqn:Hf; [|done]. destruct (tsd_target dec (ts_new_target f) (tb_config b)) as [x|] eqn:Hx; [|done].
    assert (target_block_means dec fs b x) as Hm by (exists f, (ts_new_target f); by rewrite fresh_new_target).
    apply IH in H as (H1 & H2 & H3). split_and!.
    + intros b' [->|?]%elem_of_cons; eauto.
    + intros typ. rewrite H2, lookup_insert_is_Some', fmap_cons, elem_of_cons. naive_solver.
    + intros k t. rewrite H3, look2_insert, fmap_cons, not_elem_of_cons. setoid_rewrite last_target_cons. split.
      * intros [(b' & ? & ? & ?)|[Hn Hk]]; [left; eauto|]. case_decide as Hd; [|by right]. left. exists b. injection Hk as <-.
        split; [|done]. right. split; [done|]. by rewrite <-Hd.
      * intros [(b' & [?|[-> Hn]] & <- & Hm')|[[Hn Hn'] Hk]]; [left; eauto| |].
        -- right. split; [done|]. rewrite decide_True by done. f_equal. by eapply target_block_means_fun.
        -- right. split; [done|]. by rewrite decide_False.
Qed.
Lemma ts_load_targets_ok {C} (dec : ts_decoder C) fs l ts0 : (∀ b, b ∈ l → ∃ t, target_block_means dec fs b t) → ∃ ts, ts_load_targets dec fs l ts0 = inr ts.
Proof.
  revert ts0. induction l as [|b l IH]; intros ts0 H; cbn; [eauto|].
  destruct (H b) as (t & f & x & Hf & ->%fresh_new_target & Ht); [by apply elem_of_cons; left|]. rewrite Hf, Ht.
  apply IH. intros b' Hb'. apply H, elem_of_cons. by right.
Qed.
Lemma task_block_means_load {C} (dec : ts_decoder C) ts k x : task_block_means dec ts k x ↔ ts_load_task dec ts k = inr x.
Proof.
  unfold ts_load_task, task_block_means. pose proof (split_target_spec (kb_type k)) as Hs.
  destruct (split_target (kb_type k)) as [typ c]. cbn in Hs. split.
  - intros (typ' & c' & g & t & x0 & x1 & Hn & Hg & Ht & Hx0%fresh_new_task & Hx1 & ->).
    destruct (names_target_fun _ _ _ _ _ Hs Hn) as [<- <-]. by rewrite Hg, Ht, Hx0; cbn; rewrite Hx1.
  - destruct (ts !! typ) as [g|] eqn:Hg; [|done]. destruct (g !! kb_target k) as [t|] eqn:Ht; [|done].
    destruct (ts_new_task t c) as [[b y]|] eqn:Hy; [|done]. cbn. destruct (tsd_task dec y (kb_config k)) as [z|] eqn:Hz; [|done].
    intros [= <-]. destruct (ts_new_task_class _ _ _ Hy) as [Hb _]. cbn in Hb. subst b.
    exists typ, c, g, t, y, z. rewrite fresh_new_task. done.
Qed.
Lemma ts_load_tasks_ok {C} (dec : ts_decoder C) ts l acc : (∀ k, k ∈ l → ∃ x, task_block_means dec ts k x) → ∃ tasks, ts_load_tasks dec ts l acc = inr tasks.
Proof.
  revert acc. induction l as [|k l IH]; intros acc H; cbn; [eauto|].
  destruct (H k) as (x & ->%task_block_means_load); [by apply elem_of_cons; left|].
  apply IH. intros b' Hb'. apply H, elem_of_cons. by right.
Qed.
Lemma means_targets_fun {C} (dec : ts_decoder C) fs d ts ts' : means_targets dec fs d ts → means_targets dec fs d ts' → ts = ts'.
Proof.
  intros [Ha Hb] [Ha' Hb']. apply map_eq. intros typ. destruct (ts !! typ) as [g|] eqn:Hg, (ts' !! typ) as [g'|] eqn:Hg'; [|exfalso..|done].
  - f_equal. apply map_eq. intros id. apply option_eq. intros t. by rewrite (Hb typ g id t Hg), (Hb' typ g' id t Hg').
  - apply eq_None_not_Some in Hg'. apply Hg', Ha', Ha. eauto.
  - apply eq_None_not_Some in Hg. apply Hg, Ha, Ha'. eauto.
Qed.
Lemma ts_load_targets_means {C} (dec : ts_decoder C) fs d ts : ts_load_targets dec fs (td_targets d) (ts_defaults fs) = inr ts →
  (∀ b, b ∈ td_targets d → ∃ t, target_block_means dec fs b t) ∧ means_targets dec fs d ts.
Proof.
  intros (H1 & H2 & H3)%ts_load_targets_exact. split; [done|]. split.
  - intros typ. rewrite H2, ts_defaults_lookup, fmap_is_Some. split; [|by left].
    intros [?|(b & -> & Hb)%elem_of_list_fmap]; [done|]. destruct (H1 b Hb) as (t & f & x & Hf & _). eauto.
  - intros typ g id t Hg. assert (g !! id = Some t ↔ look2 ts (typ, id) = Some t) as ->.
    { rewrite look2_Some. split; [eauto|]. intros (g' & Hg' & ?). by simplify_eq. }
    rewrite H3, look2_Some, ts_defaults_lookup. f_equiv. split.
    + intros (Hn & g' & (f & Hf & ->)%fmap_Some & [<- <-]%lookup_singleton_Some). split; [done|]. split; [done|]. exists f. by rewrite fresh_new_target.
    + intros (-> & Hn & f & Hf & ->%fresh_new_target). split; [done|]. rewrite Hf. cbn. eexists. split; [done|]. by rewrite lookup_singleton.
Qed.
Lemma ts_parse_exact {C} (dec : ts_decoder C) fs d ts tasks : ts_parse dec fs d = inr (ts, tasks) ↔
  (∀ b, b ∈ td_targets d → ∃ t, target_block_means dec fs b t) ∧ means_targets dec fs d ts ∧
  (∀ k, k ∈ td_tasks d → ∃ x, task_block_means dec ts k x) ∧
  (∀ id x, tasks !! id = Some x ↔ ∃ k, last_block (td_tasks d) k ∧ kb_id k = id ∧ task_block_means dec ts k x).
Proof.
  assert (∀ ts' l tasks, ts_load_tasks dec ts' l ∅ = inr tasks →
    (∀ k, k ∈ l → ∃ x, task_block_means dec ts' k x) ∧
    (∀ id x, tasks !! id = Some x ↔ ∃ k, last_block l k ∧ kb_id k = id ∧ task_block_means dec ts' k x)) as Hl.
  { intros ts' l tasks' [Ha Hb]%ts_load_tasks_spec. setoid_rewrite task_block_means_load. split; [done|].
    intros id x. rewrite Hb, lookup_empty. naive_solver. }
  unfold ts_parse. split.
  - destruct (ts_load_targets dec fs (td_targets d) (ts_defaults fs)) as [|ts'] eqn:Hts; [done|].
    destruct (ts_load_tasks dec ts' (td_tasks d) ∅) as [|tasks'] eqn:Htk; [done|]. intros [= -> ->].
    apply ts_load_targets_means in Hts as [? ?]. apply Hl in Htk as [? ?]. done.
  - intros (H1 & H2 & H3 & H4). destruct (ts_load_targets_ok dec fs _ (ts_defaults fs) H1) as [ts' Hts]. rewrite Hts.
    apply ts_load_targets_means in Hts as [_ Hm]. rewrite (means_targets_fun _ _ _ _ _ Hm H2).
    destruct (ts_load_tasks_ok dec ts _ ∅ H3) as [tasks' Htk]. rewrite Htk. do 2 f_equal.
    apply Hl in Htk as [_ Ht]. apply map_eq. intros id. apply option_eq. intros x. by rewrite Ht, H4.
Qed.
