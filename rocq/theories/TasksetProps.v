(** Properties of internal/taskset. *)
From Coq Require Import String Ascii.
From stdpp Require Import gmap list strings numbers relations.
From Verif Require Import GoBase GoStrings GoStringsProofs DemoModel ParserModel ParserSpec ParserProofs TasksetModel TasksetSpec TasksetProofs.
Local Open Scope Z_scope.

(** * C58 *)

(** At every moment, whatever the schedule: what was submitted is waiting, executing,
    undelivered or received, results are exactly those the tasks returned, and nothing
    panics. *)
Theorem C58_results_conserved n s : rt_reachable n s →
  rt_sent s ≡ₚ waiting s ++ executing s ++ (undelivered s).*1 ++ (rt_received s).*1 ∧
  rt_finished s ≡ₚ undelivered s ++ rt_received s ∧ rt_worker s ≠ Crashed.
Proof. apply rt_conserved. Qed.
Print Assumptions C58_results_conserved.
(** In particular a task submitted once has at most one result. *)
Theorem C58_no_second_result n s : rt_reachable n s → NoDup (rt_sent s) → NoDup (rt_received s).*1.
Proof.
  intros (Hs & _)%rt_conserved Hn. rewrite Hs in Hn. by repeat (apply NoDup_app in Hn as (_ & _ & Hn)).
Qed.
Print Assumptions C58_no_second_result.
(** A run in which one task of two was received and the other executes. *)
Example C58_reachable : ∃ s, rt_reachable 1 s ∧ executing s = ["b"] ∧ rt_received s = [("a", Some "x")].
Proof.
  eexists. split.
  - eexists. split; [done|]. etrans; [by apply (rt_submit 1 ["a"; "b"] ["a"; "b"] [] _ _ 0 [] [] [] []); [lia|apply (bool_decide_unpack _); vm_compute|]|].
    apply (rt_finish_one 1 (Some "x") "a" [Executing "b"]). lia.
  - done.
Qed.

(** * C59 *)

(** After the queue was closed every run is finite, and ends with everything received;
    results is then closed unless the goroutine still waits.  If something was running
    when the close was noticed, results is closed at the end.  (Missing: closing in all
    cases, which is false, see below.) *)
Theorem C59_results_closed_partial n s : rt_reachable n s → rt_queue_closed s = true →
  (∃ N, ∀ k s', nsteps (rt_step n) k s s' → (k ≤ N)%nat) ∧
  ∀ s', rtc (rt_step n) s s' → stuck n s' →
    rt_sent s' = rt_sent s ∧ (rt_received s').*1 ≡ₚ rt_sent s ∧ rt_received s' ≡ₚ rt_finished s' ∧
    (rt_results_closed s' = true ∨ rt_worker s' = Draining) ∧
    (rt_worker s = Draining → rt_jobs s ≠ [] → rt_results_closed s' = true).
Proof.
  intros Hr Hq. split; [exists (rt_weight s); intros k s'; by apply rt_closed_bounded|].
  intros s' Hs Hst. destruct (rt_reachable_inv n s Hr) as [Hn Hi]. pose proof (rt_inv_rtc n s s' Hn Hi Hs) as Hi'.
  destruct (rt_closed_rtc n s s' Hq Hs) as [Hq' He]. destruct (rt_progress n s' Hn Hi' Hst Hq') as (P1 & P2 & P3 & P4).
  split; [done|]. pose proof Hi' as (_ & I2 & I3 & I4 & _). rewrite P1, P2, P3, He in I2. rewrite P2, P3 in I3.
  assert (to_launch (rt_worker s') = [] ∧ in_hand (rt_worker s') = []) as [Hl Hh] by (by destruct P4 as [->|[-> _]]).
  rewrite Hl, Hh in I2. rewrite Hh in I3. cbn in I2, I3.
  split; [by rewrite I2|]. split; [by rewrite I3|]. unfold phase in I4. split.
  - destruct P4 as [Hw|[Hw _]]; [left|by right]. rewrite Hw in I4. tauto.
  - intros Hw Hj. assert (will_close s) as Hwc. { unfold will_close. rewrite Hw. by left. }
    pose proof (will_close_rtc n s s' Hn Hi Hwc Hs) as Hwc'. unfold will_close in Hwc'.
    destruct P4 as [Hw'|[Hw' _]]; rewrite Hw' in Hwc', I4; [tauto|]. destruct Hwc'; [done|done].
Qed.
Print Assumptions C59_results_closed_partial.
(** results is closed only after the last result, and stays closed; a second close
    would panic (C58). *)
Theorem C59_closed_after_last n s : rt_reachable n s → rt_results_closed s = true →
  rt_queue_closed s = true ∧ rt_sent s ≡ₚ (rt_results s ++ rt_received s).*1 ∧
  ∀ s', rtc (rt_step n) s s' → rt_results_closed s' = true ∧ rt_results s' ++ rt_received s' ≡ₚ rt_results s ++ rt_received s.
Proof.
  intros [Hn Hi]%rt_reachable_inv Hc.
  assert (∀ s, rt_inv n s → rt_results_closed s = true →
    rt_queue s = [] ∧ rt_queue_closed s = true ∧ rt_jobs s = [] ∧ (rt_worker s = Draining ∨ rt_worker s = Gone)) as Hsh.
  { intros s0 (_ & _ & _ & H4 & _) H. unfold phase in H4. destruct (rt_worker s0); rewrite ?H in H4; destruct_and?; try done.
    - split_and!; auto.
    - split_and!; auto. }
  destruct (Hsh s Hi Hc) as (H1 & H2 & H3 & H4). split; [done|]. split.
  - destruct Hi as (_ & I2 & _). rewrite I2, H1, H3, fmap_app. by destruct H4 as [-> | ->].
  - intros s' Hs. clear H1 H2 H3 H4. induction Hs as [|s s1 s2 Hs _ IH]; [done|].
    pose proof (rt_inv_step n s s1 Hn Hi Hs) as Hi1. destruct (Hsh s Hi Hc) as (H1 & H2 & H3 & H4).
    assert (rt_results_closed s1 = true ∧ rt_results s1 ++ rt_received s1 ≡ₚ rt_results s ++ rt_received s) as [Hc1 Hp1].
    { revert Hc H1 H2 H3 H4. destruct Hs; cbn; intros; try done; try (by destruct_or?).
      - split; [done|]. rewrite (app_assoc rs), <-Permutation_cons_append; done. }
    destruct (IH Hi1 Hc1) as [Hc2 Hp2]. split; [done|]. by rewrite Hp2.
Qed.
Print Assumptions C59_closed_after_last.
(** REFUTED: if every result was received before the queue is closed, as a caller
    would, results is never closed, whatever happens then. *)
Theorem C59_never_closed n s : rt_reachable n s → rt_queue_closed s = true → rt_results_closed s = false →
  (rt_received s).*1 ≡ₚ rt_sent s → ∀ s', rtc (rt_step n) s s' → rt_results_closed s' = false.
Proof.
  intros [Hn Hi]%rt_reachable_inv Hq Hc Hr s' Hs. destruct (all_received n s Hi Hr) as (H1 & H2 & H3 & H4 & H5).
  assert (never_closes s) as Hnc.
  { split_and!; try done. destruct Hi as (_ & _ & _ & Hp & _). unfold phase in Hp. rewrite Hc in Hp.
    destruct (rt_worker s) as [|[]| | | | |]; cbn in *; try done. by destruct_and?. }
  by apply (never_closes_rtc n s s' Hn Hi Hnc Hs).
Qed.
Print Assumptions C59_never_closed.
Theorem C59_refuted n batch : 0 ≤ n → NoDup batch →
  ∃ s, rt_reachable n s ∧ rt_queue_closed s = true ∧ rt_sent s = batch ∧ (rt_received s).*1 = batch ∧
    ∀ s', rtc (rt_step n) s s' → rt_results_closed s' = false.
Proof.
  intros Hn Hb.
  assert (∃ s, rt_reachable n s ∧ rt_queue_closed s = true ∧ rt_results_closed s = false ∧ rt_sent s = batch ∧ (rt_received s).*1 = batch)
    as (s & H1 & H2 & H3 & H4 & H5).
  { eexists. split; [eexists; split; [unfold rt_start; by rewrite bool_decide_eq_true_2|]|].
    - etrans; [by apply (rt_submit n batch batch)|]. cbn [app]. etrans; [by apply (rt_finish_all n (λ _, None))|].
      apply rtc_once, step_close.
    - cbn. split_and!; try done. clear. rewrite <-list_fmap_compose. by apply list_fmap_id. }
  exists s. split_and!; try done. by apply C59_never_closed; rewrite ?H4, ?H5.
Qed.
Print Assumptions C59_refuted.

(** * C60 *)

(** REFUTED: every task of a batch executes at the same time, whatever the limit. *)
Theorem C60_refuted n batch : 0 ≤ n → NoDup batch → ∃ s, rt_reachable n s ∧ executing s = batch.
Proof.
  intros Hn Hb. eexists. split.
  - eexists. split; [unfold rt_start; by rewrite bool_decide_eq_true_2|]. by apply (rt_submit n batch batch).
  - unfold executing. cbn. clear. induction batch as [|id l IH]; cbn; [done|]. by rewrite IH.
Qed.
Print Assumptions C60_refuted.
(** What the limit bounds: the batches waiting in the queue, and the results waiting
    to be received.  What runs is bounded only by what the caller submitted and did not
    receive.  (Missing: the bound on running tasks, which is false.) *)
Theorem C60_buffers_bounded_partial n s : rt_reachable n s →
  Z.of_nat (length (rt_queue s)) ≤ n ∧ Z.of_nat (length (rt_results s)) ≤ n ∧
  (length (executing s) + length (rt_received s) ≤ length (rt_sent s))%nat.
Proof.
  intros Hr. pose proof (rt_conserved n s Hr) as [Hs _]. apply rt_reachable_inv in Hr as [_ (_ & _ & _ & _ & H5 & H6)].
  split; [done|]. split; [done|]. apply Permutation_length in Hs. rewrite !app_length, !fmap_length in Hs. lia.
Qed.
Print Assumptions C60_buffers_bounded_partial.
(** A negative limit is not rejected by the parser; making the channels panics. *)
Theorem C60_negative_panics n : n < 0 → rt_start n = None.
Proof. intros. unfold rt_start. rewrite bool_decide_eq_false_2 by lia. done. Qed.
Example C60_five : ∃ s, rt_reachable 1 s ∧ length (executing s) = 5%nat.
Proof.
  destruct (C60_refuted 1 ["a"; "b"; "c"; "d"; "e"]) as (s & H & He); [lia|apply (bool_decide_unpack _); by vm_compute|].
  exists s. by rewrite He.
Qed.

(** * C61 *)

(** The dependencies are the tasks, tagged, then the resources, in order. *)
Theorem C61_dependencies t :
  (∃ tags, dependencies t = tags ++ bt_require t ∧ Forall2 (λ id tag, tag = "task:" +:+ id) (bt_after t) tags) ∧
  provides t = bt_provide t.
Proof.
  split; [|done]. eexists. split; [done|]. apply Forall2_fmap_r. apply Forall_Forall2_diag, Forall_true. done.
Qed.
Print Assumptions C61_dependencies.
(** They determine both lists, if no resource looks like a task. *)
Theorem C61_recoverable t t' :
  (∀ x, x ∈ bt_require t ++ bt_require t' → ¬ ∃ id, x = "task:" +:+ id) →
  dependencies t = dependencies t' → bt_after t = bt_after t' ∧ bt_require t = bt_require t'.
Proof. intros H. apply deps_split; intros x Hx; apply H, elem_of_app; auto. Qed.
Print Assumptions C61_recoverable.
Example C61_case : let t := BaseTask ["a"; "b"] [] ["table:x"] in
  dependencies t = ["task:a"; "task:b"; "table:x"] ∧ ∀ x, x ∈ bt_require t → ¬ ∃ id, x = "task:" +:+ id.
Proof. split; [done|]. intros x ->%elem_of_list_singleton [id H]. by injection H. Qed.
(** The condition is needed, and nothing checks it. *)
Example C61_ambiguous : dependencies (BaseTask ["a"] [] []) = dependencies (BaseTask [] [] ["task:a"]).
Proof. done. Qed.

(** * C72 *)

(** A parsed task set: a group of targets for every registered type, the targets
    declared in the file and the default ones, each of its group's type; and for every
    id the task of the last block with that id, whose type names a registered target
    type and a kind of task it has, and whose target is declared. *)
Theorem C72_parsed_task_set {C} (dec : ts_decoder C) fs d ts tasks : ok_ts_decoder dec → ts_parse dec fs d = inr (ts, tasks) →
  (∀ typ, is_Some (ts !! typ) ↔ is_Some (fs !! typ)) ∧
  (∀ typ g id, ts !! typ = Some g → (is_Some (g !! id) ↔ declared d typ id)) ∧
  (∀ typ g id t, ts !! typ = Some g → g !! id = Some t → fs !! typ = Some (ts_target_class t)) ∧
  (∀ id, is_Some (tasks !! id) ↔ id ∈ kb_id <$> td_tasks d) ∧
  (∀ id x, tasks !! id = Some x → ∃ k typ c f,
     last_block (td_tasks d) k ∧ kb_id k = id ∧ names_target (kb_type k) typ c ∧ fs !! typ = Some f ∧
     declared d typ (kb_target k) ∧ ts_class (ts_settings_of x) = ts_kind f c) ∧
  (∀ k, k ∈ td_tasks d → ∃ typ c, names_target (kb_type k) typ c ∧ is_Some (fs !! typ) ∧ declared d typ (kb_target k)).
Proof.
  intros Hd H. unfold ts_parse in H. destruct (ts_load_targets dec fs (td_targets d) (ts_defaults fs)) as [|ts'] eqn:Hts; [done|].
  destruct (ts_load_tasks dec ts' (td_tasks d) ∅) as [|tasks'] eqn:Htk; [done|]. injection H as -> ->.
  pose proof (ts_load_targets_good dec fs _ [] _ ts Hd (good_defaults fs) Hts) as Hg. cbn in Hg.
  apply ts_load_tasks_spec in Htk as [Ha Hb]. pose proof Hg as (G1 & G2 & G3 & G4). split_and!.
  - done.
  - intros typ g id Hg'. by apply G3.
  - intros typ g id t Hg' Ht. destruct (G4 typ g id t Hg' Ht) as (f & Hf & <-). done.
  - intros id. split.
    + intros [x [(k & (l1 & l2 & -> & _) & <- & _)|[_ ?]]%Hb]; [|done]. rewrite fmap_app, fmap_cons. set_solver.
    + intros Hid. assert (∃ k, last_block (td_tasks d) k ∧ kb_id k = id) as (k & Hk & <-).
      { clear -Hid. induction (td_tasks d) as [|k l IH]; [by apply elem_of_nil in Hid|].
        destruct (decide (id ∈ kb_id <$> l)) as [Hl|Hl].
        - destruct (IH Hl) as (k' & (l1 & l2 & -> & Hn) & Hk). exists k'. split; [|done]. by exists (k :: l1), l2.
        - rewrite fmap_cons, elem_of_cons in Hid. destruct Hid as [->|]; [|done]. exists k. split; [|done]. by exists [], l. }
      destruct (Ha k) as [x Hx]. { destruct Hk as (l1 & l2 & -> & _). set_solver. }
      exists x. apply Hb. left. eauto.
  - intros id x [(k & Hk & Hid & Hx)|[_ ?]]%Hb; [|done].
    destruct (ts_load_task_spec dec fs _ ts k x Hd Hg Hx) as (typ & c & f & ? & ? & ? & _ & ? & _). exists k, typ, c, f. done.
  - intros k [x Hx]%Ha. destruct (ts_load_task_spec dec fs _ ts k x Hd Hg Hx) as (typ & c & f & ? & ? & ? & _).
    exists typ, c. split_and!; eauto.
Qed.
Print Assumptions C72_parsed_task_set.
(** An error has the reason it names. *)
Theorem C72_errors {C} (dec : ts_decoder C) fs d e : ok_ts_decoder dec → ts_parse dec fs d = inl e →
  match e with
  | BadTargetType => (∃ b, b ∈ td_targets d ∧ fs !! tb_type b = None) ∨
      ∃ k typ c, k ∈ td_tasks d ∧ names_target (kb_type k) typ c ∧ fs !! typ = None
  | BadTarget => ∃ k typ c, k ∈ td_tasks d ∧ names_target (kb_type k) typ c ∧ ¬ declared d typ (kb_target k)
  | BadTaskType => ∃ k typ c, k ∈ td_tasks d ∧ names_target (kb_type k) typ c ∧ fs !! typ = Some DemoFactory ∧
      c ∉ ["echo"; "fail"; "rev"; "rot13"; "sleep"]
  | BadBody => (∃ b t, b ∈ td_targets d ∧ tsd_target dec t (tb_config b) = None) ∨
      ∃ k x, k ∈ td_tasks d ∧ tsd_task dec x (kb_config k) = None
  end.
Proof.
  intros Hd H. unfold ts_parse in H. destruct (ts_load_targets dec fs (td_targets d) (ts_defaults fs)) as [e'|ts] eqn:Hts.
  - injection H as ->. apply ts_load_targets_err in Hts as [(-> & b & ? & ?)|(-> & b & f & ? & ? & ?)]; left; eauto.
  - pose proof (ts_load_targets_good dec fs _ [] _ ts Hd (good_defaults fs) Hts) as Hg. cbn in Hg.
    destruct (ts_load_tasks dec ts (td_tasks d) ∅) as [e'|] eqn:Htk; [|done]. injection H as ->.
    apply ts_load_tasks_err in Htk as (k & Hk & He). apply (ts_load_task_err dec fs _ ts k e Hg) in He as (typ & c & Hn & He).
    destruct He as [[-> ?]|[(-> & ? & ?)|[(-> & ? & ?)|(-> & x & ?)]]].
    + right. by exists k, typ, c.
    + by exists k, typ, c.
    + by exists k, typ, c.
    + right. by exists k, x.
Qed.
Print Assumptions C72_errors.

(** * C73 *)

(** REFUTED: no parsed task has any dependency or provides anything, whatever its
    block says: the lists of the block are decoded and dropped. *)
Theorem C73_dependencies_dropped {C} (dec : ts_decoder C) fs d ts tasks : ok_ts_decoder dec → ts_parse dec fs d = inr (ts, tasks) →
  ∀ id x, tasks !! id = Some x → dependencies (ts_base x) = [] ∧ provides (ts_base x) = [].
Proof.
  intros Hd H. unfold ts_parse in H. destruct (ts_load_targets dec fs (td_targets d) (ts_defaults fs)) as [|ts'] eqn:Hts; [done|].
  destruct (ts_load_tasks dec ts' (td_tasks d) ∅) as [|tasks'] eqn:Htk; [done|]. injection H as -> ->.
  pose proof (ts_load_targets_good dec fs _ [] _ ts Hd (good_defaults fs) Hts) as Hg. cbn in Hg.
  apply ts_load_tasks_spec in Htk as [_ Hb]. intros id x [(k & Hk & Hid & Hx)|[_ ?]]%Hb; [|done].
  destruct (ts_load_task_spec dec fs _ ts k x Hd Hg Hx) as (typ & c & f & _ & _ & _ & _ & _ & -> & _). done.
Qed.
Print Assumptions C73_dependencies_dropped.
(** A decoder, and a file with two blocks. *)
Definition keep_decoder : ts_decoder string := TsDecoder (λ t _, Some t) (λ x _, Some x).
Lemma keep_decoder_ok : ok_ts_decoder keep_decoder.
Proof. split; [by intros [] raw t' [= <-]|]. by intros x raw x' [= <-]. Qed.
Definition sample_doc : ts_doc string :=
  TsDoc [TargetBlock "demo" "d" ""] [TaskBlock "pg" "create" "" [] ["table:t"] [] ""; TaskBlock "demo/rev" "rev" "d" ["create"] [] ["table:t"] ""].
Definition sample_factories : gmap string ts_factory := {[ "demo" := DemoFactory; "pg" := PgFactory; "sh" := ShFactory ]}.
Theorem C73_refuted : ∃ ts tasks x, ts_parse keep_decoder sample_factories sample_doc = inr (ts, tasks) ∧
  tasks !! "rev" = Some x ∧ kb_after <$> (td_tasks sample_doc !! 1%nat) = Some ["create"] ∧ dependencies (ts_base x) = [].
Proof.
  destruct (ts_parse keep_decoder sample_factories sample_doc) as [e|[ts tasks]] eqn:H.
  - exfalso. assert ((if ts_parse keep_decoder sample_factories sample_doc then false else true) = true) as H' by (by vm_compute).
    by rewrite H in H'.
  - exists ts, tasks. destruct (proj2 (proj1 (proj2 (proj2 (proj2 (C72_parsed_task_set _ _ _ _ _ keep_decoder_ok H)))) "rev")) as [x Hx].
    { apply elem_of_list_In. cbn. auto. }
    exists x. split; [done|]. split; [done|]. split; [done|]. by apply (C73_dependencies_dropped _ _ _ _ _ keep_decoder_ok H "rev").
Qed.
Print Assumptions C73_refuted.

(** * C74 *)

(** A demo task of an unknown type is rejected.  (Missing: for pg and sh, see below.) *)
Theorem C74_unknown_type_rejected_partial {C} (dec : ts_decoder C) fs d ts tasks k typ c : ok_ts_decoder dec → ts_parse dec fs d = inr (ts, tasks) →
  k ∈ td_tasks d → names_target (kb_type k) typ c → fs !! typ = Some DemoFactory → c ∈ ["echo"; "fail"; "rev"; "rot13"; "sleep"].
Proof.
  intros Hd H Hk Hn Hf. unfold ts_parse in H. destruct (ts_load_targets dec fs (td_targets d) (ts_defaults fs)) as [|ts'] eqn:Hts; [done|].
  destruct (ts_load_tasks dec ts' (td_tasks d) ∅) as [|tasks'] eqn:Htk; [done|]. injection H as -> ->.
  pose proof (ts_load_targets_good dec fs _ [] _ ts Hd (good_defaults fs) Hts) as Hg. cbn in Hg.
  apply ts_load_tasks_spec in Htk as [Ha _]. destruct (Ha k Hk) as [x Hx].
  destruct (ts_load_task_spec dec fs _ ts k x Hd Hg Hx) as (typ' & c' & f & Hn' & Hf' & _ & Hc & _).
  destruct (names_target_fun _ _ _ _ _ Hn Hn') as [-> ->]. apply Hc. congruence.
Qed.
Print Assumptions C74_unknown_type_rejected_partial.
(** REFUTED: for pg and sh targets any type is accepted, and gives the same task. *)
Theorem C74_refuted t c c' : ts_target_class t ≠ DemoFactory → is_Some (ts_new_task t c) ∧ ts_new_task t c = ts_new_task t c'.
Proof. destruct t; cbn; [done| |]; eauto. Qed.
Print Assumptions C74_refuted.

(** * C75 *)

(** REFUTED: the seconds of a sleep task cannot be set; it always sleeps one second. *)
Theorem C75_sleep_is_one_second {C} (dec : ts_decoder C) fs d ts tasks : ok_ts_decoder dec → ts_parse dec fs d = inr (ts, tasks) →
  ∀ id x n, tasks !! id = Some x → ready_seconds (ts_settings_of x) = Some n → n = 1.
Proof.
  intros Hd H. unfold ts_parse in H. destruct (ts_load_targets dec fs (td_targets d) (ts_defaults fs)) as [|ts'] eqn:Hts; [done|].
  destruct (ts_load_tasks dec ts' (td_tasks d) ∅) as [|tasks'] eqn:Htk; [done|]. injection H as -> ->.
  pose proof (ts_load_targets_good dec fs _ [] _ ts Hd (good_defaults fs) Hts) as Hg. cbn in Hg.
  apply ts_load_tasks_spec in Htk as [_ Hb]. intros id x n [(k & Hk & Hid & Hx)|[_ ?]]%Hb; [|done].
  destruct (ts_load_task_spec dec fs _ ts k x Hd Hg Hx) as (typ & c & f & _ & _ & _ & _ & _ & _ & Hs).
  unfold ready_seconds. destruct (ts_settings_of x) as [[| | | |m]| |]; try done. intros [= <-]. rewrite (Hs m) by done. done.
Qed.
Print Assumptions C75_sleep_is_one_second.
Example C75_case :
  match ts_parse keep_decoder sample_factories (TsDoc [] [TaskBlock "demo/sleep" "s" "" [] [] [] ""]) with
  | inr (ts, tasks) => (tasks !! "s" ≫= λ x, ready_seconds (ts_settings_of x)) = Some 1
  | inl _ => False
  end.
Proof. by vm_compute. Qed.

(** * C82 *)

(** A file parses exactly if every target block and every task block stands for
    something, and then to what the last block of every id stands for: given settings
    are used, all others keep their fresh values. *)
Theorem C82_task_set_exact {C} (dec : ts_decoder C) fs d ts tasks : ts_parse dec fs d = inr (ts, tasks) ↔
  (∀ b, b ∈ td_targets d → ∃ t, target_block_means dec fs b t) ∧ means_targets dec fs d ts ∧
  (∀ k, k ∈ td_tasks d → ∃ x, task_block_means dec ts k x) ∧
  (∀ id x, tasks !! id = Some x ↔ ∃ k, last_block (td_tasks d) k ∧ kb_id k = id ∧ task_block_means dec ts k x).
Proof. apply ts_parse_exact. Qed.
Print Assumptions C82_task_set_exact.
(** With a decoder that reads the whole body as one setting: the second block of the
    target d wins, the default target stays fresh, and the query is kept. *)
Definition text_decoder : ts_decoder string :=
  TsDecoder (λ t raw, match t with TsDemoTarget n _ => Some (TsDemoTarget n raw) | t => Some t end)
            (λ x raw, match x with TsPg _ => Some (TsPg raw) | x => Some x end).
Example C82_case :
  match ts_parse text_decoder sample_factories
    (TsDoc [TargetBlock "demo" "d" "hello"; TargetBlock "demo" "d" "world"] [TaskBlock "pg" "q" "" [] [] [] "SELECT 1"]) with
  | inr (ts, tasks) =>
      (ts !! "demo" ≫= (.!! "d")) = Some (TsDemoTarget 1 "world") ∧ (ts !! "demo" ≫= (.!! "")) = Some (TsDemoTarget 1 "") ∧
      tasks !! "q" = Some (TsTask (BaseTask [] [] []) (TsPg "SELECT 1"))
  | inl _ => False
  end.
Proof. vm_compute. done. Qed.
