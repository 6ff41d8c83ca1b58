(** Proofs about parsing. *)
From Coq Require Import String Ascii.
From stdpp Require Import gmap list strings numbers.
From Verif Require Import GoBase GoBaseProofs GoStrings GoStringsProofs ShModel ShSpec ShProofs
  DemoModel JsonModel ParserModel ParserSpec SchedModel SchedSpec RunnerModel RunnerSpec RunnerProofs RunnerLive.
Local Open Scope Z_scope.

Lemma split_target_spec s : names_target s (split_target s).1 (split_target s).2.
Proof.
  unfold names_target, split_target. destruct (index_byte "/" s) as [n|] eqn:Hi; simpl.
  - left. apply index_byte_Some in Hi as (H1 & H2 & _). rewrite Nat.add_1_r. done.
  - right. apply index_byte_None in Hi. done.
Qed.
Lemma names_target_unique s t c t' c' :
  names_target s t c → names_target s t' c' → t = t' ∧ c = c'.
Proof.
  intros [[-> H]|(-> & -> & H)] [[H1 H']|(H1 & -> & H')].
  - by apply (first_sep_unique "/").
  - exfalso. apply H'. by exists t, c.
  - exfalso. apply H. subst. by exists t', c'.
  - done.
Qed.

(** Both loops are the same fold. *)
Lemma load_loop {W A} (f : W → outcome A) (loop : list string → gmap string A → outcome (gmap string A))
    (m : gmap string (option W)) :
  (∀ acc, loop [] acc = Ok acc) →
  (∀ id order acc, loop (id :: order) acc =
    match m !! id with
    | Some (Some w) => match f w with Ok t => loop order (<[id:=t]> acc) | Err e => Err e | Panic => Panic end
    | _ => Panic
    end) →
  ∀ order acc r, NoDup order → loop order acc = Ok r →
    (∀ id, id ∈ order → ∃ w t, m !! id = Some (Some w) ∧ f w = Ok t ∧ r !! id = Some t) ∧
    (∀ id, id ∉ order → r !! id = acc !! id).
Proof.
  intros H0 H1 order. induction order as [|id order IH]; intros acc r Hnd Hr.
  - rewrite H0 in Hr. injection Hr as <-. split; [intros id ?%elem_of_nil; done|done].
  - rewrite H1 in Hr. apply list.NoDup_cons in Hnd as [Hni Hnd].
    destruct (m !! id) as [[w|]|] eqn:Hm; [|done..].
    destruct (f w) as [t| |] eqn:Hf; [|done..].
    destruct (IH _ _ Hnd Hr) as [IH1 IH2]. split.
    + intros id' [->|Hin]%elem_of_cons; [|by apply IH1]. exists w, t. split; [done|]. split; [done|].
      rewrite IH2 by done. by rewrite lookup_insert.
    + intros id' [Hne Hn]%not_elem_of_cons. rewrite IH2 by done. by rewrite lookup_insert_ne.
Qed.
Lemma load_loop_ok {W A} (f : W → outcome A) (loop : list string → gmap string A → outcome (gmap string A))
    (m : gmap string (option W)) :
  (∀ acc, loop [] acc = Ok acc) →
  (∀ id order acc, loop (id :: order) acc =
    match m !! id with
    | Some (Some w) => match f w with Ok t => loop order (<[id:=t]> acc) | Err e => Err e | Panic => Panic end
    | _ => Panic
    end) →
  ∀ order acc, (∀ id, id ∈ order → ∃ w t, m !! id = Some (Some w) ∧ f w = Ok t) →
  ∃ r, loop order acc = Ok r.
Proof.
  intros H0 H1 order. induction order as [|id order IH]; intros acc Hall.
  - rewrite H0. by eexists.
  - rewrite H1. destruct (Hall id ltac:(by left)) as (w & t & -> & ->). apply IH.
    intros id' ?. apply Hall. by right.
Qed.
Lemma load_loop_panic {W A} (f : W → outcome A) (loop : list string → gmap string A → outcome (gmap string A))
    (m : gmap string (option W)) :
  (∀ acc, loop [] acc = Ok acc) →
  (∀ id order acc, loop (id :: order) acc =
    match m !! id with
    | Some (Some w) => match f w with Ok t => loop order (<[id:=t]> acc) | Err e => Err e | Panic => Panic end
    | _ => Panic
    end) →
  (∀ w, f w ≠ Panic) →
  ∀ order acc, (∀ id, id ∈ order → id ∈ dom m) → loop order acc = Panic → ∃ id, m !! id = Some None.
Proof.
  intros H0 H1 Hf order. induction order as [|id order IH]; intros acc Hd Hp.
  - by rewrite H0 in Hp.
  - rewrite H1 in Hp. pose proof (Hd id ltac:(by left)) as Hid. apply elem_of_dom in Hid as [x Hx]. rewrite Hx in Hp.
    destruct x as [w|]; [|by exists id]. specialize (Hf w).
    destruct (f w); [|done..]. eapply IH; [|exact Hp]. intros id' ?. apply Hd. by right.
Qed.

(** The two loops, instantiated. *)
Lemma load_targets_ok dec m order r :
  range_of m order → load_targets dec m order ∅ = Ok r ↔
  (∀ id, match r !! id with
         | Some t => ∃ w, m !! id = Some (Some w) ∧ load_target dec w = Ok t
         | None => m !! id = None end).
Proof.
  intros Ho. split.
  - intros Hr. destruct (load_loop (load_target dec) (load_targets dec m) m (λ _, eq_refl)
      (λ _ _ _, eq_refl) order ∅ r (range_of_NoDup _ _ Ho) Hr) as [H1 H2].
    intros id. destruct (decide (id ∈ order)) as [Hin|Hin].
    + destruct (H1 id Hin) as (w & t & ? & ? & ->). by exists w.
    + rewrite (H2 id Hin), lookup_empty. rewrite (range_of_elem m order) in Hin by done.
      by apply not_elem_of_dom.
  - intros H. destruct (load_loop_ok (load_target dec) (load_targets dec m) m (λ _, eq_refl)
      (λ _ _ _, eq_refl) order ∅) as [r' Hr'].
    { intros id Hin%(range_of_elem m); [|done]. specialize (H id). destruct (r !! id) as [t|].
      - destruct H as (w & ? & ?). by exists w, t.
      - by apply not_elem_of_dom in H. }
    rewrite Hr'. f_equal. destruct (load_loop (load_target dec) (load_targets dec m) m (λ _, eq_refl)
      (λ _ _ _, eq_refl) order ∅ r' (range_of_NoDup _ _ Ho) Hr') as [H1 H2].
    apply map_eq. intros id. specialize (H id). destruct (r !! id) as [t|] eqn:Hrid.
    + destruct H as (w & Hm & Hl). destruct (H1 id) as (w' & t' & Hm' & Hl' & ->).
      { apply (range_of_elem m); [done|]. by apply elem_of_dom_2 in Hm. }
      congruence.
    + rewrite H2, lookup_empty; [done|]. rewrite (range_of_elem m order) by done.
      by apply not_elem_of_dom.
Qed.
Lemma load_tasks_ok dec targets m order r :
  range_of m order → load_tasks dec targets m order ∅ = Ok r ↔
  (∀ id, match r !! id with
         | Some v => ∃ k, m !! id = Some (Some k) ∧ load_task dec targets k = Ok v
         | None => m !! id = None end).
Proof.
  intros Ho. split.
  - intros Hr. destruct (load_loop (load_task dec targets) (load_tasks dec targets m) m (λ _, eq_refl)
      (λ _ _ _, eq_refl) order ∅ r (range_of_NoDup _ _ Ho) Hr) as [H1 H2].
    intros id. destruct (decide (id ∈ order)) as [Hin|Hin].
    + destruct (H1 id Hin) as (w & t & ? & ? & ->). by exists w.
    + rewrite (H2 id Hin), lookup_empty. rewrite (range_of_elem m order) in Hin by done.
      by apply not_elem_of_dom.
  - intros H. destruct (load_loop_ok (load_task dec targets) (load_tasks dec targets m) m (λ _, eq_refl)
      (λ _ _ _, eq_refl) order ∅) as [r' Hr'].
    { intros id Hin%(range_of_elem m); [|done]. specialize (H id). destruct (r !! id) as [t|].
      - destruct H as (w & ? & ?). by exists w, t.
      - by apply not_elem_of_dom in H. }
    rewrite Hr'. f_equal. destruct (load_loop (load_task dec targets) (load_tasks dec targets m) m (λ _, eq_refl)
      (λ _ _ _, eq_refl) order ∅ r' (range_of_NoDup _ _ Ho) Hr') as [H1 H2].
    apply map_eq. intros id. specialize (H id). destruct (r !! id) as [t|] eqn:Hrid.
    + destruct H as (w & Hm & Hl). destruct (H1 id) as (w' & t' & Hm' & Hl' & ->).
      { apply (range_of_elem m); [done|]. by apply elem_of_dom_2 in Hm. }
      congruence.
    + rewrite H2, lookup_empty; [done|]. rewrite (range_of_elem m order) by done.
      by apply not_elem_of_dom.
Qed.

Lemma parse_ok dec d o1 o2 b :
  range_of (d_targets d) o1 → range_of (d_tasks d) o2 →
  parse dec d o1 o2 = Ok b ↔
  load_targets dec (d_targets d) o1 ∅ = Ok (bk_targets b) ∧
  load_tasks dec (bk_targets b) (d_tasks d) o2 ∅ = Ok (bk_tasks b).
Proof.
  intros Ho1 Ho2. unfold parse. destruct b as [targets tasks]; simpl.
  destruct (load_targets dec (d_targets d) o1 ∅) as [ts|e|]; [|naive_solver..].
  split.
  - destruct (load_tasks dec ts (d_tasks d) o2 ∅) as [ks|e|] eqn:Hk; [|done..].
    intros [= -> ->]. by rewrite Hk.
  - intros [[= ->] ->]. done.
Qed.

Lemma load_task_ok dec targets k v :
  load_task dec targets k = Ok v →
  ∃ class t c0 c1, names_target (kd_target k) (b_target v) class ∧
    targets !! b_target v = Some t ∧ new_task_config t class = Some c0 ∧
    decode_if (dec_config dec) c0 (kd_config k) = Some c1 ∧
    check_config c1 = Some (b_config v) ∧ b_after v = kd_after k ∧ b_message v = kd_message k.
Proof.
  unfold load_task. pose proof (split_target_spec (kd_target k)) as Hs.
  destruct (split_target (kd_target k)) as [tid class]. simpl in Hs.
  destruct (targets !! tid) as [t|] eqn:Ht; [|done].
  destruct (new_task_config t class) as [c0|] eqn:Hc0; [|done].
  destruct (decode_if (dec_config dec) c0 (kd_config k)) as [c1|] eqn:Hc1; [|done].
  destruct (check_config c1) as [c2|] eqn:Hc2; [|done].
  intros [= <-]. simpl. by exists class, t, c0, c1.
Qed.
Lemma load_target_ok dec w t :
  load_target dec w = Ok t →
  ∃ t0, new_target (td_class w) = Some t0 ∧ decode_if (dec_target dec) t0 (td_config w) = Some t ∧
    analyze t = true.
Proof.
  unfold load_target. destruct (new_target (td_class w)) as [t0|]; [|done].
  destruct (decode_if (dec_target dec) t0 (td_config w)) as [t1|] eqn:H1; [|done].
  destruct (analyze t1) eqn:Ha; [|done]. intros [= <-]. by exists t0.
Qed.

Lemma analyze_limit t : analyze t = true → 1 ≤ concurrency_limit t.
Proof. destruct t; simpl; [intros ?%bool_decide_eq_true; done..|lia]. Qed.
Lemma check_config_good c c' : check_config c = Some c' →
  good_config c' ∧ config_class c' = config_class c ∧ config_kind c' = config_kind c.
Proof.
  destruct c as [sql|args e|x]; simpl.
  - destruct (decide (sql = "")); [done|]. by intros [= <-].
  - destruct (exec_check args) eqn:Hc; [done|]. intros [= <-]. split; [|done].
    by apply exec_check_spec.
  - destruct x; intros [= <-]; simpl; try done.
    split; [|done]. unfold sleep_check. case_bool_decide; lia.
Qed.
Lemma new_task_config_class t class c : new_task_config t class = Some c →
  config_class c = target_class t ∧ (class ≠ "" → config_kind c = class).
Proof.
  destruct t; simpl; repeat case_decide; intros [= <-]; simpl; split; try done;
    intros; by destruct_or!; subst.
Qed.
Lemma new_target_class class t : new_target class = Some t → target_class t = class.
Proof. unfold new_target. repeat case_decide; by intros [= <-]. Qed.

Lemma parse_good_lem dec d o1 o2 b :
  ok_decoder dec → range_of (d_targets d) o1 → range_of (d_tasks d) o2 →
  parse dec d o1 o2 = Ok b → good_book b.
Proof.
  intros [_ Hdec] Ho1 Ho2 Hp. apply parse_ok in Hp as [H1 H2]; [|done..].
  rewrite load_targets_ok in H1 by done. rewrite load_tasks_ok in H2 by done. split.
  - intros q t Ht. specialize (H1 q). rewrite Ht in H1. destruct H1 as (w & _ & Hl).
    apply load_target_ok in Hl as (t0 & _ & _ & Ha). by apply analyze_limit.
  - intros id v Hv. specialize (H2 id). rewrite Hv in H2. destruct H2 as (k & _ & Hl).
    apply load_task_ok in Hl as (class & t & c0 & c1 & _ & Ht & Hc0 & Hc1 & Hc2 & _ & _).
    apply check_config_good in Hc2 as (Hg & Hcl & _). split; [done|]. exists t. split; [done|].
    apply new_task_config_class in Hc0 as [Hc0 _]. rewrite Hcl, <-Hc0.
    unfold decode_if in Hc1. destruct (kd_config k); [|congruence]. by apply Hdec in Hc1 as [-> _].
Qed.

(** The result is determined, and the same for every order. *)
Lemma parse_order_lem dec d o1 o2 o1' o2' b :
  range_of (d_targets d) o1 → range_of (d_tasks d) o2 →
  range_of (d_targets d) o1' → range_of (d_tasks d) o2' →
  parse dec d o1 o2 = Ok b → parse dec d o1' o2' = Ok b.
Proof.
  intros Ho1 Ho2 Ho1' Ho2'. rewrite !parse_ok by done. rewrite !load_targets_ok, !load_tasks_ok by done.
  done.
Qed.
Lemma load_target_no_panic dec w : load_target dec w ≠ Panic.
Proof. unfold load_target. repeat case_match; done. Qed.
Lemma load_task_no_panic dec ts k : load_task dec ts k ≠ Panic.
Proof. unfold load_task. repeat case_match; done. Qed.
Lemma parse_panic_lem dec d o1 o2 :
  range_of (d_targets d) o1 → range_of (d_tasks d) o2 →
  parse dec d o1 o2 = Panic → has_null d.
Proof.
  intros Ho1 Ho2. unfold parse.
  destruct (load_targets dec (d_targets d) o1 ∅) as [ts|e|] eqn:Ht; [|done|intros _].
  - destruct (load_tasks dec ts (d_tasks d) o2 ∅) as [ks|e|] eqn:Hk; [done..|intros _]. right.
    eapply (load_loop_panic (load_task dec ts) (load_tasks dec ts (d_tasks d)));
      [done|done|apply load_task_no_panic| |exact Hk].
    intros id. by apply (range_of_elem (d_tasks d)).
  - left. eapply (load_loop_panic (load_target dec) (load_targets dec (d_targets d)));
      [done|done|apply load_target_no_panic| |exact Ht].
    intros id. by apply (range_of_elem (d_targets d)).
Qed.
(** A null entry is never accepted. *)
Lemma parse_null_lem dec d o1 o2 b :
  range_of (d_targets d) o1 → range_of (d_tasks d) o2 → parse dec d o1 o2 = Ok b → ¬ has_null d.
Proof.
  intros Ho1 Ho2. rewrite parse_ok, load_targets_ok, load_tasks_ok by done.
  intros [H1 H2] [[q Hq]|[k Hk]].
  - specialize (H1 q). destruct (bk_targets b !! q); [destruct H1 as (? & ? & _)|]; congruence.
  - specialize (H2 k). destruct (bk_tasks b !! k); [destruct H2 as (? & ? & _)|]; congruence.
Qed.

(** Exactly the targets and tasks of the document, as written. *)
Lemma parse_contents_lem dec d o1 o2 b :
  ok_decoder dec → range_of (d_targets d) o1 → range_of (d_tasks d) o2 → parse dec d o1 o2 = Ok b →
  dom (bk_targets b) = dom (d_targets d) ∧ dom (bk_tasks b) = dom (d_tasks d) ∧
  (∀ q t, bk_targets b !! q = Some t → ∃ w, d_targets d !! q = Some (Some w) ∧ target_class t = td_class w) ∧
  (∀ id v, bk_tasks b !! id = Some v → ∃ k class,
     d_tasks d !! id = Some (Some k) ∧ names_target (kd_target k) (b_target v) class ∧
     b_after v = kd_after k ∧ b_message v = kd_message k ∧
     (class ≠ "" → config_kind (b_config v) = class)).
Proof.
  intros [Hdt Hdc] Ho1 Ho2. rewrite parse_ok, load_targets_ok, load_tasks_ok by done.
  intros [H1 H2]. split; [|split; [|split]].
  - apply set_eq. intros q. rewrite !elem_of_dom. specialize (H1 q).
    destruct (bk_targets b !! q); [destruct H1 as (w & -> & _)|rewrite H1]; [done|].
    split; by intros [? ?].
  - apply set_eq. intros q. rewrite !elem_of_dom. specialize (H2 q).
    destruct (bk_tasks b !! q); [destruct H2 as (w & -> & _)|rewrite H2]; [done|].
    split; by intros [? ?].
  - intros q t Ht. specialize (H1 q). rewrite Ht in H1. destruct H1 as (w & Hw & Hl).
    exists w. split; [done|]. apply load_target_ok in Hl as (t0 & Hn & Hd & _).
    apply new_target_class in Hn. unfold decode_if in Hd. destruct (td_config w); [|congruence].
    apply Hdt in Hd. congruence.
  - intros id v Hv. specialize (H2 id). rewrite Hv in H2. destruct H2 as (k & Hk & Hl).
    apply load_task_ok in Hl as (class & t & c0 & c1 & Hn & Ht & Hc0 & Hc1 & Hc2 & ? & ?).
    exists k, class. split; [done|]. split; [done|]. split; [done|]. split; [done|]. intros Hne.
    apply check_config_good in Hc2 as (_ & _ & ->). apply new_task_config_class in Hc0 as [_ Hc0].
    rewrite <-(Hc0 Hne). unfold decode_if in Hc1. destruct (kd_config k); [|congruence].
    by apply Hdc in Hc1 as [_ ->].
Qed.

(** Parsed runbooks meet the conditions of the runner's theorems. *)
Lemma good_book_runs b start handle : good_book b →
  limits_ok (run_of b start handle) ∧
  runnable (ri_limits (run_of b start handle)) (ri_tasks (run_of b start handle)).
Proof.
  intros [H1 H2]. split.
  - intros q n. simpl. rewrite lookup_fmap_Some. intros (t & <- & Ht). apply H1 in Ht. lia.
  - intros id v. simpl. rewrite lookup_fmap_Some. intros (bv & <- & Hv). simpl.
    destruct (H2 _ _ Hv) as (_ & t & Ht & _). exists (concurrency_limit t).
    rewrite lookup_fmap, Ht. split; [done|]. by apply (H1 (b_target bv)).
Qed.

(** Acceptance. *)
Lemma new_target_fresh class t : new_target class = Some t ↔ fresh_target class t.
Proof.
  unfold new_target. split.
  - repeat case_decide; subst; intros [= <-]; constructor.
  - by inversion 1.
Qed.
Lemma new_task_config_fresh t class c : new_task_config t class = Some c ↔ fresh_task (target_class t) class c.
Proof.
  split.
  - destruct t; simpl; repeat case_decide; destruct_or?; subst; intros [= <-]; constructor.
  - destruct t; simpl; intros H; inversion H; subst; try done;
      (rewrite decide_True; [done|]); auto.
Qed.
Lemma decode_if_configured {A} (f : A → json → option A) x raw y :
  decode_if f x raw = Some y ↔ configured f x raw y.
Proof. unfold decode_if, configured. destruct raw; naive_solver. Qed.
Lemma analyze_iff t : analyze t = true ↔ 1 ≤ concurrency_limit t.
Proof. destruct t; simpl; [by rewrite bool_decide_eq_true..|]. split; [lia|done]. Qed.
Lemma check_config_iff c c' : check_config c = Some c' ↔ adjusted c c' ∧ good_config c'.
Proof.
  destruct c as [sql|args e|x]; simpl.
  - case_decide; simpl; (split; [try done|]).
    + intros [-> Hsql]. done.
    + intros [= <-]. done.
    + by intros [-> _].
  - split.
    + destruct (exec_check args) eqn:Hc; [done|]. intros [= <-]. split; [done|]. by apply exec_check_spec.
    + intros [-> H]. by rewrite (proj2 (exec_check_spec args) H).
  - destruct x; simpl; try (split; [by intros [= <-]|by intros [-> _]]).
    unfold sleep_check. split.
    + intros [= <-]. case_bool_decide; (split; [do 2 f_equal; lia|simpl; lia]).
    + intros [-> _]. do 3 f_equal. case_bool_decide; lia.
Qed.
Lemma load_target_means dec w t : load_target dec w = Ok t ↔ target_means dec w t.
Proof.
  split.
  - intros (t0 & H1%new_target_fresh & H2%decode_if_configured & H3%analyze_iff)%load_target_ok.
    by exists t0.
  - intros (t0 & H1%new_target_fresh & H2%decode_if_configured & H3%analyze_iff).
    unfold load_target. by rewrite H1, H2, H3.
Qed.
Lemma load_task_means dec targets k v : load_task dec targets k = Ok v ↔ task_means dec targets k v.
Proof.
  split.
  - intros (kind & t & c0 & c1 & H1 & H2 & H3%new_task_config_fresh & H4%decode_if_configured &
      [H5 H6]%check_config_iff & H7 & H8)%load_task_ok.
    by exists kind, t, c0, c1.
  - intros (kind & t & c0 & c1 & H1 & H2 & H3%new_task_config_fresh & H4%decode_if_configured &
      H5 & H6 & H7 & H8).
    unfold load_task. pose proof (split_target_spec (kd_target k)) as Hs.
    destruct (split_target (kd_target k)) as [tid class]. simpl in Hs.
    destruct (names_target_unique _ _ _ _ _ Hs H1) as [-> ->].
    rewrite H2, H3, H4, (proj2 (check_config_iff _ _) (conj H5 H6)), <-H7, <-H8. by destruct v.
Qed.
Lemma entries_mean_iff {W A} (f : W → outcome A) (means : W → A → Prop) (m : gmap string (option W)) r :
  (∀ w a, f w = Ok a ↔ means w a) →
  (∀ id, match r !! id with
         | Some t => ∃ w, m !! id = Some (Some w) ∧ f w = Ok t
         | None => m !! id = None end) ↔ entries_mean means m r.
Proof.
  intros Hf. unfold entries_mean. apply forall_proper. intros id.
  destruct (r !! id) as [a|], (m !! id) as [[w|]|]; naive_solver.
Qed.
Lemma parse_exact_lem dec d o1 o2 b :
  range_of (d_targets d) o1 → range_of (d_tasks d) o2 →
  parse dec d o1 o2 = Ok b ↔
  entries_mean (target_means dec) (d_targets d) (bk_targets b) ∧
  entries_mean (task_means dec (bk_targets b)) (d_tasks d) (bk_tasks b).
Proof.
  intros Ho1 Ho2. rewrite parse_ok, load_targets_ok, load_tasks_ok by done.
  rewrite (entries_mean_iff (load_target dec) (target_means dec)) by apply load_target_means.
  rewrite (entries_mean_iff (load_task dec (bk_targets b)) (task_means dec (bk_targets b)))
    by apply load_task_means.
  done.
Qed.
