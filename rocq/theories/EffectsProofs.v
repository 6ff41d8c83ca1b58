(** Proofs about what a run does. *)
From Coq Require Import String Ascii.
From stdpp Require Import gmap list strings numbers relations sorting.
From Verif Require Import GoBase GoBaseProofs GoStrings GoStringsProofs GoUtf8 GoUtf8Proofs ShModel ShSpec ShProofs
  DemoModel DemoSpec DemoProofs PgModel PgSpec PgProofs ParserModel ParserSpec ParserProofs
  DagModel SchedModel SchedSpec RunnerModel RunnerSpec RunnerInvA RunnerInvB RunnerInvT RunnerProofs RunnerLive
  EffectsModel EffectsSpec.
Local Open Scope Z_scope.

(** ** Demo texts *)
Lemma effect_plain l cs : ¬ (Rev ∈ l ∨ Rot13 ∈ l) → effect l cs = cs.
Proof.
  induction l as [|x l IH] using rev_ind; [done|]. intros H. rewrite effect_snoc.
  assert (¬ (Rev ∈ l ∨ Rot13 ∈ l)) as H' by set_solver.
  destruct x; try (by apply IH); exfalso; set_solver.
Qed.
Lemma text_after_snoc l x s out :
  text_after (l ++ [x]) s = d_string (munge x (DemoTarget (text_after l s) out)).1.
Proof.
  pose proof (runes_of_scalar s) as Hs. pose proof (effect_scalar l _ Hs) as He.
  unfold text_after. rewrite effect_snoc. destruct (decide (Rev ∈ l ∨ Rot13 ∈ l)) as [Hl|Hl].
  - rewrite decide_True by set_solver. destruct x; simpl; try done; [by rewrite rev_text|by rewrite rot13_text].
  - rewrite (effect_plain l) by done. destruct x; simpl; try (rewrite decide_False by set_solver; done);
      rewrite decide_True by set_solver.
    + rewrite munge_rev_eq. symmetry. apply of_runes_text. by apply reverse_scalar.
    + unfold munge_rot13.
      replace (rotated <$> runes_of s) with (rot13_rune <$> runes_of s)
        by (apply list_fmap_ext; intros _ r _; apply rot13_rune_eq).
      symmetry. apply of_runes_text. by apply rot13_list_scalar.
Qed.
Lemma text_after_nil s : text_after [] s = s.
Proof. unfold text_after. rewrite decide_False; [done|]. set_solver. Qed.

Section effects.
Context (b : book) (h : host).
Notation inp := (run_book b h).
Notation tasks := (ri_tasks (run_book b h)).

Lemma acts_app m tr1 tr2 :
  acts b h m (tr1 ++ tr2) =
  ((acts b h (acts b h m tr1).1 tr2).1, (acts b h m tr1).2 ++ (acts b h (acts b h m tr1).1 tr2).2).
Proof.
  revert m. induction tr1 as [|e tr1 IH]; intros m; simpl; [by destruct (acts b h m tr2)|].
  destruct (act b h m e) as [m1 l1]. rewrite IH. destruct (acts b h m1 tr1) as [m2 l2]. simpl.
  by rewrite app_assoc.
Qed.
Lemma acts_one m e : acts b h m [e] = act b h m e.
Proof. simpl. destruct (act b h m e). by rewrite app_nil_r. Qed.
Lemma effects_snoc tr e :
  effects b h (tr ++ [e]) = effects b h tr ++ (act b h (acts b h ∅ tr).1 e).2.
Proof. unfold effects. by rewrite acts_app, acts_one. Qed.
Lemma effects_split tr1 e tr2 :
  effects b h (tr1 ++ e :: tr2) =
  effects b h tr1 ++ (act b h (acts b h ∅ tr1).1 e).2 ++ (acts b h (acts b h ∅ (tr1 ++ [e])).1 tr2).2.
Proof.
  replace (tr1 ++ e :: tr2) with ((tr1 ++ [e]) ++ tr2) by (by rewrite <-app_assoc).
  unfold effects at 1. rewrite acts_app. simpl.
  change ((acts b h ∅ (tr1 ++ [e])).2) with (effects b h (tr1 ++ [e])).
  by rewrite effects_snoc, <-app_assoc.
Qed.
Lemma deeds_app t E1 E2 : deeds_by t (E1 ++ E2) = deeds_by t E1 ++ deeds_by t E2.
Proof. unfold deeds_by. by rewrite omap_app. Qed.
Lemma printed_by_app q E1 E2 : printed_by q (E1 ++ E2) = printed_by q E1 ++ printed_by q E2.
Proof. unfold printed_by. by rewrite omap_app. Qed.
Lemma demos_app l1 l2 : demos b (l1 ++ l2) = demos b l1 ++ demos b l2.
Proof. unfold demos. by rewrite omap_app. Qed.

(** ** What the events of an execution tell *)
Lemma last_event st tr ev :
  executes inp st (tr ++ [ev]) →
  match ev with
  | EvStart q => EvStart q ∉ tr ∧ ri_start inp q = None ∧ q ∈ dom (bk_targets b)
  | EvStartFail q e => EvStart q ∉ tr ∧ ri_start inp q = Some e ∧ q ∈ dom (bk_targets b)
  | EvHandle q t => EvStart q ∈ tr ∧ EvStop q ∉ tr ∧ t ∉ begun tr ∧
      ∃ k, bk_tasks b !! t = Some k ∧ b_target k = q
  | EvStop q => EvStart q ∈ tr ∧ EvStop q ∉ tr
  | _ => True
  end.
Proof.
  intros He. pose proof (run_once_lem _ _ _ He) as Hnd.
  assert (∀ q t, ev = EvHandle q t → ∃ k, bk_tasks b !! t = Some k ∧ b_target k = q) as Htask.
  { intros q t ->. destruct (run_on_target_lem inp st _ q t He) as (v & Hv & <-); [set_solver|].
    simpl in Hv. rewrite lookup_fmap in Hv. destruct (bk_tasks b !! t) as [k|]; [|done].
    simpl in Hv. injection Hv as <-. by exists k. }
  apply executes_snoc in He as (st1 & st2 & He & Hs).
  pose proof (executes_InvT _ _ _ He) as HT. pose proof (executes_InvA _ _ _ He) as HA.
  pose proof (step_events _ _ _ _ Hs) as Hev.
  assert (∀ q l, r_main st1 = MStart (q :: l) → EvStart q ∉ tr ∧ q ∈ dom (bk_targets b)) as Hst.
  { intros q l Hm. pose proof (a_main _ _ HA) as Ha. rewrite Hm in Ha. simpl in Ha.
    destruct Ha as (_ & _ & _ & Hd & Hn). rewrite dom_fmap_L in Hd. split.
    - intros Hin%(t_start _ _ _ HT). by apply (Hn q); [left|].
    - apply Hd. left. by left. }
  destruct ev as [q|q e|q t|q t e|q|r]; simpl in *; try done.
  - destruct Hev as (_ & l & Hm). destruct (Hst q l Hm). split; [done|]. split; [|done].
    destruct Hs as (a & _ & Hs). unfold run_step in Hs. destruct (r_panic st1); [done|].
    destruct a; unfold main_step, sched_step, router_step, target_step in Hs.
    + rewrite Hm in Hs. destruct (ri_start inp q) eqn:E; [done|]. exact E.
    + destruct (r_sched st1) as [|s [|x l']|s| |]; simplify_eq.
      * destruct (sched_new _ _ _) as [[|[]]|]; simplify_eq.
      * destruct (send _ _ _); simplify_eq.
      * destruct (recv _); simplify_eq. destruct (sched_next _ _ _) as [? []]; simplify_eq.
      * destruct (ch_closed _); simplify_eq.
    + destruct (r_router st1) as [| |x t|[|x l']| |]; simplify_eq.
      * destruct (recv _) as [[] ?| |]; simplify_eq.
      * destruct (r_targets st1 !! x) as [[]|]; simplify_eq; destruct (decide _); simplify_eq.
      * destruct (decide _); simplify_eq.
      * destruct (decide _); [|done]. destruct (ch_closed _); simplify_eq.
    + destruct (r_targets st1 !! q0) as [[]|] eqn:Hq; simplify_eq; try done.
      * destruct (decide _); simplify_eq.
      * destruct (send _ _ _); simplify_eq.
  - destruct Hev as (l & Hm). destruct (Hst q l Hm). split; [done|]. split; [|done].
    destruct Hs as (a & _ & Hs). unfold run_step in Hs. destruct (r_panic st1); [done|].
    destruct a; unfold main_step, sched_step, router_step, target_step in Hs.
    + rewrite Hm in Hs. destruct (ri_start inp q) eqn:E; [|done]. simplify_eq. exact E.
    + destruct (r_sched st1) as [|s [|x l']|s| |]; simplify_eq.
      * destruct (sched_new _ _ _) as [[|[]]|]; simplify_eq.
      * destruct (send _ _ _); simplify_eq.
      * destruct (recv _); simplify_eq. destruct (sched_next _ _ _) as [? []]; simplify_eq.
      * destruct (ch_closed _); simplify_eq.
    + destruct (r_router st1) as [| |x t|[|x l']| |]; simplify_eq.
      * destruct (recv _) as [[] ?| |]; simplify_eq.
      * destruct (r_targets st1 !! x) as [[]|]; simplify_eq; destruct (decide _); simplify_eq.
      * destruct (decide _); simplify_eq.
      * destruct (decide _); [|done]. destruct (ch_closed _); simplify_eq.
    + destruct (r_targets st1 !! q0) as [[]|] eqn:Hq; simplify_eq; try done.
      * destruct (decide _); simplify_eq.
      * destruct (send _ _ _); simplify_eq.
  - split; [apply (t_start _ _ _ HT); by eapply elem_of_dom_2|]. split; [|split; [|by apply Htask]].
    + intros Hin%(t_stop _ _ _ HT). by rewrite Hev in Hin.
    + unfold begun in *. rewrite omap_app in Hnd. simpl in Hnd.
      apply NoDup_app in Hnd as (_ & Hnd & _). intros Hin. apply (Hnd t); [done|by left].
  - split; [apply (t_start _ _ _ HT); by eapply elem_of_dom_2|].
    intros Hin%(t_stop _ _ _ HT). by rewrite Hev in Hin.
Qed.
Lemma event_at st tr1 ev tr2 : executes inp st (tr1 ++ ev :: tr2) → ∃ st', executes inp st' (tr1 ++ [ev]).
Proof.
  intros He. assert (executes inp st ((tr1 ++ [ev]) ++ tr2)) as He' by (by rewrite <-app_assoc).
  by apply executes_prefix in He'.
Qed.
Lemma prefix_of st tr1 tr2 : executes inp st (tr1 ++ tr2) → ∃ st', executes inp st' tr1.
Proof. apply executes_prefix. Qed.

(** ** What the targets keep *)
Definition live_of (q : string) (x : target) (l : list demo_task) : live :=
  match x with
  | PgTarget s => LivePg (bool_decide (0 ≤ pgs_retries s))
  | ShTarget _ e => LiveSh (env_apply e (h_order_target h q) (h_environ h))
  | DemoTgt s => LiveDemo (text_after l s)
  end.
Lemma start_live q x lv : (start_target h q x).1 = Some lv → lv = live_of q x [].
Proof.
  destruct x as [s|n e|s]; simpl.
  - destruct (configure _ _) as [c|]; [|done].
    destruct (connect_spec (h_connects h q) (pgs_retries s)) as (w & _ & ->). simpl.
    case_decide as Hr; [intros [= <-]; by rewrite bool_decide_false by lia|].
    destruct (h_connects h q (pgs_retries s)); [|done]. intros [= <-]. by rewrite bool_decide_true by lia.
  - by intros [= <-].
  - intros [= <-]. by rewrite text_after_nil.
Qed.
Lemma start_ok q x : bk_targets b !! q = Some x → ri_start inp q = None →
  (start_target h q x).1 = Some (live_of q x []).
Proof.
  intros Hx. simpl. rewrite Hx. destruct (start_target h q x).1 as [lv|] eqn:E; [|done].
  intros _. by rewrite (start_live q x lv).
Qed.
Lemma start_no q x e : bk_targets b !! q = Some x → ri_start inp q = Some e → (start_target h q x).1 = None.
Proof. intros Hx. simpl. rewrite Hx. by destruct (start_target h q x).1. Qed.

Definition handles (q : string) (x : target) (k : book_task) (l : list demo_task) : Prop :=
  ∀ t, (handle_task h q t (live_of q x l) k).1 =
    live_of q x (l ++ match b_config k with DemoConfig y => [y] | _ => [] end).
Lemma handles_good q x k l : config_class (b_config k) = target_class x → handles q x k l.
Proof.
  intros Hc t. unfold handle_task. destruct x as [s|n e|s], (b_config k) as [sql|args e'|y]; simpl in *; try done.
  - by case_bool_decide.
  - by rewrite (text_after_snoc l y s "").
Qed.

Definition good_lives (tr : list event) : Prop :=
  ∀ q, (EvStart q ∉ tr → (acts b h ∅ tr).1 !! q = None) ∧
       (EvStart q ∈ tr → ∃ x, bk_targets b !! q = Some x ∧
          (acts b h ∅ tr).1 !! q = Some (live_of q x (demos b (begun_on q tr)))).
Lemma lives st tr : good_book b → executes inp st tr → good_lives tr.
Proof.
  intros Hg. revert st. induction tr as [|ev tr IH] using rev_ind; intros st He.
  { intros q. split; [intros _; apply lookup_empty|]. by intros ?%elem_of_nil. }
  destruct (prefix_of _ _ _ He) as [st' He']. pose proof (IH _ He') as Hl. clear IH He' st'.
  pose proof (last_event _ _ _ He) as Hev. unfold good_lives in *.
  rewrite acts_app, acts_one. cbn [fst]. set (m := (acts b h ∅ tr).1) in *.
  intros q'. destruct (Hl q') as [Hn Hy].
  assert (∀ q, EvStart q ∈ tr ++ [ev] ↔ EvStart q ∈ tr ∨ ev = EvStart q) as Hin.
  { intros q. rewrite elem_of_app, elem_of_list_singleton. naive_solver. }
  rewrite Hin, begun_on_app, demos_app.
  destruct ev as [q|q e|q t|q t e|q|r]; simpl; rewrite ?app_nil_r.
  - destruct Hev as (Hq & Hr & Hd). apply elem_of_dom in Hd as [x Hx]. rewrite Hx.
    pose proof (start_ok q x Hx Hr) as Hs. destruct (start_target h q x) as [r l]. simpl in Hs. subst r. simpl.
    destruct (decide (q = q')) as [->|Hne].
    + split; [naive_solver|]. intros _. exists x. split; [done|]. rewrite lookup_insert.
      assert (begun_on q' tr = []) as ->; [|done].
      apply elem_of_nil_inv. intros t Ht. unfold begun_on in Ht. apply elem_of_list_omap in Ht as (ev & Hev & E).
      destruct ev as [| |q1 t1| | |]; try done. case_decide; [subst|done].
      apply elem_of_list_split in Hev as (l1 & l2 & ->). rewrite <-app_assoc in He.
      apply (event_at _ l1) in He as [st' He%last_event]. destruct He as (He & _). set_solver.
    + rewrite lookup_insert_ne by done. split; naive_solver.
  - destruct Hev as (Hq & Hr & Hd). apply elem_of_dom in Hd as [x Hx]. rewrite Hx.
    pose proof (start_no q x e Hx Hr) as Hs. destruct (start_target h q x) as [r l]. simpl in Hs. subst r. simpl.
    split; naive_solver.
  - destruct Hev as (Hq & _ & _ & k & Hk & Hkq). destruct (Hl q) as [_ (x & Hx & Hm)]; [done|].
    rewrite Hm, Hk. destruct (handle_task h q t _ k) as [lv l] eqn:Hh. simpl.
    assert (config_class (b_config k) = target_class x) as Hc.
    { destruct Hg as [_ Hg]. destruct (Hg t k Hk) as (_ & x' & Hx' & Hc). rewrite Hkq, Hx in Hx'. naive_solver. }
    pose proof (handles_good q x k (demos b (begun_on q tr)) Hc t) as Hlv. rewrite Hh in Hlv. simpl in Hlv. subst lv.
    destruct (decide (q = q')) as [->|Hne].
    + split; [naive_solver|]. intros _. exists x. split; [done|]. rewrite lookup_insert. do 3 f_equal.
      unfold demos. simpl. rewrite Hk. simpl. by destruct (b_config k).
    + rewrite lookup_insert_ne by done. unfold demos at 2. simpl. rewrite app_nil_r. split; naive_solver.
  - split; naive_solver.
  - split; naive_solver.
  - split; naive_solver.
Qed.

(** ** What the events do *)
Lemma does_handle m e q t d : Does q t d ∈ (act b h m e).2 → e = EvHandle q t.
Proof.
  destruct e as [q0|q0 e|q0 t0|q0 t0 e|q0|r]; simpl.
  - destruct (bk_targets b !! q0) as [x|]; simpl; [|by intros ?%elem_of_nil].
    unfold start_target. destruct x as [s|n e|s]; simpl; try by intros ?%elem_of_nil.
    destruct (configure _ _) as [c|]; simpl; [|by intros ?%elem_of_nil].
    destruct (connect _ _) as [evs r]. simpl. intros (ev & Hev & _)%elem_of_list_fmap. by destruct ev.
  - destruct (bk_targets b !! q0) as [x|]; simpl; [|by intros ?%elem_of_nil].
    unfold start_target. destruct x as [s|n e'|s]; simpl; try by intros ?%elem_of_nil.
    destruct (configure _ _) as [c|]; simpl; [|by intros ?%elem_of_nil].
    destruct (connect _ _) as [evs r]. simpl. intros (ev & Hev & _)%elem_of_list_fmap. by destruct ev.
  - destruct (m !! q0) as [lv|]; [|by intros ?%elem_of_nil]. destruct (bk_tasks b !! t0) as [k|]; [|by intros ?%elem_of_nil].
    unfold handle_task, say. destruct lv as [[]|environ|s], (b_config k) as [sql|[|a args] e|x]; simpl;
      repeat case_decide; simpl; try destruct x; simpl; intros Hin; repeat case_decide; set_solver.
  - by intros ?%elem_of_nil.
  - destruct (m !! q0) as [[[]| |]|]; simpl; set_solver.
  - by intros ?%elem_of_nil.
Qed.
Lemma does_event m tr q t d : Does q t d ∈ (acts b h m tr).2 → EvHandle q t ∈ tr.
Proof.
  revert m. induction tr as [|e tr IH]; intros m; simpl; [by intros ?%elem_of_nil|].
  pose proof (does_handle m e q t d) as Hd.
  destruct (act b h m e) as [m1 l1]. specialize (IH m1). destruct (acts b h m1 tr) as [m2 l2]. simpl in *.
  rewrite elem_of_app. intros [H|H]; [rewrite (Hd H); left|right; auto].
Qed.
Lemma elem_of_deeds t d E : d ∈ deeds_by t E ↔ ∃ q, Does q t d ∈ E.
Proof.
  unfold deeds_by. rewrite elem_of_list_omap. split.
  - intros (e & He & E'). destruct e; try done. case_decide; [|done]. simplify_eq. eauto.
  - intros [q Hq]. exists (Does q t d). split; [done|]. by rewrite decide_True.
Qed.
Lemma deeds_none m tr t : t ∉ begun tr → deeds_by t (acts b h m tr).2 = [].
Proof.
  intros Ht. apply elem_of_nil_inv. intros d [q Hq]%elem_of_deeds. apply does_event in Hq.
  apply Ht, elem_of_begun. by exists q.
Qed.

(** What a task does: a message, then what its settings say. *)
Lemma wrap64_small n : - 2 ^ 63 ≤ n < 2 ^ 63 → wrap64 n = n.
Proof. intros Hn. unfold wrap64. rewrite Z.mod_small; lia. Qed.
Lemma handle_does q x l t k :
  bk_targets b !! q = Some x → bk_tasks b !! t = Some k → b_target k = q →
  good_book b → ok_host b h → short_sleeps b → tries_to_connect b →
  ∃ ds, to_do h x l (b_config k) ds ∧
    (handle_task h q t (live_of q x l) k).2 = Does q t <$> (said (b_message k) ++ ds).
Proof.
  intros Hx Hk Hq Hg [Ho1 Ho2] Hss Htc. destruct Hg as [_ Hg]. destruct (Hg t k Hk) as (Hc & x' & Hx' & Hcl).
  rewrite Hq, Hx in Hx'. injection Hx' as <-.
  assert (say q t (b_message k) = Does q t <$> said (b_message k)) as Hsay
    by (unfold say, said; by case_decide).
  specialize (Hss t k). specialize (Ho2 t k). unfold handle_task. rewrite Hsay.
  destruct x as [s|n e|s]; destruct (b_config k) as [sql|args e'|y]; simpl in *; try done.
  - rewrite bool_decide_true by by eapply Htc. exists [Sends sql]. split; [constructor|by rewrite fmap_app].
  - destruct Hc as (a & rest & -> & _).
    exists [Runs (a :: rest) (h_basedir h)
      (env_apply e' (h_order_task h t) (env_apply e (h_order_target h q) (h_environ h)))].
    split; [|by rewrite fmap_app].
    destruct (env_apply_shape e (h_order_target h q) (h_environ h)) as (k1 & ks1 & E1 & F1 & L1); [by eapply Ho1|].
    destruct (env_apply_shape e' (h_order_task h t) (env_apply e (h_order_target h q) (h_environ h)))
      as (k2 & ks2 & E2 & F2 & L2); [by eapply Ho2|].
    eapply to_do_command; [..|done]; eexists _, _; eauto.
  - destruct y as [| | | |n]; simpl.
    + exists [Prints (text_after l s +:+ String (of_byte 10) "")]. split; [constructor|].
      rewrite decide_False; [by rewrite fmap_app|]. destruct (text_after l s); done.
    + exists []. split; [constructor|by rewrite fmap_app].
    + exists []. split; [constructor|by rewrite fmap_app].
    + exists []. split; [constructor|by rewrite fmap_app].
    + exists [Pauses (n * 1000000000)]. split; [constructor|]. unfold duration. rewrite wrap64_small; [by rewrite fmap_app|].
      specialize (Hss n Hk eq_refl). lia.
Qed.
Lemma to_do_deeds_by q t ds : deeds_by t (Does q t <$> ds) = ds.
Proof.
  unfold deeds_by. induction ds as [|d ds IH]; [done|]. rewrite fmap_cons. cbn [omap list_omap].
  rewrite decide_True by done. by f_equal.
Qed.
Lemma run_deeds st tr1 q t tr2 :
  good_book b → ok_host b h → short_sleeps b → tries_to_connect b →
  executes inp st (tr1 ++ EvHandle q t :: tr2) →
  ∃ k x ds, bk_tasks b !! t = Some k ∧ b_target k = q ∧ bk_targets b !! q = Some x ∧
    to_do h x (demos b (begun_on q tr1)) (b_config k) ds ∧
    (act b h (acts b h ∅ tr1).1 (EvHandle q t)).2 = Does q t <$> (said (b_message k) ++ ds) ∧
    deeds_by t (effects b h tr1) = [] ∧
    deeds_by t (effects b h (tr1 ++ EvHandle q t :: tr2)) = said (b_message k) ++ ds.
Proof.
  intros Hg Hh Hss Htc He. destruct (event_at _ _ _ _ He) as [st1 He1].
  destruct (last_event _ _ _ He1) as (Hs & _ & Hnb & k & Hk & Hkq).
  destruct (prefix_of _ _ _ He1) as [st0 He0]. destruct (lives st0 tr1 Hg He0 q) as [_ (x & Hx & Hm)]; [done|].
  destruct (handle_does q x (demos b (begun_on q tr1)) t k) as (ds & Htd & Hd); try done.
  exists k, x, ds. split; [done|]. split; [done|]. split; [done|]. split; [done|].
  assert ((act b h (acts b h ∅ tr1).1 (EvHandle q t)).2 = Does q t <$> (said (b_message k) ++ ds)) as Hact.
  { simpl. rewrite Hm, Hk. by destruct (handle_task h q t _ k). }
  split; [done|]. split; [by apply deeds_none|].
  rewrite effects_split, !deeds_app, Hact, to_do_deeds_by.
  unfold effects. rewrite (deeds_none ∅ tr1) by done. rewrite deeds_none; [by rewrite app_nil_r|].
  pose proof (run_once_lem _ _ _ He) as Hnd. unfold begun in *. rewrite omap_app in Hnd. simpl in Hnd.
  apply NoDup_app in Hnd as (_ & _ & Hnd). by apply list.NoDup_cons in Hnd as [Hnd _].
Qed.

(** A sleep, whatever the other tasks are. *)
Lemma sleep_pauses st tr q t k n :
  good_book b → executes inp st tr → EvHandle q t ∈ tr → bk_tasks b !! t = Some k →
  b_config k = DemoConfig (DemoModel.Sleep n) →
  deeds_by t (effects b h tr) = said (b_message k) ++ [Pauses (wrap64 (n * 1000000000))].
Proof.
  intros Hg He Hin Hk Hc. apply elem_of_list_split in Hin as (tr1 & tr2 & ->).
  destruct (event_at _ _ _ _ He) as [st1 He1]. destruct (last_event _ _ _ He1) as (Hs & _ & Hnb & k' & Hk' & Hkq).
  rewrite Hk in Hk'. injection Hk' as <-.
  destruct (prefix_of _ _ _ He1) as [st0 He0]. destruct (lives st0 tr1 Hg He0 q) as [_ (x & Hx & Hm)]; [done|].
  destruct Hg as [_ Hg]. destruct (Hg t k Hk) as (_ & x' & Hx' & Hcl). rewrite Hkq, Hx in Hx'. injection Hx' as <-.
  assert ((act b h (acts b h ∅ tr1).1 (EvHandle q t)).2 =
    Does q t <$> (said (b_message k) ++ [Pauses (wrap64 (n * 1000000000))])) as Hact.
  { simpl. rewrite Hm, Hk. unfold handle_task, say, said. rewrite Hc in Hcl |- *. destruct x as [s|m e|s]; try done. simpl.
    by case_decide. }
  rewrite effects_split, !deeds_app, Hact, to_do_deeds_by.
  unfold effects. rewrite (deeds_none ∅ tr1) by done. rewrite deeds_none; [by rewrite app_nil_r|].
  pose proof (run_once_lem _ _ _ He) as Hnd. unfold begun in *. rewrite omap_app in Hnd. simpl in Hnd.
  apply NoDup_app in Hnd as (_ & _ & Hnd). by apply list.NoDup_cons in Hnd as [Hnd _].
Qed.

(** No deed before all those of what the task is after. *)
Lemma does_split tr : ∀ E1 q t d E2, effects b h tr = E1 ++ Does q t d :: E2 →
  ∃ tr1 tr2 E3, tr = tr1 ++ EvHandle q t :: tr2 ∧ E1 = effects b h tr1 ++ E3.
Proof.
  induction tr as [|ev tr IH] using rev_ind; intros E1 q t d E2 HE.
  { unfold effects in HE. simpl in HE. by destruct E1. }
  rewrite effects_snoc in HE. set (A := (act b h (acts b h ∅ tr).1 ev).2) in *.
  assert ((∃ E3, E1 = effects b h tr ++ E3 ∧ A = E3 ++ Does q t d :: E2) ∨
    ∃ E4, effects b h tr = E1 ++ Does q t d :: E4) as [(E3 & -> & HA)|[E4 HE4]].
  { apply app_eq_inv in HE as [(k & H1 & H2)|(k & H1 & H2)]; [|left; by exists k].
    destruct k as [|y k].
    - left. exists []. rewrite app_nil_r in H1 |- *. by split.
    - right. exists k. simpl in H2. by injection H2 as <- _. }
  - assert (ev = EvHandle q t) as -> by (apply (does_handle (acts b h ∅ tr).1 ev q t d); fold A; rewrite HA; set_solver).
    by exists tr, [], E3.
  - destruct (IH _ _ _ _ _ HE4) as (tr1 & tr2 & E3 & -> & ->).
    exists tr1, (tr2 ++ [ev]), E3. by rewrite <-app_assoc.
Qed.
Lemma deeds_ordered st tr E1 q t d E2 m :
  executes inp st tr → effects b h tr = E1 ++ Does q t d :: E2 → "" ∉ dom (bk_tasks b) →
  tc (after tasks) t m →
  deeds_by m E1 = deeds_by m (effects b h tr) ∧ ∃ q', EvHandled q' m None ∈ tr.
Proof.
  intros He HE Hn Htc. destruct (does_split _ _ _ _ _ _ HE) as (tr1 & tr2 & E3 & -> & ->).
  assert ("" ∉ dom tasks) as Hn' by (simpl; by rewrite dom_fmap_L).
  destruct (run_after_lem _ _ _ _ _ _ _ He Hn' Htc) as [q' Hh].
  split; [|exists q'; set_solver].
  assert (m ∈ begun tr1) as Hb.
  { destruct (prefix_of _ _ _ He) as [st' He'].
    destruct (t_result _ _ _ (executes_InvT _ _ _ He') _ _ _ Hh) as [_ Hb]. apply elem_of_begun. eauto. }
  assert (m ∉ begun (EvHandle q t :: tr2)) as Hnb.
  { pose proof (run_once_lem _ _ _ He) as Hnd. unfold begun in Hnd. rewrite omap_app in Hnd.
    apply NoDup_app in Hnd as (_ & Hnd & _). by apply Hnd. }
  rewrite HE, !deeds_app. rewrite <-app_assoc. f_equal.
  pose proof HE as HE'. unfold effects at 1 in HE'. rewrite acts_app in HE'. cbn [snd] in HE'.
  rewrite <-app_assoc in HE'. unfold effects in HE'. apply app_inv_head in HE'.
  pose proof (deeds_none (acts b h ∅ tr1).1 _ m Hnb) as Hz. rewrite HE', deeds_app in Hz.
  by apply app_nil in Hz as [-> ->].
Qed.

(** ** What a demo target prints *)
Lemma echo_texts_snoc l x s : echo_texts (l ++ [x]) s =
  echo_texts l s ++ match x with Echo => [text_after l s +:+ String (of_byte 10) ""] | _ => [] end.
Proof.
  unfold echo_texts. rewrite app_length, seq_app, omap_app. f_equal.
  - apply list_omap_ext. apply Forall2_same_length_lookup_2; [done|].
    intros i y z Hy Hz. rewrite Hy in Hz. injection Hz as <-.
    apply lookup_seq in Hy as [-> Hi]. simpl.
    rewrite lookup_app_l by done. by rewrite take_app_le by lia.
  - simpl. rewrite lookup_app_r by lia. rewrite Nat.sub_diag. simpl.
    destruct x; try done. by rewrite take_app.
Qed.
Lemma printed_none q E : (∀ t d, Does q t d ∉ E) → printed_by q E = [].
Proof.
  intros H. apply elem_of_nil_inv. intros s. unfold printed_by. rewrite elem_of_list_omap.
  intros (e & He & E'). destruct e as [| | |q' t d|]; try done. destruct d; try done.
  case_decide; [subst|done]. by apply H in He.
Qed.
Lemma demo_prints st tr q s :
  good_book b → executes inp st tr → bk_targets b !! q = Some (DemoTgt s) →
  printed_by q (effects b h tr) = echo_texts (demos b (begun_on q tr)) s.
Proof.
  intros Hg He Hq. revert st He. induction tr as [|ev tr IH] using rev_ind; intros st He; [done|].
  rewrite effects_snoc, printed_by_app.
  destruct (prefix_of _ _ _ He) as [st' He']. rewrite (IH _ He').
  rewrite begun_on_app, demos_app.
  destruct ev as [q0|q0 e|q0 t0|q0 t0 e|q0|r];
    try (rewrite printed_none by (intros t d Hd%does_handle; done); simpl; by rewrite !app_nil_r).
  destruct (decide (q0 = q)) as [->|Hne].
  - destruct (last_event _ _ _ He) as (Hs & _ & _ & k & Hk & Hkq).
    destruct (lives st' tr Hg He' q) as [_ (x & Hx & Hm)]; [done|]. rewrite Hq in Hx. injection Hx as <-.
    destruct Hg as [_ Hg]. destruct (Hg t0 k Hk) as (_ & x' & Hx' & Hcl). rewrite Hkq, Hq in Hx'. injection Hx' as <-.
    simpl. rewrite Hm, Hk. rewrite decide_True by done. unfold demos at 3. simpl. rewrite Hk. simpl.
    unfold handle_task, live_of. destruct (b_config k) as [| |y]; [done..|]. cbn [snd fst].
    rewrite printed_by_app. simpl. rewrite echo_texts_snoc. f_equal.
    assert (printed_by q (say q t0 (b_message k)) = []) as -> by (unfold say; by case_decide).
    destruct y; simpl; try done. rewrite decide_False by (by destruct (text_after _ s)).
    simpl. by rewrite decide_True.
  - rewrite printed_none. 2: { intros t d Hd%does_handle. naive_solver. }
    simpl. rewrite decide_False by done. by rewrite !app_nil_r.
Qed.
Lemma begun_on_elem q tr t : t ∈ begun_on q tr ↔ EvHandle q t ∈ tr.
Proof.
  unfold begun_on. rewrite elem_of_list_omap. split.
  - intros (e & He & E). destruct e; try done. case_decide; [|done]. by simplify_eq.
  - intros H. exists (EvHandle q t). split; [done|]. by rewrite decide_True.
Qed.
Lemma begun_on_sub q tr : sublist (begun_on q tr) (begun tr).
Proof.
  unfold begun_on, begun. induction tr as [|e tr IH]; [done|]. destruct e; simpl; try done.
  case_decide; by constructor.
Qed.
Lemma NoDup_sub (l l' : list string) : sublist l l' → NoDup l' → NoDup l.
Proof.
  induction 1 as [|x l l' H IH|x l l' H IH]; intros Hn; [constructor|..];
    apply list.NoDup_cons in Hn as [Hx Hn]; [|auto].
  apply list.NoDup_cons. split; [|auto]. intros Hin. apply Hx. by eapply elem_of_submseteq, sublist_submseteq.
Qed.
Lemma begun_split q tr l1 t l2 : begun_on q tr = l1 ++ t :: l2 →
  ∃ tr1 tr2, tr = tr1 ++ EvHandle q t :: tr2 ∧ begun_on q tr1 = l1 ∧ begun_on q tr2 = l2.
Proof.
  revert l1. induction tr as [|e tr IH]; intros l1 H; [by destruct l1|].
  change (e :: tr) with ([e] ++ tr) in H. rewrite begun_on_app in H.
  destruct (decide (begun_on q [e] = [])) as [E|E].
  - rewrite E in H. simpl in H. destruct (IH _ H) as (tr1 & tr2 & -> & <- & <-).
    exists (e :: tr1), tr2. split; [done|]. split; [|done].
    change (e :: tr1) with ([e] ++ tr1). by rewrite begun_on_app, E.
  - destruct e as [| |q' t'| | |]; try done. simpl in H, E. case_decide as Hq; [|done]. subst.
    destruct l1 as [|y l1]; simpl in H; injection H as -> H.
    + exists [], tr. done.
    + destruct (IH _ H) as (tr1 & tr2 & -> & <- & <-).
      exists (EvHandle q y :: tr1), tr2. split; [done|]. split; [|done]. simpl. by rewrite decide_True.
Qed.
Lemma sorted_by_index (R : string → string → Prop) l :
  (∀ i j s t, l !! i = Some s → l !! j = Some t → (i < j)%nat → R s t) → StronglySorted R l.
Proof.
  induction l as [|x l IH]; intros H; constructor.
  - apply IH. intros i j s t Hi Hj Hij. apply (H (S i) (S j)); [done..|lia].
  - apply List.Forall_forall. intros y Hy%elem_of_list_In%elem_of_list_lookup. destruct Hy as [j Hj].
    apply (H O (S j)); [done..|lia].
Qed.
Lemma sequence_begun st tr q l :
  executes inp st tr → EvReturn None ∈ tr → well_ordered tasks → "" ∉ dom (bk_tasks b) →
  in_sequence b q l → begun_on q tr = l.
Proof.
  intros He Hr Hw Hn [Hl Hseq].
  assert ("" ∉ dom tasks) as Hn' by (simpl; by rewrite dom_fmap_L).
  set (R := λ s t : string, tc (after tasks) t s).
  assert (∀ s t, R s t → R t s → False) as Hasym.
  { intros s t H1 H2. destruct Hw as [_ Hw]. apply Hw. exists s. by eapply tc_transitive. }
  assert (NoDup l) as Hnd.
  { apply NoDup_alt. intros i j x Hi Hj. destruct (lt_eq_lt_dec i j) as [[Hij|Hij]|Hij]; [|done|]; exfalso.
    - pose proof (Hseq _ _ _ _ Hi Hj Hij). by apply (Hasym x x).
    - pose proof (Hseq _ _ _ _ Hj Hi Hij). by apply (Hasym x x). }
  assert (NoDup (begun_on q tr)) as Hnb by (eapply NoDup_sub; [apply begun_on_sub|by eapply run_once_lem]).
  assert (∀ t, t ∈ begun_on q tr ↔ t ∈ l) as Hel.
  { intros t. rewrite begun_on_elem, Hl. split.
    - intros Hin. destruct (run_on_target_lem inp st tr q t He Hin) as (v & Hv & Hq).
      simpl in Hv. rewrite lookup_fmap in Hv. destruct (bk_tasks b !! t) as [k|]; [|done].
      simpl in Hv. injection Hv as <-. by exists k.
    - intros (k & Hk & Hq). destruct (run_success_lem _ _ _ He Hr) as [Hs _].
      destruct (Hs Hw t) as [q' Hh]. { simpl. rewrite dom_fmap_L. by eapply elem_of_dom_2. }
      destruct (t_result _ _ _ (executes_InvT _ _ _ He) _ _ _ Hh) as [_ Hb].
      destruct (run_on_target_lem inp st tr q' t He Hb) as (v & Hv & Hq'). simpl in Hv.
      rewrite lookup_fmap, Hk in Hv. simpl in Hv. injection Hv as <-. simpl in Hq'. by subst. }
  assert (AntiSymm (=) R) as Hanti by (intros s t H1 H2; exfalso; eauto).
  apply (StronglySorted_unique R); [|by apply sorted_by_index|by apply NoDup_Permutation].
  apply sorted_by_index. intros i j s t Hi Hj Hij.
  assert (s ∈ l) as Hs by (apply Hel, elem_of_list_lookup; eauto).
  assert (t ∈ l) as Ht by (apply Hel, elem_of_list_lookup; eauto).
  apply elem_of_list_lookup in Hs as [i' Hi']. apply elem_of_list_lookup in Ht as [j' Hj'].
  destruct (lt_eq_lt_dec i' j') as [[Hij'|Hij']|Hij'].
  - by apply (Hseq i' j').
  - exfalso. assert (s = t) as -> by congruence. pose proof (NoDup_lookup _ _ _ _ Hnb Hi Hj). lia.
  - exfalso. pose proof (Hseq _ _ _ _ Hj' Hi' Hij') as Htc.
    destruct (begun_split q tr (take i (begun_on q tr)) s (drop (S i) (begun_on q tr))) as (tr1 & tr2 & Htr & Hb1 & _).
    { by rewrite take_drop_middle. }
    rewrite Htr in He. destruct (run_after_lem _ _ _ _ _ _ _ He Hn' Htc) as [q' Hh].
    destruct (prefix_of _ _ _ He) as [st' He'].
    destruct (t_result _ _ _ (executes_InvT _ _ _ He') _ _ _ Hh) as [_ Hb].
    assert (q' = q) as ->.
    { destruct (run_on_target_lem inp st' tr1 q' t He' Hb) as (v & Hv & Hq').
      assert (EvHandle q t ∈ tr) as Hb'. { apply begun_on_elem, elem_of_list_lookup. eauto. }
      rewrite Htr in Hb'. destruct (run_on_target_lem inp st _ q t He Hb') as (v' & Hv' & Hq''). congruence. }
    apply begun_on_elem in Hb. rewrite Hb1 in Hb. apply elem_of_take in Hb as (n & Hn1 & Hn2).
    pose proof (NoDup_lookup _ _ _ _ Hnb Hn1 Hj). lia.
Qed.

(** ** Connections *)
Lemma effect_split tr : ∀ E1 x E2, effects b h tr = E1 ++ x :: E2 →
  ∃ tr1 ev tr2 E3 E4, tr = tr1 ++ ev :: tr2 ∧ (act b h (acts b h ∅ tr1).1 ev).2 = E3 ++ x :: E4 ∧
    E1 = effects b h tr1 ++ E3 ∧ E2 = E4 ++ (acts b h (acts b h ∅ (tr1 ++ [ev])).1 tr2).2.
Proof.
  induction tr as [|ev tr IH] using rev_ind; intros E1 x E2 HE.
  { unfold effects in HE. simpl in HE. by destruct E1. }
  rewrite effects_snoc in HE. set (A := (act b h (acts b h ∅ tr).1 ev).2) in *.
  assert ((∃ E3, E1 = effects b h tr ++ E3 ∧ A = E3 ++ x :: E2) ∨
    ∃ E4, effects b h tr = E1 ++ x :: E4 ∧ E2 = E4 ++ A) as [(E3 & -> & HA)|(E4 & HE4 & ->)].
  { apply app_eq_inv in HE as [(k & H1 & H2)|(k & H1 & H2)]; [|left; by exists k].
    destruct k as [|y k].
    - left. exists []. rewrite app_nil_r in H1 |- *. by split.
    - right. exists k. simpl in H2. injection H2 as <- ->. by split. }
  - exists tr, ev, [], E3, E2. simpl. by rewrite app_nil_r.
  - destruct (IH _ _ _ HE4) as (tr1 & ev1 & tr2 & E3 & E5 & -> & H1 & -> & ->).
    exists tr1, ev1, (tr2 ++ [ev]), E3, (E5). split; [by rewrite <-app_assoc|]. split; [done|]. split; [done|].
    rewrite <-app_assoc. f_equal. subst A.
    replace (tr1 ++ ev1 :: tr2) with ((tr1 ++ [ev1]) ++ tr2) by (by rewrite <-app_assoc).
    rewrite !acts_app. cbn [fst snd]. by rewrite !acts_one.
Qed.
Lemma effect_event m tr x : x ∈ (acts b h m tr).2 → ∃ m' e, e ∈ tr ∧ x ∈ (act b h m' e).2.
Proof.
  revert m. induction tr as [|e tr IH]; intros m; simpl; [by intros ?%elem_of_nil|].
  destruct (act b h m e) as [m1 l1] eqn:Ha. specialize (IH m1). destruct (acts b h m1 tr) as [m2 l2]. simpl in *.
  rewrite elem_of_app. intros [H|H].
  - exists m, e. rewrite Ha. set_solver.
  - destruct (IH H) as (m' & e' & He' & Hx). exists m', e'. set_solver.
Qed.
Lemma start_dials q q' x c i : Dials q c i ∈ (start_target h q' x).2 →
  q' = q ∧ ∃ s, x = PgTarget s ∧ configure (options_of s) (h_libpq h) = Some c ∧ 0 ≤ i ≤ pgs_retries s.
Proof.
  destruct x as [s|n e|s]; simpl; try by intros ?%elem_of_nil.
  destruct (configure _ _) as [c'|] eqn:Hcf; simpl; [|by intros ?%elem_of_nil].
  pose proof (attempts_blocks (h_connects h q') (pgs_retries s)) as Hb.
  destruct (connect_spec (h_connects h q') (pgs_retries s)) as (w & _ & ->). simpl.
  intros (ev & Hev & Hin)%elem_of_list_fmap. destruct ev as [j|ms]; simpl in Hev; [|done]. injection Hev as -> -> ->.
  split; [done|]. exists s. split; [done|]. split; [done|].
  assert (j ∈ seqZ 0 (pgs_retries s + 1)) as Hj%elem_of_seqZ.
  { rewrite <-(Hb w). unfold attempts. apply elem_of_list_omap. by exists (Attempt j). }
  lia.
Qed.
Lemma dials_event m e q c i : Dials q c i ∈ (act b h m e).2 →
  (e = EvStart q ∨ ∃ err, e = EvStartFail q err) ∧
  ∃ s, bk_targets b !! q = Some (PgTarget s) ∧ configure (options_of s) (h_libpq h) = Some c ∧ 0 ≤ i ≤ pgs_retries s.
Proof.
  destruct e as [q0|q0 e|q0 t0|q0 t0 e|q0|r]; simpl; try by intros ?%elem_of_nil.
  - destruct (bk_targets b !! q0) as [x|] eqn:Hx; simpl; [|by intros ?%elem_of_nil].
    pose proof (start_dials q q0 x c i) as Hd. destruct (start_target h q0 x) as [r l]. simpl in *.
    intros Hin. destruct (Hd Hin) as [-> (s & -> & ?)]. split; [by left|by exists s].
  - destruct (bk_targets b !! q0) as [x|] eqn:Hx; simpl; [|by intros ?%elem_of_nil].
    pose proof (start_dials q q0 x c i) as Hd. destruct (start_target h q0 x) as [r l]. simpl in *.
    intros Hin. destruct (Hd Hin) as [-> (s & -> & ?)]. split; [right; by exists e|by exists s].
  - destruct (m !! q0) as [lv|]; [|by intros ?%elem_of_nil]. destruct (bk_tasks b !! t0) as [k|]; [|by intros ?%elem_of_nil].
    unfold handle_task, say. destruct lv as [[]|environ|s], (b_config k) as [sql|[|a args] e|x]; simpl;
      repeat case_decide; simpl; try destruct x; simpl; intros Hin; repeat case_decide; set_solver.
  - destruct (m !! q0) as [[[]| |]|]; simpl; set_solver.
Qed.
Lemma closes_event m e q : Closes q ∈ (act b h m e).2 → e = EvStop q.
Proof.
  destruct e as [q0|q0 e|q0 t0|q0 t0 e|q0|r]; simpl; try by intros ?%elem_of_nil.
  - destruct (bk_targets b !! q0) as [x|]; simpl; [|by intros ?%elem_of_nil].
    unfold start_target. destruct x as [s|n e|s]; simpl; try by intros ?%elem_of_nil.
    destruct (configure _ _) as [c|]; simpl; [|by intros ?%elem_of_nil].
    destruct (connect _ _) as [evs r]. simpl. intros (ev & Hev & _)%elem_of_list_fmap. by destruct ev.
  - destruct (bk_targets b !! q0) as [x|]; simpl; [|by intros ?%elem_of_nil].
    unfold start_target. destruct x as [s|n e'|s]; simpl; try by intros ?%elem_of_nil.
    destruct (configure _ _) as [c|]; simpl; [|by intros ?%elem_of_nil].
    destruct (connect _ _) as [evs r]. simpl. intros (ev & Hev & _)%elem_of_list_fmap. by destruct ev.
  - destruct (m !! q0) as [lv|]; [|by intros ?%elem_of_nil]. destruct (bk_tasks b !! t0) as [k|]; [|by intros ?%elem_of_nil].
    unfold handle_task, say. destruct lv as [[]|environ|s], (b_config k) as [sql|[|a args] e|x]; simpl;
      repeat case_decide; simpl; try destruct x; simpl; intros Hin; repeat case_decide; set_solver.
  - destruct (m !! q0) as [[[]| |]|]; simpl; set_solver.
Qed.
(** A target that was started has dialled successfully. *)
Lemma started_dialled q s : bk_targets b !! q = Some (PgTarget s) → 0 ≤ pgs_retries s →
  ri_start inp q = None →
  ∃ c, configure (options_of s) (h_libpq h) = Some c ∧ h_connects h q (pgs_retries s) = true ∧
    Dials q c (pgs_retries s) ∈ (start_target h q (PgTarget s)).2.
Proof.
  intros Hq Hr Hs. simpl in Hs. rewrite Hq in Hs. simpl in *.
  destruct (configure _ _) as [c|]; [|done]. exists c. split; [done|].
  pose proof (attempts_blocks (h_connects h q) (pgs_retries s)) as Hb.
  destruct (connect_spec (h_connects h q) (pgs_retries s)) as (w & _ & Hcs). rewrite Hcs in Hs |- *. simpl in *.
  rewrite decide_False in Hs by lia. destruct (h_connects h q (pgs_retries s)); [|done]. split; [done|].
  apply elem_of_list_fmap. exists (Attempt (pgs_retries s)). split; [done|].
  assert (pgs_retries s ∈ seqZ 0 (pgs_retries s + 1)) as Hj by (apply elem_of_seqZ; lia).
  rewrite <-(Hb w) in Hj. unfold attempts in Hj. apply elem_of_list_omap in Hj as (ev & Hev & E). by destruct ev; simplify_eq.
Qed.
Lemma started_at st tr q : executes inp st tr → EvStart q ∈ tr →
  ri_start inp q = None ∧ q ∈ dom (bk_targets b).
Proof.
  intros He Hin. apply elem_of_list_split in Hin as (l1 & l2 & ->).
  destruct (event_at _ _ _ _ He) as [st' He']. by destruct (last_event _ _ _ He') as (_ & ? & ?).
Qed.
Lemma effects_mono tr1 tr2 x : x ∈ effects b h tr1 → x ∈ effects b h (tr1 ++ tr2).
Proof. unfold effects. rewrite acts_app. cbn [snd]. set_solver. Qed.
Lemma connection_open st tr E1 q t d E2 s :
  executes inp st tr → bk_targets b !! q = Some (PgTarget s) → 0 ≤ pgs_retries s →
  effects b h tr = E1 ++ Does q t d :: E2 →
  (∃ c i, Dials q c i ∈ E1 ∧ h_connects h q i = true) ∧ Closes q ∉ E1 ∧ ∀ c i, Dials q c i ∉ E2.
Proof.
  intros He Hq Hr HE. destruct (effect_split _ _ _ _ HE) as (tr1 & ev & tr2 & E3 & E4 & -> & Ha & -> & ->).
  assert (ev = EvHandle q t) as ->.
  { apply (does_handle (acts b h ∅ tr1).1 ev q t d). rewrite Ha. set_solver. }
  destruct (event_at _ _ _ _ He) as [st1 He1]. destruct (last_event _ _ _ He1) as (Hs & Hnc & _).
  destruct (prefix_of _ _ _ He1) as [st0 He0]. destruct (started_at _ _ _ He0 Hs) as [Hst _].
  assert (∀ x, x ∈ E3 ∨ x ∈ E4 → x ∈ (act b h (acts b h ∅ tr1).1 (EvHandle q t)).2) as H34 by (rewrite Ha; set_solver).
  split; [|split].
  - destruct (started_dialled q s Hq Hr Hst) as (c & _ & Hok & Hd). exists c, (pgs_retries s). split; [|done].
    apply elem_of_app. left. apply elem_of_list_split in Hs as (l1 & l2 & ->).
    rewrite effects_split. rewrite !elem_of_app. right. left. simpl. rewrite Hq.
    by destruct (start_target h q (PgTarget s)).
  - rewrite elem_of_app. intros [Hin|Hin].
    + apply effect_event in Hin as (m' & e & Hin & ->%closes_event). done.
    + by apply (or_introl (B := Closes q ∈ E4)), H34, closes_event in Hin.
  - intros c i. rewrite elem_of_app. intros [Hin|Hin].
    + apply (or_intror (A := Dials q c i ∈ E3)), H34, dials_event in Hin as [[|[]] _]; done.
    + apply effect_event in Hin as (m' & e & Hin & [Hdt _]%dials_event).
      apply elem_of_list_split in Hin as (l1 & l2 & ->).
      assert (executes inp st ((tr1 ++ EvHandle q t :: l1) ++ e :: l2)) as He2 by (by rewrite <-app_assoc).
      destruct (event_at _ _ _ _ He2) as [st2 He3%last_event].
      destruct Hdt as [->|[err ->]]; destruct He3 as [Hn _]; apply Hn; set_solver.
Qed.
Lemma connection_closed st tr E1 q E2 :
  executes inp st tr → effects b h tr = E1 ++ Closes q :: E2 →
  (∀ t d, Does q t d ∉ E2) ∧ Closes q ∉ E2.
Proof.
  intros He HE. destruct (effect_split _ _ _ _ HE) as (tr1 & ev & tr2 & E3 & E4 & -> & Ha & -> & ->).
  assert (ev = EvStop q) as ->.
  { apply (closes_event (acts b h ∅ tr1).1). rewrite Ha. set_solver. }
  destruct (run_stop_at_lem _ _ _ _ _ He) as (_ & _ & N1 & _ & N2).
  assert (E4 = []) as ->.
  { simpl in Ha. destruct ((acts b h ∅ tr1).1 !! q) as [[[]| |]|]; simpl in Ha;
      destruct E3 as [|? [|]]; simpl in Ha; try done; by injection Ha. }
  simpl. split.
  - intros t d Hin%does_event. by apply N1 in Hin.
  - intros (m' & e & Hin & ->%closes_event)%effect_event. done.
Qed.
Lemma connection_ends st tr r q s :
  good_book b → executes inp st tr → bk_targets b !! q = Some (PgTarget s) → 0 ≤ pgs_retries s →
  EvReturn r ∈ tr → all_started tr → Closes q ∈ effects b h tr.
Proof.
  intros Hg He Hq Hr Hret Hall.
  assert (q ∈ dom (ri_limits inp)) as Hd by (simpl; rewrite dom_fmap_L; by eapply elem_of_dom_2).
  pose proof (run_stopped_lem _ _ _ _ He Hret Hall q Hd) as Hstop.
  apply elem_of_list_split in Hstop as (l1 & l2 & ->).
  destruct (event_at _ _ _ _ He) as [st1 He1]. destruct (last_event _ _ _ He1) as (Hs & _).
  destruct (prefix_of _ _ _ He1) as [st0 He0]. destruct (lives _ _ Hg He0 q) as [_ (x & Hx & Hm)]; [done|].
  rewrite Hq in Hx. injection Hx as <-. simpl in Hm.
  rewrite effects_split, !elem_of_app. right. left. simpl. rewrite Hm. rewrite bool_decide_true by done. simpl. set_solver.
Qed.

(** ** Crashes *)
Lemma run_crash st tr :
  good_book b → executes inp st tr → Crash ∈ effects b h tr →
  ∃ q s, bk_targets b !! q = Some (PgTarget s) ∧ pgs_retries s < 0.
Proof.
  intros Hg He Hin. apply elem_of_list_split in Hin as (E1 & E2 & HE).
  destruct (effect_split _ _ _ _ HE) as (tr1 & ev & tr2 & E3 & E4 & -> & Ha & _).
  destruct (event_at _ _ _ _ He) as [st1 He1]. pose proof (last_event _ _ _ He1) as Hev.
  destruct (prefix_of _ _ _ He1) as [st0 He0].
  assert (Crash ∈ (act b h (acts b h ∅ tr1).1 ev).2) as Hc by (rewrite Ha; set_solver). clear Ha.
  destruct ev as [q|q e|q t|q t e|q|r]; try by apply elem_of_nil in Hc.
  - simpl in Hc. destruct (bk_targets b !! q) as [x|]; simpl in Hc; [|by apply elem_of_nil in Hc].
    unfold start_target in Hc. destruct x as [s|n e|s]; simpl in Hc; try by apply elem_of_nil in Hc.
    destruct (configure _ _) as [c|]; simpl in Hc; [|by apply elem_of_nil in Hc].
    destruct (connect _ _) as [evs r]. simpl in Hc. apply elem_of_list_fmap in Hc as (ev & Hev' & _). by destruct ev.
  - simpl in Hc. destruct (bk_targets b !! q) as [x|]; simpl in Hc; [|by apply elem_of_nil in Hc].
    unfold start_target in Hc. destruct x as [s|n e'|s]; simpl in Hc; try by apply elem_of_nil in Hc.
    destruct (configure _ _) as [c|]; simpl in Hc; [|by apply elem_of_nil in Hc].
    destruct (connect _ _) as [evs r]. simpl in Hc. apply elem_of_list_fmap in Hc as (ev & Hev' & _). by destruct ev.
  - destruct Hev as (Hs & _ & _ & k & Hk & Hkq). destruct (lives _ _ Hg He0 q) as [_ (x & Hx & Hm)]; [done|].
    destruct Hg as [_ Hg]. destruct (Hg t k Hk) as (Hgc & x' & Hx' & Hcl). rewrite Hkq, Hx in Hx'. injection Hx' as <-.
    simpl in Hc. rewrite Hm, Hk in Hc. unfold handle_task, say in Hc.
    destruct x as [s|n e|s]; destruct (b_config k) as [sql|args e'|y]; simpl in *; try done.
    + case_bool_decide; [|exists q, s; split; [done|lia]]. exfalso. case_decide; set_solver.
    + exfalso. destruct Hgc as (a & rest & -> & _). case_decide; set_solver.
    + exfalso. destruct y; simpl in Hc; repeat case_decide; set_solver.
  - destruct Hev as (Hs & _). destruct (lives _ _ Hg He0 q) as [_ (x & Hx & Hm)]; [done|].
    simpl in Hc. rewrite Hm in Hc. destruct x as [s|n e|s]; simpl in Hc; try by apply elem_of_nil in Hc.
    case_bool_decide; [exfalso; set_solver|]. exists q, s. split; [done|lia].
Qed.
End effects.

(** ** Settings of a connection *)
Lemma configure_as s e c : configure (options_of s) (Some e) = Some c → as_configured s e c.
Proof.
  intros Hc. pose proof (configure_fields _ _ _ Hc) as (H1 & H2 & H3 & H4 & H5). unfold as_configured.
  assert (∀ m, mode_in_force (options_of s) e m → allowed (c_host c) m (channel_of <$> tries c)) as Hm.
  { intros m Hm. pose proof Hc as Hc'. rewrite (configure_mode _ _ _ Hm) in Hc'.
    pose proof (apply_ssl_mode_spec (Config (first_of_string (pgs_host s) (c_host e)) (first_of_uint16 (pgs_port s) (c_port e))
        (first_of_string (pgs_username s) (c_user e)) (first_of_string (pgs_password s) (c_password e))
        (first_of_string (pgs_database s) (c_database e)) (c_tls e) (c_use_fallback e) (c_fallback_tls e)) m) as H.
    simpl in Hc'. rewrite Hc' in H. apply H. }
  simpl in *. unfold first_of_string, first_of_uint16 in *.
  split; [by rewrite H1|]. split; [by rewrite H2|]. split; [by rewrite H3|]. split; [by rewrite H4|].
  split; [by rewrite H5|]. split.
  - intros Hs. apply Hm. left. done.
  - intros Hs Hp. apply Hm. right. split; [done|]. split; [|done]. rewrite H4 in Hp. case_decide; auto.
Qed.

(** ** A run in which nothing goes wrong *)
Lemma munge_fails x s : (munge x (DemoTarget s "")).2 = false → x = Fail.
Proof. by destruct x. Qed.
Lemma well_handles b h t : good_book b → all_well b h → ri_handle (run_book b h) t = None.
Proof.
  intros Hg (_ & _ & Hr & Hf). simpl. destruct (bk_tasks b !! t) as [k|] eqn:Hk; [|done].
  destruct Hg as [_ Hg]. destruct (Hg t k Hk) as (_ & x & -> & Hc). specialize (Hf t k Hk).
  unfold handle_result. destruct x as [s|n e|s], (b_config k) as [sql|args e'|y]; simpl in Hc; try done.
  destruct (munge y _).2 eqn:Hm; [done|]. by apply munge_fails in Hm as ->.
Qed.
Lemma configure_well s e : (pgs_sslmode s = "" ∨ ∃ host l, allowed host (pgs_sslmode s) l) →
  ∃ c, configure (options_of s) (Some e) = Some c.
Proof.
  intros Hm. unfold configure. cbv zeta. case_decide as Hd; [eauto|]. simpl in Hd |- *.
  match goal with |- ∃ c, apply_ssl_mode ?c0 ?m = _ => set (cfg := c0); set (mode := m) in * end.
  assert (∃ host l, allowed host mode l) as (host & l & Ha).
  { subst mode. destruct (bool_decide _); [exists "", [ValidFor ""]; constructor|].
    by destruct Hm as [Hm|Hm]. }
  destruct (apply_ssl_mode_known cfg _ _ _ Ha) as [c Hc]. by exists c.
Qed.
Lemma well_starts b h q : all_well b h → ri_start (run_book b h) q = None.
Proof.
  intros (He & Ht & _). simpl. destruct (bk_targets b !! q) as [x|] eqn:Hx; [|done].
  destruct x as [s|n e|s]; simpl; try done. destruct (Ht q s Hx) as (H0 & Hc & Hm).
  destruct (h_libpq h) as [e|]; [|done]. destruct (configure_well s e Hm) as [c ->].
  destruct (connect_spec (h_connects h q) (pgs_retries s)) as (w & _ & ->). simpl.
  by rewrite decide_False, Hc by lia.
Qed.
Lemma well_run b h st tr :
  good_book b → all_well b h → executes (run_book b h) st tr → all_started tr ∧ ∀ q t e, EvHandled q t (Some e) ∉ tr.
Proof.
  intros Hg Hw He. split.
  - intros q e Hin. apply elem_of_list_split in Hin as (l1 & l2 & ->).
    destruct (event_at _ _ _ _ _ _ He) as [st1 He1]. destruct (last_event _ _ _ _ _ He1) as (_ & Hs & _).
    by rewrite well_starts in Hs.
  - intros q t e Hin. destruct (t_result _ _ _ (executes_InvT _ _ _ He) _ _ _ Hin) as [Hr _].
    by rewrite well_handles in Hr.
Qed.

(** ** Exactly one connection *)
Lemma start_once b h st tr1 e q tr2 :
  executes (run_book b h) st (tr1 ++ e :: tr2) → (e = EvStart q ∨ ∃ err, e = EvStartFail q err) →
  EvStart q ∉ tr1 ∧ (e = EvStart q → EvStart q ∉ tr2 ∧ ∀ err, EvStartFail q err ∉ tr2).
Proof.
  intros He Hq. destruct (event_at _ _ _ _ _ _ He) as [st1 He1]. pose proof (last_event _ _ _ _ _ He1) as Hl.
  split; [by destruct Hq as [->|[err ->]]; destruct Hl|]. intros ->.
  assert (∀ e', e' ∈ tr2 → e' = EvStart q ∨ (∃ err, e' = EvStartFail q err) → False) as Hno.
  { intros e' Hin Hcase. apply elem_of_list_split in Hin as (l1 & l2 & ->).
    assert (executes (run_book b h) st ((tr1 ++ EvStart q :: l1) ++ e' :: l2)) as He2 by (by rewrite <-app_assoc).
    destruct (event_at _ _ _ _ _ _ He2) as [st2 Hl2%last_event].
    destruct Hcase as [->|[err ->]]; destruct Hl2 as [Hn _]; apply Hn; set_solver. }
  split; [intros Hin; by eapply Hno; [|left]|intros err Hin; eapply Hno; [|right]; eauto].
Qed.
Lemma one_connection b h st tr r q s :
  good_book b → executes (run_book b h) st tr → bk_targets b !! q = Some (PgTarget s) → pgs_retries s = 0 →
  EvReturn r ∈ tr → all_started tr →
  ∃ c E1 E2 E3, effects b h tr = E1 ++ Dials q c 0 :: E2 ++ Closes q :: E3 ∧ h_connects h q 0 = true ∧
    (∀ c i, Dials q c i ∉ E1 ++ E2 ++ E3) ∧ Closes q ∉ E1 ++ E2 ++ E3.
Proof.
  intros Hg He Hq Hr Hret Hall.
  pose proof (connection_ends _ _ _ _ _ _ _ Hg He Hq ltac:(lia) Hret Hall) as Hcl.
  apply elem_of_list_split in Hcl as (F1 & E3 & HE).
  destruct (effect_split _ _ _ _ _ _ HE) as (tr1 & ev & tr2 & E4 & E5 & -> & Ha & -> & HE3).
  assert (ev = EvStop q) as ->.
  { apply (closes_event b h (acts b h ∅ tr1).1). rewrite Ha. set_solver. }
  assert (E4 = [] ∧ E5 = []) as [-> ->].
  { simpl in Ha. destruct ((acts b h ∅ tr1).1 !! q) as [[[]| |]|]; simpl in Ha;
      destruct E4 as [|? [|]]; simpl in Ha; try done; by injection Ha. }
  rewrite app_nil_r in HE. simpl in HE3.
  destruct (event_at _ _ _ _ _ _ He) as [st1 He1]. destruct (last_event _ _ _ _ _ He1) as (Hs & Hns).
  apply elem_of_list_split in Hs as (l1 & l2 & ->).
  rewrite <-app_assoc in He. simpl in He.
  destruct (start_once _ _ _ _ _ _ _ He (or_introl eq_refl)) as [Hn1 Hn2].
  destruct (Hn2 eq_refl) as [Hn3 Hn4]. clear Hn2.
  destruct (event_at _ _ _ _ _ _ He) as [st2 He2]. destruct (last_event _ _ _ _ _ He2) as (_ & Hst & _).
  destruct (started_dialled b h q s Hq ltac:(lia) Hst) as (c & Hc & Hok & Hd). rewrite Hr in Hok, Hd.
  assert ((start_target h q (PgTarget s)).2 = [Dials q c 0]) as Hst2.
  { simpl. rewrite Hc, Hr. unfold connect. simpl. by rewrite Hok. }
  exists c, (effects b h l1), (acts b h (acts b h ∅ (l1 ++ [EvStart q])).1 l2).2, E3. split_and!; [|done|..].
  - rewrite HE. rewrite effects_split. simpl act. rewrite Hq.
    destruct (start_target h q (PgTarget s)) as [lv ls]. simpl in Hst2. subst ls. simpl.
    rewrite <-!app_assoc. simpl. done.
  - intros c' i. rewrite !elem_of_app. subst E3. intros [Hin|[Hin|Hin]];
      apply effect_event in Hin as (m & e & Hin & [Hcase _]%dials_event).
    + destruct Hcase as [->|[err ->]]; [done|]. by apply (Hall q err); set_solver.
    + destruct Hcase as [->|[err ->]]; [apply Hn3; set_solver|]. eapply (Hn4 err); set_solver.
    + destruct Hcase as [->|[err ->]]; [apply Hn3; set_solver|]. eapply (Hn4 err); set_solver.
  - rewrite !elem_of_app. subst E3.
    assert (∀ m l, EvStop q ∉ l → Closes q ∉ (acts b h m l).2) as Hno.
    { intros m l Hl (m' & e & Hin & ->%closes_event)%effect_event. done. }
    intros [Hin|[Hin|Hin]]; revert Hin; apply Hno; [set_solver..|].
    replace (l1 ++ EvStart q :: l2 ++ EvStop q :: tr2) with ((l1 ++ EvStart q :: l2) ++ EvStop q :: tr2) in He
      by (by rewrite <-app_assoc).
    by destruct (run_stop_at_lem _ _ _ _ _ He) as (_ & _ & _ & _ & ?).
Qed.

(** ** What Run returns *)
Lemma handle_answer b h t k : good_book b → bk_tasks b !! t = Some k →
  match ri_handle (run_book b h) t with None => went_well h t k | Some e => failed_with h t k e end.
Proof.
  intros [_ Hg] Hk. destruct (Hg t k Hk) as (_ & x & Hx & Hc). simpl. rewrite Hk, Hx.
  unfold handle_result, went_well, failed_with.
  destruct x as [s|n e|s], (b_config k) as [sql|args e'|y]; simpl in Hc; try done; try (by destruct (h_result h t)).
  destruct y; simpl; done.
Qed.
Lemma success_started b h st tr q :
  executes (run_book b h) st tr → EvReturn None ∈ tr → q ∈ dom (bk_targets b) → EvStart q ∈ tr.
Proof.
  intros He Hr Hq.
  assert (all_started tr) as Hall.
  { intros q' e Hin. destruct (run_start_fail_lem _ _ _ _ _ He Hin) as [H _]. by apply H in Hr. }
  assert (EvStop q ∈ tr) as Hs by (apply (run_stopped_lem _ st tr None He Hr Hall); simpl; by rewrite dom_fmap_L).
  apply elem_of_list_split in Hs as (l1 & l2 & ->).
  destruct (event_at _ _ _ _ _ _ He) as [st1 He1]. destruct (last_event _ _ _ _ _ He1) as [H _]. set_solver.
Qed.
