(** Proofs about FineModel: per target, what happens is what happens in EffectsModel. *)
From Coq Require Import String Ascii.
From stdpp Require Import gmap list strings numbers fin_maps functions relations.
From Verif Require Import PgModel GoBase GoStrings ShModel DemoModel ParserModel ParserSpec SchedModel SchedSpec DagModel RunnerModel
  RunnerSpec RunnerInvT RunnerProofs EffectsModel EffectsSpec EffectsProofs FineModel.
Local Open Scope Z_scope.

Definition of_target (q : string) (x : world_effect) : Prop :=
  match x with Dials q' _ _ | Rests q' _ | Closes q' | Does q' _ _ => q' = q | Crash => False end.
Global Instance of_target_dec q x : Decision (of_target q x).
Proof. destruct x; simpl; apply _. Defined.
Definition on (q : string) (E : list world_effect) : list world_effect := filter (of_target q) E.

Section fine.
Context (b : book) (h : host).
Notation inp := (run_book b h).

Lemma start_own q t : Forall (of_target q) (start_target h q t).2.
Proof.
  unfold start_target. destruct t as [s| |]; simpl; [|constructor..].
  destruct (configure _ _) as [c|]; [|constructor]. destruct (connect _ _) as [evs r]. simpl.
  apply list.Forall_forall. intros x (e & -> & _)%elem_of_list_fmap. by destruct e.
Qed.
Lemma act_own m e m' l : act b h m e = (m', l) → ∀ x, x ∈ l → ∃ q, event_target e = Some q ∧ (x = Crash ∨ of_target q x).
Proof.
  destruct e as [q|q er|q t|q t er|q|r]; simpl; intros Ha x Hx.
  1,2: destruct (bk_targets b !! q) as [y|]; [|simplify_eq; by apply elem_of_nil in Hx]; pose proof (start_own q y) as Ho;
    destruct (start_target h q y) as [r l']; simplify_eq; exists q; split; [done|]; right;
    by eapply list.Forall_forall in Ho.
  - exists q. split; [done|]. destruct (m !! q) as [lv|]; [|simplify_eq; by apply elem_of_nil in Hx].
    destruct (bk_tasks b !! t) as [k|]; [|simplify_eq; by apply elem_of_nil in Hx].
    destruct (handle_task h q t lv k) as [lv' l'] eqn:Hh. injection Ha as <- <-. revert Hh Hx. unfold handle_task, say.
    destruct lv as [[]|environ|s], (b_config k) as [sql|[|a args] e|y]; simpl;
      intros [= <- <-]; repeat case_decide; try destruct y; simpl; repeat case_decide;
      rewrite ?elem_of_cons, ?elem_of_nil; intros Hx; destruct_or?; subst; simpl; auto; done.
  - simplify_eq. by apply elem_of_nil in Hx.
  - injection Ha as <- <-. exists q. split; [done|]. destruct (m !! q) as [[[]| |]|]; simpl in Hx; set_solver.
  - simplify_eq. by apply elem_of_nil in Hx.
Qed.
Lemma on_app q E E' : on q (E ++ E') = on q E ++ on q E'.
Proof. apply filter_app. Qed.
Lemma on_none q E : (∀ x, x ∈ E → ¬ of_target q x) → on q E = [].
Proof.
  intros H. apply elem_of_nil_inv. intros x [Hx Hin]%elem_of_list_filter. by apply (H x).
Qed.
Lemma own_one q q' x : x = Crash ∨ of_target q x → of_target q' x → q' = q.
Proof. intros [->|H]; [done|]. destruct x; simpl in *; done || congruence. Qed.

(** The relation to the coarse run. *)
Lemma fine_on tr E m p : fine b h tr E m p →
  (acts b h ∅ tr).1 = m ∧
  (∀ q x, x ∈ p q → (x = Crash ∨ of_target q x) ∧ x ∈ effects b h tr) ∧
  (∀ x, x ∈ E → x ∈ effects b h tr) ∧
  ∀ q, on q E ++ on q (p q) = on q (effects b h tr).
Proof.
  induction 1 as [|tr E m p e m' l _ (IHm & IHp & IHE & IH) Hc Hp Ha|tr E m p q x l _ (IHm & IHp & IHE & IH) Hc Hp].
  - split_and!; [done|by intros q x ?%elem_of_nil|by intros x ?%elem_of_nil|done].
  - assert (He : effects b h (tr ++ [e]) = effects b h tr ++ l) by (rewrite effects_snoc, IHm, Ha; done).
    assert (Hm : (acts b h ∅ (tr ++ [e])).1 = m') by (rewrite acts_app; simpl; rewrite IHm, Ha; done).
    rewrite He. destruct (begins e) as [q|] eqn:Hb.
    + assert (event_target e = Some q) as Het by (by destruct e; simplify_eq/=).
      split_and!; [done| | |].
      * intros q' x. unfold insert, fn_insert. case_decide as Hq; [subst q'|].
        -- intros Hx. split; [|set_solver]. destruct (act_own _ _ _ _ Ha x Hx) as (q' & Hq' & Ho). congruence.
        -- intros [? ?]%IHp. split; [done|set_solver].
      * intros x Hx%IHE. set_solver.
      * intros q'. rewrite on_app, <-IH. unfold insert, fn_insert. case_decide as Hq; [subst q'|].
        -- rewrite (Hp q Het). simpl. by rewrite app_nil_r.
        -- rewrite (on_none q' l); [by rewrite app_nil_r|]. intros x Hx Ho.
           destruct (act_own _ _ _ _ Ha x Hx) as (q'' & Hq'' & Ho'). pose proof (own_one _ _ _ Ho' Ho). congruence.
    + split_and!; [done| | |].
      * intros q' x [? ?]%IHp. split; [done|set_solver].
      * intros x. rewrite !elem_of_app. intros [?%IHE|?]; auto.
      * intros q'. rewrite !on_app, <-IH. destruct (decide (event_target e = Some q')) as [Hq|Hq].
        -- rewrite (Hp q' Hq). simpl. by rewrite !app_nil_r.
        -- rewrite (on_none q' l); [by rewrite !app_nil_r|]. intros x Hx Ho.
           destruct (act_own _ _ _ _ Ha x Hx) as (q'' & Hq'' & Ho'). pose proof (own_one _ _ _ Ho' Ho). congruence.
  - destruct (IHp q x) as [Hx Hxe]; [rewrite Hp; left|]. split_and!; [done| | |].
    + intros q' y. unfold insert, fn_insert. case_decide as Hq; [subst q'|apply IHp]. intros Hy. apply IHp. rewrite Hp. by right.
    + intros y [?%IHE| ->%elem_of_list_singleton]%elem_of_app; done.
    + intros q'. rewrite <-IH, on_app. unfold insert, fn_insert. case_decide as Hq; [subst q'|].
      * rewrite Hp, <-app_assoc. f_equal. change (x :: l) with ([x] ++ l). by rewrite on_app.
      * rewrite (on_none q' [x]); [by rewrite app_nil_r|]. intros y ->%elem_of_list_singleton Ho.
        pose proof (own_one _ _ _ Hx Ho). congruence.
Qed.

(** A point in the one is a point in the other, as seen by the target. *)
Lemma on_split q E A x B : on q E = A ++ x :: B → ∃ E1 E2, E = E1 ++ x :: E2 ∧ on q E1 = A ∧ on q E2 = B.
Proof.
  revert A. induction E as [|y E IH]; intros A H; [by destruct A|]. unfold on in *. rewrite filter_cons in H.
  destruct (decide (of_target q y)) as [Hy|Hy].
  - destruct A as [|z A]; simpl in H; injection H as -> H.
    + exists [], E. done.
    + destruct (IH A H) as (E1 & E2 & -> & H1 & H2). exists (z :: E1), E2. split; [done|]. split; [|done].
      rewrite filter_cons. rewrite decide_True by done. by rewrite H1.
  - destruct (IH A H) as (E1 & E2 & -> & H1 & H2). exists (y :: E1), E2. split; [done|]. split; [|done].
    rewrite filter_cons. by rewrite decide_False.
Qed.
Lemma fine_point tr E m p q E1 x E2 : fine b h tr E m p → E = E1 ++ x :: E2 → of_target q x →
  ∃ F1 F2, effects b h tr = F1 ++ x :: F2 ∧ on q F1 = on q E1 ∧ on q F2 = on q E2 ++ on q (p q).
Proof.
  intros Hf -> Hx. destruct (fine_on _ _ _ _ Hf) as (_ & _ & _ & Hon). specialize (Hon q).
  rewrite on_app in Hon. change (x :: E2) with ([x] ++ E2) in Hon. rewrite on_app in Hon.
  assert (on q [x] = [x]) as H1. { unfold on. rewrite filter_cons, decide_True by done. done. }
  rewrite H1, <-!app_assoc in Hon. simpl in Hon. symmetry in Hon. apply on_split in Hon as (F1 & F2 & HF & HA & HB). by exists F1, F2.
Qed.
Lemma elem_of_on q x E : x ∈ on q E ↔ of_target q x ∧ x ∈ E.
Proof. apply elem_of_list_filter. Qed.

(** What is pending belongs to the task last begun. *)
Definition last_begun (q t : string) (tr : list event) : Prop :=
  ∃ tr1 tr2, tr = tr1 ++ EvHandle q t :: tr2 ∧ ∀ e, e ∈ tr2 → event_target e ≠ Some q.
Lemma fine_pending tr E m p : fine b h tr E m p → ∀ q, p q ≠ [] →
  ∃ t, last_begun q t tr ∧ ∀ x, x ∈ p q → x = Crash ∨ ∃ d, x = Does q t d.
Proof.
  induction 1 as [|tr E m p e m' l Hf IH Hc Hp Ha|tr E m p q' x l Hf IH Hc Hp]; intros q Hq; [done| |].
  - assert (p q ≠ [] → ∃ t, last_begun q t (tr ++ [e]) ∧ ∀ x, x ∈ p q → x = Crash ∨ ∃ d, x = Does q t d) as Hold.
    { intros Hq'. destruct (IH q Hq') as (t & (tr1 & tr2 & -> & Hl) & Hx). exists t. split; [|done].
      exists tr1, (tr2 ++ [e]). split; [by rewrite <-app_assoc|].
      intros e' [?| ->%elem_of_list_singleton]%elem_of_app; [by apply Hl|]. intros He. by apply Hp in He. }
    destruct (begins e) as [q0|] eqn:Hb; [|by apply Hold]. revert Hq. unfold insert, fn_insert.
    case_decide as Hqq; [subst q0|done]. intros _. destruct e as [| |q1 t| | |]; try done. injection Hb as ->.
    exists t. split; [exists tr, []; split; [done|]; by intros e ?%elem_of_nil|]. intros x Hx.
    destruct (act_own _ _ _ _ Ha x Hx) as (q' & [= <-] & [->|Ho]); [by left|]. right.
    revert Ha Hx. simpl. destruct (m !! q) as [lv|]; [|by intros [= <- <-] ?%elem_of_nil].
    destruct (bk_tasks b !! t) as [k|]; [|by intros [= <- <-] ?%elem_of_nil].
    destruct (handle_task h q t lv k) as [lv' l'] eqn:Hh. intros [= <- <-]. revert Hh. unfold handle_task, say.
    destruct lv as [[]|environ|s], (b_config k) as [sql|[|a args] e|y]; simpl;
      intros [= <- <-]; repeat case_decide; try destruct y; simpl; repeat case_decide;
      rewrite ?elem_of_cons, ?elem_of_nil; intros Hx; destruct_or?; subst; try done; eauto.
  - revert Hq. unfold insert, fn_insert. case_decide as Hqq; [subst q'|apply IH]. intros _.
    destruct (IH q) as (t & Hl & Hx); [by rewrite Hp|]. exists t. split; [done|]. intros y Hy. apply Hx. rewrite Hp. by right.
Qed.

(** The moment something is done. *)
Lemma snoc_split {A} (l1 l2 l : list A) x y : l ++ [y] = l1 ++ x :: l2 →
  (l = l1 ∧ x = y ∧ l2 = []) ∨ ∃ l3, l = l1 ++ x :: l3 ∧ l2 = l3 ++ [y].
Proof.
  destruct l2 as [|z l2 _] using rev_ind.
  - intros H. apply app_inj_tail in H as [-> ->]. by left.
  - rewrite app_comm_cons, app_assoc. intros H. apply app_inj_tail in H as [-> ->]. right. by exists l2.
Qed.
Lemma fine_split tr E m p : fine b h tr E m p → ∀ E1 q t d E2, E = E1 ++ Does q t d :: E2 →
  ∃ tr1 tr2 m1 p1 l, tr = tr1 ++ tr2 ∧ fine b h tr1 E1 m1 p1 ∧ p1 q = Does q t d :: l.
Proof.
  induction 1 as [|tr E m p e m' l Hf IH Hc Hp Ha|tr E m p q' x l Hf IH Hc Hp]; intros E1 q t d E2 HE.
  - by destruct E1.
  - assert (∃ E3, E = E1 ++ Does q t d :: E3) as [E3 HE3].
    { destruct (begins e) as [q0|] eqn:Hb; [by exists E2|].
      assert (Does q t d ∉ l) as Hl.
      { intros Hin. pose proof (does_handle b h m e q t d) as Hd. rewrite Ha in Hd. specialize (Hd Hin). by subst e. }
      clear -Hl HE. revert E2 HE Hl. induction l as [|y l IH] using rev_ind; intros E2 HE Hl.
      - exists E2. by rewrite app_nil_r in HE.
      - rewrite app_assoc in HE. apply snoc_split in HE as [(_ & <- & _)|(l3 & HE & _)]; [set_solver|].
        apply (IH l3 HE). set_solver. }
    destruct (IH _ _ _ _ _ HE3) as (tr1 & tr2 & m1 & p1 & l1 & -> & ? & ?).
    exists tr1, (tr2 ++ [e]), m1, p1, l1. by rewrite <-app_assoc.
  - apply snoc_split in HE as [(<- & <- & _)|(l3 & -> & _)]; [|by eapply IH].
    destruct (fine_on _ _ _ _ Hf) as (_ & Hx & _). destruct (Hx q' (Does q t d)) as [[?|Ho] _]; [rewrite Hp; left|done|].
    simpl in Ho. subst q'. exists tr, [], m, p, l. by rewrite app_nil_r.
Qed.
Lemma pending_begun tr E m p q t d l : fine b h tr E m p → p q = Does q t d :: l → last_begun q t tr.
Proof.
  intros Hf Hp. destruct (fine_pending _ _ _ _ Hf q) as (t' & Hl & Hx); [by rewrite Hp|].
  destruct (Hx (Does q t d)) as [?|(d' & [= <- <-])]; [rewrite Hp; left|done..].
Qed.
Lemma last_begun_in q t tr : last_begun q t tr → EvHandle q t ∈ tr.
Proof. intros (tr1 & tr2 & -> & _). set_solver. Qed.

(** The deeds of a task. *)
Lemma deeds_on t q E : (∀ q' d, Does q' t d ∈ E → q' = q) → deeds_by t (on q E) = deeds_by t E.
Proof.
  induction E as [|x E IH]; intros H; [done|]. unfold on. rewrite filter_cons.
  assert (deeds_by t (on q E) = deeds_by t E) as IH' by (apply IH; intros q' d Hd; apply (H q' d); by right).
  change (deeds_by t (x :: E)) with (deeds_by t ([x] ++ E)). rewrite deeds_app.
  destruct (decide (of_target q x)) as [Hx|Hx].
  - change (x :: filter (of_target q) E) with ([x] ++ on q E). rewrite deeds_app. by rewrite IH'.
  - fold (on q E). rewrite IH'. destruct x as [| | |q' t' d|]; try done. simpl. case_decide as Ht; [|done]. subst t'.
    exfalso. apply Hx. simpl. apply (H q' d). left.
Qed.
Lemma fine_deeds st tr E m p t : executes inp st tr → fine b h tr E m p →
  ∃ q, (∀ q' d, Does q' t d ∈ effects b h tr → q' = q) ∧ deeds_by t E ++ deeds_by t (p q) = deeds_by t (effects b h tr).
Proof.
  intros He Hf. set (q := default "" (b_target <$> bk_tasks b !! t)). exists q.
  assert (∀ q' d, Does q' t d ∈ effects b h tr → q' = q) as Hq.
  { intros q' d Hd%does_event. destruct (run_on_target_lem _ _ _ _ _ He Hd) as (v & Hv & <-). simpl in Hv.
    rewrite lookup_fmap in Hv. subst q. destruct (bk_tasks b !! t); by simplify_eq/=. }
  split; [done|]. destruct (fine_on _ _ _ _ Hf) as (_ & Hp & HE & Hon). specialize (Hon q).
  rewrite <-(deeds_on t q (effects b h tr)) by done. rewrite <-Hon, deeds_app. f_equal; symmetry; apply deeds_on.
  - intros q' d Hd. eauto.
  - intros q' d Hd. apply Hp in Hd as [_ Hd]. eauto.
Qed.
Lemma fine_handled st tr E m p q t e : executes inp st tr → fine b h tr E m p → EvHandled q t e ∈ tr →
  deeds_by t E = deeds_by t (effects b h tr).
Proof.
  intros He Hf Hh. destruct (fine_deeds _ _ _ _ _ t He Hf) as (q0 & Hq0 & <-).
  assert (deeds_by t (p q0) = []) as ->; [|by rewrite app_nil_r].
  apply elem_of_nil_inv. intros d [q' Hd]%elem_of_deeds.
  destruct (fine_on _ _ _ _ Hf) as (_ & Hp & _). pose proof Hd as [[?|Ho] Hde]%Hp; [done|]. simpl in Ho. subst q'.
  destruct (fine_pending _ _ _ _ Hf q0) as (t' & Hl & Hx); [intros Hz; rewrite Hz in Hd; by apply elem_of_nil in Hd|].
  destruct (Hx _ Hd) as [?|(d' & [= <- <-])]; [done|]. destruct Hl as (tr1 & tr2 & -> & Hl).
  assert (q = q0) as ->.
  { destruct (t_result _ _ _ (executes_InvT _ _ _ He) _ _ _ Hh) as [_ Hin].
    destruct (run_on_target_lem _ _ _ _ _ He Hin) as (v & Hv & <-).
    destruct (run_on_target_lem _ _ _ q0 t He) as (v' & Hv' & <-); [set_solver|]. congruence. }
  assert (EvHandled q0 t e ∈ tr1) as Hh1.
  { apply elem_of_app in Hh as [?|Hh]; [done|]. apply elem_of_cons in Hh as [?|Hh]; [done|]. by apply Hl in Hh. }
  destruct (prefix_of _ _ _ _ _ He) as [st' He'].
  destruct (t_result _ _ _ (executes_InvT _ _ _ He') _ _ _ Hh1) as [_ Hin].
  pose proof (run_once_lem _ _ _ He) as Hnd. unfold begun in Hnd. rewrite omap_app in Hnd.
  apply NoDup_app in Hnd as (_ & Hnd & _). apply (Hnd t); [apply elem_of_begun; eauto|]. simpl. left.
Qed.
Lemma fine_ordered st tr E m p E1 q t d E2 u : executes inp st tr → fine b h tr E m p → E = E1 ++ Does q t d :: E2 →
  "" ∉ dom (bk_tasks b) → tc (after (ri_tasks inp)) t u →
  deeds_by u E1 = deeds_by u E ∧ ∃ q', EvHandled q' u None ∈ tr.
Proof.
  intros He Hf HE Hn Htc. destruct (fine_split _ _ _ _ Hf _ _ _ _ _ HE) as (tr1 & tr2 & m1 & p1 & l & -> & Hf1 & Hp1).
  destruct (prefix_of _ _ _ _ _ He) as [st1 He1].
  pose proof (pending_begun _ _ _ _ _ _ _ _ Hf1 Hp1) as (a & c & -> & _).
  destruct (run_after_lem _ _ _ _ _ _ u He1) as [q' Hh]; [simpl; by rewrite dom_fmap_L|done|].
  assert (EvHandled q' u None ∈ a ++ EvHandle q t :: c) as Hh1 by set_solver.
  split; [|exists q'; set_solver].
  rewrite (fine_handled _ _ _ _ _ q' u None He1 Hf1 Hh1), (fine_handled _ _ _ _ _ q' u None He Hf) by set_solver.
  unfold effects. rewrite (acts_app _ _ _ _ tr2). simpl. rewrite deeds_app.
  rewrite (deeds_none _ _ _ tr2 u); [by rewrite app_nil_r|]. intros Hin.
  destruct (t_result _ _ _ (executes_InvT _ _ _ He1) _ _ _ Hh1) as [_ Hb].
  pose proof (run_once_lem _ _ _ He) as Hnd. unfold begun in Hnd. rewrite omap_app in Hnd.
  apply NoDup_app in Hnd as (_ & Hnd & _). apply (Hnd u); [apply elem_of_begun; eauto|done].
Qed.

(** One task at a time. *)
Lemma app_cons_later {A} (a u c v : list A) x y : a ++ x :: c = u ++ y :: v → x ≠ y → x ∉ v → y ∈ c.
Proof.
  revert u. induction a as [|z a IH]; intros [|z' u]; simpl; intros [= H1 H2] Hne Hv; subst.
  - done.
  - set_solver.
  - exfalso. apply Hv. set_solver.
  - by apply (IH u).
Qed.
Lemma fine_alone st tr E m p E1 q t d E2 t' d' E3 d'' E4 : executes inp st tr → fine b h tr E m p →
  E = E1 ++ Does q t d :: E2 ++ Does q t' d' :: E3 ++ Does q t d'' :: E4 → t' = t.
Proof.
  intros He Hf HE. destruct (decide (t' = t)) as [|Hne]; [done|exfalso].
  assert (E = (E1 ++ Does q t d :: E2 ++ Does q t' d' :: E3) ++ Does q t d'' :: E4) as HE3 by (rewrite HE; simplify_list_eq; done).
  destruct (fine_split _ _ _ _ Hf _ _ _ _ _ HE3) as (tr3 & c & m3 & p3 & l3 & -> & Hf3 & Hp3).
  assert (E1 ++ Does q t d :: E2 ++ Does q t' d' :: E3 = (E1 ++ Does q t d :: E2) ++ Does q t' d' :: E3) as HE2 by (simplify_list_eq; done).
  destruct (fine_split _ _ _ _ Hf3 _ _ _ _ _ HE2) as (tr2 & c2 & m2 & p2 & l2 & -> & Hf2 & Hp2).
  destruct (fine_split _ _ _ _ Hf2 _ _ _ _ _ eq_refl) as (tr1 & c1 & m1 & p1 & l1 & -> & Hf1 & Hp1).
  apply (pending_begun _ _ _ _ _ _ _ _ Hf1), last_begun_in in Hp1.
  apply (pending_begun _ _ _ _ _ _ _ _ Hf2) in Hp2 as (a2 & b2 & H2 & L2).
  apply (pending_begun _ _ _ _ _ _ _ _ Hf3) in Hp3 as (a3 & b3 & H3 & L3).
  assert (EvHandle q t ∈ a2) as Hin2.
  { assert (EvHandle q t ∈ tr1 ++ c1) as Hin by set_solver. rewrite H2 in Hin.
    apply elem_of_app in Hin as [?|Hin]; [done|]. apply elem_of_cons in Hin as [[=]|Hin]; [by destruct Hne|]. by apply L2 in Hin. }
  rewrite H2 in H3. rewrite <-app_assoc in H3. simpl in H3.
  assert (EvHandle q t ∈ b2 ++ c2) as Hin3.
  { apply (app_cons_later _ _ _ _ _ _ H3); [congruence|]. intros Hin. by apply L3 in Hin. }
  pose proof (run_once_lem _ _ _ He) as Hnd. rewrite H2 in Hnd. unfold begun in Hnd. rewrite <-!app_assoc in Hnd. simpl in Hnd.
  rewrite omap_app in Hnd. apply NoDup_app in Hnd as (_ & Hnd & _). apply (Hnd t).
  - apply elem_of_begun. eauto.
  - simpl. right. rewrite app_assoc, omap_app. apply elem_of_app. left. apply elem_of_begun. eauto.
Qed.

(** The connection of a target, as the target sees it. *)
Lemma fine_open st tr E m p E1 q t d E2 s :
  executes inp st tr → fine b h tr E m p → bk_targets b !! q = Some (PgTarget s) → 0 ≤ pgs_retries s →
  E = E1 ++ Does q t d :: E2 →
  (∃ c i, Dials q c i ∈ E1 ∧ h_connects h q i = true) ∧ Closes q ∉ E1 ∧ ∀ c i, Dials q c i ∉ E2.
Proof.
  intros He Hf Hq Hr HE. destruct (fine_point _ _ _ _ q _ _ _ Hf HE eq_refl) as (F1 & F2 & HF & H1 & H2).
  destruct (connection_open _ _ _ _ _ _ _ _ _ _ He Hq Hr HF) as ((c & i & Hd & Hc) & Hcl & Hnd). split_and!.
  - exists c, i. split; [|done]. assert (Dials q c i ∈ on q F1) as Hin by (by apply elem_of_on).
    rewrite H1 in Hin. by apply elem_of_on in Hin as [].
  - intros Hin. apply Hcl. assert (Closes q ∈ on q E1) as Hin' by (by apply elem_of_on).
    rewrite <-H1 in Hin'. by apply elem_of_on in Hin' as [].
  - intros c' i' Hin. apply (Hnd c' i'). assert (Dials q c' i' ∈ on q E2) as Hin' by (by apply elem_of_on).
    assert (Dials q c' i' ∈ on q F2) as Hin2 by (rewrite H2; set_solver). by apply elem_of_on in Hin2 as [].
Qed.
Lemma fine_closed st tr E m p E1 q E2 : executes inp st tr → fine b h tr E m p → E = E1 ++ Closes q :: E2 →
  (∀ t d, Does q t d ∉ E2) ∧ Closes q ∉ E2.
Proof.
  intros He Hf HE. destruct (fine_point _ _ _ _ q _ _ _ Hf HE eq_refl) as (F1 & F2 & HF & H1 & H2).
  destruct (connection_closed _ _ _ _ _ _ _ He HF) as [Hd Hc]. 
  assert (∀ x, of_target q x → x ∈ E2 → x ∈ F2) as Hx.
  { intros x Ho Hin. assert (x ∈ on q E2) as Hin' by (by apply elem_of_on).
    assert (x ∈ on q F2) as Hin2 by (rewrite H2; set_solver). by apply elem_of_on in Hin2 as []. }
  split; [intros t d Hin|intros Hin]; [by apply (Hd t d), Hx|by apply Hc, Hx].
Qed.
Lemma fine_closes tr E m p q : fine b h tr E m p → Closes q ∈ effects b h tr → Closes q ∈ E.
Proof.
  intros Hf Hin. destruct (fine_on _ _ _ _ Hf) as (_ & _ & _ & Hon). specialize (Hon q).
  assert (Closes q ∈ on q (effects b h tr)) as Hin' by (by apply elem_of_on). rewrite <-Hon in Hin'.
  apply elem_of_app in Hin' as [[_ ?]%elem_of_on|[_ Hp]%elem_of_on]; [done|]. exfalso.
  destruct (fine_pending _ _ _ _ Hf q) as (t & _ & Hx); [intros Hz; rewrite Hz in Hp; by apply elem_of_nil in Hp|].
  by destruct (Hx _ Hp) as [?|[d ?]].
Qed.

(** What a target prints. *)
Lemma printed_on q E : printed_by q (on q E) = printed_by q E.
Proof.
  induction E as [|x E IH]; [done|]. unfold on. rewrite filter_cons. fold (on q E).
  change (x :: E) with ([x] ++ E). rewrite printed_by_app.
  destruct (decide (of_target q x)) as [Hx|Hx].
  - change (x :: on q E) with ([x] ++ on q E). by rewrite printed_by_app, IH.
  - rewrite IH. destruct x as [| | |q' t' d|]; try done. destruct d; try done. simpl in *. by rewrite decide_False.
Qed.
Lemma fine_printed tr E m p q : fine b h tr E m p →
  printed_by q E ++ printed_by q (p q) = printed_by q (effects b h tr).
Proof.
  intros Hf. destruct (fine_on _ _ _ _ Hf) as (_ & _ & _ & Hon).
  by rewrite <-(printed_on q E), <-(printed_on q (p q)), <-printed_by_app, Hon, printed_on.
Qed.

(** Nothing pending when the goroutines of the targets have stopped. *)
Lemma fine_stopped tr E m p q : fine b h tr E m p → EvStop q ∈ tr → (∀ tr1 tr2, tr = tr1 ++ EvStop q :: tr2 → ∀ t, EvHandle q t ∉ tr2) →
  p q = [].
Proof.
  intros Hf Hs Hn. destruct (p q) as [|x l] eqn:Hp; [done|]. exfalso.
  destruct (fine_pending _ _ _ _ Hf q) as (t & (tr1 & tr2 & -> & Hl) & _); [by rewrite Hp|].
  apply elem_of_app in Hs as [Hs|Hs].
  - apply elem_of_list_split in Hs as (a & c & ->). apply (Hn a (c ++ EvHandle q t :: tr2)) with (t := t); [by rewrite <-app_assoc|set_solver].
  - apply elem_of_cons in Hs as [?|Hs]; [done|]. by apply Hl in Hs.
Qed.

(** The run in which nothing comes between is one of them. *)
Lemma fine_drain tr E m p q l : fine b h tr E m p → p q = l → Crash ∉ E → Crash ∉ l →
  (∀ q', q' ≠ q → p q' = []) → ∃ p', fine b h tr (E ++ l) m p' ∧ ∀ q', p' q' = [].
Proof.
  revert E p. induction l as [|x l IH]; intros E p Hf Hp HE Hl Ho.
  - exists p. rewrite app_nil_r. split; [done|]. intros q'. destruct (decide (q' = q)) as [->|]; auto.
  - destruct (IH (E ++ [x]) (<[q := l]> p)) as (p' & Hf' & Hp').
    + by apply (fine_do b h tr E m p q x l).
    + apply fn_lookup_insert.
    + set_solver.
    + set_solver.
    + intros q' Hq'. rewrite fn_lookup_insert_ne by done. by apply Ho.
    + exists p'. by rewrite <-app_assoc in Hf'.
Qed.
Lemma fine_coarse tr : Crash ∉ effects b h tr →
  ∃ p, fine b h tr (effects b h tr) (acts b h ∅ tr).1 p ∧ ∀ q, p q = [].
Proof.
  induction tr as [|e tr IH] using rev_ind.
  { intros _. exists (λ _, []). split; [apply fine_init|done]. }
  rewrite effects_snoc. intros Hc. destruct IH as (p & Hf & Hp); [set_solver|].
  destruct (act b h (acts b h ∅ tr).1 e) as [m' l] eqn:Ha.
  assert ((acts b h ∅ (tr ++ [e])).1 = m') as ->.
  { rewrite acts_app. simpl. destruct (act b h (acts b h ∅ tr).1 e). by simplify_eq. }
  simpl in *. pose proof (fine_event b h tr _ _ p e m' l Hf ltac:(set_solver) (λ q _, Hp q) Ha) as Hf'.
  destruct (begins e) as [q|] eqn:Hb; [|by exists p].
  apply (fine_drain _ _ _ _ q l Hf'); [apply fn_lookup_insert|set_solver|set_solver|].
  intros q' Hq'. rewrite fn_lookup_insert_ne by done. apply Hp.
Qed.
End fine.
