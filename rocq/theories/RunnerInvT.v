(** Runner proofs, part 2: what the trace says about each target and about the
    result of Run. *)
From stdpp Require Import gmap sets list strings numbers relations.
From Verif Require Import GoBase GoBaseProofs DagModel DagSpec SchedModel SchedSpec
  RunnerModel RunnerSpec RunnerInvA.

Definition running_of (pc : option target_pc) : list string :=
  match pc with Some (THandle t) => [t] | _ => [] end.
Definition stopped_of (pc : option target_pc) : bool :=
  match pc with Some TWg | Some TDone => true | _ => false end.
Definition leaving (pc : target_pc) : bool :=
  match pc with TStop | TWg | TDone => true | _ => false end.

Definition sends (pc : target_pc) (t : string) (e : option go_error) : Prop := pc = TSend t e.

Section inv.
Context (inp : run_input).

Definition main_err (m : main_pc) : option go_error :=
  match m with
  | MFail e => Some e
  | MDrain r | MDefer r | MReturned r => r
  | _ => None
  end.

Record InvT (st : rstate) (tr : list event) : Prop := {
  t_alt q : begun_on q tr = ended_on q tr ++ running_of (r_targets st !! q);
  t_result q t e : EvHandled q t e ∈ tr → e = ri_handle inp t ∧ EvHandle q t ∈ tr;
  t_start q : EvStart q ∈ tr ↔ q ∈ dom (r_targets st);
  t_sent q t e : r_targets st !! q = Some (TSend t e) → EvHandled q t e ∈ tr;
  t_ended t e : (t, e) ∈ ch_buf (r_ended st) → ∃ q, EvHandled q t e ∈ tr;
  t_why q pc : r_targets st !! q = Some pc → leaving pc →
    q ∈ r_tclosed st ∨ ∃ t e, EvHandled q t (Some e) ∈ tr;
  t_stop q : EvStop q ∈ tr ↔ stopped_of (r_targets st !! q);
  t_fail q e : EvStartFail q e ∈ tr →
    (r_main st = MDefer (Some e) ∨ r_main st = MReturned (Some e)) ∧ q ∉ dom (r_targets st);
  t_err e : main_err (r_main st) = Some e →
    (∃ q, EvStartFail q e ∈ tr) ∨
    ((∃ q t, EvHandled q t (Some e) ∈ tr) ∧ dom (r_targets st) = dom (ri_limits inp));
  t_ret r : EvReturn r ∈ tr ↔ r_main st = MReturned r;
}.

Lemma begun_on_app q tr1 tr2 : begun_on q (tr1 ++ tr2) = begun_on q tr1 ++ begun_on q tr2.
Proof. unfold begun_on. by rewrite omap_app. Qed.
Lemma ended_on_app q tr1 tr2 : ended_on q (tr1 ++ tr2) = ended_on q tr1 ++ ended_on q tr2.
Proof. unfold ended_on. by rewrite omap_app. Qed.

Lemma InvT_init order : InvT (run_init order) [].
Proof.
  split; simpl; intros; try set_solver; try (by rewrite lookup_empty in *).
Qed.

Lemma InvT_quiet st st' tr :
  r_targets st' = r_targets st → r_main st' = r_main st → r_ended st' = r_ended st →
  (∀ q, q ∈ r_tclosed st → q ∈ r_tclosed st') → InvT st tr → InvT st' (tr ++ []).
Proof.
  intros H1 H2 H3 H4 []. rewrite app_nil_r. split; rewrite ?H1, ?H2, ?H3; try done.
  intros q pc Hq Hl. destruct (t_why0 q pc Hq Hl); auto.
Qed.

(** A main step that only changes main's position and takes from [ended]. *)
Lemma InvT_main_quiet st st' tr :
  r_targets st' = r_targets st → (∀ x, x ∈ ch_buf (r_ended st') → x ∈ ch_buf (r_ended st)) →
  r_tclosed st' = r_tclosed st →
  (∀ q e, EvStartFail q e ∉ tr) ∨ main_err (r_main st) = main_err (r_main st') →
  (∀ r, r_main st ≠ MReturned r) → (∀ r, r_main st' ≠ MReturned r) →
  (∀ q e, EvStartFail q e ∈ tr → r_main st' = MDefer (Some e)) →
  (∀ e, main_err (r_main st') = Some e → main_err (r_main st) = Some e ∨
    ((∃ q t, EvHandled q t (Some e) ∈ tr) ∧ dom (r_targets st) = dom (ri_limits inp))) →
  InvT st tr → InvT st' (tr ++ []).
Proof.
  intros H1 H2 H3 H4 H5 H6 H7 H8 []. rewrite app_nil_r. split; rewrite ?H1, ?H3; try done.
  - eauto.
  - intros q e Hin. destruct (t_fail0 q e Hin). split; [|done]. left. eauto.
  - intros e He. destruct (H8 e He); auto.
  - intros r. rewrite t_ret0. split; intros Hr; exfalso; [by apply (H5 r)|by apply (H6 r)].
Qed.

Ltac ev_app := rewrite elem_of_app, elem_of_list_singleton.

Lemma InvT_main st st' tr ev :
  InvA inp st → InvT st tr → main_step inp st = Some (st', ev) → InvT st' (tr ++ option_list ev).
Proof.
  intros [Hp Hn Hm Hr Ho] Hi Hs.
  destruct st as [m sc ro ts dn nl en rd tc pn]. simpl in *.
  unfold main_step in Hs. simpl in Hs. subst nl pn.
  assert (∀ q e, EvStartFail q e ∈ tr → m = MDefer (Some e) ∨ m = MReturned (Some e)) as Hsf.
  { intros q e H. by destruct (t_fail _ _ Hi q e H). }
  destruct m as [[|q l]| |t|e|r|r|r].
  - injection Hs as <- <-. eapply InvT_main_quiet; [..|exact Hi]; simpl; try done; naive_solver.
  - destruct Hm as (Hd & -> & Hnd & Hl & Hdis). apply NoDup_cons in Hnd as [Hq Hnd].
    assert (ts !! q = None) as Hqn by (apply not_elem_of_dom, Hdis; by left).
    destruct Hi. simpl in *.
    destruct (ri_start inp q) as [e|]; injection Hs as <- <-; split; simpl.
    + intros q'. rewrite begun_on_app, ended_on_app. simpl. by rewrite !app_nil_r.
    + intros q' t' e'. rewrite !elem_of_app, !elem_of_list_singleton. naive_solver.
    + intros q'. ev_app. naive_solver.
    + intros. apply elem_of_app. eauto.
    + intros t' e' H. destruct (t_ended0 _ _ H) as [q' ?]. exists q'. apply elem_of_app. eauto.
    + intros q' pc H1 H2. destruct (t_why0 _ _ H1 H2) as [?|(t' & e' & ?)]; [by left|].
      right. exists t', e'. apply elem_of_app; eauto.
    + intros q'. ev_app. rewrite t_stop0. naive_solver.
    + intros q' e'. ev_app. intros [H|[= -> ->]].
      * destruct (t_fail0 _ _ H) as [[?|?] _]; done.
      * split; [by left|]. by apply not_elem_of_dom.
    + intros e' [= <-]. left. exists q. ev_app. by right.
    + intros r. ev_app. rewrite t_ret0. naive_solver.
    + intros q'. rewrite begun_on_app, ended_on_app. simpl. rewrite !app_nil_r.
      destruct (decide (q = q')) as [<-|Hne].
      * rewrite lookup_insert. rewrite t_alt0, Hqn. done.
      * by rewrite lookup_insert_ne.
    + intros q' t' e'. rewrite !elem_of_app, !elem_of_list_singleton. naive_solver.
    + intros q'. ev_app. rewrite dom_insert_L, t_start0. set_solver.
    + intros q' t' e' [[<- ?]|[? ?]]%lookup_insert_Some; [done|]. apply elem_of_app. eauto.
    + intros t' e' H. destruct (t_ended0 _ _ H) as [q' ?]. exists q'. apply elem_of_app. eauto.
    + intros q' pc [[<- <-]|[? H1]]%lookup_insert_Some H2; [done|].
      destruct (t_why0 _ _ H1 H2) as [?|(t' & e' & ?)]; [by left|].
      right. exists t', e'. apply elem_of_app; eauto.
    + intros q'. ev_app. rewrite t_stop0. destruct (decide (q = q')) as [<-|Hne].
      * rewrite lookup_insert, Hqn. simpl. naive_solver.
      * rewrite lookup_insert_ne by done. naive_solver.
    + intros q' e'. ev_app. intros [H|?]; [|done]. destruct (t_fail0 _ _ H) as [[?|?] _]; done.
    + done.
    + intros r. ev_app. rewrite t_ret0. naive_solver.
  - unfold recv in Hs. destruct (ch_buf en) as [|[t [e|]] eb] eqn:Heb; simpl in Hs.
    + destruct (ch_closed en) eqn:Hc; [|done]. injection Hs as <- <-.
      eapply InvT_main_quiet; [..|exact Hi]; simpl; try done; naive_solver.
    + injection Hs as <- <-. eapply InvT_main_quiet; [..|exact Hi]; simpl; try done; try naive_solver.
      * intros x Hx. rewrite Heb. by right.
      * intros e' [= <-]. right. split; [|naive_solver].
        destruct (t_ended _ _ Hi t (Some e)) as [q Hq]; [simpl; rewrite Heb; by left|]. eauto.
    + injection Hs as <- <-. eapply InvT_main_quiet; [..|exact Hi]; simpl; try done; try naive_solver.
      intros x Hx. rewrite Heb. by right.
  - destruct Hm as (Hd & Hnr & Hdom). rewrite Hd in Hs. unfold send in Hs. rewrite Hd in Hs.
    destruct (decide _); [|done]. injection Hs as <- <-.
    eapply InvT_main_quiet; [..|exact Hi]; simpl; try done; naive_solver.
  - destruct Hm as (Hd & Hnr & Hdom). injection Hs as <- <-. unfold close_done. simpl.
    rewrite Hd. eapply InvT_main_quiet; [..|exact Hi]; simpl; try done; naive_solver.
  - unfold recv in Hs. destruct (ch_buf en) as [|[t e] eb] eqn:Heb; simpl in Hs.
    + destruct (ch_closed en) eqn:Hc; [|done]. injection Hs as <- <-.
      eapply InvT_main_quiet; [..|exact Hi]; simpl; try done; naive_solver.
    + injection Hs as <- <-. eapply InvT_main_quiet; [..|exact Hi]; simpl; try done; try naive_solver.
      intros x Hx. rewrite Heb. by right.
  - injection Hs as <- <-.
    assert (r_targets (close_done (RState (MDefer r) sc ro ts dn (ch_closed dn) en rd tc false)) = ts ∧
      r_ended (close_done (RState (MDefer r) sc ro ts dn (ch_closed dn) en rd tc false)) = en ∧
      r_tclosed (close_done (RState (MDefer r) sc ro ts dn (ch_closed dn) en rd tc false)) = tc)
      as (E1 & E2 & E3).
    { unfold close_done. simpl. destruct (ch_closed dn) eqn:Hd; simpl; rewrite ?Hd; done. }
    destruct Hi. simpl in *. split; simpl; rewrite ?E1, ?E2, ?E3.
    + intros q'. rewrite begun_on_app, ended_on_app. simpl. by rewrite !app_nil_r.
    + intros q' t' e'. rewrite !elem_of_app, !elem_of_list_singleton. naive_solver.
    + intros q'. ev_app. naive_solver.
    + intros. apply elem_of_app. eauto.
    + intros t' e' H. destruct (t_ended0 _ _ H) as [q' ?]. exists q'. apply elem_of_app. eauto.
    + intros q' pc H1 H2. destruct (t_why0 _ _ H1 H2) as [?|(t' & e' & ?)]; [by left|].
      right. exists t', e'. apply elem_of_app; eauto.
    + intros q'. ev_app. rewrite t_stop0. naive_solver.
    + intros q' e'. ev_app. intros [H|?]; [|done].
      destruct (t_fail0 _ _ H) as [[[= ->]|?] ?]; [|done]. split; [by right|done].
    + intros e' ->. destruct (t_err0 e' eq_refl) as [(q & ?)|((q & t & ?) & ?)].
      * left. exists q. apply elem_of_app. eauto.
      * right. split; [|done]. exists q, t. apply elem_of_app. eauto.
    + intros r'. ev_app. rewrite t_ret0. naive_solver.
  - done.
Qed.

Lemma InvT_sched st st' tr ev c :
  InvA inp st → InvT st tr → sched_step inp c st = Some (st', ev) → InvT st' (tr ++ option_list ev).
Proof.
  intros [Hp Hn Hm Hr Ho] Hi Hs. unfold sched_step in Hs.
  destruct (r_sched st) as [|s [|x l]|s| |].
  - destruct (sched_new _ _ _) as [[e|[s ready]]|]; [..|done]; injection Hs as <- <-;
      by apply InvT_quiet with st.
  - injection Hs as <- <-. by apply InvT_quiet with st.
  - destruct (send _ _ _); [|done|]; injection Hs as <- <-; by apply InvT_quiet with st.
  - destruct (recv _) as [t c'| |]; [|done|].
    + destruct (sched_next _ _ _) as [s' [ready|]]; injection Hs as <- <-; by apply InvT_quiet with st.
    + injection Hs as <- <-. by apply InvT_quiet with st.
  - destruct (ch_closed (r_ready st)); injection Hs as <- <-; by apply InvT_quiet with st.
  - done.
Qed.

(** A change of one target's position without an event. *)
Lemma InvT_target_quiet st st' tr q pc pc' :
  r_main st' = r_main st → r_targets st !! q = Some pc → r_targets st' = <[q:=pc']> (r_targets st) →
  (∀ x, x ∈ ch_buf (r_ended st') → x ∈ ch_buf (r_ended st) ∨ (∃ t e, x = (t, e) ∧ pc = TSend t e)) →
  r_tclosed st' = r_tclosed st →
  running_of (Some pc) = running_of (Some pc') → stopped_of (Some pc) = stopped_of (Some pc') →
  (∀ t e, pc' ≠ TSend t e) →
  (leaving pc' → leaving pc ∨ q ∈ r_tclosed st ∨ ∃ t e, pc = TSend t (Some e)) →
  InvT st tr → InvT st' (tr ++ []).
Proof.
  intros H1 H2 H3 H4 H5 H6 H7 H8 H9 []. rewrite app_nil_r.
  assert (dom (r_targets st') = dom (r_targets st)) as Hdom.
  { rewrite H3. by eapply dom_insert_eq. }
  split; rewrite ?H1, ?H5, ?Hdom, ?H3; try done.
  - intros q'. rewrite t_alt0. destruct (decide (q = q')) as [<-|Hne].
    + by rewrite lookup_insert, H2, H6.
    + by rewrite lookup_insert_ne.
  - intros q' t' e' [[<- ?]|[? ?]]%lookup_insert_Some; [by apply H8 in H|]. eauto.
  - intros t' e' [H|(t & e & [= -> ->] & ->)]%H4; eauto.
  - intros q' pc'' [[<- <-]|[? Hq]]%lookup_insert_Some Hl; [|eauto].
    destruct (H9 Hl) as [?|[?|(t & e & ->)]]; [eauto|eauto|]. right. exists t, e. eauto.
  - intros q'. rewrite t_stop0. destruct (decide (q = q')) as [<-|Hne].
    + by rewrite lookup_insert, H2, H7.
    + by rewrite lookup_insert_ne.
Qed.

Lemma InvT_router st st' tr ev o :
  InvA inp st → InvT st tr → router_step inp o st = Some (st', ev) → InvT st' (tr ++ option_list ev).
Proof.
  intros [Hp Hn Hm Hr Ho] Hi Hs. unfold router_step in Hs.
  destruct (r_router st) as [| |q t|[|q l]| |]; simpl in *.
  - done.
  - destruct (recv _) as [[q t] c'| |]; [|done|]; injection Hs as <- <-; by apply InvT_quiet with st.
  - destruct (r_targets st !! q) as [pc|] eqn:Hq; [|done].
    destruct (decide (q ∈ r_tclosed st)) as [?|_]; [injection Hs as <- <-; by apply InvT_quiet with st|].
    destruct pc; try done. injection Hs as <- <-.
    eapply InvT_target_quiet; [..|exact Hi]; try done. by left.
  - injection Hs as <- <-. by apply InvT_quiet with st.
  - destruct (decide _); injection Hs as <- <-; apply InvT_quiet with st; try done.
    simpl. set_solver.
  - destruct (decide _); [|done]. destruct (ch_closed (r_ended st)) eqn:Hce; injection Hs as <- <-.
    + by apply InvT_quiet with st.
    + destruct Hi. rewrite app_nil_r. split; simpl; try done.
  - done.
Qed.

Lemma InvT_target st st' tr ev q :
  InvA inp st → InvT st tr → target_step inp q st = Some (st', ev) → InvT st' (tr ++ option_list ev).
Proof.
  intros [Hp Hn Hm Hr Ho] Hi Hs.
  unfold target_step in Hs.
  destruct (r_targets st !! q) as [pc|] eqn:Hq; [|done].
  assert (∀ pc', dom (<[q:=pc']> (r_targets st)) = dom (r_targets st)) as Hdom.
  { intros pc'. by eapply dom_insert_eq. }
  destruct pc as [|t|t|t e| | |]; simpl in *.
  - destruct (decide _); [|done]. injection Hs as <- <-.
    eapply InvT_target_quiet; [..|exact Hi]; try done; eauto.
  - injection Hs as <- <-. destruct Hi. split; simpl; rewrite ?Hdom; try done.
    + intros q'. rewrite begun_on_app, ended_on_app. simpl. rewrite app_nil_r.
      rewrite t_alt0. destruct (decide (q = q')) as [<-|Hne].
      * rewrite lookup_insert, Hq. simpl. by rewrite app_nil_r.
      * by rewrite lookup_insert_ne, app_nil_r.
    + intros q' t' e'. rewrite !elem_of_app, !elem_of_list_singleton. naive_solver.
    + intros q'. ev_app. naive_solver.
    + intros q' t' e' [[<- ?]|[? ?]]%lookup_insert_Some; [done|]. apply elem_of_app. eauto.
    + intros t' e' H. destruct (t_ended0 _ _ H) as [q' ?]. exists q'. apply elem_of_app. eauto.
    + intros q' pc [[<- <-]|[? H1]]%lookup_insert_Some H2; [done|].
      destruct (t_why0 _ _ H1 H2) as [?|(t' & e' & ?)]; [by left|].
      right. exists t', e'. apply elem_of_app; eauto.
    + intros q'. ev_app. rewrite t_stop0. destruct (decide (q = q')) as [<-|Hne].
      * rewrite lookup_insert, Hq. simpl. naive_solver.
      * rewrite lookup_insert_ne by done. naive_solver.
    + intros q' e'. ev_app. naive_solver.
    + intros e He. destruct (t_err0 e He) as [(q' & ?)|((q' & t' & ?) & ?)].
      * left. exists q'. apply elem_of_app. eauto.
      * right. split; [|done]. exists q', t'. apply elem_of_app. eauto.
    + intros r. ev_app. naive_solver.
  - injection Hs as <- <-. destruct Hi. split; simpl; rewrite ?Hdom; try done.
    + intros q'. rewrite begun_on_app, ended_on_app. simpl. rewrite app_nil_r.
      rewrite t_alt0. destruct (decide (q = q')) as [<-|Hne].
      * rewrite lookup_insert, Hq. simpl. by rewrite app_nil_r.
      * by rewrite lookup_insert_ne, app_nil_r.
    + intros q' t' e'. rewrite !elem_of_app, !elem_of_list_singleton.
      intros [H|[= -> -> ->]]; [naive_solver|]. split; [done|]. left.
      assert (t ∈ begun_on q tr) as Hb.
      { rewrite t_alt0, Hq. apply elem_of_app. right. by left. }
      unfold begun_on in Hb. apply elem_of_list_omap in Hb as (x & Hx & Hx').
      destruct x; try done. destruct (decide _); naive_solver.
    + intros q'. ev_app. naive_solver.
    + intros q' t' e' [[<- [= <- <-]]|[? ?]]%lookup_insert_Some; ev_app; [by right|left; eauto].
    + intros t' e' H. destruct (t_ended0 _ _ H) as [q' ?]. exists q'. apply elem_of_app. eauto.
    + intros q' pc [[<- <-]|[? H1]]%lookup_insert_Some H2; [done|].
      destruct (t_why0 _ _ H1 H2) as [?|(t' & e' & ?)]; [by left|].
      right. exists t', e'. apply elem_of_app; eauto.
    + intros q'. ev_app. rewrite t_stop0. destruct (decide (q = q')) as [<-|Hne].
      * rewrite lookup_insert, Hq. simpl. naive_solver.
      * rewrite lookup_insert_ne by done. naive_solver.
    + intros q' e'. ev_app. naive_solver.
    + intros e He. destruct (t_err0 e He) as [(q' & ?)|((q' & t' & ?) & ?)].
      * left. exists q'. apply elem_of_app. eauto.
      * right. split; [|done]. exists q', t'. apply elem_of_app. eauto.
    + intros r. ev_app. naive_solver.
  - unfold send in Hs. destruct (ch_closed (r_ended st)) eqn:Hc.
    { injection Hs as <- <-. by apply InvT_quiet with st. }
    destruct (decide _); [|done]. injection Hs as <- <-.
    eapply InvT_target_quiet; [..|exact Hi]; simpl; try done.
    + intros x. rewrite elem_of_app, elem_of_list_singleton. intros [?| ->]; eauto.
    + by destruct e.
    + by destruct e.
    + by destruct e.
    + destruct e; [|done]. eauto.
  - injection Hs as <- <-. destruct Hi. split; simpl; rewrite ?Hdom; try done.
    + intros q'. rewrite begun_on_app, ended_on_app. simpl. rewrite !app_nil_r.
      rewrite t_alt0. destruct (decide (q = q')) as [<-|Hne].
      * rewrite lookup_insert, Hq. done.
      * by rewrite lookup_insert_ne.
    + intros q' t' e'. rewrite !elem_of_app, !elem_of_list_singleton. naive_solver.
    + intros q'. ev_app. naive_solver.
    + intros q' t' e' [[<- ?]|[? ?]]%lookup_insert_Some; [done|]. apply elem_of_app. eauto.
    + intros t' e' H. destruct (t_ended0 _ _ H) as [q' ?]. exists q'. apply elem_of_app. eauto.
    + intros q' pc [[<- <-]|[? H1]]%lookup_insert_Some H2.
      * destruct (t_why0 _ _ Hq I) as [?|(t' & e' & ?)]; [by left|].
        right. exists t', e'. apply elem_of_app; eauto.
      * destruct (t_why0 _ _ H1 H2) as [?|(t' & e' & ?)]; [by left|].
        right. exists t', e'. apply elem_of_app; eauto.
    + intros q'. ev_app. rewrite t_stop0. destruct (decide (q = q')) as [<-|Hne].
      * rewrite lookup_insert, Hq. simpl. naive_solver.
      * rewrite lookup_insert_ne by done. naive_solver.
    + intros q' e'. ev_app. naive_solver.
    + intros e He. destruct (t_err0 e He) as [(q' & ?)|((q' & t' & ?) & ?)].
      * left. exists q'. apply elem_of_app. eauto.
      * right. split; [|done]. exists q', t'. apply elem_of_app. eauto.
    + intros r. ev_app. naive_solver.
  - injection Hs as <- <-.
    eapply InvT_target_quiet; [..|exact Hi]; try done; eauto.
  - done.
Qed.

Lemma InvT_step st st' tr ev :
  InvA inp st → InvT st tr → steps_to inp st ev st' → InvT st' (tr ++ option_list ev).
Proof.
  intros Ha Hi (a & Hok & Hs). unfold run_step in Hs. destruct (r_panic st); [done|].
  destruct a; simpl in *; eauto using InvT_main, InvT_sched, InvT_router, InvT_target.
Qed.

Lemma executes_InvT st tr : executes inp st tr → InvT st tr.
Proof. induction 1; eauto using InvT_init, InvT_step, executes_InvA. Qed.
End inv.
