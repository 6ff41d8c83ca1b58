(** Runner proofs, part 1: which channels are closed when; no panics. *)
From stdpp Require Import gmap sets list strings numbers relations.
From Verif Require Import GoBase GoBaseProofs DagModel DagSpec SchedModel SchedSpec
  RunnerModel RunnerSpec.

Definition tgt_done (m : gmap string target_pc) : Prop := map_Forall (λ _ pc, pc = TDone) m.

Section inv.
Context (inp : run_input).

Definition main_ok (m : main_pc) (done_closed : bool) (ro : router_pc)
    (ts : gmap string target_pc) (eb : list (string * option go_error)) : Prop :=
  match m with
  | MStart l => done_closed = false ∧ ro = RNotStarted ∧ NoDup l ∧
                (∀ q, q ∈ dom (ri_limits inp) ↔ q ∈ l ∨ q ∈ dom ts) ∧ (∀ q, q ∈ l → q ∉ dom ts)
  | MLoop | MSend _ | MFail _ =>
    done_closed = false ∧ ro ≠ RNotStarted ∧ dom ts = dom (ri_limits inp)
  | MDrain None => done_closed = false ∧ ro = RDone ∧ eb = [] ∧ dom ts = dom (ri_limits inp)
  | MDrain (Some _) => done_closed = true ∧ ro ≠ RNotStarted ∧ dom ts = dom (ri_limits inp)
  | MDefer None => done_closed = false ∧ ro = RDone ∧ eb = [] ∧ dom ts = dom (ri_limits inp)
  | MDefer (Some _) =>
    (done_closed = true ∧ ro = RDone ∧ eb = [] ∧ dom ts = dom (ri_limits inp)) ∨
    (done_closed = false ∧ ro ≠ RNotStarted ∧ dom ts ⊂ dom (ri_limits inp))
  | MReturned None => done_closed = true ∧ ro = RDone ∧ eb = [] ∧ dom ts = dom (ri_limits inp)
  | MReturned (Some _) => done_closed = true ∧
    ((ro = RDone ∧ eb = [] ∧ dom ts = dom (ri_limits inp)) ∨
     (ro ≠ RNotStarted ∧ dom ts ⊂ dom (ri_limits inp)))
  end.

Definition router_ok (ro : router_pc) (ts : gmap string target_pc) (tc : gset string)
    (rd : chan (string * string)) (ended_closed : bool) : Prop :=
  match ro with
  | RNotStarted | RRecv | RSend _ _ => tc = ∅ ∧ ended_closed = false
  | RClose l => ch_closed rd = true ∧ ch_buf rd = [] ∧ ended_closed = false ∧ NoDup l ∧
                (∀ q, q ∈ dom ts ↔ q ∈ l ∨ q ∈ tc) ∧ (∀ q, q ∈ l → q ∉ tc)
  | RWait => ch_closed rd = true ∧ ch_buf rd = [] ∧ ended_closed = false ∧ tc = dom ts
  | RDone => ch_closed rd = true ∧ ch_buf rd = [] ∧ ended_closed = true ∧ tc = dom ts ∧ tgt_done ts
  end.

Record InvA (st : rstate) : Prop := {
  a_panic : r_panic st = false;
  a_nil : r_done_nil st = ch_closed (r_done st);
  a_main : main_ok (r_main st) (ch_closed (r_done st)) (r_router st) (r_targets st)
             (ch_buf (r_ended st));
  a_ready : ch_closed (r_ready st) = true ↔ r_sched st = SDone;
  a_router : router_ok (r_router st) (r_targets st) (r_tclosed st) (r_ready st)
               (ch_closed (r_ended st));
}.

Lemma InvA_init order : range_of (ri_limits inp) order → InvA (run_init order).
Proof.
  intros Ho. split; simpl; try done. split; [done|]. split; [done|].
  unfold range_of in Ho. split; [rewrite Ho; apply NoDup_elements|]. split.
  - intros q. rewrite Ho. rewrite elem_of_elements, dom_empty_L. set_solver.
  - intros q. rewrite dom_empty_L. set_solver.
Qed.

(** Once closed-down, a target stays so. *)
Lemma tgt_done_insert ts q pc : tgt_done ts → ts !! q = Some pc → pc = TDone.
Proof. intros H Hq. by apply (H q pc). Qed.

Lemma dom_insert_eq (ts : gmap string target_pc) q pc pc' :
  ts !! q = Some pc → dom (<[q:=pc']> ts) = dom ts.
Proof.
  intros H. rewrite dom_insert_L. apply elem_of_dom_2 in H. set_solver.
Qed.

Ltac inv_step H :=
  repeat match type of H with
  | context [match ?x with _ => _ end] => destruct x eqn:?; simplify_eq/=
  end; simplify_eq/=.

Lemma InvA_main st st' ev : InvA st → main_step inp st = Some (st', ev) → InvA st'.
Proof.
  destruct st as [m sc ro ts dn nl en rd tc pn]. intros [Hp Hn Hm Hr Ho] Hs. simpl in *.
  unfold main_step in Hs. simpl in Hs. subst nl pn.
  destruct m as [[|q l]| |t|e|r|r|r].
  - injection Hs as <- <-. destruct Hm as (Hd & -> & _ & Hl & _).
    split; simpl; try done. split; [done|]. split; [done|].
    apply set_eq. intros q. rewrite Hl. set_solver.
  - destruct Hm as (Hd & -> & Hnd & Hl & Hdis). apply NoDup_cons in Hnd as [Hq Hnd].
    destruct (ri_start inp q) as [e|]; injection Hs as <- <-; split; simpl; try done.
    + right. split; [done|]. split; [done|]. split.
      * intros x Hx. apply Hl. by right.
      * intros Hc. assert (q ∈ dom ts) as Hx by (apply Hc, Hl; left; by left).
        by apply (Hdis q); [left|].
    + split; [done|]. split; [done|]. split; [done|]. split.
      * intros x. rewrite dom_insert_L, Hl. set_solver.
      * intros x Hx. rewrite dom_insert_L. specialize (Hdis x). set_solver.
  - unfold recv in Hs. destruct (ch_buf en) as [|[t [e|]] eb] eqn:Heb; simpl in Hs.
    + destruct (ch_closed en) eqn:Hc; [|done]. injection Hs as <- <-.
      split; simpl; try done; [|by rewrite Hc]. destruct Hm as (Hd & Hnr & Hdom).
      destruct ro; simpl in Ho; try (destruct Ho as (? & ? & ? & _); congruence); try (destruct Ho; congruence).
      done.
    + injection Hs as <- <-. split; simpl; try done.
    + injection Hs as <- <-. split; simpl; try done.
  - destruct Hm as (Hd & Hnr & Hdom). rewrite Hd in Hs. unfold send in Hs. rewrite Hd in Hs.
    destruct (decide _); [|done]. injection Hs as <- <-. split; simpl; try done.
  - destruct Hm as (Hd & Hnr & Hdom). injection Hs as <- <-. unfold close_done. simpl.
    rewrite Hd. split; simpl; try done.
  - unfold recv in Hs. destruct (ch_buf en) as [|[t e] eb] eqn:Heb; simpl in Hs.
    + destruct (ch_closed en) eqn:Hc; [|done]. injection Hs as <- <-.
      split; simpl; try done; [|by rewrite Hc]. rewrite Heb. destruct r as [e|].
      * destruct Hm as (Hd & Hnr & Hdom).
        destruct ro; simpl in Ho; try (destruct Ho as (? & ? & ? & _); congruence); try (destruct Ho; congruence).
        by left.
      * naive_solver.
    + injection Hs as <- <-. split; simpl; try done. destruct r; [done|]. naive_solver.
  - injection Hs as <- <-. unfold close_done. simpl. destruct r as [e|].
    + destruct (ch_closed (dn)) eqn:Hd; split; simpl; try done; rewrite ?Hd; try done; naive_solver.
    + destruct Hm as (Hd & Hm). rewrite Hd. split; simpl; try done.
  - done.
Qed.

Lemma InvA_sched st st' ev c : InvA st → sched_step inp c st = Some (st', ev) → InvA st'.
Proof.
  destruct st as [m sc ro ts dn nl en rd tc pn]. intros [Hp Hn Hm Hr Ho] Hs. simpl in *.
  unfold sched_step in Hs. simpl in Hs. subst nl pn.
  assert (sc ≠ SDone → ch_closed rd = false) as Hopen.
  { intros H. destruct (ch_closed rd); [|done]. exfalso. by apply H, Hr. }
  assert (sc ≠ SDone → ∀ rd', router_ok ro ts tc rd' (ch_closed en)) as Hro.
  { intros H rd'. destruct ro; simpl in *; rewrite ?(Hopen H) in Ho; try done; by destruct Ho. }
  destruct sc as [|s [|x l]|s| |].
  - destruct (sched_new _ _ _) as [[e|[s ready]]|]; [..|done]; injection Hs as <- <-;
      split; simpl; try done; rewrite Hopen; done.
  - injection Hs as <- <-. split; simpl; try done. rewrite Hopen; done.
  - unfold send in Hs. rewrite (Hopen ltac:(done)) in Hs. destruct (decide _); [|done].
    injection Hs as <- <-. split; simpl; try done. by apply Hro.
  - unfold recv in Hs. destruct (ch_buf dn) as [|t l]; simpl in Hs.
    + destruct (ch_closed dn) eqn:Hd; [|done]. injection Hs as <- <-.
      split; simpl; try done; try (by rewrite Hd). rewrite Hopen; done.
    + destruct (sched_next _ _ _) as [s' [ready|]]; injection Hs as <- <-;
        (split; simpl; try done; rewrite Hopen; done).
  - rewrite (Hopen ltac:(done)) in Hs. injection Hs as <- <-. split; simpl; try done. by apply Hro.
  - done.
Qed.

Lemma InvA_router st st' ev o :
  ok_map_ranger o → InvA st → router_step inp o st = Some (st', ev) → InvA st'.
Proof.
  intros Hok.
  destruct st as [m sc ro ts dn nl en rd tc pn]. intros [Hp Hn Hm Hr Ho] Hs. simpl in *.
  unfold router_step in Hs. simpl in Hs. subst nl pn.
  assert (∀ ro' eb, ro ≠ RDone → ro ≠ RNotStarted → ro' ≠ RNotStarted →
    main_ok m (ch_closed dn) ro' ts eb) as Hmain.
  { intros ro' eb H1 H2 H3. destruct m as [l| | | |[?|]|[?|]|[?|]]; simpl in *; naive_solver. }
  destruct ro as [| |q t|[|q l]| |]; simpl in *.
  - done.
  - unfold recv in Hs. destruct (ch_buf rd) as [|[q t] l] eqn:Hb; simpl in Hs.
    + destruct (ch_closed rd) eqn:Hc; [|done]. injection Hs as <- <-. destruct Ho as [-> Hec].
      split; simpl; try done; [by apply Hmain|by rewrite Hc|]. split; [done|]. split; [done|].
      split; [done|]. pose proof (Hok ts) as Hts. unfold range_of in Hts.
      split; [rewrite Hts; apply NoDup_elements|]. split.
      * intros q. rewrite Hts, elem_of_elements. set_solver.
      * set_solver.
    + injection Hs as <- <-. split; simpl; try done. by apply Hmain.
  - destruct (ts !! q) as [pc|] eqn:Hq; [|done]. destruct Ho as [-> Hec].
    destruct (decide (q ∈ ∅)) as [?|_]; [set_solver|]. destruct pc; try done. injection Hs as <- <-.
    split; simpl; try done. pose proof (dom_insert_eq ts q _ (TGot t) Hq) as Hdom.
    destruct m as [l| | | |[?|]|[?|]|[?|]]; simpl in *; rewrite ?Hdom; naive_solver.
  - injection Hs as <- <-. destruct Ho as (H1 & H2 & H3 & _ & H4 & _).
    split; simpl; try done; [by apply Hmain|]. split; [done|]. split; [done|]. split; [done|].
    apply set_eq. intros q. rewrite H4. set_solver.
  - destruct Ho as (H1 & H2 & H3 & Hnd & H4 & H5). apply NoDup_cons in Hnd as [Hq Hnd].
    destruct (decide (q ∈ tc)) as [Hc|_]; [exfalso; apply (H5 q); [by left|done]|].
    injection Hs as <- <-. split; simpl; try done; [by apply Hmain|].
    split; [done|]. split; [done|]. split; [done|]. split; [done|]. split.
    + intros x. rewrite H4. set_solver.
    + intros x Hx. specialize (H5 x). set_solver.
  - destruct Ho as (H1 & H2 & H3 & ->). rewrite H3 in Hs.
    destruct (decide _) as [Hd|]; [|done]. injection Hs as <- <-. split; simpl; try done.
    by apply Hmain.
  - done.
Qed.

Lemma InvA_target st st' ev q : InvA st → target_step inp q st = Some (st', ev) → InvA st'.
Proof.
  destruct st as [m sc ro ts dn nl en rd tc pn]. intros [Hp Hn Hm Hr Ho] Hs. simpl in *.
  unfold target_step in Hs. simpl in Hs. subst nl pn.
  destruct (ts !! q) as [pc|] eqn:Hq; [|done].
  assert (pc ≠ TDone → ro ≠ RDone) as Hnd.
  { intros Hpc ->. simpl in Ho. apply Hpc. destruct Ho as (_ & _ & _ & _ & Ho).
    by apply (Ho q). }
  assert (pc ≠ TDone → ch_closed en = false) as Hen.
  { intros Hpc. destruct ro; simpl in Ho; try (by destruct Ho as (? & ? & ? & ?));
      try (by destruct Ho). exfalso. by apply Hnd. }
  assert (∀ pc' eb, pc ≠ TDone → main_ok m (ch_closed dn) ro (<[q:=pc']> ts) eb) as Hmain.
  { intros pc' eb Hpc. specialize (Hnd Hpc). pose proof (dom_insert_eq ts q _ pc' Hq) as Hdom.
    destruct m as [l| | | |[?|]|[?|]|[?|]]; simpl in *; rewrite ?Hdom; naive_solver. }
  assert (∀ pc', pc ≠ TDone → router_ok ro (<[q:=pc']> ts) tc rd (ch_closed en)) as Hrout.
  { intros pc' Hpc. specialize (Hnd Hpc). pose proof (dom_insert_eq ts q _ pc' Hq) as Hdom.
    destruct ro; simpl in *; rewrite ?Hdom; naive_solver. }
  destruct pc as [|t|t|t e| | |]; simpl in *.
  - destruct (decide _); [|done]. injection Hs as <- <-. split; simpl; auto.
  - injection Hs as <- <-. split; simpl; auto.
  - injection Hs as <- <-. split; simpl; auto.
  - unfold send in Hs. rewrite (Hen ltac:(done)) in Hs. destruct (decide _); [|done].
    injection Hs as <- <-. split; simpl; auto. rewrite <-(Hen ltac:(done)). by apply Hrout.
  - injection Hs as <- <-. split; simpl; auto.
  - injection Hs as <- <-. split; simpl; auto.
  - done.
Qed.

Lemma InvA_step st st' ev : InvA st → steps_to inp st ev st' → InvA st'.
Proof.
  intros Hi (a & Ha & Hs). unfold run_step in Hs. destruct (r_panic st); [done|].
  destruct a; simpl in *;
    eauto using InvA_main, InvA_sched, InvA_router, InvA_target.
Qed.

Lemma executes_InvA st tr : executes inp st tr → InvA st.
Proof. induction 1; eauto using InvA_init, InvA_step. Qed.
End inv.
