(** Runner proofs, part 3: where every handed out task is, and the order of
    the Handle calls. *)
From stdpp Require Import gmap sets list strings numbers relations.
From Verif Require Import GoBase GoBaseProofs DagModel DagSpec SchedModel SchedSpec SchedProofs
  RunnerModel RunnerSpec RunnerInvA RunnerInvT.

Definition sched_q (sc : sched_pc) : list (string * string) :=
  match sc with SSend _ l => l | _ => [] end.
Definition router_q (ro : router_pc) : list (string * string) :=
  match ro with RSend q t => [(q, t)] | _ => [] end.
Definition main_q (m : main_pc) : list string :=
  match m with MSend t => [t] | _ => [] end.
Definition titem (pc : target_pc) : list string :=
  match pc with TGot t | THandle t | TSend t _ => [t] | _ => [] end.
Definition tbegun (pc : target_pc) : list string :=
  match pc with THandle t | TSend t _ => [t] | _ => [] end.
Definition collect (f : target_pc → list string) (ts : gmap string target_pc) : list string :=
  map_to_list ts ≫= λ e, f e.2.

(** Handled tasks, by the place their result has reached. *)
Definition settled (st : rstate) (C D : list string) : list string :=
  D ++ C ++ ch_buf (r_done st) ++ main_q (r_main st) ++ (ch_buf (r_ended st)).*1.
(** Tasks handed out and not yet at a target. *)
Definition upstream (st : rstate) : list (string * string) :=
  router_q (r_router st) ++ ch_buf (r_ready st) ++ sched_q (r_sched st).

Lemma collect_new f (ts : gmap string target_pc) q pc :
  ts !! q = None → collect f (<[q:=pc]> ts) ≡ₚ f pc ++ collect f ts.
Proof.
  intros Hq. unfold collect. rewrite (map_to_list_insert ts q pc Hq). by rewrite bind_cons.
Qed.
Lemma collect_insert f (ts : gmap string target_pc) q pc pc' :
  ts !! q = Some pc → f pc ++ collect f (<[q:=pc']> ts) ≡ₚ f pc' ++ collect f ts.
Proof.
  intros Hq.
  assert (collect f ts ≡ₚ f pc ++ collect f (delete q ts)) as ->.
  { rewrite <-collect_new by apply lookup_delete. rewrite insert_delete by done. done. }
  assert (collect f (<[q:=pc']> ts) ≡ₚ f pc' ++ collect f (delete q ts)) as ->.
  { rewrite <-collect_new by apply lookup_delete. by rewrite insert_delete_insert. }
  rewrite !app_assoc. f_equiv. apply Permutation_app_comm.
Qed.
Lemma collect_same f (ts : gmap string target_pc) q pc pc' :
  ts !! q = Some pc → f pc = f pc' → collect f (<[q:=pc']> ts) ≡ₚ collect f ts.
Proof.
  intros Hq Hf. pose proof (collect_insert f ts q pc pc' Hq) as H. rewrite Hf in H.
  by apply Permutation_app_inv_l in H.
Qed.
Lemma elem_of_collect f ts t : t ∈ collect f ts ↔ ∃ q pc, ts !! q = Some pc ∧ t ∈ f pc.
Proof.
  unfold collect. rewrite elem_of_list_bind. split.
  - intros ([q pc] & H1 & H2). apply elem_of_map_to_list in H2. eauto.
  - intros (q & pc & H1 & H2). exists (q, pc). split; [done|]. by apply elem_of_map_to_list.
Qed.
Lemma collect_done f ts : tgt_done ts → f TDone = [] → collect f ts = [].
Proof.
  intros H Hf. destruct (collect f ts) as [|t l] eqn:E; [done|]. exfalso.
  assert (t ∈ collect f ts) as (q & pc & Hq & Ht)%elem_of_collect by (rewrite E; by left).
  rewrite (H q pc Hq), Hf in Ht. by apply elem_of_nil in Ht.
Qed.

Lemma send_order_pairs order ready :
  range_of ready order → send_order order ready ≡ₚ pairs_of ready.
Proof.
  intros Ho. unfold range_of in Ho. unfold send_order, pairs_of.
  assert (order ≡ₚ (map_to_list ready).*1) as ->.
  { rewrite Ho. apply NoDup_Permutation; [apply NoDup_elements|apply NoDup_fst_map_to_list|].
    intros q. rewrite elem_of_elements, elem_of_dom, elem_of_list_fmap. split.
    - intros [ts Hts]. exists (q, ts). split; [done|]. by apply elem_of_map_to_list.
    - intros ([q' ts] & -> & Hts). apply elem_of_map_to_list in Hts. by eexists. }
  assert (∀ l : list (string * list string), (∀ e, e ∈ l → ready !! e.1 = Some e.2) →
    (l.*1 ≫= λ q, pair q <$> default [] (ready !! q)) = (l ≫= λ '(q, ts), pair q <$> ts)) as Hl.
  { induction l as [|[q ts] l IH]; intros Hin; [done|].
    rewrite fmap_cons, !bind_cons. simpl. pose proof (Hin (q, ts) ltac:(left)) as Hq. simpl in Hq.
    rewrite Hq. simpl. f_equal.
    apply IH. intros e He. apply Hin. by right. }
  rewrite Hl; [done|]. intros [q ts] He. by apply elem_of_map_to_list in He.
Qed.

Lemma snoc_split {A} (tr tr1 tr2 : list A) (x y : A) :
  tr ++ [x] = tr1 ++ y :: tr2 →
  (x = y ∧ tr = tr1 ∧ tr2 = []) ∨ ∃ tr2', tr2 = tr2' ++ [x] ∧ tr = tr1 ++ y :: tr2'.
Proof.
  intros H. destruct tr2 as [|z tr2'] using rev_ind.
  - apply app_inj_2 in H as [-> [= ->]]; [by left|done].
  - right. rewrite app_comm_cons, app_assoc in H. apply app_inj_2 in H as [-> [= ->]]; [|done]. eauto.
Qed.

Section inv.
Context (inp : run_input).

Definition all_handed (H : list (string * string)) : Prop :=
  ∀ t, t ∈ dom (ri_tasks inp) → t ∈ H.*2.

Definition sched_ok (sc : sched_pc) (done_closed : bool) (C : list string)
    (H : list (string * string)) : Prop :=
  match sc with
  | SInit => H = [] ∧ C = []
  | SSend s _ | SRecv s =>
    sched_run (ri_limits inp) (ri_tasks inp) s C H ∧
    (dom (ri_tasks inp) ≠ ∅ → ∃ t, t ∈ dom (ri_tasks inp) ∧ t ∉ C)
  | SClose | SDone =>
    (H = [] ∧ C = [] ∧ ¬ well_ordered (ri_tasks inp)) ∨
    (∃ s, sched_run (ri_limits inp) (ri_tasks inp) s C H ∧ (all_handed H ∨ done_closed = true))
  end.

Definition keeps (m : main_pc) : bool :=
  match m with
  | MStart _ | MLoop | MSend _ | MDrain None | MDefer None | MReturned None => true
  | _ => false
  end.
Definition success (m : main_pc) : bool :=
  match m with MDrain None | MDefer None | MReturned None => true | _ => false end.

Record InvB (st : rstate) (tr : list event) (H : list (string * string)) (C D : list string)
    : Prop := {
  b_sched : sched_ok (r_sched st) (ch_closed (r_done st)) C H;
  b_part : H.*2 ≡ₚ settled st C D ++ collect titem (r_targets st) ++ (upstream st).*2;
  b_front e : e ∈ upstream st → e ∈ H;
  b_tgt q pc t : r_targets st !! q = Some pc → t ∈ titem pc → (q, t) ∈ H;
  b_ok t : t ∈ C ++ ch_buf (r_done st) ++ main_q (r_main st) → ri_handle inp t = None;
  b_drop : keeps (r_main st) → D = [];
  b_nil : success (r_main st) →
    (H = [] ∧ C = [] ∧ ¬ well_ordered (ri_tasks inp)) ∨ all_handed H;
  b_begun : begun tr ≡ₚ settled st C D ++ collect tbegun (r_targets st);
  b_handled t : t ∈ settled st C D → ∃ q, EvHandled q t (ri_handle inp t) ∈ tr;
  b_evH q t : EvHandle q t ∈ tr → (q, t) ∈ H;
  b_order : "" ∉ dom (ri_tasks inp) → ∀ tr1 q t tr2, tr = tr1 ++ EvHandle q t :: tr2 →
    ∀ m, after (ri_tasks inp) t m → ∃ q', EvHandled q' m None ∈ tr1;
}.

Lemma InvB_init order : InvB (run_init order) [] [] [] [].
Proof.
  split; simpl; try done; try set_solver.
  intros _ tr1 q t tr2 H. by destruct tr1.
Qed.

(** What a scheduler position says about the ghost lists. *)
Lemma sched_ok_run sc b C H : sched_ok sc b C H →
  (H = [] ∧ C = []) ∨ ∃ s, sched_run (ri_limits inp) (ri_tasks inp) s C H.
Proof. destruct sc; simpl; naive_solver. Qed.

Lemma sched_ok_nodup sc b C H : sched_ok sc b C H →
  NoDup H.*2 ∧ NoDup C ∧ (∀ t, t ∈ C → t ∈ H.*2) ∧
  (∀ q t, (q, t) ∈ H → ∃ v, ri_tasks inp !! t = Some v ∧ t_target v = q) ∧
  (∀ q, (Z.of_nat (length (in_flight C H q)) ≤ Z.max 0 (default 0 (ri_limits inp !! q)))%Z) ∧
  ("" ∉ dom (ri_tasks inp) → ∀ q t m, (q, t) ∈ H → after (ri_tasks inp) t m → m ∈ C).
Proof.
  intros [[-> ->]|[s Hr]]%sched_ok_run.
  - simpl. split; [constructor|]. split; [constructor|]. split; [set_solver|].
    split; [set_solver|]. split; [simpl; lia|]. set_solver.
  - pose proof (sched_run_history _ _ _ _ _ Hr) as (Hh & Hnd & Hsub).
    destruct (sched_once_lem _ _ _ _ _ Hh) as [H1 H2].
    split; [done|]. split; [done|]. split; [done|]. split; [done|]. split.
    + intros q. by eapply sched_limit_lem.
    + intros He q t m. by eapply sched_after_lem.
Qed.

(** An event other than a call or return of Handle. *)
Definition silent (ev : option event) : Prop :=
  match ev with Some (EvHandle _ _) | Some (EvHandled _ _ _) => False | _ => True end.

Lemma begun_app tr1 tr2 : begun (tr1 ++ tr2) = begun tr1 ++ begun tr2.
Proof. unfold begun. by rewrite omap_app. Qed.

Lemma order_silent (P : list event → string → Prop) tr ev :
  silent ev →
  (∀ tr1 q t tr2, tr = tr1 ++ EvHandle q t :: tr2 → P tr1 t) →
  ∀ tr1 q t tr2, tr ++ option_list ev = tr1 ++ EvHandle q t :: tr2 → P tr1 t.
Proof.
  intros Hs Ho tr1 q t tr2. destruct ev as [ev|]; simpl.
  - intros [(-> & _)|(tr2' & -> & ->)]%snoc_split; [done|]. by eapply Ho.
  - rewrite app_nil_r. apply Ho.
Qed.

(** Steps that leave the targets' work alone. *)
Lemma InvB_quiet st st' tr ev H C D H' C' D' :
  silent ev →
  InvB st tr H C D →
  sched_ok (r_sched st') (ch_closed (r_done st')) C' H' →
  (collect titem (r_targets st') ≡ₚ collect titem (r_targets st)) →
  (collect tbegun (r_targets st') ≡ₚ collect tbegun (r_targets st)) →
  (∀ q pc t, r_targets st' !! q = Some pc → t ∈ titem pc → (q, t) ∈ H) →
  settled st' C' D' ≡ₚ settled st C D →
  (∀ e, e ∈ H → e ∈ H') →
  (∀ e, e ∈ upstream st' → e ∈ H') →
  (H'.*2 ≡ₚ settled st C D ++ collect titem (r_targets st) ++ (upstream st').*2) →
  (∀ t, t ∈ C' ++ ch_buf (r_done st') ++ main_q (r_main st') → ri_handle inp t = None) →
  (keeps (r_main st') → D' = []) →
  (success (r_main st') → (H' = [] ∧ C' = [] ∧ ¬ well_ordered (ri_tasks inp)) ∨ all_handed H') →
  InvB st' (tr ++ option_list ev) H' C' D'.
Proof.
  intros Hev [] Hsc Hc1 Hc2 Htg Hset HH Hup Hpart Hok Hkeep Hsucc. split; try done.
  - by rewrite Hset, Hc1.
  - intros q pc t Hq Ht. apply HH. eauto.
  - rewrite begun_app. assert (begun (option_list ev) = []) as ->.
    { by destruct ev as [[]|]. }
    rewrite app_nil_r, Hset, Hc2. done.
  - intros t Ht. rewrite Hset in Ht. destruct (b_handled0 t Ht) as [q Hq]. exists q.
    apply elem_of_app. by left.
  - intros q t [Hin|Hin]%elem_of_app; [by apply HH, b_evH0|]. exfalso.
    destruct ev as [ev|]; simpl in Hin; [|by apply elem_of_nil in Hin].
    apply elem_of_list_singleton in Hin as <-. done.
  - intros He. by apply (order_silent (λ tr1 t, ∀ m, after (ri_tasks inp) t m →
      ∃ q', EvHandled q' m None ∈ tr1) _ _ Hev (b_order0 He)).
Qed.

Definition next_inv (st' : rstate) (tr' : list event) (H : list (string * string)) : Prop :=
  ∃ C' D', InvB st' tr' H C' D'.

Lemma sched_ok_closed sc b C H : sched_ok sc b C H → sched_ok sc true C H.
Proof. destruct sc; simpl; naive_solver. Qed.

Lemma InvB_main st st' tr ev H C D :
  InvA inp st → InvT inp st tr → InvB st tr H C D → main_step inp st = Some (st', ev) →
  ∃ H' C' D', InvB st' (tr ++ option_list ev) H' C' D'.
Proof.
  intros [Hp Hn Hm Hr Ho] Ht Hi Hs.
  destruct st as [m sc ro ts dn nl en rd tc pn]. simpl in *.
  unfold main_step in Hs. simpl in Hs. subst nl pn.
  pose proof Hi as [Bs Bp Bf Bt Bk Bd Bn Bb Bh Be Bo]. simpl in *.
  destruct m as [[|q l]| |t|e|r|r|r].
  - injection Hs as <- <-. destruct Hm as (Hd & -> & _ & Hl & _). exists H, C, D.
    eapply InvB_quiet; [..|exact Hi| | | | | | | | | | |]; simpl; try done.
  - destruct Hm as (Hd & -> & Hnd & Hl & Hdis).
    assert (ts !! q = None) as Hqn by (apply not_elem_of_dom, Hdis; by left).
    exists H, C, D.
    destruct (ri_start inp q) as [e|]; injection Hs as <- <-;
      (eapply InvB_quiet; [..|exact Hi| | | | | | | | | | |]; simpl; try done).
    + by rewrite collect_new.
    + by rewrite collect_new.
    + intros q' pc t [[<- <-]|[? ?]]%lookup_insert_Some Hin; [by apply elem_of_nil in Hin|eauto].
  - unfold recv in Hs. destruct (ch_buf en) as [|[t [e|]] eb] eqn:Heb; simpl in Hs.
    + destruct (ch_closed en) eqn:Hc; [|done]. injection Hs as <- <-. exists H, C, D.
      eapply InvB_quiet; [..|exact Hi| | | | | | | | | | |]; simpl; try done; eauto.
      intros _. destruct Hm as (Hd & Hnr & Hdom).
      destruct ro; simpl in Ho; try (destruct Ho as (? & ? & ? & _); congruence);
        try (destruct Ho; congruence).
      destruct Ho as (Hrc & _). apply Hr in Hrc as ->. simpl in Bs.
      rewrite Hd in Bs. naive_solver.
    + injection Hs as <- <-. exists H, C, (D ++ [t]).
      eapply InvB_quiet; [..|exact Hi| | | | | | | | | | |]; simpl; try done; eauto.
      unfold settled. simpl. rewrite Heb. simpl. rewrite <-!app_assoc. simpl.
      apply Permutation_app_head. by rewrite <-!Permutation_middle.
    + injection Hs as <- <-. exists H, C, D.
      eapply InvB_quiet; [..|exact Hi| | | | | | | | | | |]; simpl; try done; eauto.
      * unfold settled. simpl. by rewrite Heb.
      * intros x. rewrite !elem_of_app, elem_of_list_singleton.
        intros [Hx|[Hx| ->]]; [apply Bk; set_solver|apply Bk; set_solver|].
        destruct (t_ended _ _ _ Ht t None) as [q Hq]; [simpl; rewrite Heb; by left|].
        by destruct (t_result _ _ _ Ht _ _ _ Hq).
  - destruct Hm as (Hd & Hnr & Hdom). rewrite Hd in Hs. unfold send in Hs. rewrite Hd in Hs.
    destruct (decide _); [|done]. injection Hs as <- <-. exists H, C, D.
    eapply InvB_quiet; [..|exact Hi| | | | | | | | | | |]; simpl; try done; eauto.
    + by rewrite Hd in Bs.
    + unfold settled. simpl. by rewrite <-!app_assoc.
    + intros x Hx. apply Bk. set_solver.
  - destruct Hm as (Hd & Hnr & Hdom). injection Hs as <- <-. unfold close_done. simpl.
    rewrite Hd. exists H, C, D. change (tr ++ []) with (tr ++ option_list (@None event)).
    eapply InvB_quiet; [..|exact Hi| | | | | | | | | | |]; simpl; try done; eauto.
    by eapply sched_ok_closed.
  - unfold recv in Hs. destruct (ch_buf en) as [|[t e] eb] eqn:Heb; simpl in Hs.
    + destruct (ch_closed en) eqn:Hc; [|done]. injection Hs as <- <-. exists H, C, D.
      eapply InvB_quiet; [..|exact Hi| | | | | | | | | | |]; simpl; try done; by destruct r.
    + injection Hs as <- <-. exists H, C, (D ++ [t]).
      eapply InvB_quiet; [..|exact Hi| | | | | | | | | | |]; simpl; try done; eauto.
      * unfold settled. simpl. rewrite Heb. simpl. rewrite <-!app_assoc. simpl.
        apply Permutation_app_head. by rewrite <-!Permutation_middle.
      * destruct r; [done|]. naive_solver.
  - injection Hs as <- <-. exists H, C, D. unfold close_done. simpl.
    destruct (ch_closed dn) eqn:Hd; simpl; rewrite ?Hd;
      (eapply (InvB_quiet _ _ _ (Some (EvReturn r))); [..|exact Hi| | | | | | | | | | |]; simpl; try done; eauto).
    all: try (by destruct r). all: try (by eapply sched_ok_closed). all: by rewrite ?Hd.
  - done.
Qed.

Lemma InvB_sched st st' tr ev H C D c :
  ok_action inp (ASched c) →
  InvA inp st → InvB st tr H C D → sched_step inp c st = Some (st', ev) →
  ∃ H' C' D', InvB st' (tr ++ option_list ev) H' C' D'.
Proof.
  intros (O1 & O2 & O3) [Hp Hn Hm Hr Ho] Hi Hs.
  destruct st as [m sc ro ts dn nl en rd tc pn]. simpl in *.
  unfold sched_step in Hs. simpl in Hs. subst nl pn.
  pose proof Hi as [Bs Bp Bf Bt Bk Bd Bn Bb Bh Be Bo]. simpl in *.
  assert (sc ≠ SDone → success m = false) as Hsucc.
  { intros Hsc. destruct m as [| | | |[]|[]|[]]; simpl in *; try done; exfalso; apply Hsc, Hr;
      naive_solver. }
  destruct sc as [|s [|x l]|s| |].
  - destruct Bs as [-> ->]. pose proof (sched_new_exact_lem _ _ _ O1) as Hex.
    destruct (sched_new _ _ _) as [[e|[s ready]]|] eqn:Hnew; [..|done]; injection Hs as <- <-.
    + exists [], [], D. eapply InvB_quiet; [..|exact Hi| | | | | | | | | | |]; simpl; try done; eauto.
      left. split; [done|]. split; [done|]. intros [W1 W2].
      destruct Hex as [(t & m' & ? & ?)|Hex]; [|done]. by eapply W1 in H.
    + set (l := send_order (sc_range c ready) ready).
      assert (l ≡ₚ pairs_of ready) as Hl by apply send_order_pairs, O3.
      exists (pairs_of ready), [], D.
      eapply InvB_quiet; [..|exact Hi| | | | | | | | | | |]; simpl; try done; eauto.
      * split; [by eapply sr_new|]. intros (t & Ht)%set_choose_L. exists t. set_solver.
      * set_solver.
      * intros e. unfold upstream. simpl. rewrite <-Hl. rewrite !elem_of_app.
        specialize (Bf e). unfold upstream in Bf. simpl in Bf. rewrite !elem_of_app in Bf.
        set_solver.
      * unfold upstream in *. simpl in *. rewrite app_nil_r in Bp.
        rewrite !fmap_app, Hl. rewrite !app_assoc. rewrite !app_assoc in Bp.
        rewrite fmap_app in Bp. rewrite !app_assoc in Bp. simpl in Bp. rewrite <-Bp. done.
      * rewrite Hsucc; done.
  - injection Hs as <- <-. exists H, C, D.
    eapply InvB_quiet; [..|exact Hi| | | | | | | | | | |]; simpl; try done; eauto.
  - unfold send in Hs. destruct (ch_closed rd) eqn:Hc.
    { pose proof (proj1 Hr eq_refl). done. }
    destruct (decide _); [|done]. injection Hs as <- <-. exists H, C, D.
    assert (router_q ro ++ (ch_buf rd ++ [x]) ++ l = router_q ro ++ ch_buf rd ++ x :: l) as Hq.
    { by rewrite <-!app_assoc. }
    eapply InvB_quiet; [..|exact Hi| | | | | | | | | | |]; simpl; try done; eauto.
    + unfold upstream in *. simpl in *. by rewrite Hq.
    + unfold upstream in *. simpl in *. by rewrite Hq.
  - destruct Bs as [Bs Bx]. unfold recv in Hs. destruct (ch_buf dn) as [|t l] eqn:Hb; simpl in Hs.
    + destruct (ch_closed dn) eqn:Hd; [|done]. injection Hs as <- <-. exists H, C, D.
      eapply InvB_quiet; [..|exact Hi| | | | | | | | | | |]; simpl; try done; eauto.
      * intros x. rewrite Hb. apply Bk.
    + assert (NoDup H.*2) as Hnd.
      { apply sched_run_history in Bs as [Hh _]. by destruct (sched_once_lem _ _ _ _ _ Hh). }
      assert (settled {|
          r_main := m; r_sched := SRecv s; r_router := ro; r_targets := ts; r_done := dn;
          r_done_nil := ch_closed dn; r_ended := en; r_ready := rd; r_tclosed := tc;
          r_panic := false |} C D = D ++ C ++ t :: l ++ main_q m ++ (ch_buf en).*1) as Hset.
      { unfold settled. simpl. by rewrite Hb. }
      assert (t ∈ H.*2 ∧ t ∉ C) as [HtH HtC].
      { rewrite Bp, Hset in Hnd |- *. split; [set_solver|].
        rewrite <-!app_assoc in Hnd. apply NoDup_app in Hnd as (_ & _ & Hnd).
        apply NoDup_app in Hnd as (_ & Hnd & _). intros HtC. apply (Hnd t HtC). by left. }
      destruct (sched_next _ _ _) as [s' [ready|]] eqn:Hnext; injection Hs as <- <-.
      * set (q := send_order (sc_range c ready) ready).
        assert (q ≡ₚ pairs_of ready) as Hl by apply send_order_pairs, O3.
        exists (H ++ pairs_of ready), (C ++ [t]), D.
        pose proof (sr_next _ _ _ _ _ _ _ _ _ Bs O2 HtH HtC Hnext) as Hrun. simpl in Hrun.
        eapply InvB_quiet; [..|exact Hi| | | | | | | | | | |]; simpl; try done; eauto.
        -- split; [done|]. intros _. apply sched_run_history in Bs as (Hh & _ & Hsub).
           pose proof (sched_end_lem _ _ _ _ _ _ _ _ _ Hh O2 Hnext) as Hend.
           destruct (decide (set_Forall (λ t, t ∈ H.*2) (dom (ri_tasks inp)))) as [Ha|Ha].
           { by apply Hend in Ha. }
           apply not_set_Forall_Exists in Ha as (x & Hx & Hxn); [|apply _].
           exists x. split; [done|]. intros [?|Heq%elem_of_list_singleton]%elem_of_app.
           ++ by apply Hxn, Hsub.
           ++ subst x. done.
        -- rewrite Hset. unfold settled. simpl. by rewrite <-!app_assoc.
        -- intros e He. apply elem_of_app. by left.
        -- intros e. unfold upstream. simpl. rewrite Hl, !elem_of_app.
           specialize (Bf e). unfold upstream in Bf. simpl in Bf. rewrite !elem_of_app in Bf.
           set_solver.
        -- rewrite fmap_app. rewrite Bp. unfold upstream. simpl. rewrite !fmap_app, Hl. simpl.
           rewrite app_nil_r. by rewrite <-!app_assoc.
        -- intros x Hx. apply Bk. rewrite ?Hb. set_solver.
        -- rewrite Hsucc; done.
      * exists H, (C ++ [t]), D.
        pose proof (sr_next _ _ _ _ _ _ _ _ _ Bs O2 HtH HtC Hnext) as Hrun. simpl in Hrun.
        rewrite app_nil_r in Hrun.
        eapply InvB_quiet; [..|exact Hi| | | | | | | | | | |]; simpl; try done; eauto.
        -- right. exists s'. split; [done|]. left. apply sched_run_history in Bs as (Hh & _ & Hsub).
           unfold all_handed. by apply (sched_end_lem _ _ _ _ _ _ _ _ _ Hh O2 Hnext).
        -- rewrite Hset. unfold settled. simpl. by rewrite <-!app_assoc.
        -- intros x Hx. apply Bk. rewrite ?Hb. set_solver.
        -- rewrite Hsucc; done.
  - destruct (ch_closed rd) eqn:Hc.
    { pose proof (proj1 Hr eq_refl). done. }
    injection Hs as <- <-. exists H, C, D.
    eapply InvB_quiet; [..|exact Hi| | | | | | | | | | |]; simpl; try done; eauto.
  - done.
Qed.

Lemma InvB_router st st' tr ev H C D o :
  InvA inp st → InvB st tr H C D → router_step inp o st = Some (st', ev) →
  ∃ H' C' D', InvB st' (tr ++ option_list ev) H' C' D'.
Proof.
  intros [Hp Hn Hm Hr Ho] Hi Hs.
  destruct st as [m sc ro ts dn nl en rd tc pn]. simpl in *.
  unfold router_step in Hs. simpl in Hs. subst nl pn.
  pose proof Hi as [Bs Bp Bf Bt Bk Bd Bn Bb Bh Be Bo]. simpl in *. exists H, C, D.
  destruct ro as [| |q t|[|q l]| |]; simpl in *.
  - done.
  - unfold recv in Hs. destruct (ch_buf rd) as [|[q t] l] eqn:Hb; simpl in Hs.
    + destruct (ch_closed rd) eqn:Hc; [|done]. injection Hs as <- <-.
      eapply InvB_quiet; [..|exact Hi| | | | | | | | | | |]; simpl; try done; eauto.
    + injection Hs as <- <-.
      eapply InvB_quiet; [..|exact Hi| | | | | | | | | | |]; simpl; try done; eauto;
        unfold upstream in *; simpl in *; by rewrite Hb in *.
  - destruct (ts !! q) as [pc|] eqn:Hq; [|done]. destruct Ho as [-> Hec].
    destruct (decide (q ∈ ∅)) as [?|_]; [set_solver|]. destruct pc; try done. injection Hs as <- <-.
    pose proof (collect_insert titem ts q _ (TGot t) Hq) as Hc1.
    pose proof (collect_same tbegun ts q _ (TGot t) Hq eq_refl) as Hc2.
    split; simpl; try done; rewrite ?app_nil_r; try done.
    + unfold upstream in *. simpl in *. rewrite Hc1. simpl.
      rewrite Bp. by rewrite <-Permutation_middle.
    + intros e He. apply Bf. unfold upstream in *. simpl in *. by right.
    + intros q' pc t' [[<- <-]|[? ?]]%lookup_insert_Some Hin; [|eauto].
      simpl in Hin. apply elem_of_list_singleton in Hin as ->. apply Bf. by left.
    + rewrite Hc2. done.
  - injection Hs as <- <-.
    eapply InvB_quiet; [..|exact Hi| | | | | | | | | | |]; simpl; try done; eauto.
  - destruct Ho as (H1 & H2 & H3 & Hnd & H4 & H5).
    destruct (decide (q ∈ tc)) as [Hc|_]; [exfalso; apply (H5 q); [by left|done]|].
    injection Hs as <- <-.
    eapply InvB_quiet; [..|exact Hi| | | | | | | | | | |]; simpl; try done; eauto.
  - destruct Ho as (H1 & H2 & H3 & ->). rewrite H3 in Hs.
    destruct (decide _) as [Hd|]; [|done]. injection Hs as <- <-.
    eapply InvB_quiet; [..|exact Hi| | | | | | | | | | |]; simpl; try done; eauto.
  - done.
Qed.

Lemma InvB_target st st' tr ev H C D q :
  InvA inp st → InvT inp st tr → InvB st tr H C D → target_step inp q st = Some (st', ev) →
  ∃ H' C' D', InvB st' (tr ++ option_list ev) H' C' D'.
Proof.
  intros [Hp Hn Hm Hr Ho] HT Hi Hs.
  destruct st as [m sc ro ts dn nl en rd tc pn]. simpl in *.
  unfold target_step in Hs. simpl in Hs. subst nl pn.
  destruct (ts !! q) as [pc|] eqn:Hq; [|done].
  assert (pc ≠ TDone → ro ≠ RDone) as Hnd.
  { intros Hpc ->. simpl in Ho. apply Hpc. destruct Ho as (_ & _ & _ & _ & Ho).
    by apply (Ho q). }
  assert (pc ≠ TDone → ch_closed en = false) as Hen.
  { intros Hpc. destruct ro; simpl in Ho; try (by destruct Ho as (? & ? & ? & ?));
      try (by destruct Ho). exfalso. by apply Hnd. }
  assert (pc ≠ TDone → success m = false) as Hsucc.
  { intros Hpc. specialize (Hnd Hpc). destruct m as [| | | |[]|[]|[]]; simpl in *; naive_solver. }
  pose proof Hi as [Bs Bp Bf Bt Bk Bd Bn Bb Bh Be Bo]. simpl in *. exists H, C, D.
  assert (∀ pc', (∀ t, t ∈ titem pc' → t ∈ titem pc) →
    ∀ q' pc t, <[q:=pc']> ts !! q' = Some pc → t ∈ titem pc → (q', t) ∈ H) as Htgt.
  { intros pc' Hsub q' pc2 t [[<- <-]|[? ?]]%lookup_insert_Some Hin; [|eauto]. eauto. }
  destruct pc as [|t|t|t e| | |]; simpl in *.
  - destruct (decide _); [|done]. injection Hs as <- <-.
    eapply InvB_quiet; [..|exact Hi| | | | | | | | | | |]; simpl; try done; eauto using collect_same.
    by apply Htgt.
  - injection Hs as <- <-.
    pose proof (collect_same titem ts q _ (THandle t) Hq eq_refl) as Hc1.
    pose proof (collect_insert tbegun ts q _ (THandle t) Hq) as Hc2. simpl in Hc2.
    assert ((q, t) ∈ H) as HqH by (eapply Bt; [done|by left]).
    split; simpl; try done.
    + rewrite Hc1. done.
    + by apply Htgt.
    + rewrite begun_app. simpl. rewrite Hc2.
      rewrite (Permutation_app_comm (begun tr)). simpl. rewrite <-Permutation_middle.
      by apply Permutation_cons.
    + intros x Hx. destruct (Bh x Hx) as [q' ?]. exists q'. apply elem_of_app. by left.
    + intros q' t'. rewrite elem_of_app, elem_of_list_singleton. intros [?|[= -> ->]]; eauto.
    + intros He tr1 q' t' tr2. intros [([= -> ->] & -> & ->)|(tr2' & -> & ->)]%snoc_split.
      * intros m' Hm'. destruct (sched_ok_nodup _ _ _ _ Bs) as (_ & _ & _ & _ & _ & Haft).
        assert (m' ∈ C) as HmC by (by eapply Haft).
        destruct (Bh m') as [q'' Hq'']; [unfold settled; set_solver|].
        rewrite (Bk m') in Hq''; [eauto|]. apply elem_of_app. by left.
      * by eapply Bo.
  - injection Hs as <- <-.
    pose proof (collect_same titem ts q _ (TSend t (ri_handle inp t)) Hq eq_refl) as Hc1.
    pose proof (collect_same tbegun ts q _ (TSend t (ri_handle inp t)) Hq eq_refl) as Hc2.
    split; simpl; try done.
    + rewrite Hc1. done.
    + by apply Htgt.
    + rewrite begun_app. simpl. rewrite app_nil_r, Hc2. done.
    + intros x Hx. destruct (Bh x Hx) as [q' ?]. exists q'. apply elem_of_app. by left.
    + intros q' t'. rewrite elem_of_app, elem_of_list_singleton. intros [?|?]; [eauto|done].
    + intros He tr1 q' t' tr2. intros [(? & _)|(tr2' & -> & ->)]%snoc_split; [done|].
      by eapply Bo.
  - unfold send in Hs. rewrite (Hen ltac:(done)) in Hs. destruct (decide _); [|done].
    injection Hs as <- <-. rewrite app_nil_r.
    pose proof (t_sent _ _ _ HT q t e Hq) as Hev.
    destruct (t_result _ _ _ HT _ _ _ Hev) as [Hres _].
    set (pc' := match e with None => TRecv | Some _ => TStop end).
    assert (titem pc' = [] ∧ tbegun pc' = []) as [E1 E2] by (by destruct e).
    pose proof (collect_insert titem ts q _ pc' Hq) as Hc1. rewrite E1 in Hc1. simpl in Hc1.
    pose proof (collect_insert tbegun ts q _ pc' Hq) as Hc2. rewrite E2 in Hc2. simpl in Hc2.
    split; simpl; try done.
    + rewrite Bp. unfold settled. simpl. rewrite <-Hc1, fmap_app. simpl.
      by rewrite <-!app_assoc.
    + apply Htgt. intros x. rewrite E1. set_solver.
    + rewrite Bb. unfold settled. simpl. rewrite <-Hc2, fmap_app. simpl. by rewrite <-!app_assoc.
    + intros x Hx. unfold settled in Hx. simpl in Hx. rewrite fmap_app in Hx. simpl in Hx.
      destruct (decide (x = t)) as [->|Hne].
      * exists q. by rewrite <-Hres.
      * apply Bh. unfold settled. simpl. set_solver.
  - injection Hs as <- <-.
    eapply InvB_quiet; [..|exact Hi| | | | | | | | | | |]; simpl; try done; eauto using collect_same.
    by apply Htgt.
  - injection Hs as <- <-.
    eapply InvB_quiet; [..|exact Hi| | | | | | | | | | |]; simpl; try done; eauto using collect_same.
    by apply Htgt.
  - done.
Qed.

Lemma InvB_step st st' tr ev H C D :
  InvA inp st → InvT inp st tr → InvB st tr H C D → steps_to inp st ev st' →
  ∃ H' C' D', InvB st' (tr ++ option_list ev) H' C' D'.
Proof.
  intros Ha HT Hi (a & Hok & Hs). unfold run_step in Hs. destruct (r_panic st); [done|].
  destruct a; eauto using InvB_main, InvB_sched, InvB_router, InvB_target.
Qed.

Lemma executes_InvB st tr : executes inp st tr → ∃ H C D, InvB st tr H C D.
Proof.
  induction 1 as [order Ho|st ev st' tr He (H & C & D & Hi) Hs].
  - exists [], [], []. apply InvB_init.
  - eapply InvB_step; [by eapply executes_InvA|by eapply executes_InvT|done|done].
Qed.
End inv.
