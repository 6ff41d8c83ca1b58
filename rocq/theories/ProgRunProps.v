(** runbook run, from the line to the tasks: C134 and C135. *)
From Coq Require Import String Ascii.
From stdpp Require Import gmap list strings numbers relations.
From Verif Require Import GoBase GoStrings GoStringsProofs JsonModel JsonSpec ParserModel ParserSpec SchedModel SchedSpec
  RunnerModel RunnerSpec RunnerProofs EffectsModel EffectsSpec EffectsProofs EffectsProps FineModel FineProofs.
From Verif Require Import CliModel ArgsModel ArgsSpec ProgModel ProgSpec ProgProofs ProgProps ProgRunModel.
From Verif Require CliProps HclText PgProps SysProps SysExamples SysServer JsonProps PgProofs RunnerLive RunnerInvT EffectsExamples ParserProofs.
Local Open Scope Z_scope.

Lemma book_good s file files v b : s_jsonnet s file files = Some v → document_given_once v →
  (∀ n A (m : gmap string A), range_of m (s_order s n A m)) → book_in s file files = Ok b → good_book b.
Proof.
  intros Hj Hv Ho Hb. unfold book_in in Hb. rewrite Hj in Hb. pose proof Hv as [Hg Hd].
  assert (∀ l, gives v "Targets" (JObj l) → NoDup l.*1) as N1 by (intros l Hl; by apply (Hd (JObj l)); [left|]).
  assert (∀ l, gives v "Tasks" (JObj l) → NoDup l.*1) as N2 by (intros l Hl; by apply (Hd (JObj l)); [right|]).
  destruct (JsonParserModel.decode_runbook v) as [d|] eqn:Hdec; [|done].
  apply JsonParserProofs.decode_runbook_spec in Hdec as (_ & H1 & H2).
  apply (JsonProps.json_well_formed v (s_order s 0%nat _ (ParserModel.d_targets d)) (s_order s 1%nat _ (ParserModel.d_tasks d))); [done| | |done].
  - eapply range_order; [done|JsonParserProofs.in_settings|exact N1|exact H1|apply Ho].
  - eapply range_order; [done|JsonParserProofs.in_settings|exact N2|exact H2|apply Ho].
Qed.

(** What a finished run with status 0 has done. *)
Definition all_done (b : book) (h : EffectsModel.host) (E : list world_effect) : Prop :=
  ∀ t k, bk_tasks b !! t = Some k → ∃ before x ds,
    bk_targets b !! b_target k = Some x ∧ to_do h x before (b_config k) ds ∧ deeds_by t E = said (b_message k) ++ ds.
(** Nothing is done before what it comes after is done. *)
Definition in_order (b : book) (E : list world_effect) : Prop :=
  ∀ E1 q t d E2 m, E = E1 ++ Does q t d :: E2 → tc (after (order_of_book b)) t m → deeds_by m E1 = deeds_by m E.

(** C134: pgutil runbook run.  Nothing at all is done for a file that is not a valid
    runbook, and the status is 1.  For a valid runbook nothing is done that is not in it; what is done
    is done in order; the status is 0 only if everything was done, and it is 0 if
    nothing around it goes wrong. *)
Theorem run_end_to_end s h did modern ws w r file v :
  let x := program s modern ws w in
  faithful s h did → (∀ n A (m : gmap string A), range_of m (s_order s n A m)) →
  x_ran x = Some r → q_command r = BookRun file →
  (∀ files, (∀ p, q_debug r ≠ Some p → files !! p = w_files w !! p) → s_jsonnet s file files = Some v) →
  document_given_once v →
  ∃ w1, let E := did file w1 in
    (** this is the run of the process: it starts with the files that were there, its result is
        the status, and what it does to files is what the process does *)
    (∀ p, q_debug r ≠ Some p → w_files w1 !! p = w_files w !! p ∧
       w_files (x_world x) !! p = w_files (s_run s file w1).1 !! p) ∧
    x_status x = code (s_run s file w1).2 ∧
    ((∀ b, ¬ document_says v b) → x_status x ≠ 0 ∧ E = []) ∧
    ∀ b, document_says v b → ok_host b h → short_sleeps b → tries_to_connect b →
      (∀ q t d, Does q t d ∈ E → ∃ k, bk_tasks b !! t = Some k ∧ b_target k = q) ∧
      ("" ∉ dom (bk_tasks b) → in_order b E) ∧
      (x_status x = 0 → well_ordered (order_of_book b) → all_done b h E) ∧
      (all_well b h → well_ordered (order_of_book b) → bk_tasks b ≠ ∅ → x_status x = 0 ∧ all_done b h E).
Proof.
  intros x Hfaith Hord Hr Hq Hread Hv.
  destruct (program_ran s modern ws w r Hr) as (files & w2 & e & Hf & _ & Hc & Hs & Hw2 & _).
  unfold x in *. rewrite Hs. set (w1 := say s r (first_messages s r ++ _) _) in Hc. exists w1.
  assert (Hj : s_jsonnet s file (w_files w1) = Some v).
  { apply Hread. intros p Hp. unfold w1. rewrite (say_files s r _ _ p Hp). simpl. destruct (Hf p) as [|(_ & _ & _ & ?)]; done. }
  pose proof (λ b, book_exact s file (w_files w1) v b Hj Hv Hord) as Hb.
  pose proof (λ b, book_good s file (w_files w1) v b Hj Hv Hord) as Hgood.
  unfold command_run in Hc. rewrite Hq in Hc. injection Hc as Hrun Hl.
  pose proof (Hfaith file w1) as Hbr. rewrite Hrun in Hbr. simpl in Hbr. cbv zeta. rewrite Hrun. simpl.
  split; [|split; [done|]].
  { intros p Hp. rewrite Hw2, (say_files s r _ _ p Hp). split; [|done].
    unfold w1. rewrite (say_files s r _ _ p Hp). simpl. destruct (Hf p) as [|(_ & _ & _ & ?)]; done. }
  generalize dependent (did file w1). intros E Hbr.
  assert (Hdone : ∀ b st tr E m p, book_in s file (w_files w1) = Ok b → ok_host b h → short_sleeps b → tries_to_connect b →
    well_ordered (order_of_book b) → executes (run_book b h) st tr → fine b h tr E m p → EvReturn None ∈ tr → all_done b h E).
  { intros b st tr E0 m p Hbk Hh Hsl Ht Hw He Hfine Hret t k Hk.
    destruct (successful_run_does_all b h st tr (Hgood b Hbk) Hh Hsl Ht Hw He Hret t k Hk) as (tr1 & tr2 & y & ds & _ & H1 & H2 & H3).
    destruct (run_success_lem _ _ _ He Hret) as [Hall _]. destruct (Hall Hw t) as [q Hq0].
    { simpl. rewrite dom_fmap_L. by eapply elem_of_dom_2. }
    eexists _, y, ds. split; [done|]. split; [done|]. by rewrite (fine_handled b h st tr E0 m p q t None). }
  assert (Hwell : ∀ b st tr r0, book_in s file (w_files w1) = Ok b → all_well b h → executes (run_book b h) st tr → EvReturn r0 ∈ tr → r0 = None).
  { intros b st tr r0 Hbk Haw He Hret. destruct r0 as [er|]; [|done]. exfalso.
    destruct (well_run b h st tr (Hgood b Hbk) Haw He) as [Hstarted Hok].
    destruct (run_error_lem _ st tr er He Hret Hstarted) as (q & t & _ & Hh'). by apply Hok in Hh'. }
  assert (Hcommon : ∀ b st tr E m p, book_in s file (w_files w1) = Ok b → executes (run_book b h) st tr → fine b h tr E m p →
    ok_host b h → short_sleeps b → tries_to_connect b →
    (∀ q t d, Does q t d ∈ E → ∃ k, bk_tasks b !! t = Some k ∧ b_target k = q) ∧
    ("" ∉ dom (bk_tasks b) → in_order b E)).
  { intros b st tr E0 m p Hbk He Hfine Hh Hsl Ht. split.
    - intros q t d Hd. destruct (fine_on b h _ _ _ _ Hfine) as (_ & _ & HE & _). apply HE in Hd. revert Hd.
      apply (run_does b h st tr); try done. by apply Hgood.
    - intros Hn E1 q t d E2 u HE Htc. by destruct (fine_ordered b h st tr E0 m p E1 q t d E2 u He Hfine HE Hn Htc). }
  destruct Hbr as [er Hbk|Hbk|b st tr E m p r0 Hbk He Hfine Hret Hnc|b st tr E m p Hbk He Hfine Hcr|b st tr E m p Hbk He Hfine Hst Hpe Hnr].
  - split; [done|]. intros b Hbs%Hb. congruence.
  - split; [done|]. intros b Hbs%Hb. congruence.
  - split; [intros Hno; by destruct (Hno b); apply Hb|]. intros b' Hb'%Hb Hh Hsl Ht.
    assert (b' = b) as -> by congruence. destruct (Hcommon b st tr E m p Hbk He Hfine Hh Hsl Ht) as [C1 C2]. split_and!; [done|done| |].
    + intros Hcode Hw. assert (r0 = None) as ->.
      { destruct r0; [|done]. by rewrite bool_decide_false in Hcode. }
      by eapply Hdone.
    + intros Haw Hw Hne. assert (r0 = None) as -> by by eapply Hwell.
      split; [by rewrite bool_decide_true|]. by eapply Hdone.
  - split; [intros Hno; by destruct (Hno b); apply Hb|]. intros b' Hb'%Hb Hh Hsl Ht.
    assert (b' = b) as -> by congruence. exfalso. destruct (fine_on b h _ _ _ _ Hfine) as (_ & _ & HE & _).
    eapply (run_never_crashes_partial b h st tr); [by apply Hgood|done|done|by apply HE].
  - split; [intros Hno; by destruct (Hno b); apply Hb|]. intros b' Hb'%Hb Hh Hsl Ht.
    assert (b' = b) as -> by congruence. destruct (Hcommon b st tr E m p Hbk He Hfine Hh Hsl Ht) as [C1 C2]. split_and!; [done|done|done|].
    intros Haw Hw Hne. exfalso. apply (Hnr None).
    by destruct (flawless_run b h st tr (Hgood b Hbk) Hh Hsl Haw Hw Hne He Hst) as (_ & Hret & _).
Qed.
Print Assumptions run_end_to_end.

(** All databases of the runbook can be connected to as it says. *)
Definition all_connect (b : book) (h : EffectsModel.host) : Prop :=
  h_libpq h ≠ None ∧
  ∀ q s, bk_targets b !! q = Some (PgTarget s) → 0 ≤ pgs_retries s ∧ h_connects h q (pgs_retries s) = true ∧
    (pgs_sslmode s = "" ∨ ∃ host l, PgSpec.allowed host (pgs_sslmode s) l).
Lemma connecting_starts b h q : all_connect b h → ri_start (run_book b h) q = None.
Proof.
  intros [He Ht]. simpl. destruct (bk_targets b !! q) as [x|] eqn:Hx; [|done].
  destruct x as [s|n e|s]; simpl; try done. destruct (Ht q s Hx) as (H0 & Hc & Hm).
  destruct (h_libpq h) as [e|]; [|done]. destruct (configure_well s e Hm) as [c ->].
  destruct (PgProofs.connect_spec (h_connects h q) (pgs_retries s)) as (w & _ & ->). simpl.
  by rewrite decide_False, Hc by lia.
Qed.
Lemma connecting_started b h st tr : all_connect b h → executes (run_book b h) st tr → all_started tr.
Proof.
  intros Hw He q e Hin. apply elem_of_list_split in Hin as (l1 & l2 & ->).
  destruct (event_at _ _ _ _ _ _ He) as [st1 He1]. destruct (last_event _ _ _ _ _ He1) as (_ & Hs & _).
  by rewrite connecting_starts in Hs.
Qed.

(** C135: the status of a run tells whether the tasks succeeded.  If the runbook has a
    task, its order is well-founded and its databases can be reached, it is 0 exactly if no task
    fails. *)
Theorem run_status s h did modern ws w r file v b :
  let x := program s modern ws w in
  faithful s h did → (∀ n A (m : gmap string A), range_of m (s_order s n A m)) →
  x_ran x = Some r → q_command r = BookRun file →
  (∀ files, (∀ p, q_debug r ≠ Some p → files !! p = w_files w !! p) → s_jsonnet s file files = Some v) →
  document_given_once v → document_says v b →
  well_ordered (order_of_book b) →
  (x_status x = 0 → ∀ t k, bk_tasks b !! t = Some k → went_well h t k) ∧
  (all_connect b h → bk_tasks b ≠ ∅ →
     (∀ t k, bk_tasks b !! t = Some k → went_well h t k) → x_status x = 0).
Proof.
  intros x Hfaith Hord Hr Hq Hread Hv Hb Hw.
  destruct (program_ran s modern ws w r Hr) as (files & w2 & e & Hf & _ & Hc & Hs & _).
  unfold x in *. rewrite Hs. set (w1 := say s r (first_messages s r ++ _) _) in Hc.
  assert (Hj : s_jsonnet s file (w_files w1) = Some v).
  { apply Hread. intros p Hp. unfold w1. rewrite (say_files s r _ _ p Hp). simpl. destruct (Hf p) as [|(_ & _ & _ & ?)]; done. }
  apply (book_exact s file (w_files w1) v b Hj Hv Hord) in Hb.
  pose proof (book_good s file (w_files w1) v b Hj Hv Hord Hb) as Hg.
  unfold command_run in Hc. rewrite Hq in Hc. injection Hc as Hrun Hl.
  pose proof (Hfaith file w1) as Hbr. rewrite Hrun in Hbr. simpl in Hbr. generalize dependent (did file w1). intros E Hbr.
  assert (Hno : (∀ t k, bk_tasks b !! t = Some k → went_well h t k) → ∀ t k, bk_tasks b !! t = Some k → ri_handle (run_book b h) t = None).
  { intros Hall t k Hk. pose proof (Hall t k Hk) as Hg1. pose proof (handle_answer b h t k Hg Hk) as Ha.
    destruct (ri_handle (run_book b h) t) as [er|] eqn:Her; [|done]. exfalso. revert Ha Hg1. unfold failed_with, went_well.
    destruct (b_config k); [congruence..|]. by intros [-> _]. }
  destruct Hbr as [er Hbk|Hbk|b0 st tr E m p r0 Hbk He Hfine Hret Hnc|b0 st tr E m p Hbk He Hfine Hcr|b0 st tr E m p Hbk He Hfine Hst Hpe Hnr];
    [congruence..| | |]; assert (b0 = b) as -> by congruence.
  - split.
    + intros Hcode. assert (r0 = None) as -> by (destruct r0; [by rewrite bool_decide_false in Hcode|done]).
      by destruct (success_is_real b h st tr Hg Hw He Hret).
    + intros Hcon Hne Hall. assert (r0 = None) as ->; [|by rewrite bool_decide_true].
      destruct r0 as [er|]; [|done].
      destruct (run_error_lem _ st tr er He Hret) as (q & t & Ht & Hh); [by eapply connecting_started|].
      simpl in Ht. rewrite dom_fmap_L in Ht. apply elem_of_dom in Ht as [k Hk].
      destruct (RunnerInvT.t_result _ _ _ (RunnerInvT.executes_InvT _ _ _ He) _ _ _ Hh) as [Hn _]. by rewrite (Hno Hall t k Hk) in Hn.
  - split; [done|]. intros [_ Hcon] _ _. exfalso. destruct (fine_on b h _ _ _ _ Hfine) as (_ & _ & HE & _).
    eapply (run_never_crashes_partial b h st tr); [done| |done|by apply HE].
    intros q s0 Hq0. by apply Hcon in Hq0 as [].
  - split; [done|]. intros Hcon Hne Hall. exfalso.
    destruct (ParserProofs.good_book_runs b (ri_start (run_book b h)) (ri_handle (run_book b h)) Hg) as [Hlim Hrn].
    assert (all_finished (run_book b h) st) as [[r1 Hm] _].
    { apply (RunnerLive.stuck_finished _ st tr); try done.
      - simpl. rewrite dom_fmap_L. intros Hd. by apply dom_empty_inv_L in Hd.
      - by eapply connecting_started.
      - intros t v0 e0 Hv0 Hf0. simpl in Hv0. rewrite lookup_fmap in Hv0. destruct (bk_tasks b !! t) as [k|] eqn:Hk; [|done].
        by rewrite (Hno Hall t k Hk) in Hf0. }
    apply (Hnr r1). by eapply RunnerLive.run_returned_ev.
Qed.
Print Assumptions run_status.

(** A setting with the runbook of EffectsExamples; and another, with a task that fails. *)
Definition book_setting (v : json) (e : ended) : setting := Setting "1.2.3" None port_number (λ _, true) CliProps.good
  (λ _ _ _ m, m +:+ newline) (λ _, ([], []))
  (Some PgProps.env_example) (λ c, true) (λ _, PgModel.Row "PostgreSQL 12.1")
  (λ _, SysServer.server_from SysExamples.usual "public" "UTC") (@PgSpec.insertion_sort) SysProps.no_floats HclText.plain_lib
  (λ f files, if decide (files !! f = Some "book") then Some v else None)
  ex_order (λ l, "graph") (λ _ _, "json") (λ _, false)
  (λ f w, (w, if decide (w_files w !! f = Some "book") then e else Fails))
  (λ _, "unexpected") (λ _, "usage") (λ _, "failed").
Definition run_setting : setting := book_setting EffectsExamples.ex_doc Done.
Definition run_did (f : string) (w : world) : list world_effect :=
  if decide (w_files w !! f = Some "book") then effects EffectsExamples.ex_book EffectsExamples.ex_host EffectsExamples.ex_trace else [].
Lemma doc_once : document_given_once EffectsExamples.ex_doc.
Proof. EffectsExamples.once_doc. Qed.
Lemma doc_says : document_says EffectsExamples.ex_doc EffectsExamples.ex_book.
Proof.
  eapply (JsonProps.json_exact EffectsExamples.ex_doc ["sh"; "db"; "demo"] ["one"; "two"; "d1"; "d2"; "d3"]);
    [apply doc_once|EffectsExamples.order_doc|EffectsExamples.order_doc|apply EffectsExamples.ex_parsed].
Qed.
Lemma run_fine : ∃ m p, fine EffectsExamples.ex_book EffectsExamples.ex_host EffectsExamples.ex_trace
  (effects EffectsExamples.ex_book EffectsExamples.ex_host EffectsExamples.ex_trace) m p.
Proof.
  destruct (fine_coarse EffectsExamples.ex_book EffectsExamples.ex_host EffectsExamples.ex_trace) as (p & Hp & _).
  - rewrite EffectsExamples.ex_effects. set_solver.
  - by eexists _, p.
Qed.
Lemma run_faithful : faithful run_setting EffectsExamples.ex_host run_did.
Proof.
  intros f w. unfold run_did, run_setting at 2, book_setting. cbn [s_run snd].
  destruct (decide (w_files w !! f = Some "book")) as [Hf|Hf].
  - destruct EffectsExamples.ex_runs as (st & He & _).
    change Done with (ended_if (bool_decide (@None go_error = None))).
    destruct run_fine as (m & p & Hp).
    apply (run_returns _ _ _ _ EffectsExamples.ex_book st EffectsExamples.ex_trace _ m p None).
    + apply (book_exact _ _ _ EffectsExamples.ex_doc); [|apply doc_once|apply ex_ordered|apply doc_says]. simpl. by rewrite decide_True.
    + done.
    + exact Hp.
    + apply (bool_decide_unpack _). by vm_compute.
    + rewrite EffectsExamples.ex_effects. set_solver.
  - apply (run_refused _ _ _ _ BadConfig). unfold book_in. simpl. by rewrite decide_False.
Qed.
Example run_end_to_end_example :
  let x := program run_setting true ["runbook"; "run"; "book.jsonnet"] ex_world in
  (∃ r, x_ran x = Some r ∧ q_command r = BookRun "book.jsonnet" ∧ q_debug r = None) ∧ x_status x = 0 ∧
  document_says EffectsExamples.ex_doc EffectsExamples.ex_book ∧ ok_host EffectsExamples.ex_book EffectsExamples.ex_host ∧
  short_sleeps EffectsExamples.ex_book ∧ tries_to_connect EffectsExamples.ex_book ∧
  all_well EffectsExamples.ex_book EffectsExamples.ex_host ∧ well_ordered (order_of_book EffectsExamples.ex_book) ∧
  all_connect EffectsExamples.ex_book EffectsExamples.ex_host ∧
  (∀ files, (∀ p, None ≠ Some p → files !! p = w_files ex_world !! p ∨ w_files ex_world !! p = None) →
     s_jsonnet run_setting "book.jsonnet" files = Some EffectsExamples.ex_doc) ∧
  run_did "book.jsonnet" ex_world ≠ [].
Proof.
  cbv zeta. split_and!.
  - eexists. split; [vm_compute; reflexivity|done].
  - by vm_compute.
  - apply doc_says.
  - apply EffectsExamples.ex_ok_host.
  - apply EffectsExamples.ex_short.
  - apply EffectsExamples.ex_tries.
  - apply EffectsExamples.ex_well.
  - apply EffectsExamples.ex_book_ordered.
  - pose proof EffectsExamples.ex_well as (H1 & H2 & _). done.
  - intros files Hf. simpl. rewrite decide_True; [done|]. destruct (Hf "book.jsonnet") as [->|H]; [done|by vm_compute|by vm_compute in H].
  - unfold run_did. rewrite decide_True by by vm_compute. by rewrite EffectsExamples.ex_effects.
Qed.
