(** Properties C86-C93: what a run of a runbook does. *)
From Coq Require Import String Ascii.
From stdpp Require Import gmap list strings numbers relations.
From Verif Require Import PgModel PgSpec GoBase GoStrings GoUtf8 ShModel ShSpec DemoModel DemoSpec JsonModel ParserModel
  ParserSpec ParserProofs JsonParserModel JsonSpec JsonProofs JsonParserProofs DagModel SchedModel SchedSpec RunnerModel
  RunnerSpec RunnerInvA RunnerInvB RunnerInvT RunnerProofs RunnerLive RunnerExamples ParserProps JsonProps
  EffectsModel EffectsSpec EffectsProofs EffectsExamples.
Local Open Scope Z_scope.

(** C86: every task that is handled does what its settings say, in the situation its
    target is in; a task that is not handled does nothing; nobody else does anything. *)
Theorem run_does b h st tr :
  good_book b → ok_host b h → short_sleeps b → tries_to_connect b → executes (run_book b h) st tr →
  (∀ q t d, Does q t d ∈ effects b h tr → ∃ k, bk_tasks b !! t = Some k ∧ b_target k = q) ∧
  (∀ t, t ∉ begun tr → deeds_by t (effects b h tr) = []) ∧
  (∀ tr1 q t tr2, tr = tr1 ++ EvHandle q t :: tr2 →
     ∃ k x ds, bk_tasks b !! t = Some k ∧ b_target k = q ∧ bk_targets b !! q = Some x ∧
       to_do h x (demos b (begun_on q tr1)) (b_config k) ds ∧
       deeds_by t (effects b h tr) = said (b_message k) ++ ds).
Proof.
  intros Hg Hh Hs Ht He. split; [|split].
  - intros q t d Hin. apply does_event in Hin. apply elem_of_list_split in Hin as (l1 & l2 & ->).
    destruct (event_at _ _ _ _ _ _ He) as [st1 He1]. by destruct (last_event _ _ _ _ _ He1) as (_ & _ & _ & ?).
  - intros t Hn. by apply deeds_none.
  - intros tr1 q t tr2 ->. destruct (run_deeds _ _ _ _ _ _ _ Hg Hh Hs Ht He) as (k & x & ds & ? & ? & ? & ? & _ & _ & ?).
    by exists k, x, ds.
Qed.
Print Assumptions run_does.
(** ... and when Run returns nil, every task has. *)
Theorem successful_run_does_all b h st tr :
  good_book b → ok_host b h → short_sleeps b → tries_to_connect b → well_ordered (order_of_book b) →
  executes (run_book b h) st tr → EvReturn None ∈ tr →
  ∀ t k, bk_tasks b !! t = Some k → ∃ tr1 tr2 x ds,
    tr = tr1 ++ EvHandle (b_target k) t :: tr2 ∧ bk_targets b !! b_target k = Some x ∧
    to_do h x (demos b (begun_on (b_target k) tr1)) (b_config k) ds ∧
    deeds_by t (effects b h tr) = said (b_message k) ++ ds.
Proof.
  intros Hg Hh Hs Ht Hw He Hr t k Hk.
  destruct (run_success_lem _ _ _ He Hr) as [H _]. destruct (H Hw t) as [q Hq].
  { simpl. rewrite dom_fmap_L. by eapply elem_of_dom_2. }
  destruct (t_result _ _ _ (executes_InvT _ _ _ He) _ _ _ Hq) as [_ Hin].
  apply elem_of_list_split in Hin as (l1 & l2 & ->).
  destruct (run_does b h st _ Hg Hh Hs Ht He) as (_ & _ & H3).
  destruct (H3 _ _ _ _ eq_refl) as (k' & x & ds & Hk' & Hkq & Hx & Htd & Hd).
  rewrite Hk in Hk'. injection Hk' as <-. subst q. by exists l1, l2, x, ds.
Qed.
Print Assumptions successful_run_does_all.
(** ... which it does, whatever the interleaving, if nothing goes wrong around it. *)
Theorem flawless_run b h st tr :
  good_book b → ok_host b h → short_sleeps b → all_well b h → well_ordered (order_of_book b) → bk_tasks b ≠ ∅ →
  executes (run_book b h) st tr → stuck (run_book b h) st →
  all_finished (run_book b h) st ∧ EvReturn None ∈ tr ∧
  ∀ t k, bk_tasks b !! t = Some k → ∃ tr1 tr2 x ds,
    tr = tr1 ++ EvHandle (b_target k) t :: tr2 ∧ bk_targets b !! b_target k = Some x ∧
    to_do h x (demos b (begun_on (b_target k) tr1)) (b_config k) ds ∧
    deeds_by t (effects b h tr) = said (b_message k) ++ ds.
Proof.
  intros Hg Hh Hs Hall Hw Hne He Hst.
  destruct (well_run _ _ _ _ Hg Hall He) as [Hstarted Hok].
  destruct (good_book_runs b (ri_start (run_book b h)) (ri_handle (run_book b h)) Hg) as [Hl Hr].
  assert (all_finished (run_book b h) st) as Hfin.
  { apply (stuck_finished _ st tr); try done.
    - simpl. rewrite dom_fmap_L. intros Hd. by apply dom_empty_inv_L in Hd.
    - intros t v e _ Hf. by rewrite well_handles in Hf. }
  split; [done|]. destruct Hfin as [[r Hm] _].
  assert (EvReturn r ∈ tr) as Hev by (by eapply run_returned_ev).
  assert (r = None) as ->.
  { destruct r as [e|]; [|done]. destruct (run_error_lem _ st tr e He Hev Hstarted) as (q & t & _ & Hh'). by apply Hok in Hh'. }
  split; [done|]. apply (successful_run_does_all b h st tr); try done.
  intros q s Hq. by apply Hall in Hq as [].
Qed.
Print Assumptions flawless_run.
(** For a runbook in JSON: if Parse accepts it, its run does what it says. *)
Theorem flawless_json_run v o1 o2 b h st tr :
  document_given_once v → order_of v "Targets" o1 → order_of v "Tasks" o2 → parse_json v o1 o2 = Ok b →
  ok_host b h → short_sleeps b → all_well b h → well_ordered (order_of_book b) → bk_tasks b ≠ ∅ →
  executes (run_book b h) st tr → stuck (run_book b h) st →
  document_says v b ∧ EvReturn None ∈ tr ∧
  ∀ t k, bk_tasks b !! t = Some k → ∃ tr1 tr2 x ds,
    tr = tr1 ++ EvHandle (b_target k) t :: tr2 ∧ bk_targets b !! b_target k = Some x ∧
    to_do h x (demos b (begun_on (b_target k) tr1)) (b_config k) ds ∧
    deeds_by t (effects b h tr) = said (b_message k) ++ ds.
Proof.
  intros Hd Ho1 Ho2 Hp Hh Hs Hw Ho Hne He Hst. split; [by apply (json_exact v o1 o2)|].
  apply (flawless_run b h st tr); try done. by apply (json_well_formed v o1 o2).
Qed.
Print Assumptions flawless_json_run.
Example flawless_run_example :
  good_book ex_book ∧ ok_host ex_book ex_host ∧ short_sleeps ex_book ∧ all_well ex_book ex_host ∧
  well_ordered (order_of_book ex_book) ∧ is_Some (bk_tasks ex_book !! "two") ∧
  (∃ st, executes (run_book ex_book ex_host) st ex_trace ∧ stuck (run_book ex_book ex_host) st) ∧
  EvReturn None ∈ ex_trace ∧
  deeds_by "two" (effects ex_book ex_host ex_trace) = [Says "hi"; Sends "select 1"] ∧
  deeds_by "d3" (effects ex_book ex_host ex_trace) = [Prints (line "cba")] ∧
  deeds_by "one" (effects ex_book ex_host ex_trace) = [Runs ["ls"; "-l"] "/b" ["HOME=/r"; "A=1"]].
Proof.
  split_and!; [exact ex_good_book|exact ex_ok_host|exact ex_short|exact ex_well|exact ex_book_ordered| |exact ex_runs| |..].
  - assert (match bk_tasks ex_book !! "two" with Some _ => True | None => False end) as H by (by vm_compute).
    by destruct (bk_tasks ex_book !! "two").
  - apply (bool_decide_unpack _). by vm_compute.
  - rewrite ex_effects. by vm_compute.
  - rewrite ex_effects. by vm_compute.
  - rewrite ex_effects. by vm_compute.
Qed.
(** Without [short_sleeps] and [tries_to_connect] it is false: C90 and C91. *)

(** C87: when a task does something, every task it is after, directly or not, has
    done all it ever does, and has succeeded. *)
Theorem deeds_in_order b h st tr E1 q t d E2 m :
  "" ∉ dom (bk_tasks b) → executes (run_book b h) st tr →
  effects b h tr = E1 ++ Does q t d :: E2 → tc (after (order_of_book b)) t m →
  deeds_by m E1 = deeds_by m (effects b h tr) ∧ ∃ q', EvHandled q' m None ∈ tr.
Proof. intros Hn He HE Htc. by apply (deeds_ordered b h st tr E1 q t d E2 m). Qed.
Print Assumptions deeds_in_order.
(** With a task named "" it is false (C16). *)
Definition unnamed : book := Book {[ "d" := DemoTgt "s"; "e" := DemoTgt "s" ]}
  {[ "" := BookTask [] "e" "" (DemoConfig Echo); "b" := BookTask [""] "d" "go" (DemoConfig Rev) ]}.
Definition unnamed_trace : list event :=
  [EvStart "d"; EvStart "e"; EvHandle "d" "b"; EvHandled "d" "b" None; EvStop "d"; EvHandle "e" "";
   EvHandled "e" "" None; EvStop "e"; EvReturn None].
Theorem deeds_in_order_refuted : ∃ b h st tr E1 q t d E2 m,
  good_book b ∧ executes (run_book b h) st tr ∧ effects b h tr = E1 ++ Does q t d :: E2 ∧
  after (order_of_book b) t m ∧ deeds_by m E1 = [] ∧ deeds_by m (effects b h tr) = [Prints (line "s")].
Proof.
  exists unnamed, ex_host, (ex_run (run_book unnamed ex_host) ["d"; "e"]).1, unnamed_trace,
    [], "d", "b", (Says "go"), [Does "e" "" (Prints (line "s"))], "".
  split_and!; [| |by vm_compute| |by vm_compute..].
  - split.
    + intros q t Hq. pose proof (all_entries (bk_targets unnamed) (λ _ t, bool_decide (1 ≤ concurrency_limit t))
        ltac:(by vm_compute) _ _ Hq) as H. by apply bool_decide_eq_true in H.
    + intros t k Hk. unfold unnamed in *. cbn [bk_tasks bk_targets] in *.
      apply lookup_insert_Some in Hk as [[<- <-]|[_ [<- <-]%lookup_singleton_Some]]; (split; [done|]); by exists (DemoTgt "s").
  - apply shows_sound; [apply range_of_check; by vm_compute|by vm_compute].
  - exists (Task "d" [""]). split; [by vm_compute|by left].
Qed.
Print Assumptions deeds_in_order_refuted.
Example deeds_in_order_example :
  "" ∉ dom (bk_tasks ex_book) ∧ (∃ st, executes (run_book ex_book ex_host) st ex_trace) ∧
  effects ex_book ex_host ex_trace = take 5 (effects ex_book ex_host ex_trace) ++ Does "demo" "d3" (Prints (line "cba")) :: [Closes "db"] ∧
  tc (after (order_of_book ex_book)) "d3" "one".
Proof.
  split_and!.
  - intros H%elem_of_dom. assert (match bk_tasks ex_book !! "" with Some _ => False | None => True end) as H' by (by vm_compute).
    destruct (bk_tasks ex_book !! ""); [done|]. by destruct H.
  - destruct ex_runs as (st & ? & _). by exists st.
  - by rewrite ex_effects.
  - assert (order_of_book ex_book !! "d3" = Some (Task "demo" ["d2"; "two"])) as H1 by (by vm_compute).
    assert (order_of_book ex_book !! "two" = Some (Task "db" ["one"])) as H2 by (by vm_compute).
    eapply tc_l; [exists (Task "demo" ["d2"; "two"]); split; [done|right; by left]|].
    apply tc_once. exists (Task "db" ["one"]). split; [done|by left].
Qed.

(** C88: what a demo target prints is decided by the order its tasks are handled in ... *)
Theorem demo_output b h st tr q s :
  good_book b → executes (run_book b h) st tr → bk_targets b !! q = Some (DemoTgt s) →
  printed_by q (effects b h tr) = echo_texts (demos b (begun_on q tr)) s.
Proof. apply demo_prints. Qed.
Print Assumptions demo_output.
(** ... so that it is the same for every interleaving, if its tasks are in sequence. *)
Theorem demo_output_certain b h st tr q s l :
  good_book b → "" ∉ dom (bk_tasks b) → well_ordered (order_of_book b) →
  executes (run_book b h) st tr → EvReturn None ∈ tr →
  bk_targets b !! q = Some (DemoTgt s) → in_sequence b q l →
  printed_by q (effects b h tr) = echo_texts (demos b l) s.
Proof.
  intros Hg Hn Hw He Hr Hq Hl. rewrite (demo_prints b h st tr q s) by done.
  by rewrite (sequence_begun b h st tr q l).
Qed.
Print Assumptions demo_output_certain.
(** Otherwise two runs may differ. *)
Definition racing : book := Book {[ "d" := DemoTgt "ab"; "x" := DemoTgt ""; "y" := DemoTgt "" ]}
  {[ "a" := BookTask [] "x" "" (DemoConfig Rev); "b" := BookTask [] "y" "" (DemoConfig Rev);
     "e" := BookTask ["a"] "d" "" (DemoConfig Echo); "r" := BookTask ["b"] "d" "" (DemoConfig Rev) ]}.
Definition race1 : list event :=
  [EvStart "d"; EvStart "x"; EvStart "y"; EvHandle "x" "a"; EvHandled "x" "a" None; EvHandle "d" "e";
   EvHandled "d" "e" None; EvHandle "y" "b"; EvHandled "y" "b" None; EvHandle "d" "r";
   EvHandled "d" "r" None; EvStop "d"; EvStop "x"; EvStop "y"; EvReturn None].
Definition race2 : list event :=
  [EvStart "d"; EvStart "y"; EvStart "x"; EvHandle "y" "b"; EvHandled "y" "b" None; EvHandle "d" "r";
   EvHandled "d" "r" None; EvHandle "x" "a"; EvHandled "x" "a" None; EvHandle "d" "e";
   EvHandled "d" "e" None; EvStop "d"; EvStop "y"; EvStop "x"; EvReturn None].
Theorem demo_output_certain_refuted : ∃ b h st1 tr1 st2 tr2 q,
  good_book b ∧ executes (run_book b h) st1 tr1 ∧ EvReturn None ∈ tr1 ∧
  executes (run_book b h) st2 tr2 ∧ EvReturn None ∈ tr2 ∧
  printed_by q (effects b h tr1) = [line "ab"] ∧ printed_by q (effects b h tr2) = [line "ba"].
Proof.
  exists racing, ex_host, (ex_run (run_book racing ex_host) ["d"; "x"; "y"]).1, race1,
    (ex_run (run_book racing ex_host) ["d"; "y"; "x"]).1, race2, "d".
  split_and!; [| | | | |by vm_compute..].
  - split.
    + intros q t Hq. pose proof (all_entries (bk_targets racing) (λ _ t, bool_decide (1 ≤ concurrency_limit t))
        ltac:(by vm_compute) _ _ Hq) as H. by apply bool_decide_eq_true in H.
    + intros t k Hk. unfold racing in *. cbn [bk_tasks bk_targets] in *.
      repeat (apply lookup_insert_Some in Hk as [[<- <-]|[_ Hk]]; [split; [done|eexists; by split]|]).
      apply lookup_singleton_Some in Hk as [<- <-]. split; [done|eexists; by split].
  - apply shows_sound; [apply range_of_check; by vm_compute|by vm_compute].
  - apply (bool_decide_unpack _). by vm_compute.
  - apply shows_sound; [apply range_of_check; by vm_compute|by vm_compute].
  - apply (bool_decide_unpack _). by vm_compute.
Qed.
Print Assumptions demo_output_certain_refuted.
Example demo_output_certain_example :
  in_sequence ex_book "demo" ["d1"; "d2"; "d3"] ∧ demos ex_book ["d1"; "d2"; "d3"] = [Echo; Rev; Echo] ∧
  echo_texts [Echo; Rev; Echo] "abc" = [line "abc"; line "cba"] ∧
  match bk_targets ex_book !! "demo" with Some (DemoTgt s) => s = "abc" | _ => False end.
Proof.
  split_and!; [|by vm_compute..]. split.
  - intros t. split.
    + intros Ht. assert (match bk_tasks ex_book !! t with Some k => b_target k = "demo" | None => False end) as H.
      { apply elem_of_list_In in Ht. cbn in Ht. destruct_or?; subst; by vm_compute. }
      destruct (bk_tasks ex_book !! t) as [k|]; [by exists k|done].
    + intros (k & Hk & Hq).
      pose proof (all_entries (bk_tasks ex_book) (λ t k, bool_decide (b_target k = "demo" → t ∈ ["d1"; "d2"; "d3"]))
        ltac:(by vm_compute) _ _ Hk) as H. apply bool_decide_eq_true in H. by apply H.
  - assert (order_of_book ex_book !! "d3" = Some (Task "demo" ["d2"; "two"])) as H1 by (by vm_compute).
    assert (order_of_book ex_book !! "d2" = Some (Task "demo" ["d1"])) as H2 by (by vm_compute).
    assert (after (order_of_book ex_book) "d3" "d2") as A1 by (eexists; split; [done|by left]).
    assert (after (order_of_book ex_book) "d2" "d1") as A2 by (eexists; split; [done|by left]).
    clear H1 H2. intros i j s t Hi Hj Hij.
    destruct j as [|[|[|j]]]; try done; destruct i as [|[|i]]; try (exfalso; lia); simpl in Hi, Hj; simplify_eq.
    + by apply tc_once.
    + eapply tc_l; [done|by apply tc_once].
    + by apply tc_once.
Qed.

(** C89: the connection of a pg target. *)
Theorem connection_configured b h st tr q c i :
  executes (run_book b h) st tr → Dials q c i ∈ effects b h tr →
  ∃ s e, bk_targets b !! q = Some (PgTarget s) ∧ h_libpq h = Some e ∧ as_configured s e c ∧ 0 ≤ i ≤ pgs_retries s.
Proof.
  intros He Hin. apply effect_event in Hin as (m & ev & _ & [_ (s & Hs & Hc & Hi)]%dials_event).
  destruct (h_libpq h) as [e|]; [|done]. exists s, e. split_and!; try done; [by apply configure_as|lia..].
Qed.
Print Assumptions connection_configured.
Theorem connection_used_while_open b h st tr q s :
  good_book b → bk_targets b !! q = Some (PgTarget s) → 0 ≤ pgs_retries s → executes (run_book b h) st tr →
  (∀ E1 t d E2, effects b h tr = E1 ++ Does q t d :: E2 →
     (∃ c i, Dials q c i ∈ E1 ∧ h_connects h q i = true) ∧ Closes q ∉ E1 ∧ ∀ c i, Dials q c i ∉ E2) ∧
  (∀ E1 E2, effects b h tr = E1 ++ Closes q :: E2 → (∀ t d, Does q t d ∉ E2) ∧ Closes q ∉ E2) ∧
  (∀ r, EvReturn r ∈ tr → all_started tr → Closes q ∈ effects b h tr).
Proof.
  intros Hg Hq Hr He. split; [|split].
  - intros E1 t d E2 HE. by apply (connection_open b h st tr E1 q t d E2 s).
  - intros E1 E2 HE. by apply (connection_closed b h st tr E1 q E2).
  - intros r Hret Hall. by apply (connection_ends b h st tr r q s).
Qed.
Print Assumptions connection_used_while_open.
Example connection_example :
  (match bk_targets ex_book !! "db" with Some (PgTarget s) => as_configured s ex_libpq ex_secure ∧ pgs_retries s = 0 | _ => False end) ∧
  effects ex_book ex_host ex_trace = Dials "db" ex_secure 0 :: drop 1 (take 6 (effects ex_book ex_host ex_trace)) ++ [Closes "db"].
Proof.
  split; [|by rewrite ex_effects].
  assert (match bk_targets ex_book !! "db" with Some (PgTarget s) => s = PgSettings 1 "h" 0 "require" "" "" "" 0 | _ => False end) as H by (by vm_compute).
  destruct (bk_targets ex_book !! "db") as [[s| |]|]; try done. subst s. split; [|done].
  split_and!; try done. intros _. constructor.
Qed.

(** C92.  Missing: targets with connect_retries, and runs in which a target does not
    start; for these it is false (below). *)
Theorem connections_closed_partial b h st tr r q s :
  good_book b → bk_targets b !! q = Some (PgTarget s) → pgs_retries s = 0 →
  executes (run_book b h) st tr → EvReturn r ∈ tr → all_started tr →
  ∃ c E1 E2 E3, effects b h tr = E1 ++ Dials q c 0 :: E2 ++ Closes q :: E3 ∧ h_connects h q 0 = true ∧
    (∀ c i, Dials q c i ∉ E1 ++ E2 ++ E3) ∧ Closes q ∉ E1 ++ E2 ++ E3.
Proof. intros Hg Hq Hr He Hret Hall. by apply (one_connection b h st tr r q s). Qed.
Print Assumptions connections_closed_partial.
Definition retrying : json := JObj
  [("targets", JObj [("db", JObj [("class", JStr "pg"); ("config", JObj [("connect_retries", JNum "1")])])]);
   ("tasks", JObj [("t", JObj [("target", JStr "db"); ("config", JObj [("sql", JStr "select 1")])])])].
Definition short_trace (q : string) : list event :=
  [EvStart q; EvHandle q "t"; EvHandled q "t" None; EvStop q; EvReturn None].
(** Two connections are opened, one is closed. *)
Theorem connections_closed_refuted : ∃ v b h st tr c,
  parse_json v ["db"] ["t"] = Ok b ∧ executes (run_book b h) st tr ∧ EvReturn None ∈ tr ∧
  (∀ i, h_connects h "db" i = true) ∧
  effects b h tr = [Dials "db" c 0; Dials "db" c 1; Does "db" "t" (Sends "select 1"); Closes "db"].
Proof.
  exists retrying, (Book {[ "db" := PgTarget (PgSettings 1 "" 0 "" "" "" "" 1) ]} {[ "t" := BookTask [] "db" "" (PgExec "select 1") ]}).
  set (b := Book _ _). exists ex_host, (ex_run (run_book b ex_host) ["db"]).1, (short_trace "db"), ex_libpq.
  split_and!; [by vm_compute| | |done|by vm_compute].
  - apply shows_sound; [apply range_of_check; by vm_compute|by vm_compute].
  - apply (bool_decide_unpack _). by vm_compute.
Qed.
Print Assumptions connections_closed_refuted.
(** One target does not start: the connection of the other is not closed. *)
Definition half_trace : list event := [EvStart "db"; EvStartFail "gone" "no connection"; EvReturn (Some "no connection")].
Definition two_dbs : book := Book {[ "db" := PgTarget (PgSettings 1 "" 0 "" "" "" "" 0);
  "gone" := PgTarget (PgSettings 1 "" 0 "" "" "" "" 0) ]} {[ "t" := BookTask [] "gone" "" (PgExec "select 1") ]}.
Definition half_host : host := Host [] (Some ex_libpq) (λ q _, bool_decide (q = "db")) (λ _, None) "/b" (λ _, []) (λ _, []).
Theorem connections_closed_start_refuted : ∃ b h st tr c,
  good_book b ∧ executes (run_book b h) st tr ∧ stuck (run_book b h) st ∧
  EvReturn (Some "no connection") ∈ tr ∧ h_connects h "db" 0 = true ∧
  effects b h tr = [Dials "db" c 0; Dials "gone" c 0].
Proof.
  destruct (ends_sound (run_book two_dbs half_host) ["db"; "gone"] half_trace) as (st & He & Hs);
    [apply range_of_check; by vm_compute|by vm_compute|].
  exists two_dbs, half_host, st, half_trace, ex_libpq.
  split_and!; [|done|done| |by vm_compute|by vm_compute].
  - split.
    + intros q t Hq. pose proof (all_entries (bk_targets two_dbs) (λ _ t, bool_decide (1 ≤ concurrency_limit t))
        ltac:(by vm_compute) _ _ Hq) as H. by apply bool_decide_eq_true in H.
    + intros t k Hk. unfold two_dbs in Hk. cbn [bk_tasks] in Hk. apply lookup_singleton_Some in Hk as [<- <-].
      split; [done|]. exists (PgTarget (PgSettings 1 "" 0 "" "" "" "" 0)). by split.
  - apply (bool_decide_unpack _). by vm_compute.
Qed.
Print Assumptions connections_closed_start_refuted.
Example connections_closed_example :
  (match bk_targets ex_book !! "db" with Some (PgTarget s) => pgs_retries s = 0 | _ => False end) ∧
  EvReturn None ∈ ex_trace ∧ all_started ex_trace.
Proof.
  split_and!; [by vm_compute|apply (bool_decide_unpack _); by vm_compute|].
  intros q e Hin. apply elem_of_list_In in Hin. cbn in Hin. destruct_or?; done.
Qed.

(** C90.  Missing: targets with negative connect_retries, for which it is false (below). *)
Theorem run_never_crashes_partial b h st tr :
  good_book b → tries_to_connect b → executes (run_book b h) st tr → Crash ∉ effects b h tr.
Proof.
  intros Hg Ht He Hc. destruct (run_crash b h st tr Hg He Hc) as (q & s & Hq & Hs). specialize (Ht q s Hq). lia.
Qed.
Print Assumptions run_never_crashes_partial.
Definition negative : json := JObj
  [("targets", JObj [("db", JObj [("class", JStr "pg"); ("config", JObj [("connect_retries", JNum "-1")])])]);
   ("tasks", JObj [("t", JObj [("target", JStr "db"); ("config", JObj [("sql", JStr "select 1")])])])].
Theorem run_never_crashes_refuted : ∃ v b h st tr,
  document_given_once v ∧ parse_json v ["db"] ["t"] = Ok b ∧ good_book b ∧ executes (run_book b h) st tr ∧
  head (effects b h tr) = Some Crash.
Proof.
  exists negative, (Book {[ "db" := PgTarget (PgSettings 1 "" 0 "" "" "" "" (-1)) ]} {[ "t" := BookTask [] "db" "" (PgExec "select 1") ]}).
  set (b := Book _ _). exists ex_host, (ex_run (run_book b ex_host) ["db"]).1, (short_trace "db").
  assert (document_given_once negative) as Hd by once_doc.
  assert (parse_json negative ["db"] ["t"] = Ok b) as Hp by (by vm_compute).
  split_and!; [done|done| | |by vm_compute].
  - apply (json_well_formed negative ["db"] ["t"]); [done|order_doc|order_doc|done].
  - apply shows_sound; [apply range_of_check; by vm_compute|by vm_compute].
Qed.
Print Assumptions run_never_crashes_refuted.
Example run_never_crashes_example : good_book ex_book ∧ tries_to_connect ex_book.
Proof. split; [exact ex_good_book|exact ex_tries]. Qed.

(** C91.  Missing: sleeps of more than 9223372036 seconds, for which it is false (below). *)
Theorem sleeps_as_told_partial b h st tr q t k n :
  good_book b → executes (run_book b h) st tr → EvHandle q t ∈ tr → bk_tasks b !! t = Some k →
  b_config k = DemoConfig (DemoModel.Sleep n) → n ≤ 9223372036 →
  1 ≤ n ∧ deeds_by t (effects b h tr) = said (b_message k) ++ [Pauses (n * 1000000000)].
Proof.
  intros Hg He Hin Hk Hc Hn. assert (1 ≤ n) as H1.
  { destruct Hg as [_ Hg]. destruct (Hg t k Hk) as [H _]. by rewrite Hc in H. }
  split; [done|]. rewrite (sleep_pauses b h st tr q t k n) by done. by rewrite wrap64_small by lia.
Qed.
Print Assumptions sleeps_as_told_partial.
(** In general the pause is the configured one up to a multiple of 2^64 nanoseconds, and within the
    63 bits a duration has; so the limit above is the exact one. *)
Theorem sleeps_modulo b h st tr q t k n :
  good_book b → executes (run_book b h) st tr → EvHandle q t ∈ tr → bk_tasks b !! t = Some k →
  b_config k = DemoConfig (DemoModel.Sleep n) →
  ∃ ns turns, deeds_by t (effects b h tr) = said (b_message k) ++ [Pauses ns] ∧
    - 2 ^ 63 ≤ ns < 2 ^ 63 ∧ n * 1000000000 = ns + turns * 2 ^ 64 ∧
    (ns = n * 1000000000 ↔ n ≤ 9223372036).
Proof.
  intros Hg He Hin Hk Hc. assert (1 ≤ n) as H1.
  { destruct Hg as [_ Hg]. destruct (Hg t k Hk) as [H _]. by rewrite Hc in H. }
  exists (wrap64 (n * 1000000000)), ((n * 1000000000 + 2 ^ 63) / 2 ^ 64).
  rewrite (sleep_pauses b h st tr q t k n) by done. split; [done|].
  unfold wrap64. pose proof (Z.mod_pos_bound (n * 1000000000 + 2 ^ 63) (2 ^ 64) ltac:(lia)) as Hb.
  pose proof (Z.div_mod (n * 1000000000 + 2 ^ 63) (2 ^ 64) ltac:(lia)) as Hd.
  split; [lia|]. split; [lia|]. split; [lia|]. intros Hn. rewrite Z.mod_small; lia.
Qed.
Print Assumptions sleeps_modulo.
Definition sleeping (n : string) : json := JObj
  [("targets", JObj [("d", JObj [("class", JStr "demo")])]);
   ("tasks", JObj [("t", JObj [("target", JStr "d/sleep"); ("config", JObj [("seconds", JNum n)])])])].
Theorem sleeps_as_told_refuted : ∃ v b h st tr n,
  document_given_once v ∧ parse_json v ["d"] ["t"] = Ok b ∧ executes (run_book b h) st tr ∧ EvReturn None ∈ tr ∧
  b_config <$> bk_tasks b !! "t" = Some (DemoConfig (DemoModel.Sleep n)) ∧ 9223372037 ≤ n ∧
  ∃ ns, effects b h tr = [Does "d" "t" (Pauses ns)] ∧ ns < 0.
Proof.
  exists (sleeping "9223372037"), (Book {[ "d" := DemoTgt "" ]} {[ "t" := BookTask [] "d" "" (DemoConfig (DemoModel.Sleep 9223372037)) ]}).
  set (b := Book _ _). exists ex_host, (ex_run (run_book b ex_host) ["d"]).1, (short_trace "d"), 9223372037.
  split_and!; [once_doc|by vm_compute| | |by vm_compute|done|].
  - apply shows_sound; [apply range_of_check; by vm_compute|by vm_compute].
  - apply (bool_decide_unpack _). by vm_compute.
  - exists (-9223372036709551616). split; [by vm_compute|done].
Qed.
Print Assumptions sleeps_as_told_refuted.
Example sleeps_as_told_example :
  match parse_json (sleeping "3") ["d"] ["t"] with
  | Ok b => b_config <$> bk_tasks b !! "t" = Some (DemoConfig (DemoModel.Sleep 3)) ∧
            shows (run_book b ex_host) ["d"] (short_trace "d") = true ∧
            effects b ex_host (short_trace "d") = [Does "d" "t" (Pauses 3000000000)]
  | _ => False
  end.
Proof. vm_compute. done. Qed.

(** C93 *)
Theorem success_is_real b h st tr :
  good_book b → well_ordered (order_of_book b) → executes (run_book b h) st tr → EvReturn None ∈ tr →
  (∀ t k, bk_tasks b !! t = Some k → went_well h t k) ∧
  (∀ q s, bk_targets b !! q = Some (PgTarget s) → 0 ≤ pgs_retries s →
     ∃ c, Dials q c (pgs_retries s) ∈ effects b h tr ∧ h_connects h q (pgs_retries s) = true).
Proof.
  intros Hg Hw He Hr. split.
  - intros t k Hk. destruct (run_success_lem _ _ _ He Hr) as [H _]. destruct (H Hw t) as [q Hq].
    { simpl. rewrite dom_fmap_L. by eapply elem_of_dom_2. }
    destruct (t_result _ _ _ (executes_InvT _ _ _ He) _ _ _ Hq) as [Hn _].
    pose proof (handle_answer b h t k Hg Hk) as Ha. by rewrite <-Hn in Ha.
  - intros q s Hq Hs. assert (EvStart q ∈ tr) as Hst by (apply (success_started b h st tr); [done..|by eapply elem_of_dom_2]).
    destruct (started_at b h st tr q He Hst) as [Hok _].
    destruct (started_dialled b h q s Hq Hs Hok) as (c & _ & Hcon & Hd). exists c. split; [|done].
    apply elem_of_list_split in Hst as (l1 & l2 & ->). rewrite effects_split, !elem_of_app. right. left.
    simpl. rewrite Hq. by destruct (start_target h q (PgTarget s)).
Qed.
Print Assumptions success_is_real.
Theorem error_is_real b h st tr e :
  good_book b → executes (run_book b h) st tr → EvReturn (Some e) ∈ tr → all_started tr →
  ∃ t k, bk_tasks b !! t = Some k ∧ t ∈ begun tr ∧ failed_with h t k e.
Proof.
  intros Hg He Hr Hall. destruct (run_error_lem _ st tr e He Hr Hall) as (q & t & Ht & Hh).
  simpl in Ht. rewrite dom_fmap_L in Ht. apply elem_of_dom in Ht as [k Hk]. exists t, k.
  destruct (t_result _ _ _ (executes_InvT _ _ _ He) _ _ _ Hh) as [Hn Hb]. split; [done|].
  split; [apply elem_of_begun; by exists q|].
  pose proof (handle_answer b h t k Hg Hk) as Ha. by rewrite <-Hn in Ha.
Qed.
Print Assumptions error_is_real.
(** In a run in which a statement fails, Run returns the error. *)
Definition ex_broken : host := Host [] (Some ex_libpq) (λ _ _, true)
  (λ t, if decide (t = "t") then Some "syntax error" else None) "/b" (λ _, []) (λ _, []).
Example success_is_real_example : ∃ st b,
  parse_json retrying ["db"] ["t"] = Ok b ∧
  executes (run_book b ex_broken) st
    [EvStart "db"; EvHandle "db" "t"; EvHandled "db" "t" (Some "syntax error"); EvStop "db"; EvReturn (Some "syntax error")] ∧
  stuck (run_book b ex_broken) st.
Proof.
  set (b := Book {[ "db" := PgTarget (PgSettings 1 "" 0 "" "" "" "" 1) ]} {[ "t" := BookTask [] "db" "" (PgExec "select 1") ]}).
  destruct (ends_sound (run_book b ex_broken) ["db"]
    [EvStart "db"; EvHandle "db" "t"; EvHandled "db" "t" (Some "syntax error"); EvStop "db"; EvReturn (Some "syntax error")])
    as (st & He & Hs); [apply range_of_check; by vm_compute|by vm_compute|].
  exists st, b. split_and!; [by vm_compute|done|done].
Qed.
