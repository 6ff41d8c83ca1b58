(** Properties C136-C141: what a run does when targets act at the same time. *)
From Coq Require Import String Ascii.
From stdpp Require Import gmap list strings numbers relations functions.
From Verif Require Import PgModel PgSpec GoBase GoStrings GoUtf8 ShModel ShSpec DemoModel DemoSpec ParserModel
  ParserSpec SchedModel SchedSpec RunnerModel RunnerSpec RunnerInvB RunnerInvT RunnerProofs RunnerExamples
  EffectsModel EffectsSpec EffectsProofs EffectsExamples EffectsProps FineModel FineProofs.
Local Open Scope Z_scope.

(** ** Examples of runs *)
Fixpoint rounds (inp : run_input) (acts : list action) (st : rstate) (tr : list event) : rstate * list event :=
  match acts with
  | [] => (st, tr)
  | a :: acts => match run_step inp a st with
                 | Some (st', ev) => rounds inp acts st' (tr ++ option_list ev)
                 | None => rounds inp acts st tr
                 end
  end.
Lemma rounds_sound inp acts : Forall (ok_action inp) acts → ∀ st tr,
  executes inp st tr → executes inp (rounds inp acts st tr).1 (rounds inp acts st tr).2.
Proof.
  induction 1 as [|a acts Ha _ IH]; intros st tr He; simpl; [done|].
  destruct (run_step inp a st) as [[st' ev]|] eqn:Hs; [|by apply IH].
  apply IH. econstructor; [done|]. by exists a.
Qed.
Lemma round_robin inp order n : range_of (ri_limits inp) order → ∃ st,
  executes inp st (rounds inp (concat (replicate n (concat (replicate 6 (ex_actions inp [])) ++ ex_actions inp order))) (run_init order) []).2.
Proof.
  intros Ho. eexists. apply rounds_sound; [|by constructor].
  assert (∀ l k, Forall (ok_action inp) l → Forall (ok_action inp) (concat (replicate k l))) as Hrep.
  { intros l k Hl. induction k as [|k IH]; cbn [replicate concat]; [constructor|]. by apply list.Forall_app. }
  apply Hrep, list.Forall_app. split; [apply Hrep|]; apply ex_actions_ok.
Qed.
Definition crashed (E : list world_effect) : bool := existsb (λ x, match x with Crash => true | _ => false end) E.
Lemma crashed_spec E : crashed E = false → Crash ∉ E.
Proof.
  intros H Hin. assert (crashed E = true) as H'; [|congruence]. apply existsb_exists. exists Crash. split; [by apply elem_of_list_In|done].
Qed.
(** A script says what comes next: an event, or something a target has to do. *)
Fixpoint play (b : book) (h : host) (l : list (event + string)) (tr : list event) (E : list world_effect)
    (m : gmap string live) (p : string → list world_effect) : option (list event * list world_effect) :=
  if crashed E then None else
  match l with
  | [] => Some (tr, E)
  | inl e :: l =>
      if decide (default [] (p <$> event_target e) = []) then
        let '(m', x) := act b h m e in
        play b h l (tr ++ [e]) (match begins e with Some _ => E | None => E ++ x end) m'
          (match begins e with Some q => <[q := x]> p | None => p end)
      else None
  | inr q :: l => match p q with x :: r => play b h l tr (E ++ [x]) m (<[q := r]> p) | [] => None end
  end.
Lemma play_sound b h l : ∀ tr E m p tr' E', fine b h tr E m p → play b h l tr E m p = Some (tr', E') →
  ∃ m' p', fine b h tr' E' m' p'.
Proof.
  induction l as [|[e|q] l IH]; intros tr E m p tr' E' Hf; simpl; destruct (crashed E) eqn:Hc; try done;
    apply crashed_spec in Hc.
  - intros [= <- <-]. by exists m, p.
  - case_decide as Hp; [|done]. destruct (act b h m e) as [m1 x] eqn:Ha. apply IH.
    apply (fine_event b h tr E m p e m1 x); try done. intros q Hq. by rewrite Hq in Hp.
  - destruct (p q) as [|x r] eqn:Hp; [done|]. apply IH. by apply (fine_do b h tr E m p q x r).
Qed.

(** Two targets, each with a message and something to print. *)
Definition both : book := Book {[ "x" := DemoTgt "one"; "y" := DemoTgt "two" ]}
  {[ "a" := BookTask [] "x" "A" (DemoConfig Echo); "b" := BookTask [] "y" "B" (DemoConfig Echo);
     "c" := BookTask ["a"; "b"] "x" "C" (DemoConfig Echo) ]}.
Definition both_trace : list event :=
  [EvStart "x"; EvStart "y"; EvHandle "x" "a"; EvHandle "y" "b"; EvHandled "x" "a" None; EvHandled "y" "b" None;
   EvHandle "x" "c"; EvHandled "x" "c" None; EvStop "x"; EvStop "y"; EvReturn None].
Definition both_script : list (event + string) :=
  [inl (EvStart "x"); inl (EvStart "y"); inl (EvHandle "x" "a"); inl (EvHandle "y" "b"); inr "x"; inr "y"; inr "x"; inr "y";
   inl (EvHandled "x" "a" None); inl (EvHandled "y" "b" None); inl (EvHandle "x" "c"); inr "x"; inr "x";
   inl (EvHandled "x" "c" None); inl (EvStop "x"); inl (EvStop "y"); inl (EvReturn None)].
Definition both_done : list world_effect :=
  [Does "x" "a" (Says "A"); Does "y" "b" (Says "B"); Does "x" "a" (Prints (line "one"));
   Does "y" "b" (Prints (line "two")); Does "x" "c" (Says "C"); Does "x" "c" (Prints (line "one"))].
Lemma both_runs : ∃ st m p, executes (run_book both ex_host) st both_trace ∧ fine both ex_host both_trace both_done m p.
Proof.
  destruct (round_robin (run_book both ex_host) ["x"; "y"] 30) as [st He]; [apply range_of_check; by vm_compute|].
  destruct (play_sound both ex_host both_script [] [] ∅ (λ _, []) both_trace both_done) as (m & p & Hf);
    [apply fine_init|by vm_compute|].
  exists st, m, p. split; [|done].
  assert ((rounds (run_book both ex_host) (concat (replicate 30 (concat (replicate 6 (ex_actions (run_book both ex_host) [])) ++ ex_actions (run_book both ex_host) ["x"; "y"]))) (run_init ["x"; "y"]) []).2 = both_trace)
    as <- by by vm_compute. done.
Qed.
Lemma both_good : good_book both.
Proof.
  split.
  - intros q t Hq. pose proof (all_entries (bk_targets both) (λ _ t, bool_decide (1 ≤ concurrency_limit t))
      ltac:(by vm_compute) _ _ Hq) as H. by apply bool_decide_eq_true in H.
  - intros t k Hk. unfold both in *. cbn [bk_tasks bk_targets] in *.
    repeat (apply lookup_insert_Some in Hk as [[<- <-]|[_ Hk]]; [split; [done|eexists; by split]|]).
    apply lookup_singleton_Some in Hk as [<- <-]. split; [done|eexists; by split].
Qed.

(** C136: what is done by a task is what its settings say, from the message on: at any
    time the beginning of it, and all of it once the task has been handled. *)
Theorem tasks_progress b h st tr E m p :
  good_book b → ok_host b h → short_sleeps b → tries_to_connect b →
  executes (run_book b h) st tr → fine b h tr E m p →
  (∀ q t d, Does q t d ∈ E → EvHandle q t ∈ tr ∧ ∃ k, bk_tasks b !! t = Some k ∧ b_target k = q) ∧
  (∀ tr1 q t tr2, tr = tr1 ++ EvHandle q t :: tr2 →
     ∃ k x ds, bk_tasks b !! t = Some k ∧ b_target k = q ∧ bk_targets b !! q = Some x ∧
       to_do h x (demos b (begun_on q tr1)) (b_config k) ds ∧
       deeds_by t E `prefix_of` said (b_message k) ++ ds ∧
       ∀ e, EvHandled q t e ∈ tr → deeds_by t E = said (b_message k) ++ ds).
Proof.
  intros Hg Hh Hs Ht He Hf. destruct (run_does b h st tr Hg Hh Hs Ht He) as (R1 & _ & R3). split.
  - intros q t d Hd. destruct (fine_on b h _ _ _ _ Hf) as (_ & _ & HE & _). apply HE in Hd. split; [by eapply does_event|by eapply R1].
  - intros tr1 q t tr2 Htr. destruct (R3 tr1 q t tr2 Htr) as (k & x & ds & ? & ? & ? & ? & Hd). exists k, x, ds.
    split_and!; try done.
    + destruct (fine_deeds b h st tr E m p t He Hf) as (q' & _ & Hq'). rewrite <-Hd, <-Hq'. by exists (deeds_by t (p q')).
    + intros e Hin. rewrite <-Hd. by apply (fine_handled b h st tr E m p q t e).
Qed.
Print Assumptions tasks_progress.
Example tasks_progress_example :
  good_book both ∧ ok_host both ex_host ∧ short_sleeps both ∧ tries_to_connect both ∧
  (∃ st m p, executes (run_book both ex_host) st both_trace ∧ fine both ex_host both_trace both_done m p) ∧
  deeds_by "b" both_done = [Says "B"; Prints (line "two")].
Proof.
  split_and!; [apply both_good| | | |apply both_runs|by vm_compute].
  - split.
    + intros q n e Hq. unfold both in Hq. cbn [bk_targets] in Hq.
      apply lookup_insert_Some in Hq as [[_ Hq]|[_ [_ Hq]%lookup_singleton_Some]]; done.
    + intros t k args e Hk Hc. pose proof (all_entries (bk_tasks both) (λ t k, match b_config k with ShExec _ _ => false | _ => true end)
        ltac:(by vm_compute) _ _ Hk) as H. simpl in H. by rewrite Hc in H.
  - intros t k n Hk Hc. pose proof (all_entries (bk_tasks both) (λ t k, match b_config k with DemoConfig (DemoModel.Sleep _) => false | _ => true end)
        ltac:(by vm_compute) _ _ Hk) as H. simpl in H. by rewrite Hc in H.
  - intros q s Hq. unfold both in Hq. cbn [bk_targets] in Hq.
    apply lookup_insert_Some in Hq as [[_ Hq]|[_ [_ Hq]%lookup_singleton_Some]]; done.
Qed.

(** C137: nothing is done, not even the message, before everything it comes after has
    been done completely and with success. *)
Theorem complete_before b h st tr E m p E1 q t d E2 u :
  "" ∉ dom (bk_tasks b) → executes (run_book b h) st tr → fine b h tr E m p →
  E = E1 ++ Does q t d :: E2 → tc (after (order_of_book b)) t u →
  deeds_by u E1 = deeds_by u E ∧ deeds_by u E2 = [] ∧ ri_handle (run_book b h) u = None.
Proof.
  intros Hn He Hf HE Htc. destruct (fine_ordered b h st tr E m p E1 q t d E2 u He Hf HE Hn Htc) as [H1 [q' H2]].
  split; [done|]. split.
  - rewrite HE in H1. change (Does q t d :: E2) with ([Does q t d] ++ E2) in H1. rewrite !deeds_app in H1.
    assert (deeds_by u [Does q t d] ++ deeds_by u E2 = []) as [_ ?]%app_nil; [|done].
    apply (app_inv_head (deeds_by u E1)). by rewrite app_nil_r.
  - by destruct (t_result _ _ _ (executes_InvT _ _ _ He) _ _ _ H2) as [<- _].
Qed.
Print Assumptions complete_before.
Example complete_before_example :
  "" ∉ dom (bk_tasks both) ∧ both_done = take 4 both_done ++ Does "x" "c" (Says "C") :: drop 5 both_done ∧
  tc (after (order_of_book both)) "c" "b" ∧ deeds_by "b" (take 4 both_done) = [Says "B"; Prints (line "two")].
Proof.
  split_and!; [| by vm_compute| |by vm_compute].
  - intros H%elem_of_dom. assert (match bk_tasks both !! "" with Some _ => False | None => True end) as H' by (by vm_compute).
    destruct (bk_tasks both !! ""); [done|]. by destruct H.
  - apply tc_once. exists (Task "x" ["a"; "b"]). split; [by vm_compute|right; by left].
Qed.

(** C138: a target does one task at a time: between two deeds of a task nothing else
    is done on its target. *)
Theorem one_task_at_a_time b h st tr E m p E1 q t d E2 d' E3 :
  executes (run_book b h) st tr → fine b h tr E m p →
  E = E1 ++ Does q t d :: E2 ++ Does q t d' :: E3 → ∀ t' d'', Does q t' d'' ∈ E2 → t' = t.
Proof.
  intros He Hf HE t' d'' Hin. apply elem_of_list_split in Hin as (a & c & ->).
  apply (fine_alone b h st tr E m p E1 q t d a t' d'' c d' E3 He Hf). by rewrite HE, <-app_assoc.
Qed.
Print Assumptions one_task_at_a_time.
(** On another target something may be: what is said and what follows need not be
    next to each other in the output. *)
Theorem one_task_at_a_time_refuted : ∃ b h st tr E m p,
  good_book b ∧ executes (run_book b h) st tr ∧ EvReturn None ∈ tr ∧ fine b h tr E m p ∧
  ∃ E1 E2 E3, E = E1 ++ Does "x" "a" (Says "A") :: E2 ++ Does "y" "b" (Says "B") :: E3 ++ [Does "x" "a" (Prints (line "one"))] ++ drop 3 E.
Proof.
  destruct both_runs as (st & m & p & He & Hf). exists both, ex_host, st, both_trace, both_done, m, p.
  split_and!; [apply both_good|done| |done|by exists [], [], []]. apply (bool_decide_unpack _). by vm_compute.
Qed.
Print Assumptions one_task_at_a_time_refuted.
Example one_task_at_a_time_example : ∃ E2 E3,
  both_done = [] ++ Does "x" "a" (Says "A") :: E2 ++ Does "x" "a" (Prints (line "one")) :: E3 ∧ E2 ≠ [].
Proof. by eexists [_], _. Qed.

(** C139: the connection of a pg target is used only while it is open, and when Run
    returns nothing is in progress: every target has finished what it began, and its
    connection is closed. *)
Theorem nothing_left b h st tr E m p r :
  good_book b → executes (run_book b h) st tr → fine b h tr E m p → EvReturn r ∈ tr → all_started tr →
  (∀ q, p q = []) ∧ (∀ t, deeds_by t E = deeds_by t (effects b h tr)) ∧
  ∀ q s, bk_targets b !! q = Some (PgTarget s) → 0 ≤ pgs_retries s → Closes q ∈ E.
Proof.
  intros Hg He Hf Hr Hall. assert (∀ q, p q = []) as Hp.
  { intros q. destruct (p q) as [|x l] eqn:Hpq; [done|]. rewrite <-Hpq. apply (fine_stopped b h tr E m p q Hf).
    - destruct (fine_pending b h _ _ _ _ Hf q) as (t & Hl%last_begun_in & _); [by rewrite Hpq|].
      apply (run_stopped_lem _ _ _ _ He Hr Hall).
      destruct (run_on_target_lem _ _ _ _ _ He Hl) as (v & Hv & <-). simpl in *. rewrite lookup_fmap in Hv.
      destruct (bk_tasks b !! t) as [k|] eqn:Hk; [|done]. simplify_eq/=. rewrite dom_fmap_L.
      destruct Hg as [_ Hg]. destruct (Hg t k Hk) as (_ & y & Hy & _). by eapply elem_of_dom_2.
    - intros tr1 tr2 ->. by destruct (run_stop_at_lem _ _ _ _ _ He) as (_ & _ & ? & _). }
  split_and!; [done| |].
  - intros t. destruct (fine_deeds b h st tr E m p t He Hf) as (q & _ & <-). rewrite Hp. simpl. by rewrite app_nil_r.
  - intros q s Hq Hs. apply (fine_closes b h tr E m p q Hf). by apply (connection_ends b h st tr r q s).
Qed.
Print Assumptions nothing_left.
(** ... also in the middle of a run. *)
Theorem used_while_open b h st tr E m p q s :
  bk_targets b !! q = Some (PgTarget s) → 0 ≤ pgs_retries s →
  executes (run_book b h) st tr → fine b h tr E m p →
  (∀ E1 t d E2, E = E1 ++ Does q t d :: E2 →
     (∃ c i, Dials q c i ∈ E1 ∧ h_connects h q i = true) ∧ Closes q ∉ E1 ∧ ∀ c i, Dials q c i ∉ E2) ∧
  (∀ E1 E2, E = E1 ++ Closes q :: E2 → (∀ t d, Does q t d ∉ E2) ∧ Closes q ∉ E2).
Proof.
  intros Hq Hr He Hf. split.
  - intros E1 t d E2 HE. by apply (fine_open b h st tr E m p E1 q t d E2 s).
  - intros E1 E2 HE. by apply (fine_closed b h st tr E m p E1 q E2).
Qed.
Print Assumptions used_while_open.
(** The statement is sent after another target has begun. *)
Definition ex_robin : list event :=
  [EvStart "db"; EvStart "demo"; EvStart "sh"; EvHandle "demo" "d1"; EvHandle "sh" "one"; EvHandled "demo" "d1" None;
   EvHandled "sh" "one" None; EvHandle "db" "two"; EvHandle "demo" "d2"; EvHandled "db" "two" None; EvHandled "demo" "d2" None;
   EvHandle "demo" "d3"; EvHandled "demo" "d3" None; EvStop "db"; EvStop "demo"; EvStop "sh"; EvReturn None].
Definition ex_script : list (event + string) :=
  (inl <$> take 5 ex_robin) ++ [inr "sh"; inr "demo"] ++ (inl <$> take 3 (drop 5 ex_robin)) ++ [inr "db"; inl (EvHandle "demo" "d2"); inr "db"] ++
  (inl <$> take 3 (drop 9 ex_robin)) ++ [inr "demo"] ++ (inl <$> drop 12 ex_robin).
Definition ex_done : list world_effect :=
  [Dials "db" ex_secure 0; Does "sh" "one" (Runs ["ls"; "-l"] "/b" ["HOME=/r"; "A=1"]); Does "demo" "d1" (Prints (line "abc"));
   Does "db" "two" (Says "hi"); Does "db" "two" (Sends "select 1"); Does "demo" "d3" (Prints (line "cba")); Closes "db"].
Lemma ex_robin_runs : ∃ st m p, executes (run_book ex_book ex_host) st ex_robin ∧ fine ex_book ex_host ex_robin ex_done m p.
Proof.
  destruct (round_robin (run_book ex_book ex_host) ["db"; "demo"; "sh"] 30) as [st He]; [apply range_of_check; by vm_compute|].
  destruct (play_sound ex_book ex_host ex_script [] [] ∅ (λ _, []) ex_robin ex_done) as (m & p & Hf);
    [apply fine_init|by vm_compute|].
  exists st, m, p. split; [|done].
  assert ((rounds (run_book ex_book ex_host) (concat (replicate 30 (concat (replicate 6 (ex_actions (run_book ex_book ex_host) [])) ++ ex_actions (run_book ex_book ex_host) ["db"; "demo"; "sh"]))) (run_init ["db"; "demo"; "sh"]) []).2 = ex_robin)
    as <- by by vm_compute. done.
Qed.
Example used_while_open_example :
  match bk_targets ex_book !! "db" with Some (PgTarget s) => pgs_retries s = 0 | _ => False end ∧
  (∃ st m p, executes (run_book ex_book ex_host) st ex_robin ∧ fine ex_book ex_host ex_robin ex_done m p) ∧
  ex_done = take 4 ex_done ++ Does "db" "two" (Sends "select 1") :: drop 5 ex_done ∧
  EvReturn None ∈ ex_robin ∧ all_started ex_robin.
Proof.
  split_and!; [by vm_compute|apply ex_robin_runs|by vm_compute| |].
  - apply (bool_decide_unpack _). by vm_compute.
  - intros q e H. apply elem_of_list_In in H. cbn in H. destruct_or?; done.
Qed.
(** If a target cannot be started, Run returns while others are at work: here after the
    message and before what it announces. *)
Definition no_db : book := Book {[ "x" := DemoTgt "one"; "y" := PgTarget (PgSettings 1 "" 0 "" "" "" "" 0) ]}
  {[ "a" := BookTask [] "x" "A" (DemoConfig Echo) ]}.
Definition no_db_host : host := Host [] (Some ex_libpq) (λ _ _, false) (λ _, None) "/b" (λ _, []) (λ _, []).
Definition no_db_trace : list event :=
  [EvStart "x"; EvStartFail "y" "no connection"; EvReturn (Some "no connection"); EvHandle "x" "a"].
Definition no_db_acts : list action := 
  concat (replicate 12 (ex_actions (run_book no_db no_db_host) [])) ++ [ATarget "x"].
Theorem nothing_left_refuted : ∃ b h st tr E m p e,
  good_book b ∧ tries_to_connect b ∧ executes (run_book b h) st tr ∧ fine b h tr E m p ∧ EvReturn (Some e) ∈ tr ∧
  deeds_by "a" E = [Says "A"] ∧ deeds_by "a" (effects b h tr) = [Says "A"; Prints (line "one")].
Proof.
  assert (executes (run_book no_db no_db_host) (rounds (run_book no_db no_db_host) no_db_acts (run_init ["x"; "y"]) []).1 no_db_trace) as He.
  { assert ((rounds (run_book no_db no_db_host) no_db_acts (run_init ["x"; "y"]) []).2 = no_db_trace) as <- by by vm_compute.
    apply rounds_sound; [|constructor; apply range_of_check; by vm_compute].
    apply list.Forall_app. split; [|by repeat constructor].
    generalize 12%nat. intros n. induction n as [|n IH]; cbn [replicate concat]; [constructor|].
    apply list.Forall_app. split; [apply ex_actions_ok|done]. }
  destruct (play_sound no_db no_db_host ((inl <$> no_db_trace) ++ [inr "x"]) [] [] ∅ (λ _, []) no_db_trace
    [Dials "y" ex_libpq 0; Does "x" "a" (Says "A")]) as (m & p & Hf); [apply fine_init|by vm_compute|].
  eexists no_db, no_db_host, _, no_db_trace, _, m, p, "no connection".
  split_and!; [| |exact He|exact Hf| |by vm_compute|by vm_compute].
  - split.
    + intros q t Hq. pose proof (all_entries (bk_targets no_db) (λ _ t, bool_decide (1 ≤ concurrency_limit t))
        ltac:(by vm_compute) _ _ Hq) as H. by apply bool_decide_eq_true in H.
    + intros t k Hk. unfold no_db in *. cbn [bk_tasks bk_targets] in *.
      apply lookup_singleton_Some in Hk as [<- <-]. split; [done|eexists; by split].
  - intros q s Hq. unfold no_db in Hq. cbn [bk_targets] in Hq.
    apply lookup_insert_Some in Hq as [[_ Hq]|[_ [_ [= <-]]%lookup_singleton_Some]]; done.
  - apply (bool_decide_unpack _). by vm_compute.
Qed.
Print Assumptions nothing_left_refuted.

(** C140: what a demo target prints does not depend on what the others do at the same
    time: at any time it is the beginning of what its own tasks print in the order
    they were begun, and at the end it is that. *)
Theorem demo_output_anyway b h st tr E m p q s :
  good_book b → executes (run_book b h) st tr → fine b h tr E m p → bk_targets b !! q = Some (DemoTgt s) →
  printed_by q E `prefix_of` echo_texts (demos b (begun_on q tr)) s ∧
  ∀ r, EvReturn r ∈ tr → all_started tr → printed_by q E = echo_texts (demos b (begun_on q tr)) s.
Proof.
  intros Hg He Hf Hq. pose proof (fine_printed b h tr E m p q Hf) as Hp. rewrite (demo_output b h st tr q s) in Hp by done.
  rewrite <-Hp. split; [by exists (printed_by q (p q))|]. intros r Hr Hall.
  destruct (nothing_left b h st tr E m p r Hg He Hf Hr Hall) as [-> _]. simpl. by rewrite app_nil_r.
Qed.
Print Assumptions demo_output_anyway.
Theorem demo_output_same b h st tr E m p q s l :
  good_book b → "" ∉ dom (bk_tasks b) → well_ordered (order_of_book b) →
  executes (run_book b h) st tr → fine b h tr E m p → EvReturn None ∈ tr →
  bk_targets b !! q = Some (DemoTgt s) → in_sequence b q l →
  printed_by q E = echo_texts (demos b l) s.
Proof.
  intros Hg Hn Hw He Hf Hr Hq Hl.
  assert (all_started tr) as Hall.
  { intros q' e Hin. destruct (run_start_fail_lem _ _ _ _ _ He Hin) as [H _]. by apply H in Hr. }
  rewrite <-(demo_output_certain b h st tr q s l) by done.
  destruct (demo_output_anyway b h st tr E m p q s Hg He Hf Hq) as [_ H]. rewrite (H _ Hr Hall).
  symmetry. by apply (demo_output b h st).
Qed.
Print Assumptions demo_output_same.
Example demo_output_anyway_example :
  match bk_targets both !! "x" with Some (DemoTgt s) => s = "one" | _ => False end ∧
  demos both (begun_on "x" both_trace) = [Echo; Echo] ∧ printed_by "x" both_done = [line "one"; line "one"] ∧
  in_sequence both "x" ["a"; "c"] ∧ well_ordered (order_of_book both) ∧ all_started both_trace.
Proof.
  split_and!; [by vm_compute|by vm_compute|by vm_compute| | |].
  - assert (order_of_book both !! "c" = Some (Task "x" ["a"; "b"])) as H1 by by vm_compute. split.
    + intros t. split.
      * intros Ht. assert (match bk_tasks both !! t with Some k => b_target k = "x" | None => False end) as H.
        { apply elem_of_list_In in Ht. cbn in Ht. destruct_or?; subst; by vm_compute. }
        destruct (bk_tasks both !! t) as [k|]; [by exists k|done].
      * intros (k & Hk & Hq).
        pose proof (all_entries (bk_tasks both) (λ t k, bool_decide (b_target k = "x" → t ∈ ["a"; "c"]))
          ltac:(by vm_compute) _ _ Hk) as H. apply bool_decide_eq_true in H. by apply H.
    + intros i j s t Hi Hj Hij. destruct j as [|[|j]]; try done; destruct i as [|i]; try (exfalso; lia); simpl in Hi, Hj; simplify_eq.
      apply tc_once. eexists. split; [done|by left].
  - apply (well_ordered_rank _ (λ t, if decide (t = "c") then 1%nat else 0%nat)). intros t m (v & Hv & Hm).
    pose proof (all_entries (order_of_book both) (λ t v, forallb (λ m, bool_decide (m ∈ dom (order_of_book both)) &&
      bool_decide ((if decide (m = "c") then 1 else 0) < (if decide (t = "c") then 1 else 0))%nat) (t_after v)) ltac:(by vm_compute) _ _ Hv) as H.
    cbv beta in H. rewrite forallb_forall in H. apply elem_of_list_In in Hm.
    apply H, andb_true_iff in Hm as [?%bool_decide_eq_true ?%bool_decide_eq_true]. done.
  - intros q e H. apply elem_of_list_In in H. cbn in H. destruct_or?; done.
Qed.

(** C141: exactly which connections are left open.  A target dials as often as it is
    allowed to, whether it succeeds or not (C50), and closes one connection. *)
Definition dialled (q : string) (E : list world_effect) : list Z :=
  omap (λ x, match x with Dials q' _ i => if decide (q' = q) then Some i else None | _ => None end) E.
Definition closings (q : string) (E : list world_effect) : nat :=
  length (omap (λ x, match x with Closes q' => if decide (q' = q) then Some () else None | _ => None end) E).
Lemma dialled_app q E E' : dialled q (E ++ E') = dialled q E ++ dialled q E'.
Proof. apply omap_app. Qed.
Lemma dialled_none q E : (∀ c i, Dials q c i ∉ E) → dialled q E = [].
Proof.
  intros H. apply elem_of_nil_inv. intros i (x & Hx & Hi)%elem_of_list_omap. destruct x as [q' c i'| | | |]; try done.
  case_decide; [|done]. subst. by apply H in Hx.
Qed.
Lemma dialled_on q E : dialled q (on q E) = dialled q E.
Proof.
  induction E as [|x E IH]; [done|]. unfold on. rewrite filter_cons. fold (on q E).
  change (x :: E) with ([x] ++ E). rewrite dialled_app.
  destruct (decide (of_target q x)) as [Hx|Hx].
  - change (x :: on q E) with ([x] ++ on q E). by rewrite dialled_app, IH.
  - rewrite IH. destruct x as [q' c i| | | |]; try done. simpl in *. by rewrite decide_False.
Qed.
Lemma dialled_dialling q c evs : dialled q (dialling q c <$> evs) = attempts evs.
Proof.
  induction evs as [|e evs IH]; [done|]. rewrite fmap_cons. change (dialling q c e :: (dialling q c <$> evs)) with ([dialling q c e] ++ (dialling q c <$> evs)).
  rewrite dialled_app, IH. destruct e; simpl; [by rewrite decide_True|done].
Qed.
Lemma dialled_run b h st tr r q s :
  good_book b → executes (run_book b h) st tr → EvReturn r ∈ tr → all_started tr →
  bk_targets b !! q = Some (PgTarget s) → 0 ≤ pgs_retries s →
  dialled q (effects b h tr) = seqZ 0 (pgs_retries s + 1) ∧ h_connects h q (pgs_retries s) = true.
Proof.
  intros Hg He Hret Hall Hq Hr.
  assert (EvStart q ∈ tr) as Hs.
  { assert (EvStop q ∈ tr) as Hs by (apply (run_stopped_lem _ st tr r He Hret Hall); simpl; rewrite dom_fmap_L; by eapply elem_of_dom_2).
    apply elem_of_list_split in Hs as (l1 & l2 & ->).
    destruct (event_at _ _ _ _ _ _ He) as [st1 He1]. destruct (last_event _ _ _ _ _ He1) as [H _]. set_solver. }
  apply elem_of_list_split in Hs as (l1 & l2 & ->).
  destruct (start_once _ _ _ _ _ _ _ He (or_introl eq_refl)) as [Hn1 Hn2]. destruct (Hn2 eq_refl) as [Hn3 Hn4].
  destruct (event_at _ _ _ _ _ _ He) as [st2 He2]. destruct (last_event _ _ _ _ _ He2) as (_ & Hst & _).
  destruct (started_dialled b h q s Hq Hr Hst) as (c & Hc & Hok & Hd). split; [|done].
  rewrite effects_split, !dialled_app. rewrite (dialled_none q (effects b h l1)), (dialled_none q (acts b h _ l2).2).
  - rewrite app_nil_r. simpl act. rewrite Hq. simpl. rewrite Hc.
    destruct (PgProofs.connect_spec (h_connects h q) (pgs_retries s)) as (w & _ & Hcs). rewrite Hcs. simpl.
    by rewrite dialled_dialling, PgProofs.attempts_blocks.
  - intros c' i Hin. apply effect_event in Hin as (m & e & Hin & [Hcase _]%dials_event).
    destruct Hcase as [->|[err ->]]; [by apply Hn3|]. by eapply Hn4.
  - intros c' i Hin. apply effect_event in Hin as (m & e & Hin & [Hcase _]%dials_event).
    destruct Hcase as [->|[err ->]]; [done|]. by apply (Hall q err); set_solver.
Qed.
Theorem connections_left_open b h st tr E m p r q s :
  good_book b → executes (run_book b h) st tr → fine b h tr E m p → EvReturn r ∈ tr → all_started tr →
  bk_targets b !! q = Some (PgTarget s) → 0 ≤ pgs_retries s →
  dialled q E = seqZ 0 (pgs_retries s + 1) ∧ closings q E = 1%nat ∧
  length (filter (λ i, h_connects h q i = true) (dialled q E)) =
    (closings q E + length (filter (λ i, h_connects h q i = true) (seqZ 0 (pgs_retries s))))%nat.
Proof.
  intros Hg He Hf Hret Hall Hq Hr.
  destruct (nothing_left b h st tr E m p r Hg He Hf Hret Hall) as (Hp & _ & Hcl). specialize (Hcl q s Hq Hr).
  destruct (dialled_run b h st tr r q s Hg He Hret Hall Hq Hr) as [Hd Hok].
  assert (dialled q E = seqZ 0 (pgs_retries s + 1)) as HdE.
  { rewrite <-Hd, <-dialled_on, <-(dialled_on q (effects b h tr)). destruct (fine_on b h _ _ _ _ Hf) as (_ & _ & _ & Hon).
    rewrite <-Hon, Hp. simpl. by rewrite app_nil_r. }
  assert (closings q E = 1%nat) as Hc1.
  { apply elem_of_list_split in Hcl as (E1 & E2 & HE).
    destruct (fine_closed b h st tr E m p E1 q E2 He Hf HE) as [_ N2].
    assert (Closes q ∉ E1) as N1.
    { intros (a & c & ->)%elem_of_list_split. rewrite <-app_assoc in HE. simpl in HE.
      destruct (fine_closed b h st tr E m p a q _ He Hf HE) as [_ N]. set_solver. }
    assert (∀ l, Closes q ∉ l → closings q l = 0%nat) as Hz.
    { intros l Hl. unfold closings. apply length_zero_iff_nil, elem_of_nil_inv. intros [] (x & Hin & Hx)%elem_of_list_omap.
      destruct x; try done. case_decide; [by subst|done]. }
    assert (∀ l l', closings q (l ++ l') = (closings q l + closings q l')%nat) as Hadd
      by (intros l l'; unfold closings; by rewrite omap_app, app_length).
    rewrite HE. change (Closes q :: E2) with ([Closes q] ++ E2). rewrite !Hadd, (Hz E1 N1), (Hz E2 N2).
    unfold closings. simpl. by rewrite decide_True. }
  split; [done|]. split; [done|]. rewrite Hc1, HdE, seqZ_app by lia. rewrite list.filter_app, app_length.
  change (seqZ (0 + pgs_retries s) 1) with [0 + pgs_retries s]. rewrite filter_cons, decide_True by done. simpl. lia.
Qed.
Print Assumptions connections_left_open.
(** With connect_retries 2 and a server that answers each time, two are left open. *)
Definition thrice : book := Book {[ "db" := PgTarget (PgSettings 1 "" 0 "" "" "" "" 2) ]} {[ "t" := BookTask [] "db" "" (PgExec "select 1") ]}.
Example connections_left_open_example :
  good_book thrice ∧ all_started (short_trace "db") ∧
  ∃ st m p E, executes (run_book thrice ex_host) st (short_trace "db") ∧ fine thrice ex_host (short_trace "db") E m p ∧
    E = [Dials "db" ex_libpq 0; Dials "db" ex_libpq 1; Dials "db" ex_libpq 2; Does "db" "t" (Sends "select 1"); Closes "db"] ∧
    length (filter (λ i, h_connects ex_host "db" i = true) (seqZ 0 2)) = 2%nat.
Proof.
  split_and!.
  - split.
    + intros q t Hq. pose proof (all_entries (bk_targets thrice) (λ _ t, bool_decide (1 ≤ concurrency_limit t))
        ltac:(by vm_compute) _ _ Hq) as H. by apply bool_decide_eq_true in H.
    + intros t k Hk. unfold thrice in *. cbn [bk_tasks bk_targets] in *.
      apply lookup_singleton_Some in Hk as [<- <-]. split; [done|eexists; by split].
  - intros q e H. apply elem_of_list_In in H. cbn in H. destruct_or?; done.
  - destruct (play_sound thrice ex_host [inl (EvStart "db"); inl (EvHandle "db" "t"); inr "db"; inl (EvHandled "db" "t" None); inl (EvStop "db"); inl (EvReturn None)]
      [] [] ∅ (λ _, []) (short_trace "db")
      [Dials "db" ex_libpq 0; Dials "db" ex_libpq 1; Dials "db" ex_libpq 2; Does "db" "t" (Sends "select 1"); Closes "db"]) as (m & p & Hf);
      [apply fine_init|by vm_compute|].
    eexists _, m, p, _. split_and!; [|exact Hf|done|by vm_compute].
    apply (shows_sound (run_book thrice ex_host) ["db"]); [apply range_of_check; by vm_compute|by vm_compute].
Qed.
