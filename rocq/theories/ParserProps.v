(** Properties C25-C28 and C64: parsing a runbook, and running what was parsed. *)
From Coq Require Import String Ascii.
From stdpp Require Import gmap list strings numbers relations.
From Verif Require Import GoBase GoStrings ShModel ShSpec ShProofs DemoModel JsonModel ParserModel ParserSpec
  ParserProofs JsonParserModel JsonSpec JsonParserProofs SchedModel SchedSpec RunnerModel RunnerSpec RunnerProofs RunnerLive RunnerExamples.
Local Open Scope Z_scope.

(** Examples use the decoder of JsonParserModel. *)
Notation ex_decoder := json_decoder.
Definition ex_doc : doc := Doc
  {[ "d" := Some (TargetDoc "demo" (Some (JObj [("string", JStr "hello")])));
     "s" := Some (TargetDoc "sh" (Some (JObj [("concurrency", JNum "3")])));
     "p" := Some (TargetDoc "pg" None) ]}
  {[ "one" := Some (TaskDoc [] "d/rev" "" None);
     "two" := Some (TaskDoc ["one"] "s" "hi" (Some (JObj [("args", JArr [JStr "ls"])])));
     "three" := Some (TaskDoc ["one"; "two"] "p/exec" "" (Some (JObj [("sql", JStr "select 1")]))) ]}.
Definition parsed (o : outcome book) : option (list (string * Z) * list (string * string)) :=
  match o with
  | Ok b => Some (map_to_list (concurrency_limit <$> bk_targets b), map_to_list (book_list b))
  | _ => None
  end.
Example ex_doc_parsed :
  parsed (parse ex_decoder ex_doc ["d"; "s"; "p"] ["three"; "two"; "one"]) =
  Some ([("p", 1); ("d", 1); ("s", 3)], [("three", "p"); ("two", "s"); ("one", "d")]).
Proof. by vm_compute. Qed.
Lemma ex_doc_orders :
  range_of (d_targets ex_doc) ["d"; "s"; "p"] ∧ range_of (d_tasks ex_doc) ["three"; "two"; "one"].
Proof. split; apply (bool_decide_unpack _); by vm_compute. Qed.
Lemma ex_doc_ok : ∃ b, parse ex_decoder ex_doc ["d"; "s"; "p"] ["three"; "two"; "one"] = Ok b.
Proof.
  pose proof ex_doc_parsed as H. unfold parsed in H.
  destruct (parse ex_decoder ex_doc ["d"; "s"; "p"] ["three"; "two"; "one"]) as [b| |]; [by exists b|done..].
Qed.

(** C25 *)
Theorem parse_well_formed dec d o1 o2 b :
  ok_decoder dec → range_of (d_targets d) o1 → range_of (d_tasks d) o2 →
  parse dec d o1 o2 = Ok b → good_book b.
Proof. apply parse_good_lem. Qed.
Print Assumptions parse_well_formed.
Example parse_well_formed_example :
  ok_decoder ex_decoder ∧ ∃ b, parse ex_decoder ex_doc ["d"; "s"; "p"] ["three"; "two"; "one"] = Ok b.
Proof. split; [exact json_decoder_ok|exact ex_doc_ok]. Qed.

(** C26 *)
Theorem parse_order_independent dec d o1 o2 o1' o2' :
  range_of (d_targets d) o1 → range_of (d_tasks d) o2 →
  range_of (d_targets d) o1' → range_of (d_tasks d) o2' → ¬ has_null d →
  (∀ b, parse dec d o1 o2 = Ok b ↔ parse dec d o1' o2' = Ok b) ∧
  ((∃ e, parse dec d o1 o2 = Err e) ↔ (∃ e, parse dec d o1' o2' = Err e)).
Proof.
  intros Ho1 Ho2 Ho1' Ho2' Hn.
  assert (∀ b, parse dec d o1 o2 = Ok b ↔ parse dec d o1' o2' = Ok b) as Hiff
    by (intros b; split; by apply parse_order_lem).
  split; [done|].
  pose proof (parse_panic_lem dec d o1 o2 Ho1 Ho2) as Hp.
  pose proof (parse_panic_lem dec d o1' o2' Ho1' Ho2') as Hp'.
  destruct (parse dec d o1 o2) as [b|e|]; [| |by destruct (Hn (Hp eq_refl))];
    (destruct (parse dec d o1' o2') as [b'|e'|]; [| |by destruct (Hn (Hp' eq_refl))]).
  - split; by intros [e ?].
  - pose proof (proj1 (Hiff b) eq_refl). done.
  - pose proof (proj2 (Hiff b') eq_refl). done.
  - split; intros _; by eexists.
Qed.
Print Assumptions parse_order_independent.
(** With null entries the choice is between an error and a crash. *)
Theorem parse_order_null_refuted : ∃ dec d o1 o1' o2 e,
  range_of (d_targets d) o1 ∧ range_of (d_targets d) o1' ∧ range_of (d_tasks d) o2 ∧
  parse dec d o1 o2 = Panic ∧ parse dec d o1' o2 = Err e.
Proof.
  exists ex_decoder, (Doc {[ "a" := None; "b" := Some (TargetDoc "bash" None) ]} ∅), ["a"; "b"], ["b"; "a"], [],
    InvalidTargetClass.
  split_and!; [apply (bool_decide_unpack _); by vm_compute..|by vm_compute|by vm_compute].
Qed.
Print Assumptions parse_order_null_refuted.
Example parse_order_example :
  ¬ has_null ex_doc ∧ range_of (d_targets ex_doc) ["p"; "s"; "d"] ∧ range_of (d_tasks ex_doc) ["one"; "two"; "three"].
Proof.
  split.
  - destruct ex_doc_ok as [b Hb]. destruct ex_doc_orders. by eapply parse_null_lem.
  - split; apply (bool_decide_unpack _); by vm_compute.
Qed.

(** C27.  Missing: no crash at all, which is false (below). *)
Theorem parse_no_crash_partial dec d o1 o2 :
  range_of (d_targets d) o1 → range_of (d_tasks d) o2 → parse dec d o1 o2 = Panic → has_null d.
Proof. apply parse_panic_lem. Qed.
Print Assumptions parse_no_crash_partial.
Theorem parse_no_crash_refuted : ∃ d o1 o2, ∀ dec,
  range_of (d_targets d) o1 ∧ range_of (d_tasks d) o2 ∧ parse dec d o1 o2 = Panic.
Proof.
  exists (Doc {[ "d" := Some (TargetDoc "demo" None) ]} {[ "t" := None ]}), ["d"], ["t"]. intros dec.
  split_and!; [apply (bool_decide_unpack _); by vm_compute..|by vm_compute].
Qed.
Print Assumptions parse_no_crash_refuted.
Example parse_no_crash_example :
  parse ex_decoder (Doc {[ "q" := None ]} ∅) ["q"] [] = Panic ∧ range_of (d_targets (Doc {[ "q" := None ]} ∅)) ["q"].
Proof. split; [by vm_compute|apply (bool_decide_unpack _); by vm_compute]. Qed.

(** C28, and the rest of what a document says. *)
Theorem parse_faithful dec d o1 o2 b :
  ok_decoder dec → range_of (d_targets d) o1 → range_of (d_tasks d) o2 → parse dec d o1 o2 = Ok b →
  dom (bk_targets b) = dom (d_targets d) ∧ dom (bk_tasks b) = dom (d_tasks d) ∧
  (∀ q t, bk_targets b !! q = Some t → ∃ w, d_targets d !! q = Some (Some w) ∧ target_class t = td_class w) ∧
  (∀ id v, bk_tasks b !! id = Some v → ∃ k class,
     d_tasks d !! id = Some (Some k) ∧ names_target (kd_target k) (b_target v) class ∧
     b_after v = kd_after k ∧ b_message v = kd_message k ∧
     (class ≠ "" → config_kind (b_config v) = class)).
Proof. apply parse_contents_lem. Qed.
Print Assumptions parse_faithful.
Theorem names_target_functional s t c t' c' :
  names_target s t c → names_target s t' c' → t = t' ∧ c = c'.
Proof. apply names_target_unique. Qed.
Print Assumptions names_target_functional.
Example names_target_example :
  names_target "db/exec" "db" "exec" ∧ names_target "db" "db" "" ∧ names_target "a/b/c" "a" "b/c" ∧
  names_target "/x" "" "x".
Proof.
  assert (∀ s, contains_byte "/" s = false → ¬ has_byte "/" s) as H.
  { intros s Hs H%GoStringsProofs.contains_byte_spec. congruence. }
  split_and!; [left|right|left|left]; (split; [done|]); try split; try done; by apply H.
Qed.

(** C78: exactly which documents are accepted, and as what. *)
Theorem parse_exact dec d o1 o2 b :
  range_of (d_targets d) o1 → range_of (d_tasks d) o2 →
  parse dec d o1 o2 = Ok b ↔
  entries_mean (target_means dec) (d_targets d) (bk_targets b) ∧
  entries_mean (task_means dec (bk_targets b)) (d_tasks d) (bk_tasks b).
Proof. apply parse_exact_lem. Qed.
Print Assumptions parse_exact.
Example parse_exact_example :
  match parse ex_decoder ex_doc ["d"; "s"; "p"] ["three"; "two"; "one"] with
  | Ok b =>
      (λ v, (b_config v, b_after v)) <$> bk_tasks b !! "three" = Some (PgExec "select 1", ["one"; "two"]) ∧
      b_message <$> bk_tasks b !! "two" = Some "hi" ∧ bk_targets b !! "d" = Some (DemoTgt "hello")
  | _ => False
  end.
Proof. vm_compute. done. Qed.

(** C64: what Parse accepts, Run runs to the end, in order and completely. *)
Theorem parsed_runbook_runs dec d o1 o2 b start handle st tr :
  ok_decoder dec → range_of (d_targets d) o1 → range_of (d_tasks d) o2 → parse dec d o1 o2 = Ok b →
  let inp := run_of b start handle in
  executes inp st tr → stuck inp st → dom (d_tasks d) ≠ ∅ →
  all_started tr → failures_alone inp →
  all_finished inp st ∧
  ∃ r, EvReturn r ∈ tr ∧
    (r = None → well_ordered (ri_tasks inp) →
      ∀ id, id ∈ dom (d_tasks d) → ∃ q, EvHandled q id None ∈ tr) ∧
    (∀ e, r = Some e → ∃ q id, id ∈ dom (d_tasks d) ∧ EvHandled q id (Some e) ∈ tr).
Proof.
  intros Hd Ho1 Ho2 Hp inp He Hs Hne Ha Hf.
  pose proof (parse_good_lem _ _ _ _ _ Hd Ho1 Ho2 Hp) as Hg.
  destruct (parse_contents_lem _ _ _ _ _ Hd Ho1 Ho2 Hp) as (_ & Hdom & _).
  assert (dom (ri_tasks inp) = dom (d_tasks d)) as Hdt by (simpl; by rewrite dom_fmap_L).
  destruct (good_book_runs b start handle Hg) as [Hl Hr].
  assert (all_finished inp st) as Hfin.
  { apply (stuck_finished inp st tr); try done. by rewrite Hdt. }
  split; [done|]. destruct Hfin as [[r Hm] _].
  assert (EvReturn r ∈ tr) as Hev by (by eapply run_returned_ev).
  exists r. split; [done|]. split.
  - intros -> Hw id Hid. destruct (run_success_lem inp st tr He Hev) as [H _].
    apply H; [done|]. by rewrite Hdt.
  - intros e ->. destruct (run_error_lem inp st tr e He Hev Ha) as (q & id & Hid & Hh).
    exists q, id. by rewrite Hdt in Hid.
Qed.
Print Assumptions parsed_runbook_runs.
(** A complete run of the example document. *)
Definition ex_book : book :=
  match parse ex_decoder ex_doc ["d"; "s"; "p"] ["three"; "two"; "one"] with
  | Ok b => b | _ => Book ∅ ∅ end.
Example parsed_runbook_runs_example :
  parse ex_decoder ex_doc ["d"; "s"; "p"] ["three"; "two"; "one"] = Ok ex_book ∧
  dom (d_tasks ex_doc) ≠ ∅ ∧ failures_alone (run_of ex_book all_ok all_ok) ∧
  ∃ st tr, executes (run_of ex_book all_ok all_ok) st tr ∧ stuck (run_of ex_book all_ok all_ok) st ∧
    all_started tr ∧ EvReturn None ∈ tr.
Proof.
  split; [|split; [|split]].
  - unfold ex_book. destruct ex_doc_ok as [b ->]. done.
  - intros H. assert ("one" ∈ dom (d_tasks ex_doc)) as H' by (apply elem_of_dom; by eexists).
    rewrite H in H'. set_solver.
  - intros t v e _ [=].
  - set (tr := [EvStart "d"; EvStart "s"; EvStart "p"; EvHandle "d" "one"; EvHandled "d" "one" None;
      EvHandle "s" "two"; EvHandled "s" "two" None; EvHandle "p" "three"; EvHandled "p" "three" None;
      EvStop "d"; EvStop "s"; EvStop "p"; EvReturn None]).
    destruct (ends_sound (run_of ex_book all_ok all_ok) ["d"; "s"; "p"] tr) as (st & He & Hs).
    + apply (bool_decide_unpack _). by vm_compute.
    + by vm_compute.
    + exists st, tr. split; [done|]. split; [done|]. split; [intros q e; unfold tr; set_solver|].
      unfold tr. set_solver.
Qed.
