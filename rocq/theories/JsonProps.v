(** Properties C83-C85: runbooks as JSON. *)
From Coq Require Import String Ascii.
From stdpp Require Import gmap list strings numbers.
From Verif Require Import GoBase GoStrings GoUtf8 ShModel DemoModel JsonModel ParserModel ParserSpec ParserProofs
  JsonParserModel JsonSpec JsonProofs JsonParserProofs SchedModel SchedSpec RunnerModel RunnerSpec RunnerProofs RunnerLive
  RunnerExamples ParserProps.
Local Open Scope Z_scope.

(** A runbook for the examples.  Keys may be in either case. *)
Definition ex_json : json := JObj
  [("targets", JObj
     [("db", JObj [("class", JStr "pg"); ("config", JObj [("host", JStr "h"); ("PORT", JNum "5432"); ("connect_retries", JNull)])]);
      ("sh", JObj [("Class", JStr "sh"); ("Config", JObj [("env", JObj [("allow", JArr [JStr "HOME"]); ("set", JObj [("A", JStr "1")])])])])]);
   ("tasks", JObj
     [("one", JObj [("target", JStr "sh"); ("config", JObj [("args", JArr [JStr "ls"; JNull])])]);
      ("two", JObj [("after", JArr [JStr "one"]); ("target", JStr "db/exec"); ("message", JStr "hi"); ("config", JObj [("sql", JStr "select 1")])])])].
Ltac vals_tac H := apply gives_vals_setting in H; [|apply (bool_decide_unpack _); by vm_compute];
  apply elem_of_list_In in H; vm_compute in H; destruct_or?; try done; subst.
Ltac once_tac := first [apply given_once_keys; apply (bool_decide_unpack _); by vm_compute|by apply given_once_other].
Lemma ex_json_once : document_given_once ex_json.
Proof.
  split; [once_tac|]. intros m l Hm ->.
  assert (∀ x, (given_once x ∧ ∀ c, c ∈ vals x "Config" → given_once c ∧ ∀ e, e ∈ vals c "Env" → given_once e) → entry_given_once x) as Hent.
  { intros x [H1 H2]. split; [done|]. intros c Hc. apply gives_vals_setting in Hc; [|apply (bool_decide_unpack _); by vm_compute].
    destruct (H2 c Hc) as [H3 H4]. split; [done|]. intros e He. apply H4. apply gives_vals_setting in He; [done|].
    apply (bool_decide_unpack _); by vm_compute. }
  assert (∀ x xs (P : json → Prop), P x → (∀ y, y ∈ xs → P y) → ∀ y, y ∈ x :: xs → P y) as Hcons
    by (intros x xs P H1 H2 y [->|Hy]%elem_of_cons; [done|by apply H2]).
  assert (∀ P : json → Prop, ∀ y, y ∈ @nil json → P y) as Hnil by (by intros P y ?%elem_of_nil).
  destruct Hm as [Hm|Hm]; vals_tac Hm; injection Hm as <-; (split; [apply (bool_decide_unpack _); by vm_compute|]);
    intros k x Hx; apply elem_of_list_In in Hx; cbn in Hx; destruct_or?; try done;
    injection Hx as <- <-; apply Hent; (split; [once_tac|]); match goal with |- ∀ c, c ∈ ?l → _ => let l' := eval vm_compute in l in change l with l' end;
    apply Hcons; try apply Hnil; (split; [once_tac|]);
    match goal with |- ∀ c, c ∈ ?l → _ => let l' := eval vm_compute in l in change l with l' end; repeat apply Hcons; first [once_tac|apply Hnil].
Qed.
Lemma ex_json_orders : order_of ex_json "Targets" ["sh"; "db"] ∧ order_of ex_json "Tasks" ["one"; "two"].
Proof.
  split; (split; [intros l Hl; vals_tac Hl; injection Hl as <-; apply (bool_decide_unpack _); by vm_compute|]);
    intros H; edestruct H; apply gives_vals_setting; try (apply (bool_decide_unpack _); by vm_compute);
    apply elem_of_list_In; vm_compute; by left.
Qed.
Definition ex_json_book : outcome book := parse_json ex_json ["sh"; "db"] ["one"; "two"].
Example ex_json_parsed :
  match ex_json_book with
  | Ok b => bk_targets b !! "db" = Some (PgTarget (PgSettings 1 "h" 5432 "" "" "" "" 0)) ∧
            (λ v, (b_after v, b_target v, b_message v, b_config v)) <$> bk_tasks b !! "two" =
              Some (["one"], "db", "hi", PgExec "select 1") ∧
            (λ v, match b_config v with ShExec a _ => a | _ => [] end) <$> bk_tasks b !! "one" = Some ["ls"; ""]
  | _ => False
  end.
Proof. vm_compute. done. Qed.
Lemma ex_json_ok : ∃ b, ex_json_book = Ok b.
Proof. pose proof ex_json_parsed as H. destruct ex_json_book as [b| |]; [by exists b|done..]. Qed.

(** C83: exactly which JSON is accepted, and as what. *)
Theorem json_exact v o1 o2 b :
  document_given_once v → order_of v "Targets" o1 → order_of v "Tasks" o2 →
  parse_json v o1 o2 = Ok b ↔ document_says v b.
Proof. apply parse_json_exact. Qed.
Print Assumptions json_exact.
Example json_exact_example :
  document_given_once ex_json ∧ order_of ex_json "Targets" ["sh"; "db"] ∧ order_of ex_json "Tasks" ["one"; "two"] ∧
  ∃ b, parse_json ex_json ["sh"; "db"] ["one"; "two"] = Ok b ∧ document_says ex_json b.
Proof.
  destruct ex_json_orders as [H1 H2]. split_and!; [exact ex_json_once|done..|]. destruct ex_json_ok as [b Hb].
  exists b. split; [done|]. by apply (json_exact _ ["sh"; "db"] ["one"; "two"]); [exact ex_json_once|..].
Qed.

(** C84: a setting that does not exist.  At the top and in the entries whatever else there is. *)
Theorem unknown_setting_rejected v o1 o2 :
  (¬ only_settings ["Targets"; "Tasks"] v ∨
   (∃ id x, entry_of v "Targets" id x ∧ ¬ only_settings ["Class"; "Config"] x) ∨
   (∃ id x, entry_of v "Tasks" id x ∧ ¬ only_settings ["After"; "Target"; "Message"; "Config"] x)) →
  parse_json v o1 o2 = Err BadConfig.
Proof. apply unknown_rejected_lem. Qed.
Print Assumptions unknown_setting_rejected.
(** In a Config or an Env, where nothing is given twice. *)
Theorem unknown_config_rejected v o1 o2 b :
  document_given_once v → order_of v "Targets" o1 → order_of v "Tasks" o2 → parse_json v o1 o2 = Ok b →
  (∀ id x, entry_of v "Targets" id x → ∃ t, bk_targets b !! id = Some t ∧ only_known ["Class"; "Config"] (target_names t) x) ∧
  (∀ id x, entry_of v "Tasks" id x → ∃ t, bk_tasks b !! id = Some t ∧
     only_known ["After"; "Target"; "Message"; "Config"] (task_names (b_config t)) x).
Proof.
  intros H1 H2 H3 H4. destruct (json_known_lem _ _ _ _ H1 H2 H3 H4) as [Ha Hb]. split; intros id x Hx.
  - destruct (Ha id x Hx) as (t & ? & ? & _). by exists t.
  - destruct (Hb id x Hx) as (t & ? & ? & _). by exists t.
Qed.
Print Assumptions unknown_config_rejected.
(** With two spellings the first Config is not looked at. *)
Definition two_configs : json := JObj [("targets", JObj [("d", JObj [("class", JStr "demo");
  ("Config", JObj [("bogus", JBool true)]); ("config", JObj [("string", JStr "s")])])])].
Theorem unknown_setting_twice_refuted : ∃ v o1 b id x c,
  order_of v "Targets" o1 ∧ order_of v "Tasks" [] ∧ parse_json v o1 [] = Ok b ∧
  entry_of v "Targets" id x ∧ gives x "Config" c ∧ bk_targets b !! id = Some (DemoTgt "s") ∧ ¬ only_settings ["String"] c.
Proof.
  exists two_configs, ["d"], (Book {[ "d" := DemoTgt "s" ]} ∅), "d",
    (JObj [("class", JStr "demo"); ("Config", JObj [("bogus", JBool true)]); ("config", JObj [("string", JStr "s")])]),
    (JObj [("bogus", JBool true)]).
  assert (gives two_configs "Targets" (JObj [("d", JObj [("class", JStr "demo");
    ("Config", JObj [("bogus", JBool true)]); ("config", JObj [("string", JStr "s")])])])) as Ht.
  { apply gives_vals_setting; [apply (bool_decide_unpack _); by vm_compute|]. apply elem_of_list_In. vm_compute. by left. }
  split_and!.
  - split; [intros l Hl; vals_tac Hl; injection Hl as <-; apply (bool_decide_unpack _); by vm_compute|].
    intros H. by destruct (H _ Ht).
  - split; [intros l Hl; vals_tac Hl|done].
  - by vm_compute.
  - eexists. split; [exact Ht|]. apply elem_of_list_In. by left.
  - apply gives_vals_setting; [apply (bool_decide_unpack _); by vm_compute|]. apply elem_of_list_In. vm_compute. by left.
  - done.
  - intros [?|(l & [= <-] & H)]; [done|]. destruct (H "bogus" (JBool true)) as (n & ->%elem_of_list_singleton & Hs);
      [apply elem_of_list_In; by left|]. by apply same_norm in Hs as [? _].
Qed.
Print Assumptions unknown_setting_twice_refuted.
Definition misspelt : json :=
  JObj [("tasks", JObj [("one", JObj [("target", JStr "sh"); ("afetr", JArr [])])])].
Example unknown_setting_example :
  (∃ id x, entry_of misspelt "Tasks" id x ∧ ¬ only_settings ["After"; "Target"; "Message"; "Config"] x) ∧
  parse_json misspelt [] ["one"] = Err BadConfig.
Proof.
  split; [|by vm_compute]. exists "one", (JObj [("target", JStr "sh"); ("afetr", JArr [])]). split.
  - eexists. split; [apply gives_vals_setting; [apply (bool_decide_unpack _); by vm_compute|]; apply elem_of_list_In; vm_compute; by left|].
    apply elem_of_list_In; by left.
  - intros [?|(l & [= <-] & H)]; [done|]. destruct (H "afetr" (JArr [])) as (n & Hn & [Hs _]%same_norm);
      [apply elem_of_list_In; right; by left|].
    apply elem_of_list_In in Hn. cbn in Hn. destruct_or?; subst; done.
Qed.

(** C85.  Missing: documents that give a setting in two spellings, for which it is false (below). *)
Theorem settings_used_partial v o1 o2 b :
  document_given_once v → order_of v "Targets" o1 → order_of v "Tasks" o2 → parse_json v o1 o2 = Ok b →
  (∀ id x, entry_of v "Targets" id x → ∃ t, bk_targets b !! id = Some t ∧ ∀ c, gives x "Config" c → target_used c t) ∧
  (∀ id x, entry_of v "Tasks" id x → ∃ t, bk_tasks b !! id = Some t ∧
     used reads_strings x "After" (b_after t) ∧ used reads_string x "Message" (b_message t) ∧
     ∀ c, gives x "Config" c → task_used c (b_config t)).
Proof.
  intros H1 H2 H3 H4. destruct (json_known_lem _ _ _ _ H1 H2 H3 H4) as [Ha Hb]. split; intros id x Hx.
  - destruct (Ha id x Hx) as (t & ? & _ & ?). by exists t.
  - destruct (Hb id x Hx) as (t & ? & _ & ?). by exists t.
Qed.
Print Assumptions settings_used_partial.
Definition two_sql : json := JObj [("targets", JObj [("db", JObj [("class", JStr "pg")])]);
  ("tasks", JObj [("t", JObj [("target", JStr "db"); ("config", JObj [("SQL", JStr "delete from t"); ("sql", JStr "select 1")])])])].
Theorem settings_used_refuted : ∃ v o1 o2 b id x c t y,
  order_of v "Targets" o1 ∧ order_of v "Tasks" o2 ∧ parse_json v o1 o2 = Ok b ∧
  entry_of v "Tasks" id x ∧ gives x "Config" c ∧ gives c "sql" (JStr y) ∧
  bk_tasks b !! id = Some t ∧ b_config t = PgExec "select 1" ∧ y = "delete from t".
Proof.
  set (t := BookTask [] "db" "" (PgExec "select 1")).
  exists two_sql, ["db"], ["t"], (Book {[ "db" := PgTarget (PgSettings 1 "" 0 "" "" "" "" 0) ]} {[ "t" := t ]}), "t",
    (JObj [("target", JStr "db"); ("config", JObj [("SQL", JStr "delete from t"); ("sql", JStr "select 1")])]),
    (JObj [("SQL", JStr "delete from t"); ("sql", JStr "select 1")]), t, "delete from t".
  split_and!; try done.
  1,2: split; [intros l Hl; vals_tac Hl; injection Hl as <-; apply (bool_decide_unpack _); by vm_compute|];
    intros H; edestruct H; apply gives_vals_setting; try (apply (bool_decide_unpack _); by vm_compute);
    apply elem_of_list_In; vm_compute; by left.
  1: { eexists. split; [apply gives_vals_setting; [apply (bool_decide_unpack _); by vm_compute|]; apply elem_of_list_In; vm_compute; by left|].
    apply elem_of_list_In; by left. }
  all: apply gives_vals_setting; [apply (bool_decide_unpack _); by vm_compute|]; apply elem_of_list_In; vm_compute; by left.
Qed.
Print Assumptions settings_used_refuted.
Example settings_used_example : ∃ x b t,
  parse_json ex_json ["sh"; "db"] ["one"; "two"] = Ok b ∧ entry_of ex_json "Tasks" "two" x ∧
  bk_tasks b !! "two" = Some t ∧ gives x "Message" (JStr "hi") ∧ b_message t = "hi".
Proof.
  pose proof ex_json_parsed as H. unfold ex_json_book in H.
  destruct (parse_json ex_json ["sh"; "db"] ["one"; "two"]) as [b| |]; [|done..].
  destruct H as (_ & (t & Ht & [= _ _ Hm _])%fmap_Some & _). eexists _, b, t. split_and!; try done.
  - eexists. split; [apply gives_vals_setting; [apply (bool_decide_unpack _); by vm_compute|]; apply elem_of_list_In; vm_compute; by left|].
    apply elem_of_list_In; right; by left.
  - apply gives_vals_setting; [apply (bool_decide_unpack _); by vm_compute|]. apply elem_of_list_In. vm_compute. by left.
Qed.

(** C25 and C64 for a runbook in JSON. *)
Theorem json_well_formed v o1 o2 b :
  document_given_once v → order_of v "Targets" o1 → order_of v "Tasks" o2 → parse_json v o1 o2 = Ok b → good_book b.
Proof.
  intros Hd Ho1 Ho2. unfold parse_json. destruct (decode_runbook v) as [d|] eqn:Hv; [|done].
  destruct (json_doc v o1 o2 d) as (R1 & R2 & _); [done..|]. apply parse_good_lem; [apply json_decoder_ok|done..].
Qed.
Print Assumptions json_well_formed.
Theorem json_runbook_runs v o1 o2 b start handle st tr :
  document_given_once v → order_of v "Targets" o1 → order_of v "Tasks" o2 → parse_json v o1 o2 = Ok b →
  let inp := run_of b start handle in
  executes inp st tr → stuck inp st → o2 ≠ [] → all_started tr → failures_alone inp →
  all_finished inp st ∧
  ∃ r, EvReturn r ∈ tr ∧
    (r = None → well_ordered (ri_tasks inp) → ∀ id, id ∈ o2 → ∃ q, EvHandled q id None ∈ tr) ∧
    (∀ e, r = Some e → ∃ q id, id ∈ o2 ∧ EvHandled q id (Some e) ∈ tr).
Proof.
  intros Hd Ho1 Ho2 Hp inp He Hs Hne Ha Hf. unfold parse_json in Hp. destruct (decode_runbook v) as [d|] eqn:Hv; [|done].
  destruct (json_doc v o1 o2 d) as (R1 & R2 & _); [done..|].
  assert (∀ id, id ∈ dom (d_tasks d) ↔ id ∈ o2) as Hdom.
  { intros id. unfold range_of in R2. by rewrite R2, elem_of_elements. }
  destruct (parsed_runbook_runs json_decoder d o1 o2 b start handle st tr) as (H1 & r & H2 & H3 & H4); try done.
  { apply json_decoder_ok. }
  { intros Hem. destruct o2 as [|id o2]; [done|]. assert (id ∈ dom (d_tasks d)) as Hid by (apply Hdom, elem_of_cons; by left).
    rewrite Hem in Hid. set_solver. }
  split; [done|]. exists r. split; [done|]. setoid_rewrite Hdom in H3. setoid_rewrite Hdom in H4. done.
Qed.
Print Assumptions json_runbook_runs.
(** C27 for a runbook in JSON. *)
Theorem json_no_crash_partial v o1 o2 :
  document_given_once v → order_of v "Targets" o1 → order_of v "Tasks" o2 → parse_json v o1 o2 = Panic →
  ∃ id, entry_of v "Targets" id JNull ∨ entry_of v "Tasks" id JNull.
Proof.
  intros Hd Ho1 Ho2. unfold parse_json. destruct (decode_runbook v) as [d|] eqn:Hv; [|done].
  destruct (json_doc v o1 o2 d) as (R1 & R2 & N1 & N2); [done..|].
  intros [[id ?%N1]|[id ?%N2]]%parse_panic_lem; [exists id; by left|exists id; by right|done..].
Qed.
Print Assumptions json_no_crash_partial.
Example json_crash_example : parse_json (JObj [("targets", JObj [("d", JNull)])]) ["d"] [] = Panic.
Proof. by vm_compute. Qed.
(** A complete run of the example. *)
Definition ex_run_book : book := match ex_json_book with Ok b => b | _ => Book ∅ ∅ end.
Example json_runbook_runs_example :
  parse_json ex_json ["sh"; "db"] ["one"; "two"] = Ok ex_run_book ∧ failures_alone (run_of ex_run_book all_ok all_ok) ∧
  ∃ st tr, executes (run_of ex_run_book all_ok all_ok) st tr ∧ stuck (run_of ex_run_book all_ok all_ok) st ∧
    all_started tr ∧ EvReturn None ∈ tr.
Proof.
  split; [|split].
  - unfold ex_run_book. destruct ex_json_ok as [b Hb]. rewrite Hb. exact Hb.
  - intros t v e _ [=].
  - set (tr := [EvStart "db"; EvStart "sh"; EvHandle "sh" "one"; EvHandled "sh" "one" None;
      EvHandle "db" "two"; EvHandled "db" "two" None; EvStop "db"; EvStop "sh"; EvReturn None]).
    destruct (ends_sound (run_of ex_run_book all_ok all_ok) ["db"; "sh"] tr) as (st & He & Hs).
    + apply (bool_decide_unpack _). by vm_compute.
    + by vm_compute.
    + exists st, tr. split; [done|]. split; [done|]. split; [intros q e; unfold tr; set_solver|].
      unfold tr. set_solver.
Qed.
