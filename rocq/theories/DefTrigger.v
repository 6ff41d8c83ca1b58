(** Trigger definitions as PostgreSQL writes them, read by ParseTrigger. *)
From Coq Require Import String Ascii.
From stdpp Require Import list list_numbers strings numbers.
From Verif Require Import GoStrings GoStringsProofs GoUtf8 DdlModel DdlSpec MachineModel MachineTables ParseModel ParseGrammar ParseSpec.
From Verif Require Import GoUtf8Proofs ParseText ParseCheck ParseEquiv ParseCharset DefModel DefSpec DefProofs.
Local Open Scope Z_scope.

Lemma tg_adds c b x : tg_act AddToBuffer (Some c) 0 (b, x) = Some (push c b, x).
Proof. done. Qed.
Lemma app_nil_str (s : string) : "" +:+ s = s. Proof. done. Qed.
Notation tgo := (go trigger_machine tg_act).
Lemma tg_columns_fold l sc tb nm fn wh con dbl dfd row de ins tr up c :
  fold_left (λ t b, tg_add_column b t) l (Trigger sc tb nm fn wh con dbl dfd row de ins tr up c) =
  Trigger sc tb nm fn wh con dbl dfd row de ins tr up (c ++ l).
Proof.
  revert c. induction l as [|a l IH]; intros c; [by rewrite app_nil_r|]. cbn [fold_left]. unfold tg_add_column at 2.
  cbn [tg_schema tg_table tg_name tg_function tg_when tg_constraint tg_deferrable tg_deferred tg_each_row tg_delete
    tg_insert tg_truncate tg_update tg_columns]. by rewrite IH, <-app_assoc.
Qed.

(** The list of events, to the name of the table. *)
Lemma tg_events reserved i d u k nm wh con t r :
  result (tgo 35 ("", Trigger "" "" nm "" wh con false false false false false false false [])
    (String.concat " OR " (printed_events reserved
      (TriggerShape nm Before i d u k (Named "" "" true) None None None false None (Named "" "" true) [])) +:+
     " ON " +:+ t)) = Parsed r ↔
  (i = true ∨ d = true ∨ u ≠ None ∨ k = true) ∧ (∀ l, u = Some l → Forall (plain_name reserved) l) ∧
  result (tgo 45 ("", Trigger "" "" nm "" wh con false false false d i k
    match u with None => false | Some _ => true end match u with None => [] | Some l => l end) t) = Parsed r.
Proof.
  unfold printed_events. cbn [ts_insert ts_delete ts_update ts_truncate].
  destruct u as [[|a l]|].
  - destruct i, d, k; cbn [app String.concat]; rewrite <-?app_str_assoc, ?app_str_assoc;
      (erewrite (go_walk trigger_machine tg_act 35 _ _ t) by (vm_compute; reflexivity)); cbv beta;
      (split; [intros H; split_and!; [naive_solver|by intros ? [= <-]|exact H]|intros (_ & _ & H); exact H]).
  - set (names := printed_names reserved (a :: l)).
    set (before := (if i then "INSERT OR " else "") +:+ (if d then "DELETE OR " else "") +:+ "UPDATE OF ").
    set (after := (if k then "R TRUNCATE ON " else "N ")).
    assert (String.concat " OR " ((if i then ["INSERT"] else []) ++ (if d then ["DELETE"] else []) ++
      ["UPDATE OF " +:+ names] ++ (if k then ["TRUNCATE"] else [])) +:+ " ON " +:+ t = before +:+ names +:+ " O" +:+ after +:+ t) as ->.
    { unfold before, after. clearbody names.
      destruct i, d, k; cbn [app String.concat]; rewrite <-?app_str_assoc; reflexivity. }
    rewrite (go_walk trigger_machine tg_act 35 _ before _ 169
      ("", Trigger "" "" nm "" wh con false false false d i false true [])) by (destruct i, d; vm_compute; reflexivity).
    unfold names.
    rewrite (go_names trigger_machine tg_act tg_adds reserved (λ t b, tg_add_column b t) 169 170 43 " O");
      [|vm_compute; reflexivity|intros; vm_compute; reflexivity|intros; vm_compute; reflexivity|done].
    rewrite tg_columns_fold. cbn [app].
    rewrite (go_walk trigger_machine tg_act 43 _ after t 45
      ("", Trigger "" "" nm "" wh con false false false d i k true (a :: l))) by (destruct k; vm_compute; reflexivity).
    split; [intros (_ & Hl & H)|intros (_ & Hl & H)]; (split_and!; [naive_solver|..|done]); [by intros ? [= <-]|by apply Hl].
  - destruct i, d, k; cbn [app String.concat]; rewrite <-?app_str_assoc, ?app_str_assoc;
    try (erewrite (go_walk trigger_machine tg_act 35 _ _ t) by (vm_compute; reflexivity); cbv beta;
      (split; [intros H; split_and!; [naive_solver|done|exact H]|intros (_ & _ & H); exact H])).
    split; [|naive_solver]. intros [b H]%result_parsed. exfalso. revert H.
    apply (go_stop trigger_machine tg_act). vm_compute; reflexivity.
Qed.

(** From the table's name to the end. *)
Lemma tg_deferral reserved nm tb wh c de ins tr up cols t r :
  result (tgo 47 ("", Trigger "" tb nm "" wh (match c with None => false | Some _ => true end) false false false de ins tr up cols)
    (printed_constraint reserved c +:+ t)) = Parsed r ↔
  (∀ from deferrable deferred, c = Some (from, deferrable, deferred) → from = None ∧ deferrable = true) ∧
  result (tgo (match c with None => 47 | Some _ => 126 end)
    ("", Trigger "" tb nm "" wh (match c with None => false | Some _ => true end)
      match c with None => false | Some (_, deferrable, _) => deferrable end
      match c with None => false | Some (_, _, deferred) => deferred end false de ins tr up cols) t) = Parsed r.
Proof.
  destruct c as [[[[o|] x] y]|]; cbn [printed_constraint].
  - split; [|intros [H _]; specialize (H _ _ _ eq_refl); naive_solver].
    intros [b H]%result_parsed. exfalso. revert H. rewrite <-!app_str_assoc.
    apply (go_stop trigger_machine tg_act). vm_compute; reflexivity.
  - destruct x.
    + rewrite ?app_nil_str.
      destruct y; (erewrite (go_walk trigger_machine tg_act 47 _ _ t) by (vm_compute; reflexivity)); naive_solver.
    + split; [|intros [H _]; specialize (H _ _ _ eq_refl); naive_solver].
      intros [b H]%result_parsed. exfalso. revert H. 
      apply (go_stop trigger_machine tg_act). destruct y; vm_compute; reflexivity.
  - change ("" +:+ t) with t. naive_solver.
Qed.
Lemma tg_end reserved word q nm tb wh con x y de ins tr up cols old new (row : bool) (cond : option string) fn args r :
  q = 47%N ∨ q = 126%N →
  result (tgo q ("", Trigger "" tb nm "" wh con x y false de ins tr up cols)
    (printed_transition reserved old new +:+
     (if row then "FOR EACH ROW " else "FOR EACH STATEMENT ") +:+
     match cond with None => "" | Some e => "WHEN (" +:+ e +:+ ") " end +:+
     "EXECUTE " +:+ word_text word +:+ " " +:+ printed_named reserved fn +:+
     "(" +:+ String.concat ", " (printed_literal <$> args) +:+ ")")) = Parsed r ↔
  old = None ∧ new = None ∧ cond = None ∧ plain_named reserved fn ∧ args = [] ∧
  r = Trigger "" tb nm (nm_name fn) wh con x y row de ins tr up cols.
Proof.
  intros Hq. assert (printed_transition reserved old new = "" ∧ old = None ∧ new = None ∨
    (∃ s, printed_transition reserved old new = "REFERENCING " +:+ s) ∧ ¬ (old = None ∧ new = None)) as [(-> & -> & ->)|[(s & ->) Hno]].
  { destruct old, new; cbn; [right; naive_solver..|by left]. }
  2:{ split; [|naive_solver]. intros [b H]%result_parsed. exfalso. revert H. rewrite <-!app_str_assoc.
      apply (go_stop trigger_machine tg_act). destruct Hq as [-> | ->]; vm_compute; reflexivity. }
  rewrite ?app_nil_str.
  rewrite (go_walk trigger_machine tg_act q _ (if row then "FOR EACH ROW " else "FOR EACH STATEMENT ") _ 99
    ("", Trigger "" tb nm "" wh con x y row de ins tr up cols)) by (destruct Hq as [-> | ->], row; vm_compute; reflexivity).
  destruct cond as [e|].
  { split; [|naive_solver]. intros [b H]%result_parsed. exfalso. revert H. rewrite <-!app_str_assoc.
    apply (go_stop trigger_machine tg_act). vm_compute; reflexivity. }
  rewrite ?app_nil_str.
  rewrite (app_str_assoc (word_text word)), (app_str_assoc "EXECUTE ").
  rewrite (go_walk trigger_machine tg_act 99 _ ("EXECUTE " +:+ word_text word +:+ " ") _ 76
    ("", Trigger "" tb nm "" wh con x y row de ins tr up cols)) by (destruct word; vm_compute; reflexivity).
  rewrite (go_named trigger_machine tg_act tg_adds reserved 76 77) by (vm_compute; reflexivity).
  destruct args as [|a args].
  - assert (result (tgo 77 (nm_name fn, Trigger "" tb nm "" wh con x y row de ins tr up cols)
      ("(" +:+ String.concat ", " (printed_literal <$> []) +:+ ")")) =
      Parsed (Trigger "" tb nm (nm_name fn) wh con x y row de ins tr up cols)) as -> by (vm_compute; reflexivity).
    naive_solver.
  - split; [|naive_solver]. intros (_ & [b H]%result_parsed). exfalso. revert H.
    assert (∃ s, String.concat ", " (printed_literal <$> a :: args) +:+ ")" = String squote s) as [s ->].
    { destruct args; cbn; eexists; reflexivity. }
    change (String squote s) with (String squote "" +:+ s). rewrite app_str_assoc.
    apply (go_stop trigger_machine tg_act). vm_compute; reflexivity.
Qed.
Lemma trigger_reads reserved word t r :
  parse_trigger (printed_trigger reserved word t) = Parsed r ↔ readable_trigger reserved t ∧ r = trigger_meaning t.
Proof.
  unfold parse_trigger. rewrite run_go by apply tg_still. unfold printed_trigger.
  destruct t as [nm tm i d u k tb c old new row cond fn args].
  unfold readable_trigger, trigger_meaning.
  cbn [ts_name ts_time ts_insert ts_delete ts_update ts_truncate ts_table ts_constraint ts_old_table ts_new_table
    ts_each_row ts_when ts_function ts_arguments].
  set (con := match c with None => false | Some _ => true end).
  rewrite (app_str_assoc (match c with None => "" | Some _ => "CONSTRAINT " end)), (app_str_assoc "CREATE ").
  rewrite (go_walk trigger_machine tg_act 1 _ ("CREATE " +:+ match c with None => "" | Some _ => "CONSTRAINT " end +:+ "TRIGGER ") _ 27
    ("", Trigger "" "" "" "" "" con false false false false false false false [])) by (unfold con; destruct c; vm_compute; reflexivity).
  rewrite (go_name trigger_machine tg_act tg_adds reserved 27 28) by (vm_compute; reflexivity).
  rewrite (app_str_assoc (time_text tm)), (app_str_assoc " " (time_text tm +:+ " ")).
  rewrite (go_walk trigger_machine tg_act 28 _ (" " +:+ time_text tm +:+ " ") _ 35
    ("", Trigger "" "" nm "" (time_text tm) con false false false false false false false [])) by (destruct tm; vm_compute; reflexivity).
  change (printed_events reserved (TriggerShape nm tm i d u k tb c old new row cond fn args)) with
    (printed_events reserved (TriggerShape nm Before i d u k (Named "" "" true) None None None false None (Named "" "" true) [])).
  rewrite tg_events.
  rewrite (go_named trigger_machine tg_act tg_adds reserved 45 46) by (vm_compute; reflexivity).
  erewrite (go_walk trigger_machine tg_act 46 _ " " _ 47) by (vm_compute; reflexivity).
  set (up := match u with None => false | Some _ => true end).
  set (cols := match u with None => [] | Some l => l end).
  rewrite (tg_deferral reserved nm (nm_name tb) (time_text tm) c d i k up cols).
  rewrite tg_end by (destruct c; naive_solver). tauto.
Qed.
