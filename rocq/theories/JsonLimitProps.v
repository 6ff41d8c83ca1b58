(** The limits of the targets of a run book in JSON: C83. *)
From Coq Require Import String Ascii.
From stdpp Require Import gmap list strings numbers.
From Verif Require Import GoBase GoStrings GoUtf8 ShModel DemoModel JsonModel ParserModel ParserSpec ParserProofs
  JsonParserModel JsonSpec JsonProofs JsonParserProofs SchedModel RunnerModel EffectsModel JsonProps.
Local Open Scope Z_scope.

(** C83: Run is given, for each target of the document, the limit the document sets: what
    Concurrency says, 1 if it says nothing, and 1 for demo. *)
Theorem json_limits v o1 o2 b h :
  document_given_once v → order_of v "Targets" o1 → order_of v "Tasks" o2 → parse_json v o1 o2 = Ok b →
  ∀ id x, entry_of v "Targets" id x → ∃ class config n,
    target_entry x class config ∧ ri_limits (run_book b h) !! id = Some n ∧ 1 ≤ n ∧
    (class = "demo" ∧ n = 1 ∨ class ∈ ["pg"; "sh"] ∧ setting reads_int config "Concurrency" 1 n).
Proof.
  intros Hd Ho1 Ho2 Hp id x Hx. apply json_exact in Hp as (_ & H1 & _); [|done..]. destruct Hd as [Hg Hd].
  assert (∀ l, gives v "Targets" (JObj l) → NoDup l.*1) as N1 by (intros l Hl; by apply (Hd (JObj l)); [left|]).
  destruct (entry_reads _ v "Targets" _ _ _ Hg ltac:(in_settings) N1 H1 Hx) as (t & Ht & class & config & _ & He & Hs & Hn).
  exists class, config, (concurrency_limit t). split; [done|]. split; [cbn; by rewrite lookup_fmap, Ht|]. split; [done|].
  destruct t as [s|c e|s]; cbn in Hs |- *.
  - destruct Hs as (-> & _ & Hs & _). right. split; [by left|done].
  - destruct Hs as (-> & _ & Hs & _). right. split; [right; by left|done].
  - destruct Hs as (-> & _). by left.
Qed.
Print Assumptions json_limits.
Example json_limits_example : ∃ b x,
  (document_given_once ex_json ∧ order_of ex_json "Targets" ["sh"; "db"] ∧ order_of ex_json "Tasks" ["one"; "two"]) ∧
  parse_json ex_json ["sh"; "db"] ["one"; "two"] = Ok b ∧ entry_of ex_json "Targets" "db" x.
Proof.
  destruct ex_json_orders as [H1 H2]. destruct ex_json_ok as [b Hb]. eexists b, _. split; [split_and!; [exact ex_json_once|done..]|].
  split; [done|]. eexists. split; [apply gives_vals_setting; [apply (bool_decide_unpack _); by vm_compute|]; apply elem_of_list_In; vm_compute; by left|].
  apply elem_of_list_In; by left.
Qed.
