(** Properties C29-C32 and C62: the environment and commands of sh tasks. *)
From Coq Require Import String Ascii.
From stdpp Require Import gmap list strings.
From Verif Require Import GoBase GoStrings ShModel ShSpec ShProofs.

(** An Env with all three fields, and an inherited environment with a duplicate,
    an entry without "=" and one starting with "=". *)
Definition ex_env : env := Env ["HOME"; "=x"] ["PATH"] {[ "A" := "1"; "B" := "2" ]}.
Definition ex_environ : list string := ["A=0"; "HOME=/root"; "=x"; "junk"; "A=9"; "PATH=/bin"].
Definition ex_order : list string := ["A"; "B"].
Lemma ex_order_ok : range_of (e_set ex_env) ex_order.
Proof. apply (bool_decide_unpack _). by vm_compute. Qed.
Lemma ex_names_ok : good_names ex_env.
Proof.
  intros k Hk. assert (k = "A" ∨ k = "B") as [-> | ->] by (unfold ex_env in Hk; set_solver);
    (split; [done|]; intros ([|? [|]] & b & Hb); done).
Qed.
Example ex_env_result :
  env_apply ex_env ex_order ex_environ = ["A=1"; "HOME=/root"; "=x"; "A=1"; "B=2"].
Proof. by vm_compute. Qed.

(** C29 *)
Theorem env_set_wins e order environ k v :
  range_of (e_set e) order → good_names e → e_set e !! k = Some v →
  (k +:+ "=" +:+ v) ∈ env_apply e order environ ∧
  (∀ kv, kv ∈ env_apply e order environ → entry_of k kv → kv = k +:+ "=" +:+ v) ∧
  first_value k v (env_apply e order environ).
Proof.
  intros Ho Hg Hs. destruct (env_set_lem e order environ k v Ho Hg Hs) as [H1 H2].
  split; [done|]. split; [done|]. by apply env_set_first.
Qed.
Print Assumptions env_set_wins.
(** A name with "=" in it overrides another variable of Set. *)
Theorem env_set_wins_refuted : ∃ e order k v,
  range_of (e_set e) order ∧ e_set e !! k = Some v ∧ good_name k ∧
  ∃ v', v' ≠ v ∧ first_value k v' (env_apply e order []).
Proof.
  exists (Env [] [] {[ "A" := "1"; "A=B" := "2" ]}), ["A=B"; "A"], "A", "1". split_and!.
  - apply (bool_decide_unpack _). by vm_compute.
  - done.
  - split; [done|]. intros ([|? [|]] & b & Hb); done.
  - exists "B=2". split; [done|]. change (env_apply _ _ _) with ["A=B=2"; "A=1"]. constructor.
Qed.
Print Assumptions env_set_wins_refuted.
Example env_set_wins_example :
  range_of (e_set ex_env) ex_order ∧ good_names ex_env ∧ e_set ex_env !! "A" = Some "1".
Proof. split; [exact ex_order_ok|]. split; [exact ex_names_ok|done]. Qed.

(** C30: the result is the inherited environment filtered entry by entry,
    followed by the entries of Set it lacked. *)
Theorem env_apply_exact e order environ :
  range_of (e_set e) order →
  ∃ kept keys, env_apply e order environ =
      kept ++ ((λ k, k +:+ "=" +:+ default "" (e_set e !! k)) <$> keys) ∧
    filtered e environ kept ∧ lacking e environ keys.
Proof. apply env_apply_shape. Qed.
Print Assumptions env_apply_exact.
(** The entry by entry relation leaves no choice. *)
Theorem env_filter_functional e l l1 l2 : filtered e l l1 → filtered e l l2 → l1 = l2.
Proof. apply filtered_functional. Qed.
Print Assumptions env_filter_functional.
(** A variable outside Set that is not let through is nowhere in the result. *)
Theorem env_filter_removes e order environ k :
  range_of (e_set e) order → good_names e → good_name k → e_set e !! k = None →
  ¬ lets_through e k → ∀ kv, kv ∈ env_apply e order environ → ¬ entry_of k kv.
Proof. apply env_gone_lem. Qed.
Print Assumptions env_filter_removes.
Example env_filter_example :
  filtered ex_env ex_environ ["A=1"; "HOME=/root"; "=x"; "A=1"] ∧
  ¬ lets_through ex_env "PATH" ∧ lets_through ex_env "HOME".
Proof.
  assert (¬ lets_through ex_env "PATH") as H1 by (unfold lets_through; simpl; set_solver).
  assert (¬ lets_through ex_env "junk") as H2 by (unfold lets_through; simpl; set_solver).
  assert (lets_through ex_env "HOME") as H3 by (left; simpl; set_solver).
  assert (lets_through ex_env "=x") as H4 by (left; simpl; set_solver).
  split; [|done].
  eapply (filtered_set _ "A" _ "1"); [by apply entry_key_spec|done|].
  eapply (filtered_keep _ "HOME"); [by apply entry_key_spec|done|done|].
  eapply (filtered_keep _ "=x"); [by apply entry_key_spec|done|done|].
  eapply (filtered_drop _ "junk"); [by apply entry_key_spec|done|done|].
  eapply (filtered_set _ "A" _ "1"); [by apply entry_key_spec|done|].
  eapply (filtered_drop _ "PATH"); [by apply entry_key_spec|done|done|]. constructor.
Qed.

(** C31 *)
Theorem env_idempotent e order1 order2 environ :
  range_of (e_set e) order1 → range_of (e_set e) order2 → good_names e →
  env_apply e order2 (env_apply e order1 environ) = env_apply e order1 environ.
Proof. apply env_idempotent_lem. Qed.
Print Assumptions env_idempotent.
Theorem env_order_independent e order1 order2 environ :
  range_of (e_set e) order1 → range_of (e_set e) order2 →
  ∃ kept a1 a2, env_apply e order1 environ = kept ++ a1 ∧
    env_apply e order2 environ = kept ++ a2 ∧ a1 ≡ₚ a2 ∧ filtered e environ kept.
Proof. apply env_orders_lem. Qed.
Print Assumptions env_order_independent.
Theorem env_idempotent_refuted : ∃ e order environ,
  range_of (e_set e) order ∧
  length (env_apply e order (env_apply e order environ)) ≠ length (env_apply e order environ).
Proof.
  exists (Env [] [] {[ "" := "x" ]}), [""], []. split; [|by vm_compute].
  apply (bool_decide_unpack _). by vm_compute.
Qed.
Print Assumptions env_idempotent_refuted.
Example env_orders_example :
  range_of (e_set ex_env) ["A"; "B"] ∧ range_of (e_set ex_env) ["B"; "A"] ∧
  env_apply ex_env ["A"; "B"] ["Z=0"] ≠ env_apply ex_env ["B"; "A"] ["Z=0"].
Proof. split_and!; [apply (bool_decide_unpack _); by vm_compute..|by vm_compute]. Qed.

(** C32 *)
Theorem exec_check_exact args :
  exec_check args = None ↔
  ∃ a rest, args = a :: rest ∧
    (¬ has_byte "/" a ∨ begins_with "/" a ∨ begins_with "./" a ∨ begins_with "../" a).
Proof. apply exec_check_spec. Qed.
Print Assumptions exec_check_exact.
Example exec_check_example :
  exec_check ["ls"; "a/b"] = None ∧ exec_check ["../x"] = None ∧
  exec_check ["bin/ls"] = Some (IllegalCommand "bin/ls") ∧ exec_check [".../x"] ≠ None.
Proof. by vm_compute. Qed.

(** C62: the value a command sees for [k]. *)
Theorem command_env_layers target task o1 o2 environ k :
  range_of (e_set target) o1 → range_of (e_set task) o2 → good_names target → good_names task →
  good_name k →
  (∀ v, e_set task !! k = Some v → first_value k v (command_env target task o1 o2 environ)) ∧
  (e_set task !! k = None → lets_through task k →
    (∀ v, e_set target !! k = Some v → first_value k v (command_env target task o1 o2 environ)) ∧
    (e_set target !! k = None → lets_through target k → ∀ v, first_value k v environ →
       first_value k v (command_env target task o1 o2 environ))) ∧
  (e_set task !! k = None → ¬ lets_through task k →
    ∀ v, ¬ first_value k v (command_env target task o1 o2 environ)).
Proof. apply command_env_lem. Qed.
Print Assumptions command_env_layers.
(** The task's Allow can hide what the target set. *)
Example command_env_example :
  command_env ex_env (Env ["HOME"] [] {[ "C" := "3" ]}) ex_order ["C"] ex_environ =
    ["HOME=/root"; "C=3"].
Proof. by vm_compute. Qed.
