(** The theorem about the environment of a command. *)
From Coq Require Import String Ascii.
From stdpp Require Import gmap list strings.
From Verif Require Import GoBase GoStrings GoStringsProofs ShModel ShSpec ShProofs ShExecModel ShExecSpec ShExecProofs.

(** C143: for every variable name, exactly one entry or none is in the environment the
    process is started with, and which. *)
Theorem process_env_exact target task o1 o2 environ k :
  range_of (e_set target) o1 → range_of (e_set task) o2 → good_names target → good_names task →
  good_name k →
  let l := process_env target task o1 o2 environ in
  (** what the task sets *)
  (∀ v, e_set task !! k = Some v → sees k v l) ∧
  (** what it lets through *)
  (e_set task !! k = None → lets_through task k →
    (∀ v, e_set target !! k = Some v → sees k v l) ∧
    (e_set target !! k = None → lets_through target k →
      (∀ v, last_value k v environ → sees k v l) ∧ (unseen k environ → unseen k l)) ∧
    (e_set target !! k = None → ¬ lets_through target k → unseen k l)) ∧
  (** what it does not *)
  (e_set task !! k = None → ¬ lets_through task k → unseen k l).
Proof.
  intros Ho1 Ho2 Hg1 Hg2 Hk l. unfold l, process_env, command_env.
  destruct (dedup_sees k (env_apply task o2 (env_apply target o1 environ)) Hk) as [Hs Hu].
  split_and!.
  - intros v Hv. apply Hs. by apply env_set_last.
  - intros Hn Hl. split_and!.
    + intros v Hv. apply Hs. apply env_keep_last; [done..|]. by apply env_set_last.
    + intros Hn' Hl'. split.
      * intros v Hv. apply Hs. apply env_keep_last; [done..|]. by apply env_keep_last.
      * intros H. apply Hu. apply env_absent; [done..|]. by apply env_absent.
    + intros Hn' Hl'. apply Hu. apply env_absent; [done..|]. by apply env_hidden.
  - intros Hn Hl. apply Hu. by apply env_hidden.
Qed.
Print Assumptions process_env_exact.
(** Entries of os.Environ() for the same variable are merged, the last one winning. *)
Definition ex_target : env := Env [] ["SECRET"] {[ "A" := "1" ]}.
Definition ex_task : env := Env ["PATH"; "A"; "SECRET"] [] {[ "B" := "2" ]}.
Definition ex_os : list string := ["PATH=/bin"; "A=0"; "SECRET=x"; "HOME=/root"; "PATH=/usr/bin"; "odd"].
Example process_env_example :
  process_env ex_target ex_task ["A"] ["B"] ex_os = ["PATH=/usr/bin"; "A=1"; "B=2"] ∧
  range_of (e_set ex_target) ["A"] ∧ range_of (e_set ex_task) ["B"] ∧
  good_names ex_target ∧ good_names ex_task ∧ good_name "PATH" ∧
  lets_through ex_task "PATH" ∧ lets_through ex_target "PATH" ∧ last_value "PATH" "/usr/bin" ex_os.
Proof.
  split_and!.
  - by vm_compute.
  - apply (bool_decide_unpack _). by vm_compute.
  - apply (bool_decide_unpack _). by vm_compute.
  - intros k Hk. assert (k = "A") as -> by (unfold ex_target in Hk; set_solver).
    split; [done|]. intros ([|? [|]] & b & Hb); done.
  - intros k Hk. assert (k = "B") as -> by (unfold ex_task in Hk; set_solver).
    split; [done|]. intros ([|? [|]] & b & Hb); done.
  - split; [done|]. by apply index_byte_None.
  - left. split; [done|]. by left.
  - right. split; [done|]. by apply (bool_decide_unpack _).
  - exists ["PATH=/bin"; "A=0"; "SECRET=x"; "HOME=/root"], ["odd"]. split; [done|].
    intros kv ->%elem_of_list_singleton Hb. rewrite <-has_prefix_spec in Hb. done.
Qed.
