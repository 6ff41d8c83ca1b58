(** What the commands of a run should be. *)
From Coq Require Import String Ascii.
From stdpp Require Import gmap list strings.
From Verif Require Import GoBase GoStrings ShModel ShSpec ShExecSpec ShLookSpec.

(** What a process with the environment [l] finds out about the variable [x], if the target
    says [te], the task [e], and pgutil was started with [environ]. *)
Definition knows (te e : env) (environ : list string) (x : string) (l : list string) : Prop :=
  (∀ v, e_set e !! x = Some v → sees x v l) ∧
  (e_set e !! x = None → lets_through e x → ∀ v, e_set te !! x = Some v → sees x v l) ∧
  (e_set e !! x = None → lets_through e x → e_set te !! x = None → lets_through te x →
    (∀ v, last_value x v environ → sees x v l) ∧ (unseen x environ → unseen x l)) ∧
  (e_set e !! x = None → lets_through e x → e_set te !! x = None → ¬ lets_through te x → unseen x l) ∧
  (e_set e !! x = None → ¬ lets_through e x → unseen x l).
(** The file [f] is what the command [name] of a runbook in the directory [base] stands for. *)
Inductive stands_for (executable : string → bool) (dirs : list string) (base : string) : string → string → Prop :=
  | stands_absolute name : begins_with "/" name → executable name = true → stands_for executable dirs base name name
  | stands_relative name : begins_with "./" name ∨ begins_with "../" name →
      executable (base +:+ "/" +:+ name) = true → stands_for executable dirs base name (base +:+ "/" +:+ name)
  | stands_found name f : ¬ has_byte "/" name → name ≠ "" → first_in executable name dirs f →
      stands_for executable dirs base name f.
