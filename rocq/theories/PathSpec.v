(** Which directory a name means: what the operating system does with names. *)
From Coq Require Import String Ascii.
From stdpp Require Import gmap list strings.
From Verif Require Import GoBase GoStrings.

(** What there is at a place, which is given by the names of the directories on the way
    from the root. *)
Inductive node := Dir | File | Link (target : string).
Definition system := list string → option node.

(** The names a path is made of. *)
Definition parts (s : string) (cs : list string) : Prop :=
  cs ≠ [] ∧ String.concat "/" cs = s ∧ Forall (λ c, ¬ has_byte "/" c) cs.
Definition plain (c : string) : Prop := c ≠ "" ∧ c ≠ "." ∧ c ≠ "..".
(** Starting at one place and going through the names one comes to another. *)
Inductive walks (fs : system) : list string → list string → list string → Prop :=
| walks_end p : walks fs p [] p
| walks_stay p c cs q : c = "" ∨ c = "." → fs p = Some Dir → walks fs p cs q → walks fs p (c :: cs) q
| walks_root cs q : fs [] = Some Dir → walks fs [] cs q → walks fs [] (".." :: cs) q
| walks_up p x cs q : fs (p ++ [x]) = Some Dir → walks fs p cs q → walks fs (p ++ [x]) (".." :: cs) q
| walks_in p c cs n q : plain c → fs p = Some Dir → fs (p ++ [c]) = Some n → (∀ t, n ≠ Link t) →
    walks fs (p ++ [c]) cs q → walks fs p (c :: cs) q
| walks_link_root p c cs t ts q : plain c → fs p = Some Dir → fs (p ++ [c]) = Some (Link t) → parts t ts →
    begins_with "/" t → walks fs [] (ts ++ cs) q → walks fs p (c :: cs) q
| walks_link p c cs t ts q : plain c → fs p = Some Dir → fs (p ++ [c]) = Some (Link t) → parts t ts →
    ¬ begins_with "/" t → walks fs p (ts ++ cs) q → walks fs p (c :: cs) q.
(** What a path means for a process that is in the directory [cwd]. *)
Definition means (fs : system) (cwd : list string) (s : string) (q : list string) : Prop :=
  ∃ cs, parts s cs ∧ ((begins_with "/" s ∧ walks fs [] cs q) ∨ (¬ begins_with "/" s ∧ walks fs cwd cs q)).
(** The directory in which the file is looked for. *)
Definition lies_in (fs : system) (cwd : list string) (file : string) (d : list string) : Prop :=
  ∃ pre last, file = pre +:+ last ∧ ¬ has_byte "/" last ∧ (pre = "" ∨ ∃ r, pre = r +:+ "/") ∧ means fs cwd pre d.

Definition no_links (fs : system) : Prop := ∀ p t, fs p ≠ Some (Link t).
(** No step up is asked for. *)
Definition never_up (s : string) : Prop := ∀ cs, parts s cs → ".." ∉ cs.
(** The root, or the names of the directories on the way, each behind a slash. *)
Definition straight (s : string) : Prop :=
  ∃ cs, s = "/" +:+ String.concat "/" cs ∧ Forall plain cs ∧ Forall (λ c, ¬ has_byte "/" c) cs.
