(** Which program a command should be. *)
From Coq Require Import String Ascii.
From stdpp Require Import gmap list strings.
From Verif Require Import GoBase GoStrings.

(** The directories a PATH lists. *)
Definition lists_dirs (path : string) (dirs : list string) : Prop :=
  String.concat ":" dirs = path ∧ Forall (λ d, ¬ has_byte ":" d) dirs ∧ (path = "" → dirs = []).
(** [f] is the first executable called [name] in the directories. *)
Definition first_in (executable : string → bool) (name : string) (dirs : list string) (f : string) : Prop :=
  ∃ l1 d l2, dirs = l1 ++ d :: l2 ∧ (∀ d', d' ∈ l1 → executable (d' +:+ "/" +:+ name) = false) ∧
    executable (d +:+ "/" +:+ name) = true ∧ f = d +:+ "/" +:+ name.
