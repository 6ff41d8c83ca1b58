(** Go built-ins used by several models: string order, sort.Strings, map ranges. *)
From Coq Require Import String.
From stdpp Require Import gmap sets list strings sorting.

(** Go's [<=] on strings: byte-wise lexicographic order (language spec,
    "Comparison operators").  [String.leb] compares the byte values in order. *)
Definition str_le (a b : string) : Prop := String.leb a b = true.
Global Instance str_le_dec a b : Decision (str_le a b).
Proof. unfold str_le. apply _. Defined.

(** Go's sort.Strings, used in internal/dag/tsort.go:17,20 and
    internal/commands/runbook_list.go:31.  Any correct sort of strings returns
    the same list (see [sort_strings_canonical] in GoBaseProofs.v), so the algorithm
    used here does not matter. *)
Definition sort_strings (l : list string) : list string := merge_sort str_le l.

(** One execution of [for k := range m]: some enumeration of the keys of [m],
    each exactly once.  Go leaves the order unspecified. *)
Definition range_of {A} (m : gmap string A) (l : list string) : Prop :=
  l ≡ₚ elements (dom m).

(** The same for [for k := range s] where [s] is a set (map[string]struct{}). *)
Definition range_of_set (X : gset string) (l : list string) : Prop :=
  l ≡ₚ elements X.

(** A rule choosing an iteration order for every map (resp. set); theorems
    quantify over all such rules. *)
Definition map_ranger (A : Type) := gmap string A → list string.
Definition set_ranger := gset string → list string.
Definition ok_map_ranger {A} (r : map_ranger A) : Prop := ∀ m, range_of m (r m).
Definition ok_set_ranger (r : set_ranger) : Prop := ∀ X, range_of_set X (r X).
