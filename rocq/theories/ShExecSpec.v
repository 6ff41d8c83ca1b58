(** What a command should find in its environment. *)
From Coq Require Import String Ascii.
From stdpp Require Import gmap list strings.
From Verif Require Import GoBase GoStrings.

(** The last entry for [k] has the value [v]. *)
Definition last_value (k v : string) (l : list string) : Prop :=
  ∃ l1 l2, l = l1 ++ (k +:+ "=" +:+ v) :: l2 ∧ ∀ kv, kv ∈ l2 → ¬ begins_with (k +:+ "=") kv.
(** There is exactly one entry for [k], and it has the value [v]: every program sees that
    value. *)
Definition sees (k v : string) (l : list string) : Prop :=
  ∃ l1 l2, l = l1 ++ (k +:+ "=" +:+ v) :: l2 ∧ ∀ kv, kv ∈ l1 ++ l2 → ¬ begins_with (k +:+ "=") kv.
(** There is no entry for [k]. *)
Definition unseen (k : string) (l : list string) : Prop := ∀ kv, kv ∈ l → ¬ begins_with (k +:+ "=") kv.
