(** What an environment filter should do, stated without the code's loops. *)
From Coq Require Import String Ascii.
From stdpp Require Import gmap list strings.
From Verif Require Import GoBase GoStrings ShModel.

(** The entry [kv] is about the variable [k]: "k=value", or an entry without
    a name, which stands for itself. *)
Definition entry_of (k kv : string) : Prop :=
  (k ≠ "" ∧ ¬ has_byte "=" k ∧ begins_with (k +:+ "=") kv) ∨
  (kv = k ∧ (¬ has_byte "=" k ∨ begins_with "=" k)).

(** A name an environment variable can have. *)
Definition good_name (k : string) : Prop := k ≠ "" ∧ ¬ has_byte "=" k.
Definition good_names (e : env) : Prop := ∀ k, k ∈ dom (e_set e) → good_name k.

(** Allow takes precedence over Deny. *)
Definition lets_through (e : env) (k : string) : Prop :=
  (e_allow e ≠ [] ∧ k ∈ e_allow e) ∨ (e_allow e = [] ∧ k ∉ e_deny e).

(** Entry by entry, what becomes of the inherited environment. *)
Inductive filtered (e : env) : list string → list string → Prop :=
  | filtered_nil : filtered e [] []
  | filtered_set k kv v l l' :
      entry_of k kv → e_set e !! k = Some v → filtered e l l' →
      filtered e (kv :: l) ((k +:+ "=" +:+ v) :: l')
  | filtered_keep k kv l l' :
      entry_of k kv → e_set e !! k = None → lets_through e k → filtered e l l' →
      filtered e (kv :: l) (kv :: l')
  | filtered_drop k kv l l' :
      entry_of k kv → e_set e !! k = None → ¬ lets_through e k → filtered e l l' →
      filtered e (kv :: l) l'.

(** The variables of Set that the inherited environment lacks. *)
Definition lacking (e : env) (environ keys : list string) : Prop :=
  NoDup keys ∧
  ∀ k, k ∈ keys ↔ k ∈ dom (e_set e) ∧ ∀ kv, kv ∈ environ → ¬ entry_of k kv.

(** The value a C program sees for [k]: that of the first entry for it. *)
Inductive first_value (k v : string) : list string → Prop :=
  | first_here l : first_value k v ((k +:+ "=" +:+ v) :: l)
  | first_later kv l : ¬ begins_with (k +:+ "=") kv → first_value k v l → first_value k v (kv :: l).
