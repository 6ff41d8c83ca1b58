(** What PostgreSQL's definitions mean, and which of them the parsers can read. *)
From Coq Require Import String Ascii.
From stdpp Require Import list strings numbers.
From Verif Require Import GoStrings GoUtf8 DdlModel DdlSpec ParseSpec DefModel.
Local Open Scope Z_scope.

(** A name that PostgreSQL writes without quotes and that starts with a letter. *)
Definition plain_name (reserved : string → bool) (n : string) : Prop :=
  (∃ c r, n = String c r ∧ 97 ≤ byte_of c ≤ 122 ∧
     all_bytes (λ d, 97 ≤ byte_of d ≤ 122 ∨ 48 ≤ byte_of d ≤ 57 ∨ byte_of d = 95) r) ∧
  reserved n = false.
(** ... of something on the search path. *)
Definition plain_named (reserved : string → bool) (o : named) : Prop :=
  nm_visible o = true ∧ plain_name reserved (nm_name o).

Definition fk_meaning (f : fk_shape) : foreign_key :=
  ForeignKey "" (nm_name (fs_table f)) (fs_columns f) (fs_referenced f)
    match fs_match f with MatchSimple => "" | MatchFull => "FULL" | MatchPartial => "PARTIAL" end
    (action_text (fs_delete f)) (action_text (fs_update f)) (fs_deferrable f) (fs_deferred f).
Definition readable_fk (reserved : string → bool) (f : fk_shape) : Prop :=
  fs_columns f ≠ [] ∧ Forall (plain_name reserved) (fs_columns f) ∧
  plain_named reserved (fs_table f) ∧
  fs_referenced f ≠ [] ∧ Forall (plain_name reserved) (fs_referenced f) ∧
  (fs_update f = NoAction ∨ fs_delete f = NoAction) ∧ fs_delete_columns f = [] ∧
  (fs_deferrable f = true → fs_deferred f = true) ∧ fs_valid f = true.

Definition readable_check (c : check_shape) : Prop := cs_no_inherit c = false ∧ cs_valid c = true.
(** The expression itself has a closing parenthesis, white space and DEFERRABLE (and
    white space), or INITIALLY DEFERRED. *)
Definition looks_deferrable (e : string) : Prop :=
  ∃ v, (anything >> lit ")" >> ws >> key "DEFERRABLE" >> ws >> anything) e v.
Definition looks_deferred (e : string) : Prop :=
  ∃ v, (anything >> lit ")" >> ws >> maybe (key "DEFERRABLE" >> ws) >>
    key "INITIALLY" >> ws >> key "DEFERRED" >> anything) e v.

Definition trigger_meaning (t : trigger_shape) : trigger :=
  Trigger "" (nm_name (ts_table t)) (ts_name t) (nm_name (ts_function t)) (time_text (ts_time t))
    match ts_constraint t with None => false | Some _ => true end
    match ts_constraint t with None => false | Some (_, deferrable, _) => deferrable end
    match ts_constraint t with None => false | Some (_, _, deferred) => deferred end
    (ts_each_row t) (ts_delete t) (ts_insert t) (ts_truncate t)
    match ts_update t with None => false | Some _ => true end
    match ts_update t with None => [] | Some l => l end.
Definition readable_trigger (reserved : string → bool) (t : trigger_shape) : Prop :=
  plain_name reserved (ts_name t) ∧
  (ts_insert t = true ∨ ts_delete t = true ∨ ts_update t ≠ None ∨ ts_truncate t = true) ∧
  (∀ l, ts_update t = Some l → Forall (plain_name reserved) l) ∧
  plain_named reserved (ts_table t) ∧
  (∀ from deferrable deferred, ts_constraint t = Some (from, deferrable, deferred) →
     from = None ∧ deferrable = true) ∧
  ts_old_table t = None ∧ ts_new_table t = None ∧ ts_when t = None ∧
  plain_named reserved (ts_function t) ∧ ts_arguments t = [].

(** An index: DESC and NULLS FIRST are what Descending (index.go:13) is for; for the
    text of an expression see [key_text]. *)
Definition no_close (s : string) : Prop := ¬ has_byte ")" s.
(** The text of an index key that is not a column. *)
Definition key_text (reserved : string → bool) (s : key_source) : string :=
  match s with KeyColumn _ => "" | _ => printed_source reserved s end.
Definition key_meaning (reserved : string → bool) (k : key_shape) : index_key :=
  IndexKey match ks_source k with KeyColumn c => c | _ => "" end (key_text reserved (ks_source k))
    match ks_class k with None => "" | Some c => nm_name c end (ks_descending k).
Definition index_means (reserved : string → bool) (i : index_shape) (x : index) : Prop :=
  ∃ w, match is_where i with None => w = "" | Some p => where_text p w end ∧
    x = Index "" (nm_name (is_table i)) (is_name i) false (is_unique i) (is_method i) w
          (key_meaning reserved <$> is_keys i).
Definition is_column (s : key_source) : Prop := match s with KeyColumn _ => True | _ => False end.
Definition readable_source (reserved : string → bool) (s : key_source) : Prop :=
  match s with
  | KeyColumn c => plain_name reserved c
  | KeyCall f a => plain_named reserved f ∧ no_close a
  | KeyExpression e => e ≠ "" ∧ no_close e
  end.
Definition readable_key (reserved : string → bool) (k : key_shape) : Prop :=
  readable_source reserved (ks_source k) ∧ ks_collation k = None ∧
  (∀ c, ks_class k = Some c → plain_named reserved c) ∧ ks_descending k = false ∧ ks_nulls k = NullsDefault.
(** All but the keys. *)
Definition readable_around (reserved : string → bool) (i : index_shape) : Prop :=
  plain_name reserved (is_name i) ∧ is_only i = false ∧ plain_named reserved (is_table i) ∧
  plain_name reserved (is_method i) ∧ is_keys i ≠ [] ∧ is_include i = [] ∧ is_options i = "" ∧ is_where i ≠ Some "".
Definition readable_index (reserved : string → bool) (i : index_shape) : Prop :=
  readable_around reserved i ∧ Forall (readable_key reserved) (is_keys i) ∧
  Forall (λ k, is_column (ks_source k)) (tail (is_keys i)).

(** What is read for a key in descending order: DESC as its operator class. *)
Definition key_as_read (reserved : string → bool) (k : key_shape) : index_key :=
  IndexKey match ks_source k with KeyColumn c => c | _ => "" end (key_text reserved (ks_source k))
    (if ks_descending k then "DESC" else match ks_class k with None => "" | Some c => nm_name c end) false.
Definition accepted_key (reserved : string → bool) (k : key_shape) : Prop :=
  readable_source reserved (ks_source k) ∧ ks_collation k = None ∧
  (∀ c, ks_class k = Some c → plain_named reserved c ∧ ks_descending k = false) ∧ ks_nulls k = NullsDefault.
(** No closing parenthesis in the expressions. *)
Definition simple_source (s : key_source) : Prop :=
  match s with KeyColumn _ => True | KeyCall _ a => no_close a | KeyExpression e => no_close e end.
Definition read_as (reserved : string → bool) (i : index_shape) (x : index) : Prop :=
  ∃ w, match is_where i with None => w = "" | Some p => where_text p w end ∧
    x = Index "" (nm_name (is_table i)) (is_name i) false (is_unique i) (is_method i) w
          (key_as_read reserved <$> is_keys i).
Definition accepted_index (reserved : string → bool) (i : index_shape) : Prop :=
  readable_around reserved i ∧ Forall (accepted_key reserved) (is_keys i) ∧
  Forall (λ k, is_column (ks_source k)) (tail (is_keys i)).
