(** The four parsers of internal/ddl: the generated machines of MachineTables.v with
    the meaning of their actions. *)
From Coq Require Import String Ascii.
From stdpp Require Import list strings numbers.
From Verif Require Import GoStrings GoUtf8 DdlModel MachineModel MachineTables.
Local Open Scope Z_scope.

(** check_parser.rl:11-15: the local variables of ParseCheck. *)
Record check_vars := CheckVars { cv_mark1 : Z; cv_mark2 : Z; cv_deferrable : bool; cv_deferred : bool }.
(** check_parser.rl:20-28. *)
Definition check_act : semantics check_vars := λ a _ p v,
  match a with
  | SetMark1 => Some (CheckVars p (cv_mark2 v) (cv_deferrable v) (cv_deferred v))
  | SetMark2 => Some (CheckVars (cv_mark1 v) p (cv_deferrable v) (cv_deferred v))
  | CheckDeferrable => Some (CheckVars (cv_mark1 v) (cv_mark2 v) true (cv_deferred v))
  | CheckDeferred => Some (CheckVars (cv_mark1 v) (cv_mark2 v) (cv_deferrable v) true)
  | _ => None
  end.
(** data[lo:hi]; [None]: slice bounds out of range. *)
Definition slice (data : string) (lo hi : Z) : option string :=
  if bool_decide (0 ≤ lo ∧ lo ≤ hi ∧ hi ≤ Z.of_nat (String.length data)) then
    Some (str_take (Z.to_nat (hi - lo)) (str_drop (Z.to_nat lo) data))
  else None.
(** ParseCheck, check_parser.rl:10-57, with check.go:11-13. *)
Definition parse_check (data : string) : outcome check :=
  match run check_machine check_act 1 0 (CheckVars 0 0 false false) data with
  | Parsed v =>
      match slice data (cv_mark1 v) (cv_mark2 v) with
      | Some e => Parsed (Check "" (trim e) (cv_deferrable v) (cv_deferred v))
      | None => Crash
      end
  | ParseError cs => ParseError cs
  | Crash => Crash
  end.

(** The variables of the other three: buffer and the value under construction. *)
Definition push (c : ascii) (s : string) : string := s +:+ String c "".

(** foreign_key.go:18-40. *)
Definition fk_add_column (s : string) (fk : foreign_key) : foreign_key :=
  ForeignKey (fk_name fk) (fk_table fk) (fk_columns fk ++ [s]) (fk_referenced fk) (fk_match fk)
    (fk_on_delete fk) (fk_on_update fk) (fk_deferrable fk) (fk_deferred fk).
Definition fk_add_referenced (s : string) (fk : foreign_key) : foreign_key :=
  ForeignKey (fk_name fk) (fk_table fk) (fk_columns fk) (fk_referenced fk ++ [s]) (fk_match fk)
    (fk_on_delete fk) (fk_on_update fk) (fk_deferrable fk) (fk_deferred fk).
Definition fk_set_match (s : string) (fk : foreign_key) : foreign_key :=
  ForeignKey (fk_name fk) (fk_table fk) (fk_columns fk) (fk_referenced fk) (upper s)
    (fk_on_delete fk) (fk_on_update fk) (fk_deferrable fk) (fk_deferred fk).
Definition fk_set_on_delete (s : string) (fk : foreign_key) : foreign_key :=
  ForeignKey (fk_name fk) (fk_table fk) (fk_columns fk) (fk_referenced fk) (fk_match fk)
    (collapse_whitespace (upper (trim s))) (fk_on_update fk) (fk_deferrable fk) (fk_deferred fk).
Definition fk_set_on_update (s : string) (fk : foreign_key) : foreign_key :=
  ForeignKey (fk_name fk) (fk_table fk) (fk_columns fk) (fk_referenced fk) (fk_match fk)
    (fk_on_delete fk) (collapse_whitespace (upper (trim s))) (fk_deferrable fk) (fk_deferred fk).
Definition fk_set_table (s : string) (fk : foreign_key) : foreign_key :=
  ForeignKey (fk_name fk) s (fk_columns fk) (fk_referenced fk) (fk_match fk)
    (fk_on_delete fk) (fk_on_update fk) (fk_deferrable fk) (fk_deferred fk).
(** foreign_key_parser.rl:52-53. *)
Definition fk_set_deferrable (fk : foreign_key) : foreign_key :=
  ForeignKey (fk_name fk) (fk_table fk) (fk_columns fk) (fk_referenced fk) (fk_match fk)
    (fk_on_delete fk) (fk_on_update fk) true (fk_deferred fk).
Definition fk_set_deferred (fk : foreign_key) : foreign_key :=
  ForeignKey (fk_name fk) (fk_table fk) (fk_columns fk) (fk_referenced fk) (fk_match fk)
    (fk_on_delete fk) (fk_on_update fk) (fk_deferrable fk) true.
(** foreign_key_parser.rl:22-53: new buffer and value. *)
Definition fk_act : semantics (string * foreign_key) := λ a c _ '(buffer, fk),
  match a with
  | AddToBuffer => match c with Some c => Some (push c buffer, fk) | None => None end
  | FkColumn => Some ("", fk_add_column buffer fk)
  | FkReferenced => Some ("", fk_add_referenced buffer fk)
  | FkMatch => Some ("", fk_set_match buffer fk)
  | FkOnDelete => Some ("", fk_set_on_delete buffer fk)
  | FkOnUpdate => Some ("", fk_set_on_update buffer fk)
  | FkTable => Some ("", fk_set_table buffer fk)
  | FkDeferrable => Some (buffer, fk_set_deferrable fk)
  | FkDeferred => Some (buffer, fk_set_deferred fk)
  | _ => None
  end.
Definition no_foreign_key : foreign_key := ForeignKey "" "" [] [] "" "" "" false false.
Definition result {A} (o : outcome (string * A)) : outcome A :=
  match o with Parsed (_, a) => Parsed a | ParseError cs => ParseError cs | Crash => Crash end.
(** ParseForeignKey, foreign_key_parser.rl:14-94. *)
Definition parse_foreign_key (data : string) : outcome foreign_key :=
  result (run foreign_key_machine fk_act 1 0 ("", no_foreign_key) data).

(** index.go:27-56.  [ix_set_op_class] is [None] when Keys is empty (index out of
    range). *)
Definition ix_add_key (k : index_key) (i : index) : index :=
  Index (ix_schema i) (ix_table i) (ix_name i) (ix_primary i) (ix_unique i) (ix_using i) (ix_where i)
    (ix_keys i ++ [k]).
Definition ix_add_column (s : string) : index → index := ix_add_key (IndexKey s "" "" false).
Definition ix_add_expression (s : string) : index → index := ix_add_key (IndexKey "" s "" false).
Definition ix_set_name (s : string) (i : index) : index :=
  Index (ix_schema i) (ix_table i) s (ix_primary i) (ix_unique i) (ix_using i) (ix_where i) (ix_keys i).
Definition key_op_class (s : string) (k : index_key) : index_key :=
  IndexKey (ik_column k) (ik_expression k) s (ik_descending k).
Definition ix_set_op_class (s : string) (i : index) : option index :=
  match list.last (ix_keys i) with
  | None => None
  | Some k => Some (Index (ix_schema i) (ix_table i) (ix_name i) (ix_primary i) (ix_unique i) (ix_using i)
      (ix_where i) (List.removelast (ix_keys i) ++ [key_op_class s k]))
  end.
Definition ix_set_table (s : string) (i : index) : index :=
  Index (ix_schema i) s (ix_name i) (ix_primary i) (ix_unique i) (ix_using i) (ix_where i) (ix_keys i).
Definition ix_set_using (s : string) (i : index) : index :=
  Index (ix_schema i) (ix_table i) (ix_name i) (ix_primary i) (ix_unique i) (collapse_whitespace s)
    (ix_where i) (ix_keys i).
Definition ix_set_where (s : string) (i : index) : index :=
  Index (ix_schema i) (ix_table i) (ix_name i) (ix_primary i) (ix_unique i) (ix_using i)
    (collapse_whitespace (trim s)) (ix_keys i).
(** index_parser.rl:54. *)
Definition ix_set_unique (i : index) : index :=
  Index (ix_schema i) (ix_table i) (ix_name i) (ix_primary i) true (ix_using i) (ix_where i) (ix_keys i).
(** index_parser.rl:21-54. *)
Definition ix_act : semantics (string * index) := λ a c _ '(buffer, i),
  match a with
  | AddToBuffer => match c with Some c => Some (push c buffer, i) | None => None end
  | IxColumn => Some ("", ix_add_column buffer i)
  | IxExpression => Some ("", ix_add_expression buffer i)
  | IxName => Some ("", ix_set_name buffer i)
  | IxOpClass => match ix_set_op_class buffer i with Some i => Some ("", i) | None => None end
  | IxTable => Some ("", ix_set_table buffer i)
  | IxUsing => Some ("", ix_set_using buffer i)
  | IxWhere => Some ("", ix_set_where buffer i)
  | IxUnique => Some (buffer, ix_set_unique i)
  | _ => None
  end.
Definition no_index : index := Index "" "" "" false false "" "" [].
(** ParseIndex, index_parser.rl:14-95. *)
Definition parse_index (data : string) : outcome index :=
  result (run index_machine ix_act 1 0 ("", no_index) data).

(** trigger.go:26-46 and trigger_parser.rl:44-54. *)
Definition tg_add_column (s : string) (t : trigger) : trigger :=
  Trigger (tg_schema t) (tg_table t) (tg_name t) (tg_function t) (tg_when t) (tg_constraint t)
    (tg_deferrable t) (tg_deferred t) (tg_each_row t) (tg_delete t) (tg_insert t) (tg_truncate t)
    (tg_update t) (tg_columns t ++ [s]).
Definition tg_set_function (s : string) (t : trigger) : trigger :=
  Trigger (tg_schema t) (tg_table t) (tg_name t) s (tg_when t) (tg_constraint t)
    (tg_deferrable t) (tg_deferred t) (tg_each_row t) (tg_delete t) (tg_insert t) (tg_truncate t)
    (tg_update t) (tg_columns t).
Definition tg_set_name (s : string) (t : trigger) : trigger :=
  Trigger (tg_schema t) (tg_table t) s (tg_function t) (tg_when t) (tg_constraint t)
    (tg_deferrable t) (tg_deferred t) (tg_each_row t) (tg_delete t) (tg_insert t) (tg_truncate t)
    (tg_update t) (tg_columns t).
Definition tg_set_table (s : string) (t : trigger) : trigger :=
  Trigger (tg_schema t) s (tg_name t) (tg_function t) (tg_when t) (tg_constraint t)
    (tg_deferrable t) (tg_deferred t) (tg_each_row t) (tg_delete t) (tg_insert t) (tg_truncate t)
    (tg_update t) (tg_columns t).
Definition tg_set_when (s : string) (t : trigger) : trigger :=
  Trigger (tg_schema t) (tg_table t) (tg_name t) (tg_function t) (upper (collapse_whitespace s))
    (tg_constraint t) (tg_deferrable t) (tg_deferred t) (tg_each_row t) (tg_delete t) (tg_insert t)
    (tg_truncate t) (tg_update t) (tg_columns t).
Definition tg_set_flag (a : action) (t : trigger) : trigger :=
  Trigger (tg_schema t) (tg_table t) (tg_name t) (tg_function t) (tg_when t)
    (match a with TgConstraint => true | _ => tg_constraint t end)
    (match a with TgDeferrable => true | _ => tg_deferrable t end)
    (match a with TgDeferred => true | _ => tg_deferred t end)
    (match a with TgEachRow => true | _ => tg_each_row t end)
    (match a with TgDelete => true | _ => tg_delete t end)
    (match a with TgInsert => true | _ => tg_insert t end)
    (match a with TgTruncate => true | _ => tg_truncate t end)
    (match a with TgUpdate => true | _ => tg_update t end)
    (tg_columns t).
(** trigger_parser.rl:21-54. *)
Definition tg_act : semantics (string * trigger) := λ a c _ '(buffer, t),
  match a with
  | AddToBuffer => match c with Some c => Some (push c buffer, t) | None => None end
  | TgColumn => Some ("", tg_add_column buffer t)
  | TgFunction => Some ("", tg_set_function buffer t)
  | TgName => Some ("", tg_set_name buffer t)
  | TgTable => Some ("", tg_set_table buffer t)
  | TgWhen => Some ("", tg_set_when buffer t)
  | TgConstraint | TgDeferrable | TgDeferred | TgEachRow | TgDelete | TgInsert | TgTruncate | TgUpdate =>
      Some (buffer, tg_set_flag a t)
  | _ => None
  end.
Definition no_trigger : trigger :=
  Trigger "" "" "" "" "" false false false false false false false false [].
(** ParseTrigger, trigger_parser.rl:14-102. *)
Definition parse_trigger (data : string) : outcome trigger :=
  result (run trigger_machine tg_act 1 0 ("", no_trigger) data).
