(** Model of internal/ddl: quoting, ToSQL, the parser utilities and the table
    storage parameters.  (The four parsers are in MachineModel.v.) *)
From Coq Require Import String Ascii.
From stdpp Require Import gmap list strings numbers.
From Verif Require Import GoStrings GoUtf8.
Local Open Scope Z_scope.

Definition dquote : ascii := of_byte 34.
Definition newline : ascii := of_byte 10.
Definition nl : string := String newline "".

(** util.go:5-7: strings.Replace doubling every double quote. *)
Fixpoint double_quotes (s : string) : string :=
  match s with
  | "" => ""
  | String c s =>
      if decide (c = dquote) then String c (String c (double_quotes s))
      else String c (double_quotes s)
  end.
Definition quote_name (s : string) : string :=
  String dquote (double_quotes s +:+ String dquote "").

(** internal/pg/util.go:15-18, that is pgx v3.6.0 Identifier.Sanitize: every part
    quoted, joined with dots.  (Later versions of pgx also drop NUL bytes, which
    PostgreSQL names cannot contain.) *)
Definition identifier (parts : list string) : string := String.concat "." (quote_name <$> parts).

(** index.go:6-25.  HCL tags are left out. *)
Record index_key := IndexKey {
  ik_column : string; ik_expression : string; ik_opclass : string; ik_descending : bool }.
Record index := Index {
  ix_schema : string; ix_table : string; ix_name : string; ix_primary : bool; ix_unique : bool;
  ix_using : string; ix_where : string; ix_keys : list index_key }.
(** index.go:70-75: the loop over the keys. *)
Definition index_keys_sql (keys : list index_key) : string :=
  String.concat ", " ((λ k, quote_name (ik_column k)) <$> keys).
(** index.go:58-80. *)
Definition index_to_sql (i : index) : string :=
  (if ix_primary i then
     "ALTER TABLE " +:+ quote_name (ix_table i) +:+ nl +:+ "  ADD " +:+
     (if decide (ix_name i = "") then ""
      else "CONSTRAINT " +:+ quote_name (ix_name i) +:+ nl +:+ "  ") +:+
     "PRIMARY KEY (" +:+ index_keys_sql (ix_keys i) +:+ ")" +:+ nl
   else "") +:+ ";" +:+ nl.

(** check.go:4-9. *)
Record check := Check {
  ck_name : string; ck_expression : string; ck_deferrable : bool; ck_deferred : bool }.
(** table.go:20-26. *)
Record column := Column {
  co_name : string; co_type : string; co_not_null : bool; co_default : string; co_comment : string }.
(** foreign_key.go:4-16. *)
Record foreign_key := ForeignKey {
  fk_name : string; fk_table : string; fk_columns : list string; fk_referenced : list string;
  fk_match : string; fk_on_delete : string; fk_on_update : string;
  fk_deferrable : bool; fk_deferred : bool }.
(** table.go:6-17, without StorageParameters (not used by ToSQL). *)
Record table := Table {
  tb_schema : string; tb_name : string; tb_owner : string; tb_comment : string;
  tb_columns : list column; tb_checks : list check; tb_foreign_keys : list foreign_key }.
(** table.go:39-49: one column, after the two characters before it. *)
Definition column_sql (c : column) : string :=
  quote_name (co_name c) +:+ " " +:+ co_type c +:+
  (if co_not_null c then " NOT NULL" else "") +:+
  (if decide (co_default c = "") then "" else " DEFAULT " +:+ co_default c) +:+ nl.
(** table.go:33-50: "  " before the first column, ", " before the others. *)
Definition columns_sql (l : list column) : string :=
  match l with
  | [] => ""
  | c :: l => "  " +:+ column_sql c +:+ String.concat "" ((λ c, ", " +:+ column_sql c) <$> l)
  end.
(** table.go:51-55. *)
Definition checks_sql (l : list check) : string :=
  String.concat "" ((λ c, ", CHECK(" +:+ ck_expression c +:+ ")" +:+ nl) <$> l).
(** table.go:28-58. *)
Definition table_to_sql (t : table) : string :=
  "CREATE TABLE " +:+ quote_name (tb_name t) +:+ " (" +:+ nl +:+
  columns_sql (tb_columns t) +:+ checks_sql (tb_checks t) +:+ ")" +:+ nl +:+ ";" +:+ nl.

(** trigger.go:6-24. *)
Record trigger := Trigger {
  tg_schema : string; tg_table : string; tg_name : string; tg_function : string; tg_when : string;
  tg_constraint : bool; tg_deferrable : bool; tg_deferred : bool; tg_each_row : bool;
  tg_delete : bool; tg_insert : bool; tg_truncate : bool; tg_update : bool; tg_columns : list string }.
(** trigger.go:48-66. *)
Definition trigger_to_sql (t : trigger) : string :=
  "CREATE TRIGGER " +:+ quote_name (tg_name t) +:+ nl +:+ "  " +:+ tg_when t +:+
  (if tg_update t then " UPDATE" else "") +:+ " ON " +:+ quote_name (tg_table t) +:+
  (if tg_each_row t then nl +:+ "  FOR EACH ROW" else "") +:+
  nl +:+ "  EXECUTE PROCEDURE " +:+ tg_function t +:+ "()" +:+ nl +:+ ";" +:+ nl.

(** function.go:6-15. *)
Record func := Func {
  fn_schema : string; fn_name : string; fn_owner : string; fn_comment : string;
  fn_returns : string; fn_language : string; fn_definition : string }.
(** function.go:17-30. *)
Definition func_to_sql (f : func) : string :=
  "CREATE OR REPLACE FUNCTION " +:+ fn_name f +:+ "()" +:+ nl +:+ "RETURNS " +:+ fn_returns f +:+
  " AS $$" +:+ nl +:+ fn_definition f +:+ "$$ LANGUAGE '" +:+ fn_language f +:+ "'" +:+ nl +:+
  ";" +:+ nl.

(** parser_utils.go:9: the bytes matched by the regexp class \s. *)
Definition re_space (c : ascii) : bool := bool_decide (byte_of c ∈ [9; 10; 12; 13; 32]).
(** parser_utils.go:11-14: every maximal run of \s becomes one space.  [in_run]
    tells whether the previous byte belonged to a run. *)
Fixpoint collapse (in_run : bool) (s : string) : string :=
  match s with
  | "" => ""
  | String c s =>
      if re_space c then (if in_run then collapse true s else String " " (collapse true s))
      else String c (collapse false s)
  end.
Definition collapse_whitespace (s : string) : string := collapse false s.

(** unicode.IsSpace: the code points strings.TrimSpace removes. *)
Definition space_runes : list Z :=
  [9; 10; 11; 12; 13; 32; 0x85; 0xA0; 0x1680; 0x2000; 0x2001; 0x2002; 0x2003; 0x2004; 0x2005;
   0x2006; 0x2007; 0x2008; 0x2009; 0x200A; 0x2028; 0x2029; 0x202F; 0x205F; 0x3000].
Definition space_codes : list string := utf8 <$> space_runes.
(** Remove prefixes that are in [codes] for as long as there is one. [n] bounds
    the number of rounds (the length of the string is enough). *)
Fixpoint strip (codes : list string) (n : nat) (s : string) : string :=
  match n with
  | O => s
  | S n =>
      match list_find (λ p, has_prefix s p = true) codes with
      | Some (_, p) => strip codes n (str_drop (String.length p) s)
      | None => s
      end
  end.
Fixpoint str_rev (s : string) : string :=
  match s with "" => "" | String c s => str_rev s +:+ String c "" end.
(** parser_utils.go:16-18: strings.TrimSpace.  The right end is handled by
    reversing; a code point at the end of a string is recognised from the end
    (utf8.DecodeLastRuneInString) exactly when the string ends with its bytes. *)
Definition trim_left (s : string) : string := strip space_codes (String.length s) s.
Definition trim_right (s : string) : string :=
  str_rev (strip (str_rev <$> space_codes) (String.length s) (str_rev s)).
Definition trim (s : string) : string := trim_right (trim_left s).

(** parser_utils.go:20-22: strings.ToUpper, on ASCII text only (the callers pass
    nothing else, see MachineModel.v); other bytes are left alone here. *)
Definition upper_byte (c : ascii) : ascii :=
  if bool_decide (97 ≤ byte_of c ≤ 122) then of_byte (byte_of c - 32) else c.
Fixpoint upper (s : string) : string :=
  match s with "" => "" | String c s => String (upper_byte c) (upper s) end.

(** parser_utils.go:36-50: the loop, with a bound on the number of rounds.
    [None]: bound exhausted. *)
Fixpoint error_loop (n : nat) (cs : Z) (data : string) : option (Z * string) :=
  match n with
  | O => None
  | S n =>
      match index_byte newline data with
      | None => Some (cs, data)
      | Some idx =>
          if bool_decide (Z.of_nat idx > cs) then Some (cs, str_take idx data)
          else error_loop n (cs - (Z.of_nat idx + 1)) (str_drop (idx + 1) data)
      end
  end.
Fixpoint spaces (n : nat) : string := match n with O => "" | S n => String " " (spaces n) end.
(** fmt's %*s for a one character string: padded on the left to [width] (a
    negative width would pad on the right; [cs + 1] is never negative). *)
Definition pad_caret (width : Z) : string := spaces (Z.to_nat (width - 1)) +:+ "^".
(** parser_utils.go:29-53. *)
Definition parse_error_text (cs : Z) (data : string) : option string :=
  if bool_decide (Z.of_nat (String.length data) ≤ cs) then Some "error after end of data"
  else match error_loop (S (String.length data)) cs data with
       | Some (cs, data) => Some (data +:+ nl +:+ pad_caret (cs + 1))
       | None => None
       end.

(** strconv.Atoi on a 64-bit machine: the value and whether there was an error. *)
Definition digit (c : ascii) : option Z :=
  if bool_decide (48 ≤ byte_of c ≤ 57) then Some (byte_of c - 48) else None.
Fixpoint digits (acc : Z) (s : string) : option Z :=
  match s with
  | "" => Some acc
  | String c s => match digit c with Some d => digits (10 * acc + d) s | None => None end
  end.
Definition max_int : Z := 9223372036854775807.
Definition atoi (s : string) : Z * bool :=
  let '(neg, body) :=
    match s with
    | String c r => if decide (c = "-"%char) then (true, r)
                    else if decide (c = "+"%char) then (false, r) else (false, s)
    | "" => (false, s)
    end in
  if decide (body = "") then (0, false)
  else match digits 0 body with
       | None => (0, false)
       | Some n =>
           let z := if (neg : bool) then - n else n in
           if bool_decide (max_int < z) then (max_int, false)
           else if bool_decide (z < - max_int - 1) then (- max_int - 1, false)
           else (z, true)
       end.
(** strconv.ParseBool. *)
Definition parse_bool (s : string) : bool * bool :=
  if decide (s ∈ ["1"; "t"; "T"; "true"; "TRUE"; "True"]) then (true, true)
  else if decide (s ∈ ["0"; "f"; "F"; "false"; "FALSE"; "False"]) then (false, true)
  else (false, false).

Inductive value := VInt (z : Z) | VBool (b : bool) | VFloat (bits : string).
Inductive kind := KInt | KBool | KFloat.
(** table_storage_parameters.go:6-23: the struct, as a map from field names to the
    values their pointers point to; absent means nil. *)
Notation storage := (gmap string value).
(** strconv.ParseFloat is left open: value (as text) and whether it succeeded. *)
Definition float_parser := string → string * bool.
(** table_storage_parameters.go:27-92: the field and kind of every case. *)
Definition storage_cases : list (string * (string * kind)) :=
  [("fillfactor", ("Fillfactor", KInt));
   ("parallel_workers", ("ParallelWorkers", KInt));
   ("autovacuum_enabled", ("AutovacuumEnabled", KBool));
   ("autovacuum_vacuum_threshold", ("AutovacuumVacuumThreshold", KInt));
   ("autovacuum_vacuum_scale_factor", ("AutovacuumVacuumScaleFactor", KFloat));
   ("autovacuum_analyze_threshold", ("AutovacuumAnalyzeThreshold", KInt));
   ("autovacuum_analyze_scale_factor", ("AutovacuumAnalyzeScaleFactor", KFloat));
   ("autovacuum_vacuum_cost_limit", ("AutovacuumVacuumCostDelay", KInt));
   ("autovacuum_freeze_min_age", ("AutovacuumFreezeMinAge", KInt));
   ("autovacuum_freeze_max_age", ("AutovacuumFreezeMaxAge", KInt));
   ("autovacuum_freeze_table_age", ("AutovacuumFreezeTableAge", KInt));
   ("autovacuum_multixact_freeze_min_age", ("AutovacuumMultixactFreezeMinAge", KInt));
   ("autovacuum_multixact_freeze_max_age", ("AutovacuumMultixactFreezeMaxAge", KInt));
   ("autovacuum_multixact_freeze_table_age", ("AutovacuumMultixactFreezeTableAge", KInt));
   ("log_autovacuum_min_duration", ("LogAutovacuumMinDuration", KInt));
   ("user_catalog_table", ("UserCatalogTable", KBool))].
Definition assoc {A} (l : list (string * A)) (k : string) : option A :=
  snd <$> (snd <$> list_find (λ p, p.1 = k) l).
(** The value stored and whether the conversion succeeded. *)
Definition convert (pf : float_parser) (k : kind) (v : string) : value * bool :=
  match k with
  | KInt => let '(z, ok) := atoi v in (VInt z, ok)
  | KBool => let '(b, ok) := parse_bool v in (VBool b, ok)
  | KFloat => let '(f, ok) := pf v in (VFloat f, ok)
  end.
(** table_storage_parameters.go:26-94: new settings, and whether nil is returned. *)
Definition storage_set (pf : float_parser) (p : storage) (key val : string) : storage * bool :=
  match assoc storage_cases key with
  | Some (field, k) => let '(x, ok) := convert pf k val in (<[field := x]> p, ok)
  | None => (p, true)
  end.
