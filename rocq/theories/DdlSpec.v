(** Specifications for internal/ddl, independent of its helpers. *)
From Coq Require Import String Ascii.
From stdpp Require Import gmap list strings numbers pretty.
From Verif Require Import GoStrings GoUtf8 DdlModel.
Local Open Scope Z_scope.

(** How an SQL lexer reads a quoted identifier (PostgreSQL manual, 4.1.1): from the
    opening quote to the first quote that is not doubled; a doubled quote
    stands for one.  Result: the name and the remaining text. *)
Fixpoint lex_body (s : string) : option (string * string) :=
  match s with
  | "" => None
  | String c s1 =>
      if decide (c = dquote) then
        match s1 with
        | String d s2 =>
            if decide (d = dquote) then
              match lex_body s2 with Some (n, r) => Some (String dquote n, r) | None => None end
            else Some ("", s1)
        | "" => Some ("", "")
        end
      else match lex_body s1 with Some (n, r) => Some (String c n, r) | None => None end
  end.
Definition lex_identifier (s : string) : option (string * string) :=
  match s with
  | String c s => if decide (c = dquote) then lex_body s else None
  | "" => None
  end.
(** A qualified name: identifiers separated by dots. [n] bounds their number. *)
Fixpoint lex_qualified (n : nat) (s : string) : option (list string * string) :=
  match n with
  | O => None
  | S n =>
      match lex_identifier s with
      | None => None
      | Some (name, rest) =>
          match rest with
          | String c r => if decide (c = "."%char) then
              match lex_qualified n r with Some (l, r) => Some (name :: l, r) | None => None end
              else Some ([name], rest)
          | "" => Some ([name], rest)
          end
      end
  end.

(** Collapsing white space, as a relation. *)
Definition is_space (c : ascii) : Prop := byte_of c ∈ [9; 10; 12; 13; 32].
Definition all_bytes (P : ascii → Prop) (s : string) : Prop := ∀ c, has_byte c s → P c.
Definition starts (P : ascii → Prop) (s : string) : Prop := ∃ c r, s = String c r ∧ P c.
Inductive collapsed : string → string → Prop :=
  | collapsed_nil : collapsed "" ""
  | collapsed_char c s t : ¬ is_space c → collapsed s t → collapsed (String c s) (String c t)
  | collapsed_run w s t :
      w ≠ "" → all_bytes is_space w → ¬ starts is_space s → collapsed s t →
      collapsed (w +:+ s) (String " " t).
(** Somewhere two white space bytes are adjacent, or one that is not a space. *)
Definition adjacent_spaces (s : string) : Prop :=
  ∃ a c d b, s = a +:+ String c (String d b) ∧ is_space c ∧ is_space d.

(** Unicode white space, and text that starts or ends with some. *)
Definition white_space (l : list Z) : Prop := Forall (λ r, r ∈ space_runes) l.
Definition starts_white (s : string) : Prop := ∃ r t, r ∈ space_runes ∧ s = utf8 r +:+ t.
Definition ends_white (s : string) : Prop := ∃ r t, r ∈ space_runes ∧ s = t +:+ utf8 r.
Definition trimmed (s t : string) : Prop :=
  ∃ l l', white_space l ∧ white_space l' ∧ s = text l +:+ t +:+ text l' ∧
    ¬ starts_white t ∧ ¬ ends_white t.

(** [line] is a line of [data] that starts at byte [n]. *)
Definition line_at (data line : string) (n : nat) : Prop :=
  ∃ before after, data = before +:+ line +:+ after ∧ String.length before = n ∧
    ¬ has_byte newline line ∧ (before = "" ∨ ∃ b, before = b +:+ nl) ∧
    (after = "" ∨ starts (eq newline) after).

(** Table storage parameters: what a text means for a kind of parameter. *)
Definition digit_of (c : ascii) (d : Z) : Prop := 0 ≤ d ≤ 9 ∧ byte_of c = 48 + d.
Inductive numeral : string → Z → Prop :=
  | numeral_one c d : digit_of c d → numeral (String c "") d
  | numeral_more s z c d : numeral s z → digit_of c d → numeral (s +:+ String c "") (10 * z + d).
Definition decimal (s : string) (z : Z) : Prop :=
  (numeral s z ∨ (∃ t, s = String "+" t ∧ numeral t z) ∨ (∃ t n, s = String "-" t ∧ numeral t n ∧ z = - n)) ∧
  - max_int - 1 ≤ z ≤ max_int.
(** table_storage_parameters.go:7-22: the parameter's name (the hcl tag), the field
    that carries it, and its type. *)
Definition parameters : list (string * string * kind) :=
  [("fillfactor", "Fillfactor", KInt); ("parallel_workers", "ParallelWorkers", KInt);
   ("autovacuum_enabled", "AutovacuumEnabled", KBool);
   ("autovacuum_vacuum_threshold", "AutovacuumVacuumThreshold", KInt);
   ("autovacuum_vacuum_scale_factor", "AutovacuumVacuumScaleFactor", KFloat);
   ("autovacuum_analyze_threshold", "AutovacuumAnalyzeThreshold", KInt);
   ("autovacuum_analyze_scale_factor", "AutovacuumAnalyzeScaleFactor", KFloat);
   ("autovacuum_vacuum_cost_limit", "AutovacuumVacuumCostDelay", KInt);
   ("autovacuum_freeze_min_age", "AutovacuumFreezeMinAge", KInt);
   ("autovacuum_freeze_max_age", "AutovacuumFreezeMaxAge", KInt);
   ("autovacuum_freeze_table_age", "AutovacuumFreezeTableAge", KInt);
   ("autovacuum_multixact_freeze_min_age", "AutovacuumMultixactFreezeMinAge", KInt);
   ("autovacuum_multixact_freeze_max_age", "AutovacuumMultixactFreezeMaxAge", KInt);
   ("autovacuum_multixact_freeze_table_age", "AutovacuumMultixactFreezeTableAge", KInt);
   ("log_autovacuum_min_duration", "LogAutovacuumMinDuration", KInt);
   ("user_catalog_table", "UserCatalogTable", KBool)].
Definition known (key : string) : Prop := ∃ field k, (key, field, k) ∈ parameters.
(** What a text says for a parameter of a kind. *)
Definition says (pf : float_parser) (k : kind) (s : string) (x : value) : Prop :=
  match k with
  | KInt => ∃ z, x = VInt z ∧ decimal s z
  | KBool => (x = VBool true ∧ s ∈ ["1"; "t"; "T"; "true"; "TRUE"; "True"]) ∨
             (x = VBool false ∧ s ∈ ["0"; "f"; "F"; "false"; "FALSE"; "False"])
  | KFloat => ∃ f, x = VFloat f ∧ pf s = (f, true)
  end.
(** A sequence of calls of Set, whatever they return. *)
Fixpoint set_all (pf : float_parser) (p : storage) (l : list (string * string)) : storage :=
  match l with [] => p | (k, v) :: l => set_all pf (storage_set pf p k v).1 l end.
(** No newline in the parts of a column that are copied as they are. *)
Definition one_line_column (c : column) : Prop :=
  ¬ has_byte newline (co_type c) ∧ ¬ has_byte newline (co_default c).
