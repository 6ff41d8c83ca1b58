(** How PostgreSQL splits the text of a command into tokens (manual, section 4.1),
    used to say what the generated SQL means.  Only the parts needed here:
    other texts (operators that could start a block comment, tagged dollar
    quotes, escape strings) have no reading at all. *)
From Coq Require Import String Ascii.
From stdpp Require Import list strings numbers.
From Verif Require Import GoStrings GoUtf8 DdlModel DdlSpec.
Local Open Scope Z_scope.

Inductive token :=
  | Word (w : string)       (** key words, names without quotes, numbers *)
  | Name (n : string)       (** a quoted identifier *)
  | Text (s : string)       (** a string constant *)
  | Sym (c : ascii).        (** any other character *)

Definition squote : ascii := of_byte 39.
Definition word_char (c : ascii) : Prop :=
  let b := byte_of c in
  48 ≤ b ≤ 57 ∨ 65 ≤ b ≤ 90 ∨ 97 ≤ b ≤ 122 ∨ b = 95 ∨ b = 36 ∨ 128 ≤ b.
Definition dollar : ascii := "$".
(** A character that is a token of its own. *)
Definition sym_char (c : ascii) : Prop :=
  ¬ word_char c ∧ ¬ is_space c ∧ c ≠ dquote ∧ c ≠ squote.
(** The text of a string constant between its quotes: no quote in it.  (A doubled
    quote would stand for one; no such text is read.) *)
Definition plain_text (s : string) : Prop := ¬ has_byte squote s.
(** The text of a dollar quoted constant: the first "$$" is the closing one. *)
Definition dollar_text (s : string) : Prop := ∀ a b, s +:+ "$$" = a +:+ "$$" +:+ b → b = "".

Inductive lexes : string → list token → Prop :=
  | lex_end : lexes "" []
  | lex_space c s ts : is_space c → lexes s ts → lexes (String c s) ts
  | lex_comment l s ts :
      ¬ has_byte newline l → ¬ starts (λ c, c ≠ newline) s → lexes s ts → lexes ("--" +:+ l +:+ s) ts
  | lex_word w s ts :
      starts (λ c, word_char c ∧ c ≠ dollar) w → all_bytes word_char w →
      ¬ starts word_char s → ¬ starts (eq squote) s → lexes s ts → lexes (w +:+ s) (Word w :: ts)
  | lex_name n t s ts : lex_identifier t = Some (n, s) → lexes s ts → lexes t (Name n :: ts)
  | lex_text x s ts :
      plain_text x → ¬ starts (eq squote) s → lexes s ts →
      lexes (String squote (x +:+ String squote s)) (Text x :: ts)
  | lex_dollar x s ts :
      dollar_text x → lexes s ts → lexes ("$$" +:+ x +:+ "$$" +:+ s) (Text x :: ts)
  | lex_sym c s ts :
      sym_char c → ¬ begins_with "--" (String c s) → ¬ begins_with "/*" (String c s) →
      lexes s ts → lexes (String c s) (Sym c :: ts).

(** A piece of text that is read as [ts] wherever it stands before white space or
    a parenthesis. *)
Definition boundary (s : string) : Prop :=
  s = "" ∨ starts (λ c, is_space c ∨ c = "("%char ∨ c = ")"%char) s.
Definition reads (p : string) (ts : list token) : Prop :=
  ∀ rest us, boundary rest → lexes rest us → lexes (p +:+ rest) (ts ++ us).
Definition a_word (w : string) : Prop :=
  starts (λ c, word_char c ∧ c ≠ dollar) w ∧ all_bytes word_char w.

(** * The statements *)
Fixpoint separated (l : list (list token)) : list token :=
  match l with
  | [] => []
  | [x] => x
  | x :: l => x ++ Sym "," :: separated l
  end.
Definition words (l : list string) : list token := Word <$> l.

(** ALTER TABLE "t" ADD CONSTRAINT "n" PRIMARY KEY ("c", ...); *)
Definition primary_key_statement (tbl name : string) (columns : list string) : list token :=
  words ["ALTER"; "TABLE"] ++ Name tbl :: words ["ADD"] ++
  (if decide (name = "") then [] else words ["CONSTRAINT"] ++ [Name name]) ++
  words ["PRIMARY"; "KEY"] ++ [Sym "("] ++ separated ((λ c, [Name c]) <$> columns) ++
  [Sym ")"; Sym ";"].
(** One column: its name, type, NOT NULL and DEFAULT. *)
Definition column_tokens (name : string) (type : list token) (not_null : bool) (dflt : option (list token))
    : list token :=
  Name name :: type ++ (if not_null then words ["NOT"; "NULL"] else []) ++
  match dflt with Some d => words ["DEFAULT"] ++ d | None => [] end.
Definition create_table_statement (name : string) (items : list (list token)) : list token :=
  words ["CREATE"; "TABLE"] ++ Name name :: [Sym "("] ++ separated items ++ [Sym ")"; Sym ";"].
Definition create_trigger_statement (name : string) (whn : list token) (update : bool) (tbl : string)
    (each_row : bool) (fn : list token) : list token :=
  words ["CREATE"; "TRIGGER"] ++ Name name :: whn ++ (if update then words ["UPDATE"] else []) ++
  words ["ON"] ++ Name tbl :: (if each_row then words ["FOR"; "EACH"; "ROW"] else []) ++
  words ["EXECUTE"; "PROCEDURE"] ++ fn ++ [Sym "("; Sym ")"; Sym ";"].
Definition create_function_statement (name : list token) (returns : list token) (body lang : string)
    : list token :=
  words ["CREATE"; "OR"; "REPLACE"; "FUNCTION"] ++ name ++ [Sym "("; Sym ")"] ++
  words ["RETURNS"] ++ returns ++ words ["AS"] ++ [Text body] ++ words ["LANGUAGE"] ++
  [Text lang; Sym ";"].

(** The column described by the tokens of its parts. *)
Inductive column_reads : column → list token → Prop :=
  column_reads_intro c type dflt :
    reads (co_type c) type →
    (match dflt with Some d => co_default c ≠ "" ∧ reads (co_default c) d | None => co_default c = "" end) →
    column_reads c (column_tokens (co_name c) type (co_not_null c) dflt).
(** The check described by the tokens of its expression. *)
Inductive check_reads : check → list token → Prop :=
  check_reads_intro c e :
    reads (ck_expression c) e → check_reads c (words ["CHECK"] ++ [Sym "("] ++ e ++ [Sym ")"]).
