(** A printer and a reader for the texts of HCL that describe databases, laid out as in
    internal/ddl/testdata/expected.hcl.  They are one instance of the parameter [hcl_lib] of
    HclModel.v, after hclwrite and hclsyntax of hcl2, whose reader knows much more: comments,
    expressions, heredocs. *)
From Coq Require Import String Ascii.
From stdpp Require Import gmap list strings numbers pretty.
From Verif Require Import GoStrings GoUtf8 DdlModel PgModel HclModel HclSpec.
Local Open Scope Z_scope.

(** * Quoted texts *)

Definition bslash : ascii := of_byte 92.
Definition hex_char (x : Z) : ascii := of_byte (if bool_decide (x < 10) then 48 + x else 87 + x).
Definition hex_value (c : ascii) : option Z :=
  let b := byte_of c in
  if bool_decide (48 ≤ b ≤ 57) then Some (b - 48)
  else if bool_decide (97 ≤ b ≤ 102) then Some (b - 87) else None.
Definition first_is (c : ascii) (s : string) : bool :=
  match s with String d _ => bool_decide (d = c) | "" => false end.
Definition is_dollar (c : ascii) : bool := bool_decide (c = "$"%char) || bool_decide (c = "%"%char).
(** hclwrite/generate.go, escapeQuotedStringLit. *)
Definition escape_char (c : ascii) (next : string) : string :=
  if bool_decide (byte_of c = 10) then String bslash "n"
  else if bool_decide (byte_of c = 13) then String bslash "r"
  else if bool_decide (byte_of c = 9) then String bslash "t"
  else if bool_decide (c = dquote) then String bslash (String dquote "")
  else if bool_decide (c = bslash) then String bslash (String bslash "")
  else if is_dollar c then (if first_is "{" next then String c (String c "") else String c "")
  else if bool_decide (byte_of c < 32) || bool_decide (byte_of c = 127) then
    String bslash (String "u" (String "0" (String "0"
      (String (hex_char (byte_of c / 16)) (String (hex_char (byte_of c mod 16)) "")))))
  else String c "".
Fixpoint escape (s : string) : string :=
  match s with "" => "" | String c s => escape_char c s +:+ escape s end.
(** What has been read: nothing special; a backslash; digits of a code point; one, or
    two, of the characters that introduce a template. *)
Inductive unescaping := UPlain | UBackslash | UHex (k : nat) (x : Z) | UOne (c : ascii) | UTwo (c : ascii).
(** One character when nothing is pending. *)
Definition unescape_char (c : ascii) : string * unescaping :=
  if bool_decide (c = bslash) then ("", UBackslash)
  else if is_dollar c then ("", UOne c)
  else (String c "", UPlain).
Definition unescape_step (st : unescaping) (c : ascii) : option (string * unescaping) :=
  match st with
  | UPlain => Some (unescape_char c)
  | UBackslash =>
      if bool_decide (c = "n"%char) then Some (String (of_byte 10) "", UPlain)
      else if bool_decide (c = "r"%char) then Some (String (of_byte 13) "", UPlain)
      else if bool_decide (c = "t"%char) then Some (String (of_byte 9) "", UPlain)
      else if bool_decide (c = dquote) then Some (String dquote "", UPlain)
      else if bool_decide (c = bslash) then Some (String bslash "", UPlain)
      else if bool_decide (c = "u"%char) then Some ("", UHex 4 0)
      else None
  | UHex k y =>
      x ← hex_value c;
      match k with
      | S (S k) => Some ("", UHex (S k) (16 * y + x))
      | _ => Some (encode_rune (16 * y + x), UPlain)
      end
  | UOne d =>
      if bool_decide (c = "{"%char) then None
      else if bool_decide (c = d) then Some ("", UTwo d)
      else let '(o, st) := unescape_char c in Some (String d o, st)
  | UTwo d =>
      if bool_decide (c = "{"%char) then Some (String d (String c ""), UPlain)
      else if bool_decide (c = d) then Some (String d "", UTwo d)
      else let '(o, st) := unescape_char c in Some (String d (String d o), st)
  end.
Fixpoint unescape (st : unescaping) (s : string) : option string :=
  match s with
  | "" =>
      match st with
      | UPlain => Some "" | UOne d => Some (String d "") | UTwo d => Some (String d (String d "")) | _ => None
      end
  | String c s => '(o, st) ← unescape_step st c; r ← unescape st s; Some (o +:+ r)
  end.

(** * Numbers *)

Fixpoint zeros (n : nat) : string := match n with O => "" | S n => String "0" (zeros n) end.
Definition print_number (m : Z) (e : nat) : string :=
  let s : string := pretty (Z.to_N (Z.abs m)) in
  let s := zeros (S e - String.length s) +:+ s in
  (if bool_decide (m < 0) then "-" else "") +:+
  match e with
  | O => s
  | _ => str_take (String.length s - e) s +:+ "." +:+ str_drop (String.length s - e) s
  end.
Fixpoint canonical (m : Z) (e : nat) : Z * nat :=
  match e with
  | O => (m, O)
  | S e' => if bool_decide (m mod 10 = 0) then canonical (m / 10) e' else (m, S e')
  end.
Definition read_unsigned (s : string) : option (Z * nat) :=
  match index_byte "." s with
  | None => if bool_decide (s = "") then None else m ← digits 0 s; Some (m, 0%nat)
  | Some i =>
      let a := str_take i s in let b := str_drop (S i) s in
      if bool_decide (a = "") || bool_decide (b = "") then None
      else m ← digits 0 (a +:+ b); Some (m, String.length b)
  end.
Definition read_number (s : string) : option (Z * nat) :=
  match s with
  | String c r =>
      if bool_decide (c = "-"%char) then '(m, e) ← read_unsigned r; Some (canonical (- m) e)
      else '(m, e) ← read_unsigned s; Some (canonical m e)
  | "" => None
  end.

(** * Tokens *)

Inductive token := TWord (s : string) | TQuoted (raw : string) | TSign (c : ascii) | TNewline.
Definition is_word_char (c : ascii) : bool :=
  let b := byte_of c in
  bool_decide (97 ≤ b ≤ 122) || bool_decide (65 ≤ b ≤ 90) || bool_decide (48 ≤ b ≤ 57) ||
  bool_decide (c = "_"%char) || bool_decide (c = "-"%char) || bool_decide (c = "."%char).
Definition is_sign (c : ascii) : bool :=
  bool_decide (c ∈ ["="%char; "{"%char; "}"%char; "["%char; "]"%char; ","%char]).
Inductive lexing := LStart | LWord (s : string) | LText (s : string) | LEscape (s : string).
Definition snoc (s : string) (c : ascii) : string := s +:+ String c "".
Definition lex_start (c : ascii) : option (list token * lexing) :=
  if bool_decide (c = " "%char) then Some ([], LStart)
  else if bool_decide (c = newline) then Some ([TNewline], LStart)
  else if is_word_char c then Some ([], LWord (String c ""))
  else if bool_decide (c = dquote) then Some ([], LText "")
  else if is_sign c then Some ([TSign c], LStart)
  else None.
Definition lex_step (st : lexing) (c : ascii) : option (list token * lexing) :=
  match st with
  | LStart => lex_start c
  | LWord s =>
      if is_word_char c then Some ([], LWord (snoc s c))
      else '(l, st) ← lex_start c; Some (TWord s :: l, st)
  | LText s =>
      if bool_decide (c = dquote) then Some ([TQuoted s], LStart)
      else if bool_decide (c = newline) then None
      else if bool_decide (c = bslash) then Some ([], LEscape s)
      else Some ([], LText (snoc s c))
  | LEscape s => if bool_decide (c = newline) then None else Some ([], LText (snoc (snoc s bslash) c))
  end.
Fixpoint lex (st : lexing) (s : string) : option (list token) :=
  match s with
  | "" => match st with LStart => Some [] | LWord w => Some [TWord w] | _ => None end
  | String c s => '(l, st) ← lex_step st c; r ← lex st s; Some (l ++ r)
  end.

(** * Reading *)

Definition read_quoted (raw : string) : option string := unescape UPlain raw.
(** An expression, with what follows it. *)
Definition read_word (w : string) : option hval :=
  if bool_decide (w = "null") then Some HNull
  else if bool_decide (w = "true") then Some (HBool true)
  else if bool_decide (w = "false") then Some (HBool false)
  else '(m, e) ← read_number w; Some (HNumber m e).
Definition is (c : ascii) (t : token) : bool := match t with TSign d => bool_decide (d = c) | _ => false end.
Fixpoint read_value (fuel : nat) (l : list token) : option (hval * list token) :=
  match fuel with
  | O => None
  | S fuel =>
      match l with
      | TWord w :: l => v ← read_word w; Some (v, l)
      | TQuoted r :: l => s ← read_quoted r; Some (HText s, l)
      | TSign c :: l =>
          if bool_decide (c = "["%char) then '(vs, l) ← read_items fuel l; Some (HList vs, l) else None
      | _ => None
      end
  end
(** The elements of a list, up to its end. *)
with read_items (fuel : nat) (l : list token) : option (list hval * list token) :=
  match fuel with
  | O => None
  | S fuel =>
      match l with
      | TSign c :: l' =>
          if bool_decide (c = "]"%char) then Some ([], l')
          else '(v, l) ← read_value fuel l; read_more fuel v l
      | _ => '(v, l) ← read_value fuel l; read_more fuel v l
      end
  end
with read_more (fuel : nat) (v : hval) (l : list token) : option (list hval * list token) :=
  match fuel with
  | O => None
  | S fuel =>
      match l with
      | TSign c :: l =>
          if bool_decide (c = "]"%char) then Some ([v], l)
          else if bool_decide (c = ","%char) then '(vs, l) ← read_items fuel l; Some (v :: vs, l)
          else None
      | _ => None
      end
  end.
Fixpoint read_labels (l : list token) : option (list string * list token) :=
  match l with
  | TQuoted r :: l => s ← read_quoted r; '(ss, l) ← read_labels l; Some (s :: ss, l)
  | l => Some ([], l)
  end.
(** A body, up to the end of the file or of the block. *)
Fixpoint read_body (fuel : nat) (l : list token) : option (body * list token) :=
  match fuel with
  | O => None
  | S fuel =>
      match l with
      | [] => Some (Body [] [], [])
      | TNewline :: l => read_body fuel l
      | TWord w :: l =>
          match l with
          | TSign c :: l' =>
              if bool_decide (c = "="%char) then
                '(v, l) ← read_value fuel l';
                match l with
                | TNewline :: l => '(b, l) ← read_body fuel l; Some (Body ((w, v) :: b_attrs b) (b_blocks b), l)
                | _ => None
                end
              else read_block fuel w l
          | _ => read_block fuel w l
          end
      | TSign c :: _ => if bool_decide (c = "}"%char) then Some (Body [] [], l) else None
      | _ => None
      end
  end
with read_block (fuel : nat) (w : string) (l : list token) : option (body * list token) :=
  match fuel with
  | O => None
  | S fuel =>
      '(labels, l) ← read_labels l;
      match l with
      | TSign c :: TNewline :: l =>
          if bool_decide (c = "{"%char) then
            '(inner, l) ← read_body fuel l;
            match l with
            | TSign c :: TNewline :: l =>
                if bool_decide (c = "}"%char) then
                  '(b, l) ← read_body fuel l; Some (Body (b_attrs b) ((w, (labels, inner)) :: b_blocks b), l)
                else None
            | _ => None
            end
          else None
      | _ => None
      end
  end.
Definition read_text (s : string) : option body :=
  toks ← lex LStart s; '(b, l) ← read_body (S (length toks)) toks;
  match l with [] => Some b | _ => None end.

(** * Printing *)

Definition quoted (s : string) : string := String dquote (escape s +:+ String dquote "").
Fixpoint print_value (v : hval) : string :=
  match v with
  | HNull => "null"
  | HText s => quoted s
  | HBool b => if b then "true" else "false"
  | HNumber m e => print_number m e
  | HList l => "[" +:+ String.concat ", " (print_value <$> l) +:+ "]"
  | HOther => "{}"
  end.
Fixpoint spaces (n : nat) : string := match n with O => "" | S n => String " " (spaces n) end.
(** The signs of equality of a body stand below each other. *)
Definition print_attr (indent width : nat) (p : string * hval) : string :=
  spaces indent +:+ p.1 +:+ spaces (width - String.length p.1) +:+ " = " +:+ print_value p.2 +:+ nl.
Definition width (l : list (string * hval)) : nat := foldr (λ p w, Nat.max (String.length p.1) w) O l.
Definition texts (l : list string) : string := String.concat "" l.
(** An empty line before the first of the blocks of a type. *)
Definition gap (before n : string) : string := if bool_decide (before = n) then "" else nl.
Fixpoint print_body (indent : nat) (b : body) : string :=
  let '(Body attrs blocks) := b in
  texts (print_attr indent (width attrs) <$> attrs) +:+
  (fix go (before : string) (l : list (string * block)) : string :=
     match l with
     | [] => ""
     | (n, (labels, inner)) :: l =>
         gap before n +:+ spaces indent +:+ n +:+ texts ((λ s, " " +:+ quoted s) <$> labels) +:+ " {" +:+ nl +:+
         print_body (2 + indent) inner +:+ spaces indent +:+ "}" +:+ nl +:+ go n l
     end) "" blocks.

(** * The instance *)

(** What becomes of a text that is not UTF-8: string([]rune(s)). *)
Definition clean (s : string) : string := of_runes (runes_of s).
(** A float64 is the text it is read from, in the model; here decimals that are canonical. *)
Definition decimal_of (f : string) : Z * nat := default (0, O) (read_number f).
Definition float_of (m : Z) (e : nat) : option string :=
  let '(m, e) := canonical m e in Some (print_number m e).
(** Of cty's conversions: a number or a truth value as a text. *)
Definition text_of (v : hval) : option string :=
  match v with
  | HText s => Some s
  | HNumber m e => Some (print_number m e)
  | HBool b => Some (if b then "true" else "false")
  | _ => None
  end.
Definition bool_of (v : hval) : option bool :=
  match v with
  | HBool b => Some b
  | HText s => if bool_decide (s = "true") then Some true else if bool_decide (s = "false") then Some false else None
  | _ => None
  end.
Definition number_of (v : hval) : option (Z * nat) :=
  match v with HNumber m e => Some (m, e) | HText s => read_number s | _ => None end.
Definition plain_lib : hcl_lib :=
  HclLib (λ b, print_body 0 (change_body clean b)) read_text decimal_of float_of text_of bool_of number_of.
