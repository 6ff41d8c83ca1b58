(** SQL as used by internal/pg: the tokens of a query text, the syntax of the queries,
    and what PostgreSQL (a dependency) answers to them: joins, three-valued conditions,
    subqueries, ORDER BY.  Only what the queries in internal/pg/*.go use is there. *)
From Coq Require Import String Ascii.
From stdpp Require Import list strings numbers sorting.
From Verif Require Import GoBase GoStrings.
Local Open Scope Z_scope.

(** * The text of a query *)

(** Tokens (PostgreSQL manual 4.1).  Words are folded to lower case. *)
Inductive token := TWord (s : string) | TQuoted (s : string) | TString (s : string)
  | TNum (n : Z) | TParam (n : Z) | TSym (s : string).
Global Instance token_eq_dec : EqDecision token.
Proof. solve_decision. Defined.
(** What the scanner is in the middle of; texts are kept last byte first. *)
Inductive lexeme := LNone | LWord (s : list ascii) | LQuoted (s : list ascii) | LString (s : list ascii)
  | LNum (n : Z) | LParam (n : Z) | LSym (c : ascii).
Definition code (c : ascii) : Z := Z.of_nat (nat_of_ascii c).
Definition is_digit (c : ascii) : bool := bool_decide (48 ≤ code c ≤ 57).
Definition is_letter (c : ascii) : bool :=
  bool_decide (65 ≤ code c ≤ 90) || bool_decide (97 ≤ code c ≤ 122) || bool_decide (code c = 95).
Definition lower (c : ascii) : ascii :=
  if bool_decide (65 ≤ code c ≤ 90) then ascii_of_nat (Z.to_nat (code c + 32)) else c.
Definition text_of (s : list ascii) : string := string_of_list_ascii (rev s).
(** The beginning of a token; blanks are skipped, single byte symbols are tokens by
    themselves. *)
Definition start (c : ascii) : option (list token * lexeme) :=
  if is_letter c then Some ([], LWord [lower c])
  else if is_digit c then Some ([], LNum (code c - 48))
  else if bool_decide (c ∈ [" "; "010"]%char) then Some ([], LNone)
  else if bool_decide (c = """"%char) then Some ([], LQuoted [])
  else if bool_decide (c = "'"%char) then Some ([], LString [])
  else if bool_decide (c = "$"%char) then Some ([], LParam 0)
  else if bool_decide (c ∈ ["<"; "!"; ":"]%char) then Some ([], LSym c)
  else if bool_decide (c ∈ ["."; ","; "("; ")"; "="; ">"; ";"]%char) then Some ([TSym (String c "")], LNone)
  else None.
(** One byte.  A quote inside a quoted name or a string (doubled) is not supported. *)
Definition lex_step (cur : lexeme) (c : ascii) : option (list token * lexeme) :=
  match cur with
  | LNone => start c
  | LWord s =>
      if is_letter c || is_digit c then Some ([], LWord (lower c :: s))
      else '(t, cur) ← start c; Some (TWord (text_of s) :: t, cur)
  | LQuoted s => if bool_decide (c = """"%char) then Some ([TQuoted (text_of s)], LNone) else Some ([], LQuoted (c :: s))
  | LString s => if bool_decide (c = "'"%char) then Some ([TString (text_of s)], LNone) else Some ([], LString (c :: s))
  | LNum n =>
      if is_digit c then Some ([], LNum (10 * n + (code c - 48))) else
      if is_letter c then None else '(t, cur) ← start c; Some (TNum n :: t, cur)
  | LParam n =>
      if is_digit c then Some ([], LParam (10 * n + (code c - 48))) else
      if is_letter c then None else '(t, cur) ← start c; Some (TParam n :: t, cur)
  | LSym d =>
      if bool_decide ((d, c) ∈ [("<", ">"); ("!", "~"); (":", ":")]%char)
      then Some ([TSym (String d (String c ""))], LNone) else None
  end.
Fixpoint lex (cur : lexeme) (s : string) : option (list token) :=
  match s with
  | "" =>
      match cur with
      | LNone => Some []
      | LWord w => Some [TWord (text_of w)]
      | LNum n => Some [TNum n]
      | LParam n => Some [TParam n]
      | LQuoted _ | LString _ | LSym _ => None
      end
  | String c s => '(t, cur) ← lex_step cur c; (app t) <$> lex cur s
  end.
Definition tokens (s : string) : option (list token) := lex LNone s.

(** * Syntax *)

Inductive cmp := CEq | CNe | CGt | CNotMatch.
(** How an output column is labelled: AS "x", AS x, or "x" alone. *)
Inductive form := AsQuoted | AsWord | Bare.
(** [Out] is a name of an output column; it and numbers standing for a position are
    used in ORDER BY only. *)
Inductive expr :=
  | Col (alias col : string) | Out (label : string)
  | Str (s : string) | Num (n : Z) | Null | TrueLit | Param (n : Z)
  | Call (schema : option string) (f : string) (args : list expr)
  | Cast (e : expr) (schema ty : string)
  | Cmp (c : cmp) (a b : expr) | In (a : expr) (l : list expr) | Not (a : expr) | And (a b : expr) | Paren (a : expr)
  | Scalar (q : query) | Exists (q : query)
with query :=
  (** SELECT of an expression, without FROM. *)
  | Only (e : expr)
  (** Items with their labels; the first table and its
      alias; the others with their alias and condition ([true]: LEFT JOIN); WHERE;
      ORDER BY ([true]: DESC). *)
  | Select (items : list (expr * option (form * string))) (schema table alias : string)
      (joins : list (bool * string * string * string * expr)) (where_ : option expr) (order : list (expr * bool)).

Definition sep {A} (l : list (list A)) (x : A) : list A :=
  match l with [] => [] | y :: l => y ++ mjoin ((cons x) <$> l) end.
Definition cmp_sym (c : cmp) : string := match c with CEq => "=" | CNe => "<>" | CGt => ">" | CNotMatch => "!~" end.
(** The tokens of a query. *)
Fixpoint print (e : expr) : list token :=
  match e with
  | Col a c => [TWord a; TSym "."; TWord c]
  | Out l => [TQuoted l]
  | Str s => [TString s] | Num n => [TNum n] | Null => [TWord "null"] | TrueLit => [TWord "true"] | Param n => [TParam n]
  | Call s f args =>
      (match s with Some s => [TWord s; TSym "."] | None => [] end) ++ [TWord f; TSym "("] ++
      sep (map print args) (TSym ",") ++ [TSym ")"]
  | Cast e s t => print e ++ [TSym "::"; TWord s; TSym "."; TWord t]
  | Cmp c a b => print a ++ [TSym (cmp_sym c)] ++ print b
  | In a l => print a ++ [TWord "in"; TSym "("] ++ sep (map print l) (TSym ",") ++ [TSym ")"]
  | Not a => TWord "not" :: print a
  | And a b => print a ++ [TWord "and"] ++ print b
  | Paren a => TSym "(" :: print a ++ [TSym ")"]
  | Scalar q => TSym "(" :: print_query q ++ [TSym ")"]
  | Exists q => TWord "exists" :: TSym "(" :: print_query q ++ [TSym ")"]
  end
with print_query (q : query) : list token :=
  match q with
  | Only e => TWord "select" :: print e
  | Select items s t a joins wh order =>
      [TWord "select"] ++
      sep (map (λ '(e, l), print e ++
             match l with
             | None => []
             | Some (AsQuoted, l) => [TWord "as"; TQuoted l]
             | Some (AsWord, l) => [TWord "as"; TWord l]
             | Some (Bare, l) => [TQuoted l]
             end) items)
        (TSym ",") ++
      [TWord "from"; TWord s; TSym "."; TWord t; TWord a] ++
      mjoin (map (λ '(outer, s, t, a, on), (if outer : bool then [TWord "left"] else []) ++
               [TWord "join"; TWord s; TSym "."; TWord t; TWord a; TWord "on"] ++ print on) joins) ++
      (match wh with None => [] | Some e => TWord "where" :: print e end) ++
      (match order with
       | [] => []
       | _ => [TWord "order"; TWord "by"] ++
           sep (map (λ '(e, desc), print e ++ if desc : bool then [TWord "desc"] else []) order) (TSym ",")
       end)
  end.
(** The text of a query, possibly with a semicolon at the end. *)
Definition reads (s : string) (q : query) : Prop :=
  tokens s = Some (print_query q) ∨ tokens s = Some (print_query q ++ [TSym ";"]).

(** * Values *)

(** Names compare by bytes, texts in the order of the database's collation. *)
Inductive value := VNull | VBool (b : bool) | VInt (n : Z) | VName (s : string) | VText (s : string)
  | VTexts (l : list string) | VInts (l : list Z).
(** A row of a table, and the rows a condition talks about: by alias; [None] is the
    row of NULLs a LEFT JOIN adds. *)
Notation row := (list (string * value)).
Notation env := (list (string * option row)).
Fixpoint assoc {A} (k : string) (l : list (string * A)) : option A :=
  match l with [] => None | (x, a) :: l => if decide (x = k) then Some a else assoc k l end.

(** What the queries are about: the tables by schema and name, the functions and
    casts by schema and name, the order of texts. *)
Record store := Store {
  st_table : string → string → option (list row);
  st_function : option string → string → list value → option value;
  st_text_le : string → string → bool }.

(** The text of a name or text. *)
Definition content (v : value) : option string :=
  match v with VName s | VText s => Some s | _ => None end.
(** Regular expressions of the form "^abc" only. *)
Definition plain (s : string) : bool := forallb (λ c, is_letter c || is_digit c) (list_ascii_of_string s).
Definition starts_as (pattern s : string) : option bool :=
  match pattern with
  | String c p => if bool_decide (c = "^"%char) && plain p then Some (String.prefix p s) else None
  | "" => None
  end.
(** Comparison; [None] is an error, a comparison with NULL is NULL. *)
Definition compare_values (c : cmp) (a b : value) : option value :=
  match a, b with
  | VNull, _ | _, VNull => Some VNull
  | _, _ =>
    match c with
    | CEq | CNe =>
        e ← (match a, b with
             | VInt x, VInt y => Some (bool_decide (x = y))
             | VBool x, VBool y => Some (bool_decide (x = y))
             | _, _ => x ← content a; y ← content b; Some (bool_decide (x = y))
             end);
        Some (VBool (match c with CEq => e | _ => negb e end))
    | CGt => match a, b with VInt x, VInt y => Some (VBool (bool_decide (y < x))) | _, _ => None end
    | CNotMatch => x ← content a; p ← content b; m ← starts_as p x; Some (VBool (negb m))
    end
  end.
(** Conditions: true, false or unknown. *)
Definition truth (v : value) : option (option bool) :=
  match v with VBool b => Some (Some b) | VNull => Some None | _ => None end.
Definition of_truth (t : option bool) : value := match t with Some b => VBool b | None => VNull end.
Definition and3 (a b : option bool) : option bool :=
  match a, b with
  | Some false, _ | _, Some false => Some false
  | Some true, Some true => Some true
  | _, _ => None
  end.
Definition or3 (a b : option bool) : option bool :=
  match a, b with
  | Some true, _ | _, Some true => Some true
  | Some false, Some false => Some false
  | _, _ => None
  end.
Definition not3 (a : option bool) : option bool := negb <$> a.

(** * What a query yields *)

(** Whether a condition holds for certain. *)
Definition holds (v : value) : option bool := (λ t, bool_decide (t = Some true)) <$> truth v.
(** The rows satisfying a condition. *)
Definition select_rows {A} (f : A → option bool) (l : list A) : option (list A) :=
  (λ x, (filter (λ p, p.2 = true) x).*1) <$> mapM (λ a, b ← f a; Some (a, b)) l.
(** A join: every row so far with every row of the table that satisfies the
    condition; a LEFT JOIN keeps a row without a partner, with NULLs. *)
Definition join_rows (outer : bool) (alias : string) (rows : list row) (on : env → option bool) (envs : list env) :
    option (list env) :=
  mjoin <$> mapM (λ e,
    l ← select_rows on ((λ r, (alias, Some r) :: e) <$> rows);
    Some (match l with [] => if outer then [(alias, None) :: e] else [] | _ => l end)) envs.
(** A function in the select list that returns a set: UNNEST of an array. *)
Definition unnest (v : value) : option (list value) :=
  match v with VNull => Some [] | VTexts l => Some (VText <$> l) | _ => None end.
(** All ways to choose one value from each list. *)
Fixpoint choices {A} (l : list (list A)) : list (list A) :=
  match l with [] => [[]] | x :: l => a ← x; (cons a) <$> choices l end.
(** The position of an output column. *)
Fixpoint position (label : string) (l : list (option (form * string))) : option nat :=
  match l with
  | [] => None
  | x :: l => if decide (snd <$> x = Some label) then Some O else S <$> position label l
  end.

(** An expression, and a query: its output rows, each with the values of the ORDER
    BY expressions.  [None] is an error. *)
Fixpoint eval (st : store) (ps : list value) (e : env) (x : expr) : option value :=
  match x with
  | Col a c => r ← assoc a e; match r with None => Some VNull | Some r => assoc c r end
  | Out _ => None
  | Str s => Some (VText s) | Num n => Some (VInt n) | Null => Some VNull | TrueLit => Some (VBool true)
  | Param n => ps !! Z.to_nat (n - 1)
  | Call s f args => l ← mapM (eval st ps e) args; st_function st s f l
  | Cast a s ty => v ← eval st ps e a; st_function st (Some s) ty [v]
  | Cmp c a b => v ← eval st ps e a; w ← eval st ps e b; compare_values c v w
  | In a l =>
      v ← eval st ps e a; l ← mapM (eval st ps e) l; l ← mapM (compare_values CEq v) l; l ← mapM truth l;
      Some (of_truth (foldr or3 (Some false) l))
  | Not a => v ← eval st ps e a; t ← truth v; Some (of_truth (not3 t))
  | And a b => v ← eval st ps e a; w ← eval st ps e b; t ← truth v; u ← truth w; Some (of_truth (and3 t u))
  | Paren a => eval st ps e a
  | Scalar q =>
      l ← eval_query st ps e q;
      match l with [] => Some VNull | [([v], _)] => Some v | _ => None end
  | Exists q => l ← eval_query st ps e q; Some (VBool (bool_decide (l ≠ [])))
  end
with eval_query (st : store) (ps : list value) (e : env) (q : query) : option (list (list value * list value)) :=
  match q with
  | Only x => v ← eval st ps e x; Some [([v], [])]
  | Select items schema table alias joins wh order =>
      first ← st_table st schema table;
      envs ← (fix go (l : list (bool * string * string * string * expr)) (envs : list env) : option (list env) :=
                match l with
                | [] => Some envs
                | (outer, s, t, a, on) :: l =>
                    rows ← st_table st s t;
                    envs ← join_rows outer a rows (λ e, v ← eval st ps e on; holds v) envs;
                    go l envs
                end) joins ((λ r, (alias, Some r) :: e) <$> first);
      envs ← (match wh with
              | None => Some envs
              | Some c => select_rows (λ e, v ← eval st ps e c; holds v) envs
              end);
      mjoin <$> mapM (λ e,
        outs ← mapM (λ '(x, _),
                 match x with
                 | Call None f [a] =>
                     v ← eval st ps e a;
                     if decide (f = "unnest") then unnest v else v ← st_function st None f [v]; Some [v]
                 | _ => v ← eval st ps e x; Some [v]
                 end) items;
        mapM (λ out,
          keys ← mapM (λ '(x, _),
                   match x with
                   | Out l => i ← position l items.*2; out !! i
                   | Num n => out !! Z.to_nat (n - 1)
                   | _ => eval st ps e x
                   end) order;
          Some (out, keys)) (choices outs)) envs
  end.

(** * The order of the rows *)

(** One value before another, or equal to it: NULL comes last. *)
Fixpoint ints_le (a b : list Z) : bool :=
  match a, b with
  | [], _ => true
  | _, [] => false
  | x :: a, y :: b => if decide (x = y) then ints_le a b else bool_decide (x < y)
  end.
Definition value_le (st : store) (a b : value) : bool :=
  match a, b with
  | _, VNull => true
  | VNull, _ => false
  | VInt x, VInt y => bool_decide (x ≤ y)
  | VBool x, VBool y => implb x y
  | VName x, VName y => String.leb x y
  | VText x, VText y => st_text_le st x y
  | VInts x, VInts y => ints_le x y
  | _, _ => false
  end.
(** The keys in turn, some of them in descending order. *)
Fixpoint keys_le (st : store) (desc : list bool) (a b : list value) : bool :=
  match desc, a, b with
  | d :: desc, x :: a, y :: b =>
      if value_le st x y && value_le st y x then keys_le st desc a b
      else if d then value_le st y x else value_le st x y
  | _, _, _ => true
  end.
Definition descending (q : query) : list bool := match q with Only _ => [] | Select _ _ _ _ _ _ order => order.*2 end.
(** The server answers a query with these rows: in the order asked for, and in any
    order where nothing is asked for. *)
Definition yields (st : store) (ps : list value) (q : query) (rows : list (list value)) : Prop :=
  ∃ raw sorted, eval_query st ps [] q = Some raw ∧ sorted ≡ₚ raw ∧
    StronglySorted (λ a b, keys_le st (descending q) a.2 b.2 = true) sorted ∧ rows = sorted.*1.
