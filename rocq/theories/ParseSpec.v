(** What the four parsers of internal/ddl should accept and return: the grammars in
    the .rl files as relations between a text and its meaning, without automata. *)
From Coq Require Import String Ascii.
From stdpp Require Import list strings numbers.
From Verif Require Import GoStrings GoUtf8 DdlModel DdlSpec.
Local Open Scope Z_scope.

(** A syntactic category: which texts belong to it, and with which meaning. *)
Definition reads (A : Type) := string → A → Prop.
Definition is {A} (P : string → Prop) (a : A) : reads A := λ s v, P s ∧ v = a.
(** First one, then the other: both meanings, the second, the first. *)
Definition both {A B} (p : reads A) (q : reads B) : reads (A * B) := λ s v,
  ∃ s1 s2, s = s1 +:+ s2 ∧ p s1 v.1 ∧ q s2 v.2.
Definition after {A B} (p : reads A) (q : reads B) : reads B := λ s b,
  ∃ s1 s2 a, s = s1 +:+ s2 ∧ p s1 a ∧ q s2 b.
Definition upto {A B} (p : reads A) (q : reads B) : reads A := λ s a,
  ∃ s1 s2 b, s = s1 +:+ s2 ∧ p s1 a ∧ q s2 b.
Definition either {A} (p q : reads A) : reads A := λ s a, p s a ∨ q s a.
Definition maybe {A} (p : reads A) : reads (option A) := λ s v,
  (s = "" ∧ v = None) ∨ ∃ a, v = Some a ∧ p s a.
Definition many {A} (p : reads A) : reads (list A) := λ s l,
  ∃ ss, s = String.concat "" ss ∧ Forall2 p ss l.
Definition giving {A B} (f : A → B) (p : reads A) : reads B := λ s b, ∃ a, p s a ∧ b = f a.
Infix "**" := both (at level 45, right associativity).
Infix ">>" := after (at level 42, right associativity).
Infix "<<" := upto (at level 41, left associativity).
Infix "<|>" := either (at level 46, right associativity).

(** check_parser.rl:30 and the like: ragel's [space]. *)
Definition space_byte (c : ascii) : Prop := 9 ≤ byte_of c ≤ 13 ∨ byte_of c = 32.
Definition letter_byte (c : ascii) : Prop := 65 ≤ byte_of c ≤ 90 ∨ 97 ≤ byte_of c ≤ 122.
Definition name_byte (c : ascii) : Prop := letter_byte c ∨ 48 ≤ byte_of c ≤ 57 ∨ byte_of c = 95.
Definition spaces_text (s : string) : Prop := all_bytes space_byte s.
Definition ows : reads unit := is spaces_text ().
Definition ws : reads unit := is (λ s, s ≠ "" ∧ spaces_text s) ().
Definition lit (t : string) : reads unit := is (λ s, s = t) ().
(** A keyword [k] (in capitals) in any mixture of cases. *)
Fixpoint spelled (k s : string) : Prop :=
  match k, s with
  | "", "" => True
  | String c k, String d s => (byte_of d = byte_of c ∨ byte_of d = byte_of c + 32) ∧ spelled k s
  | _, _ => False
  end.
Definition keyword {A} (k : string) (a : A) : reads A := is (spelled k) a.
Definition key (k : string) : reads unit := keyword k ().
Definition is_ident (s : string) : Prop :=
  ∃ c r, s = String c r ∧ letter_byte c ∧ all_bytes name_byte r.
Definition ident : reads string := λ s v, is_ident s ∧ v = s.
(** Names separated by commas. *)
Definition name_list : reads (list string) :=
  giving (λ v, v.1 :: v.2) (ident ** many (ows >> lit "," >> ows >> ident)).
(** Two keywords; meaning: the two in capitals, and the white space between them
    with its runs collapsed. *)
Definition two_keywords (k1 k2 : string) : reads string := λ s v,
  ∃ s1 w s2 w', s = s1 +:+ w +:+ s2 ∧ spelled k1 s1 ∧ w ≠ "" ∧ spaces_text w ∧ spelled k2 s2 ∧
    collapsed w w' ∧ v = k1 +:+ w' +:+ k2.

(** Deferrable and InitiallyDeferred: foreign_key_parser.rl:73-78 and the same lines in
    the others. *)
Definition initially : reads bool :=
  key "INITIALLY" >> ws >> (keyword "IMMEDIATE" false <|> keyword "DEFERRED" true).
Definition from_option {A B} (f : A → B) (b : B) (o : option A) : B :=
  match o with Some a => f a | None => b end.
Definition deferral : reads (bool * bool) :=
  giving (from_option id (false, false)) (maybe (
    giving (λ _, (false, false)) (ws >> key "NOT" >> ws >> key "DEFERRABLE") <|>
    giving (λ v, (from_option (λ _, true) false v.1, from_option id false v.2))
      (ws >> (maybe (key "DEFERRABLE" >> ws) ** maybe initially)))).

(** foreign_key_parser.rl:57-58. *)
Definition match_type : reads string :=
  keyword "FULL" "FULL" <|> keyword "PARTIAL" "PARTIAL" <|> keyword "SIMPLE" "SIMPLE".
Definition on_action : reads string :=
  two_keywords "NO" "ACTION" <|> keyword "RESTRICT" "RESTRICT" <|> keyword "CASCADE" "CASCADE" <|>
  two_keywords "SET" "NULL" <|> two_keywords "SET" "DEFAULT".
(** foreign_key_parser.rl:60-80. *)
Definition foreign_key_with (tail : reads (bool * bool)) : reads (list string * (string * (list string *
    (option string * (option string * (option string * (bool * bool))))))) :=
  (ows >> key "FOREIGN" >> ws >> key "KEY" >> ws >> lit "(" >> ows >>
   (name_list << (ows >> lit ")" >> ws >> key "REFERENCES" >> ws)) **
   (ident << (lit "(" >> ows)) **
   (name_list << (ows >> lit ")")) **
   maybe (ws >> key "MATCH" >> ws >> match_type) **
   maybe (ws >> key "ON" >> ws >> key "DELETE" >> ws >> on_action) **
   maybe (ws >> key "ON" >> ws >> key "UPDATE" >> ws >> on_action) **
   tail).
Definition foreign_key_parts := foreign_key_with (deferral << ows).
Definition foreign_key_syntax : reads foreign_key :=
  giving (λ '(columns, (table, (referenced, (mat, (del, (upd, (deferrable, deferred))))))),
    ForeignKey "" table columns referenced (from_option id "" mat) (from_option id "" del)
      (from_option id "" upd) deferrable deferred)
  foreign_key_parts.

(** index_parser.rl:57-59: an expression in parentheses, or a call, both without a
    closing parenthesis inside. *)
Definition not_close (c : ascii) : Prop := byte_of c ≠ 41.
Definition paren_expr : reads string := λ s v,
  v = s ∧ ∃ e, s = "(" +:+ e +:+ ")" ∧ e ≠ "" ∧ all_bytes not_close e.
Definition call_expr : reads string := λ s v,
  v = s ∧ ∃ f e, s = f +:+ "(" +:+ e +:+ ")" ∧ is_ident f ∧ all_bytes not_close e.
(** index_parser.rl:66-73: the meaning of a key, and of the list of keys. *)
Definition with_class (make : string → string → index_key) (p : reads string) : reads index_key :=
  giving (λ v, make v.1 (from_option id "" v.2)) (p ** maybe (ws >> ident)).
Definition column_key (c o : string) : index_key := IndexKey c "" o false.
Definition expression_key (e o : string) : index_key := IndexKey "" e o false.
Definition key_list : reads (list index_key) :=
  giving (λ v, v.1 :: v.2)
    ((with_class expression_key paren_expr <|> with_class expression_key call_expr <|>
      with_class column_key ident) **
     many (ows >> lit "," >> ows >> with_class column_key ident)).
(** index_parser.rl:75-76: the text after WHERE and white space, trimmed and with runs
    of white space collapsed. *)
Definition where_text : reads string := λ s v,
  s ≠ "" ∧ ∃ u, trimmed s u ∧ collapsed u v.
Definition where_clause : reads (option string) :=
  giving Some (ws >> key "WHERE" >> ws >> where_text) <|> giving (λ _, None) ows.
(** index_parser.rl:61-77. *)
Definition index_parts : reads (option unit * (string * (string * (option string * (list index_key * option string))))) :=
  (ows >> key "CREATE" >> ws >>
   (maybe (key "UNIQUE" << ws) << (key "INDEX" >> ws)) **
   (ident << (ws >> key "ON" >> ws)) **
   ident **
   maybe (ws >> key "USING" >> ws >> ident) **
   (ws >> lit "(" >> ows >> key_list << (ows >> lit ")")) **
   where_clause).
Definition index_syntax : reads index :=
  giving (λ '(unique, (name, (table, (meth, (keys, wh))))),
    Index "" table name false (from_option (λ _, true) false unique) (from_option id "" meth)
      (from_option id "" wh) keys)
  index_parts.

(** trigger_parser.rl:59-65: an event; an UPDATE may have columns. *)
Inductive event := EvInsert | EvUpdate (columns : list string) | EvDelete | EvTruncate.
Definition event_syntax : reads event :=
  keyword "INSERT" EvInsert <|>
  giving (λ v, EvUpdate (from_option id [] v))
    (key "UPDATE" >> maybe (ws >> key "OF" >> ws >> name_list)) <|>
  keyword "DELETE" EvDelete <|> keyword "TRUNCATE" EvTruncate.
Definition event_list : reads (list event) :=
  giving (λ v, v.1 :: v.2) (event_syntax ** many (ws >> key "OR" >> ws >> event_syntax)).
Definition event_columns (e : event) : list string := match e with EvUpdate l => l | _ => [] end.
Definition is_insert (e : event) : bool := match e with EvInsert => true | _ => false end.
Definition is_update (e : event) : bool := match e with EvUpdate _ => true | _ => false end.
Definition is_delete (e : event) : bool := match e with EvDelete => true | _ => false end.
Definition is_truncate (e : event) : bool := match e with EvTruncate => true | _ => false end.
Definition timing : reads string :=
  keyword "BEFORE" "BEFORE" <|> keyword "AFTER" "AFTER" <|> two_keywords "INSTEAD" "OF".
(** trigger_parser.rl:83. *)
Definition for_each : reads bool :=
  key "FOR" >> ws >> maybe (key "EACH" >> ws) >> (keyword "ROW" true <|> keyword "STATEMENT" false).
(** trigger_parser.rl:67-87. *)
Definition trigger_parts : reads (option unit * (string * (string * (list event * (string * ((bool * bool) * (option bool * string))))))) :=
  (ows >> key "CREATE" >> ws >>
   (maybe (key "CONSTRAINT" << ws) << (key "TRIGGER" >> ws)) **
   (ident << ws) **
   (timing << ws) **
   (event_list << (ws >> key "ON" >> ws)) **
   ident **
   deferral **
   maybe (ws >> for_each) **
   (ws >> key "EXECUTE" >> ws >> (key "FUNCTION" <|> key "PROCEDURE") >> ws >> ident << (lit "()" >> ows))).
Definition trigger_syntax : reads trigger :=
  giving (λ '(con, (name, (wh, (events, (table, ((deferrable, deferred), (row, fn))))))),
    Trigger "" table name fn wh (from_option (λ _, true) false con) deferrable deferred
      (from_option id false row) (existsb is_delete events) (existsb is_insert events)
      (existsb is_truncate events) (existsb is_update events) (events ≫= event_columns))
  trigger_parts.

(** check_parser.rl:32-41. *)
Definition anything : reads string := λ s v, v = s.
Definition check_then {A} (p : reads A) : reads A := ows >> key "CHECK" >> ows >> lit "(" >> p.
Definition check_form (s : string) : Prop :=
  ∃ v, check_then (anything << (lit ")" >> deferral >> ows)) s v.
(** Some closing parenthesis, not necessarily the last one, is followed by such a
    suffix. *)
Definition mentions_deferrable (s : string) : Prop :=
  ∃ v, check_then (anything >> lit ")" >> ws >> key "DEFERRABLE" >> ws >> anything) s v.
Definition mentions_deferred (s : string) : Prop :=
  ∃ v, check_then (anything >> lit ")" >> ws >> maybe (key "DEFERRABLE" >> ws) >>
    key "INITIALLY" >> ws >> key "DEFERRED" >> anything) s v.
(** The text between the first opening and the last closing parenthesis, and what
    follows. *)
Definition check_body (s e r : string) : Prop :=
  ∃ o, s = o +:+ "(" +:+ e +:+ ")" +:+ r ∧ ¬ has_byte "(" o ∧ ¬ has_byte ")" r.
