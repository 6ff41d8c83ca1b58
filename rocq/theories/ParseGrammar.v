(** The grammars of the four parsers as regular expressions with actions.  These are
    proof artefacts: the properties are stated with ParseSpec.v. *)
From Coq Require Import String Ascii.
From stdpp Require Import list strings numbers.
From Verif Require Import GoUtf8 MachineModel MachineTables Re.
Local Open Scope Z_scope.

Definition c_space : cls := [(9, 13); (32, 32)].
Definition c_letter : cls := [(65, 90); (97, 122)].
Definition c_name : cls := [(48, 57); (65, 90); (95, 95); (97, 122)].
Definition c_any : cls := [(0, 255)].
Definition one (c : ascii) : re := Cls [(byte_of c, byte_of c)].
(** A letter of a keyword (given in upper case), in either case. *)
Definition letter (c : ascii) : re := Cls [(byte_of c, byte_of c); (byte_of c + 32, byte_of c + 32)].
Definition buffered_letter (c : ascii) : re := Seq (Act AddToBuffer) (letter c).
Fixpoint word (f : ascii → re) (k : string) : re :=
  match k with "" => Eps | String c k => Seq (f c) (word f k) end.
Definition plus (r : re) : re := Seq r (Star r).
Definition opt (r : re) : re := Alt Eps r.
Fixpoint all (l : list re) : re :=
  match l with [] => Eps | [r] => r | r :: l => Seq r (all l) end.
Fixpoint any_of (l : list re) : re :=
  match l with [] => Cls [] | [r] => r | r :: l => Alt r (any_of l) end.
Definition buf (l : cls) : re := Seq (Act AddToBuffer) (Cls l).
Definition g_ows : re := Star (Cls c_space).
Definition g_ws : re := plus (Cls c_space).
Definition kw (k : string) : re := word letter k.
Definition bkw (k : string) : re := word buffered_letter k.
Definition g_bws : re := plus (buf c_space).
Definition g_ident : re := Seq (buf c_letter) (Star (buf c_name)).
(** A keyword whose last letter triggers an action. *)
Definition kw_act (k : string) (a : action) (c : ascii) : re := all [kw k; Act a; letter c].
Definition names (a : action) : re :=
  Seq (Seq g_ident (Act a)) (Star (all [g_ows; one ","; g_ows; Seq g_ident (Act a)])).

(** foreign_key_parser.rl:55-80. *)
Definition g_match : re := any_of [bkw "FULL"; bkw "PARTIAL"; bkw "SIMPLE"].
Definition g_onaction : re :=
  any_of [all [bkw "NO"; g_bws; bkw "ACTION"]; bkw "RESTRICT"; bkw "CASCADE";
          all [bkw "SET"; g_bws; bkw "NULL"]; all [bkw "SET"; g_bws; bkw "DEFAULT"]].
Definition g_initially (a : action) : re :=
  all [kw "INITIALLY"; g_ws; Alt (kw "IMMEDIATE") (kw_act "DEFERRE" a "D")].
Definition g_fk_tail : re :=
  any_of [all [g_ws; kw "NOT"; g_ws; kw "DEFERRABLE"; g_ows];
          g_ows;
          Seq (all [g_ws; kw "DEFERRABLE"; plus (Seq (Act FkDeferrable) (Cls c_space))])
            (opt (Seq (g_initially FkDeferred) g_ows));
          Seq g_ws (Seq (g_initially FkDeferred) g_ows)].
Definition g_fk : re :=
  all [all [g_ows; kw "FOREIGN"; g_ws; kw "KEY"; g_ws; one "("; g_ows;
            Seq (names FkColumn) (all [g_ows; one ")"; g_ws; kw "REFERENCES"; g_ws])];
       Seq (Seq g_ident (Act FkTable)) (all [one "("; g_ows]);
       Seq (names FkReferenced) (all [g_ows; one ")"]);
       opt (all [g_ws; kw "MATCH"; g_ws; Seq g_match (Act FkMatch)]);
       opt (all [g_ws; kw "ON"; g_ws; kw "DELETE"; g_ws; Seq g_onaction (Act FkOnDelete)]);
       opt (all [g_ws; kw "ON"; g_ws; kw "UPDATE"; g_ws; Seq g_onaction (Act FkOnUpdate)]);
       g_fk_tail].

(** The machine as a transducer. *)
Definition machine_td (m : machine) : transducer := Transducer N (step m)
  (λ q, if (q <? ma_final m)%N then None else Some (at_eof m q)).

(** index_parser.rl:56-81. *)
Definition c_not_close : cls := [(0, 40); (42, 255)].
Definition g_expr : re := all [buf [(40, 40)]; plus (buf c_not_close); buf [(41, 41)]].
Definition g_fncall : re := all [g_ident; buf [(40, 40)]; Star (buf c_not_close); buf [(41, 41)]].
Definition g_opclass : re := opt (all [g_ws; g_ident; Act IxOpClass]).
Definition g_key (r : re) (a : action) : re := Seq (Seq r (Act a)) g_opclass.
Definition g_keys : re :=
  Seq (any_of [g_key g_expr IxExpression; g_key g_fncall IxExpression; g_key g_ident IxColumn])
    (Star (all [g_ows; one ","; g_ows; g_key g_ident IxColumn])).
Definition g_where : re :=
  Alt (all [g_ws; kw "WHERE"; Cls c_space; Seq (plus (buf c_any)) (Act IxWhere)]) g_ows.
Definition g_index : re :=
  all [all [g_ows; kw "CREATE"; g_ws;
            Seq (opt (Seq (kw_act "UNIQU" IxUnique "E") g_ws)) (all [kw "INDEX"; g_ws])];
       Seq (Seq g_ident (Act IxName)) (all [g_ws; kw "ON"; g_ws]);
       Seq g_ident (Act IxTable);
       opt (all [g_ws; kw "USING"; g_ws; Seq g_ident (Act IxUsing)]);
       all [g_ws; one "("; g_ows; Seq g_keys (all [g_ows; one ")"])];
       g_where].

(** trigger_parser.rl:56-88. *)
Definition g_update : re :=
  Seq (kw_act "UPDAT" TgUpdate "E") (opt (all [g_ws; kw "OF"; g_ws; names TgColumn])).
Definition g_event : re :=
  any_of [kw_act "INSER" TgInsert "T"; g_update; kw_act "DELET" TgDelete "E"; kw_act "TRUNCAT" TgTruncate "E"].
Definition g_when : re :=
  any_of [bkw "BEFORE"; bkw "AFTER"; all [bkw "INSTEAD"; g_bws; bkw "OF"]].
Definition g_for : re :=
  all [kw "FOR"; g_ws; opt (Seq (kw "EACH") g_ws); Alt (kw_act "RO" TgEachRow "W") (kw "STATEMENT")].
Definition g_execute : re :=
  all [kw "EXECUTE"; g_ws; Alt (kw "FUNCTION") (kw "PROCEDURE"); g_ws;
       Seq (Seq g_ident (Act TgFunction)) (Seq (Seq (one "(") (one ")")) g_ows)].
Definition g_rest : re := Seq (opt (Seq g_ws g_for)) (Seq g_ws g_execute).
Definition g_space_deferrable : re := Seq (Act TgDeferrable) (Cls c_space).
Definition g_trigger_tail : re :=
  any_of [Seq (all [g_ws; kw "NOT"; g_ws; kw "DEFERRABLE"]) g_rest;
          g_rest;
          Seq (all [g_ws; kw "DEFERRABLE"; Seq g_space_deferrable (plus g_space_deferrable)])
            (Seq (opt (Seq g_for g_ws)) g_execute);
          Seq (all [g_ws; kw "DEFERRABLE"; plus g_space_deferrable]) (Seq (g_initially TgDeferred) g_rest);
          Seq (Seq g_ws (g_initially TgDeferred)) g_rest].
Definition g_trigger : re :=
  all [all [g_ows; kw "CREATE"; g_ws;
            Seq (opt (Seq (kw_act "CONSTRAIN" TgConstraint "T") g_ws)) (all [kw "TRIGGER"; g_ws])];
       Seq (Seq g_ident (Act TgName)) g_ws;
       Seq (Seq g_when (Act TgWhen)) g_ws;
       Seq (Seq g_event (Star (all [g_ws; kw "OR"; g_ws; g_event]))) (all [g_ws; kw "ON"; g_ws]);
       Seq g_ident (Act TgTable);
       g_trigger_tail].

(** check_parser.rl:30-41, the language alone. *)
Definition g_check_suffix : re :=
  any_of [Eps;
          all [g_ws; kw "NOT"; g_ws; kw "DEFERRABLE"];
          all [g_ws; opt (Seq (kw "DEFERRABLE") g_ws);
               opt (all [kw "INITIALLY"; g_ws; Alt (kw "IMMEDIATE") (kw "DEFERRED")])]].
Definition g_any : re := Star (Cls c_any).
Definition g_open : list re := [g_ows; kw "CHECK"; g_ows; one "("].
Definition g_check : re := all (g_open ++ [g_any; one ")"; g_check_suffix; g_ows]).
(** The marks, as far as the text has been read. *)
Definition g_mark : re := Alt (Cls c_not_close) (Seq (Act SetMark2) (one ")")).
Definition g_marks : re := all (g_open ++ [opt (all [Act SetMark1; g_mark; Star g_mark])]).
(** The texts after which a flag is set. *)
Definition g_deferrable : re :=
  all (g_open ++ [g_any; one ")"; g_ws; kw "DEFERRABLE"; Cls c_space; g_any]).
Definition g_deferred : re :=
  all (g_open ++ [g_any; one ")"; g_ws; opt (Seq (kw "DEFERRABLE") g_ws); kw "INITIALLY"; g_ws;
    kw "DEFERRED"; g_any]).
Definition check_final_td : transducer := Transducer N
  (λ q c, match step check_machine q c with Some (_, q) => Some ([], q) | None => None end)
  (λ q, if (q <? 56)%N then None else Some []).
Definition is_mark (a : action) : bool := match a with SetMark1 | SetMark2 => true | _ => false end.
Definition check_marks_td : transducer := Transducer N
  (λ q c, match step check_machine q c with Some (n, q) => Some (List.filter is_mark n, q) | None => None end)
  (λ q, if (q <? 7)%N then None else Some []).
Definition check_flag_td (a : action) : transducer := Transducer (N * bool)
  (λ '(q, b) c, match step check_machine q c with
     | Some (n, q) => Some ([], (q, b || existsb (act_eqb a) n)) | None => None end)
  (λ '(q, b), if (b : bool) then Some [] else None).
Definition nb_eqb (x y : N * bool) : bool := N.eqb x.1 y.1 && Bool.eqb x.2 y.2.
