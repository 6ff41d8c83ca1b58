(** The code ragel generates (option -G2, Go): an interpreter for the tables in
    MachineTables.v.  Used by the four parsers in ParseModel.v. *)
From Coq Require Import String Ascii.
From stdpp Require Import list strings numbers.
From Verif Require Import GoStrings GoUtf8.
Local Open Scope Z_scope.

(** The actions of the four grammars: check_parser.rl:20-28, foreign_key_parser.rl:22-53,
    index_parser.rl:21-54 and trigger_parser.rl:21-55.  In the generated code an
    action is its Go statements, in line. *)
Inductive action :=
  | AddToBuffer
  | SetMark1 | SetMark2 | CheckDeferrable | CheckDeferred
  | FkColumn | FkReferenced | FkMatch | FkOnDelete | FkOnUpdate | FkTable | FkDeferrable | FkDeferred
  | IxColumn | IxExpression | IxName | IxOpClass | IxTable | IxUsing | IxWhere | IxUnique
  | TgColumn | TgFunction | TgName | TgTable | TgWhen | TgConstraint | TgDeferrable | TgDeferred
  | TgEachRow | TgDelete | TgInsert | TgTruncate | TgUpdate.

(** A goto to stN or to trN. *)
Inductive label := ToState (n : N) | ToTr (n : N).
(** The statements of st_case_N: tests of data[p] against a range, ending in gotos
    (a switch is the sequence of its tests, see tools/ragel2coq.py). *)
Inductive tree := Goto (l : label) | If (lo hi : Z) (yes no : tree).
(** One generated function: states, tr labels (actions, target), actions at the
    end of the input, and the first final state.  The start state is 1 and the
    error state 0 in all four. *)
Record machine := Machine {
  ma_states : list (N * tree);
  ma_trs : list (N * (list action * N));
  ma_eof : list (N * list action);
  ma_final : N }.

Fixpoint find {A} (n : N) (l : list (N * A)) : option A :=
  match l with
  | [] => None
  | (m, a) :: l => if N.eqb n m then Some a else find n l
  end.
Fixpoint decision (c : Z) (t : tree) : label :=
  match t with
  | Goto l => l
  | If lo hi yes no => if (lo <=? c) && (c <=? hi) then decision c yes else decision c no
  end.
(** From st_case_q with data[p] = c to the next st label: the actions on the way and
    the state.  [None]: to st0, the error state.  (A state or tr label that does not
    exist would be an error of the Go compiler; here it counts as st0.) *)
Definition step (m : machine) (q : N) (c : Z) : option (list action * N) :=
  match find q (ma_states m) with
  | None => None
  | Some t =>
      match decision c t with
      | ToState n => if N.eqb n 0 then None else Some ([], n)
      | ToTr k =>
          match find k (ma_trs m) with
          | Some (acts, n) => if N.eqb n 0 then None else Some (acts, n)
          | None => None
          end
      end
  end.
(** The switch at _test_eof. *)
Definition at_eof (m : machine) (q : N) : list action :=
  match find q (ma_eof m) with Some acts => acts | None => [] end.

(** How a parse ends: with a result, with a parse error (carrying cs), or with a
    run-time panic. *)
Inductive outcome (A : Type) := Parsed (a : A) | ParseError (cs : N) | Crash.
Arguments Parsed {A} a. Arguments ParseError {A} cs. Arguments Crash {A}.

(** What an action does to the local variables, given data[p] (absent at the end
    of the input) and p; [None]: a panic. *)
Definition semantics (M : Type) := action → option ascii → Z → M → option M.
Fixpoint do_all {M} (act : semantics M) (l : list action) (c : option ascii) (p : Z) (mem : M) : option M :=
  match l with
  | [] => Some mem
  | a :: l => match act a c p mem with Some mem => do_all act l c p mem | None => None end
  end.
(** The generated function from st_case_q on: *)
Fixpoint run {M} (m : machine) (act : semantics M) (q : N) (p : Z) (mem : M) (data : string) : outcome M :=
  match data with
  | "" =>
      match do_all act (at_eof m q) None p mem with
      | Some mem => if (q <? ma_final m)%N then ParseError q else Parsed mem
      | None => Crash
      end
  | String c data =>
      match step m q (byte_of c) with
      | None => ParseError 0
      | Some (acts, q') =>
          match do_all act acts (Some c) p mem with
          | Some mem => run m act q' (p + 1) mem data
          | None => Crash
          end
      end
  end.
