(** What a file of tasks says. *)
From Coq Require Import String Ascii.
From stdpp Require Import gmap list strings numbers.
From Verif Require Import HclModel HclSpec DemoModel TasksetModel ParserSpec TasksetSpec.
Local Open Scope Z_scope.

(** The attributes that every task may have. *)
Definition every_task : list string := ["target"; "after"; "provides"; "requires"].
(** The last of the blocks with the same key. *)
Definition last_with {K} (key : block → K) (l : list block) (x : block) : Prop :=
  ∃ l1 l2, l = l1 ++ x :: l2 ∧ ∀ y, y ∈ l2 → key y ≠ key x.
Inductive demo_kind : string → demo_task → Prop :=
  | kind_echo : demo_kind "echo" Echo
  | kind_fail : demo_kind "fail" Fail
  | kind_rev : demo_kind "rev" Rev
  | kind_rot13 : demo_kind "rot13" Rot13
  | kind_sleep : demo_kind "sleep" (Sleep 0).

Section says.
  Variables (L : hcl_lib) (fs : gmap string ts_factory).

  (** A block [target "typ" "id" { … }]. *)
  Definition target_in (x : block) (typ id : string) (t : ts_target) : Prop :=
    x.1 = [typ; id] ∧ ∃ f, fs !! typ = Some f ∧
    match f, t with
    | DemoFactory, TsDemoTarget n s =>
        only x.2 ["max_concurrency"; "string"] [] ∧
        may (as_int L) 1 x.2 "max_concurrency" n ∧ must (as_text L) x.2 "string" s
    | PgFactory, TsPgTarget | ShFactory, TsShTarget => only x.2 [] []
    | _, _ => False
    end.
  (** A target of the file: the last block of its name, or a default one. *)
  Definition target_is (b : body) (typ id : string) (t : ts_target) : Prop :=
    (∃ x, last_with fst (those "target" (b_blocks b)) x ∧ target_in x typ id t) ∨
    id = "" ∧ (∀ x, x ∈ those "target" (b_blocks b) → x.1 ≠ [typ; ""]) ∧
      ∃ f, fs !! typ = Some f ∧ fresh_ts_target f t.
  (** A block [task "label" "id" { … }]. *)
  Definition task_in (b : body) (x : block) (id : string) (k : ts_settings) : Prop :=
    ∃ label typ c on t,
      x.1 = [label; id] ∧ names_target label typ c ∧ may (as_text L) "" x.2 "target" on ∧
      target_is b typ on t ∧
      (∀ n, n ∈ ["after"; "provides"; "requires"] → ∃ l, may (as_texts L) [] x.2 n l) ∧
      match t, k with
      | TsDemoTarget _ _, TsDemo d => only x.2 every_task [] ∧ demo_kind c d
      | TsPgTarget, TsPg sql => only x.2 ("sql" :: every_task) [] ∧ must (as_text L) x.2 "sql" sql
      | TsShTarget, TsSh args => only x.2 ("args" :: every_task) [] ∧ must (as_texts L) x.2 "args" args
      | _, _ => False
      end.
  (** The whole file. *)
  Definition task_file_says (b : body) (ts : gmap string (gmap string ts_target)) (tasks : gmap string ts_task) : Prop :=
    only b [] ["target"; "task"] ∧
    (∀ x, x ∈ those "target" (b_blocks b) → ∃ typ id t, target_in x typ id t) ∧
    (∀ x, x ∈ those "task" (b_blocks b) → ∃ id k, task_in b x id k) ∧
    (∀ typ, is_Some (ts !! typ) ↔ is_Some (fs !! typ)) ∧
    (∀ typ id t, (∃ g, ts !! typ = Some g ∧ g !! id = Some t) ↔ target_is b typ id t) ∧
    (∀ id x, tasks !! id = Some x ↔
       ∃ y k, last_with (λ y, y.1 !! 1%nat) (those "task" (b_blocks b)) y ∧ task_in b y id k ∧
         x = TsTask (BaseTask [] [] []) k).
End says.
