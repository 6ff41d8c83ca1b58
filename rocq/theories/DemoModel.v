(** Model of internal/runbook/demo: the tasks of the demo target.  The taskset
    version (internal/taskset/demo/rev.go:17-28, rot13.go:17-35, echo.go, fail.go,
    sleep.go) runs the same statements while holding a mutex. *)
From Coq Require Import String Ascii.
From stdpp Require Import list strings numbers.
From Verif Require Import GoUtf8.
Local Open Scope Z_scope.

(** tasks.go:47-51: the loop of Rev.munge from index [i], [k] iterations to go. *)
Fixpoint rev_loop (k i : nat) (runes : list Z) : list Z :=
  match k with
  | O => runes
  | S k =>
      let j := (length runes - i - 1)%nat in
      match runes !! i, runes !! j with
      | Some x, Some y => rev_loop k (S i) (<[j := x]> (<[i := y]> runes))
      | _, _ => runes
      end
  end.
(** tasks.go:45-54. *)
Definition munge_rev (s : string) : string :=
  let runes := runes_of s in of_runes (rev_loop (length runes / 2) 0 runes).

(** tasks.go:69-78: one rune in Rot13.munge. *)
Definition rot13_rune (r : Z) : Z :=
  if bool_decide (97 ≤ r ∧ r ≤ 109) then r + 13
  else if bool_decide (110 ≤ r ∧ r ≤ 122) then r - 13
  else if bool_decide (65 ≤ r ∧ r ≤ 77) then r + 13
  else if bool_decide (78 ≤ r ∧ r ≤ 90) then r - 13
  else r.
(** tasks.go:66-82. *)
Definition munge_rot13 (s : string) : string := of_runes (rot13_rune <$> runes_of s).

(** tasks.go:12,27,43,64,92. *)
Inductive demo_task := Echo | Fail | Rev | Rot13 | Sleep (seconds : Z).

(** A demo target: its String field and what was written to stdout (demo.go:19-23).
    Writing is assumed to succeed. *)
Record demo_target := DemoTarget { d_string : string; d_stdout : string }.

(** tasks.go:14-17,31-33,45-54,66-82,96-101 (munge).  The second component tells
    whether munge returned nil.  Time is not modelled. *)
Definition munge (x : demo_task) (t : demo_target) : demo_target * bool :=
  match x with
  | Echo => (DemoTarget (d_string t) (d_stdout t +:+ d_string t +:+ String (of_byte 10) ""), true)
  | Fail => (t, false)
  | Rev => (DemoTarget (munge_rev (d_string t)) (d_stdout t), true)
  | Rot13 => (DemoTarget (munge_rot13 (d_string t)) (d_stdout t), true)
  | Sleep _ => (t, true)
  end.
(** Tasks handled one after the other by one target (demo.go:48-53). *)
Definition munge_all (l : list demo_task) (t : demo_target) : demo_target :=
  foldl (λ t x, (munge x t).1) t l.

(** tasks.go:104-109: Sleep.Check. *)
Definition sleep_check (seconds : Z) : Z := if bool_decide (seconds < 1) then 1 else seconds.
