(** ROT-13 as an operation on the alphabet. *)
From Coq Require Import String Ascii.
From stdpp Require Import list strings numbers.
From Verif Require Import GoUtf8 DemoModel.
Local Open Scope Z_scope.

(** 97 is 'a', 65 is 'A'. *)
Definition rotated (r : Z) : Z :=
  if decide (97 ≤ r < 97 + 26) then 97 + (r - 97 + 13) mod 26
  else if decide (65 ≤ r < 65 + 26) then 65 + (r - 65 + 13) mod 26
  else r.
Definition not_echo (x : demo_task) : Prop := x ≠ Echo.

(** What a series of tasks does to the characters of a target: reversing and
    rotating an even number of times cancels out. *)
Global Instance demo_task_eq_dec : EqDecision demo_task.
Proof. solve_decision. Defined.
Definition times (x : demo_task) (l : list demo_task) : nat := length (filter (λ y, y = x) l).
Definition effect (l : list demo_task) (chars : list Z) : list Z :=
  let chars := if Nat.odd (times Rot13 l) then rotated <$> chars else chars in
  if Nat.odd (times Rev l) then reverse chars else chars.
(** The lines printed: one for each echo, showing the characters at that point. *)
Definition echo_lines (l : list demo_task) (chars : list Z) : list (list Z) :=
  omap (λ i, match l !! i with Some Echo => Some (effect (take i l) chars) | _ => None end)
    (seq 0 (length l)).
Definition printed (lines : list (list Z)) : string :=
  foldr (λ line rest, text line +:+ String (of_byte 10) rest) EmptyString lines.
