(** Go's strings package, as far as the modelled code uses it.  A Go string is a
    sequence of bytes; here a Coq [string] (one [ascii] per byte). *)
From Coq Require Import String Ascii.
From stdpp Require Import list strings.

(** strings.Index(s, sep) for a one byte separator: offset of its first
    occurrence.  [None] stands for -1. *)
Fixpoint index_byte (c : ascii) (s : string) : option nat :=
  match s with
  | "" => None
  | String d s => if decide (d = c) then Some 0 else S <$> index_byte c s
  end.
(** s[:n] and s[n:] for n <= len(s). *)
Fixpoint str_take (n : nat) (s : string) : string :=
  match n, s with S n, String d s => String d (str_take n s) | _, _ => "" end.
Fixpoint str_drop (n : nat) (s : string) : string :=
  match n, s with S n, String _ s => str_drop n s | _, _ => s end.
(** strings.Contains(s, sep) for a one byte separator. *)
Definition contains_byte (c : ascii) (s : string) : bool :=
  match index_byte c s with Some _ => true | None => false end.
(** strings.HasPrefix(s, p). *)
Definition has_prefix (s p : string) : bool := String.prefix p s.

(** Specification side: a byte occurs in a string. *)
Definition has_byte (c : ascii) (s : string) : Prop := ∃ a b, s = a +:+ String c b.
(** Specification side: [s] begins with [p]. *)
Definition begins_with (p s : string) : Prop := ∃ r, s = p +:+ r.
