(** Go's conversions between strings (bytes) and runes, and what UTF-8 is. *)
From Coq Require Import String Ascii.
From stdpp Require Import list strings numbers.
Local Open Scope Z_scope.

Definition byte_of (a : ascii) : Z := Z.of_N (N_of_ascii a).
Definition of_byte (z : Z) : ascii := ascii_of_N (Z.to_N z).

Definition rune_error : Z := 0xFFFD.
(** Go runtime, utf8.go (decoderune): a byte of the form 10xxxxxx. *)
Definition is_cont (b : Z) : bool := bool_decide (0x80 ≤ b ≤ 0xBF).
(** utf8.go, the acceptance tests of the three multi-byte cases. *)
Definition ok2 (r : Z) : bool := bool_decide (0x7F < r).
Definition ok3 (r : Z) : bool := bool_decide (0x7FF < r) && negb (bool_decide (0xD800 ≤ r ≤ 0xDFFF)).
Definition ok4 (r : Z) : bool := bool_decide (0xFFFF < r ∧ r ≤ 0x10FFFF).
Definition val2 (a b : Z) : Z := (a mod 32) * 64 + b mod 64.
Definition val3 (a b c : Z) : Z := (a mod 16) * 4096 + (b mod 64) * 64 + c mod 64.
Definition val4 (a b c d : Z) : Z :=
  (a mod 8) * 262144 + (b mod 64) * 4096 + (c mod 64) * 64 + d mod 64.

(** [[]rune(s)]: Go runtime, string.go (stringtoslicerune) repeating decoderune.
    An invalid sequence yields U+FFFD and skips one byte. *)
Fixpoint runes_of (s : string) : list Z :=
  match s with
  | EmptyString => []
  | String a s1 =>
      let a := byte_of a in
      if bool_decide (a < 0x80) then a :: runes_of s1
      else if bool_decide (0xC0 ≤ a < 0xE0) then
        match s1 with
        | String b s2 =>
            let b := byte_of b in
            if is_cont b && ok2 (val2 a b) then val2 a b :: runes_of s2
            else rune_error :: runes_of s1
        | EmptyString => rune_error :: runes_of s1
        end
      else if bool_decide (0xE0 ≤ a < 0xF0) then
        match s1 with
        | String b (String c s3) =>
            let b := byte_of b in let c := byte_of c in
            if is_cont b && is_cont c && ok3 (val3 a b c) then val3 a b c :: runes_of s3
            else rune_error :: runes_of s1
        | _ => rune_error :: runes_of s1
        end
      else if bool_decide (0xF0 ≤ a < 0xF8) then
        match s1 with
        | String b (String c (String d s4)) =>
            let b := byte_of b in let c := byte_of c in let d := byte_of d in
            if is_cont b && is_cont c && is_cont d && ok4 (val4 a b c d)
            then val4 a b c d :: runes_of s4
            else rune_error :: runes_of s1
        | _ => rune_error :: runes_of s1
        end
      else rune_error :: runes_of s1
  end.

(** The bytes of one code point (Unicode standard, table 3-6). *)
Definition utf8 (r : Z) : string :=
  if bool_decide (r ≤ 0x7F) then String (of_byte r) ""
  else if bool_decide (r ≤ 0x7FF) then
    String (of_byte (0xC0 + r / 64)) (String (of_byte (0x80 + r mod 64)) "")
  else if bool_decide (r ≤ 0xFFFF) then
    String (of_byte (0xE0 + r / 4096)) (String (of_byte (0x80 + (r / 64) mod 64))
      (String (of_byte (0x80 + r mod 64)) ""))
  else
    String (of_byte (0xF0 + r / 262144)) (String (of_byte (0x80 + (r / 4096) mod 64))
      (String (of_byte (0x80 + (r / 64) mod 64)) (String (of_byte (0x80 + r mod 64)) ""))).

(** A Unicode scalar value. *)
Definition scalar (r : Z) : Prop := 0 ≤ r ≤ 0x10FFFF ∧ ¬ (0xD800 ≤ r ≤ 0xDFFF).
Global Instance scalar_dec r : Decision (scalar r).
Proof. unfold scalar. apply _. Defined.

(** Go runtime, utf8.go (encoderune): anything that is not a scalar value is
    written as U+FFFD. *)
Definition encode_rune (r : Z) : string := utf8 (if decide (scalar r) then r else rune_error).
(** [string(runes)]. *)
Definition of_runes (l : list Z) : string := String.concat "" (encode_rune <$> l).

(** The text made of the characters [l], in UTF-8. *)
Definition text (l : list Z) : string := String.concat "" (utf8 <$> l).
(** A string is valid UTF-8. *)
Definition valid_utf8 (s : string) : Prop := ∃ l, Forall scalar l ∧ s = text l.
