(** Properties C33, C34 and C63: the demo tasks. *)
From Coq Require Import String Ascii.
From stdpp Require Import list strings numbers.
From Verif Require Import GoUtf8 GoUtf8Proofs DemoModel DemoSpec DemoProofs.
Local Open Scope Z_scope.

(** "Ab" followed by é, the euro sign and an emoji (2, 3 and 4 bytes). *)
Definition ex_chars : list Z := [65; 98; 0xE9; 0x20AC; 0x1F600].
Lemma ex_chars_scalar : Forall scalar ex_chars.
Proof. repeat constructor; unfold scalar; lia. Qed.
Example ex_chars_bytes : String.length (text ex_chars) = 11%nat.
Proof. by vm_compute. Qed.
(** "a", a lone continuation byte, "b". *)
Definition ex_invalid : string := String (of_byte 97) (String (of_byte 0x80) (String (of_byte 98) "")).

(** C33 *)
Theorem demo_involutions s :
  (valid_utf8 s → munge_rev (munge_rev s) = s ∧ munge_rot13 (munge_rot13 s) = s) ∧
  munge_rev (munge_rev (munge_rev s)) = munge_rev s ∧
  munge_rot13 (munge_rot13 (munge_rot13 s)) = munge_rot13 s.
Proof.
  split; [|split].
  - intros Hv. by rewrite rev_rev, rot13_rot13, valid_utf8_runes.
  - rewrite rev_rev. apply valid_utf8_runes, rev_valid.
  - rewrite rot13_rot13. apply valid_utf8_runes, rot13_valid.
Qed.
Print Assumptions demo_involutions.
Theorem demo_involutions_refuted : ∃ s,
  munge_rev (munge_rev s) ≠ s ∧ munge_rot13 (munge_rot13 s) ≠ s.
Proof. exists ex_invalid. split; by vm_compute. Qed.
Print Assumptions demo_involutions_refuted.
Example demo_involutions_example : valid_utf8 (text ex_chars) ∧ munge_rev (text ex_chars) ≠ text ex_chars.
Proof. split; [exists ex_chars; split; [exact ex_chars_scalar|done]|by vm_compute]. Qed.

(** C34 *)
Theorem demo_commute l l' t :
  Forall not_echo l → l ≡ₚ l' → munge_all l t = munge_all l' t.
Proof. apply munge_all_perm. Qed.
Print Assumptions demo_commute.
Example demo_commute_example :
  Forall not_echo [Rev; Rot13; Rev; Sleep 1] ∧ [Rev; Rot13; Rev; Sleep 1] ≡ₚ [Rot13; Sleep 1; Rev; Rev] ∧
  d_string (munge_all [Rev; Rot13; Rev; Sleep 1] (DemoTarget "Spoon!" "")) = "Fcbba!".
Proof. split; [by repeat constructor|]. split; [|by vm_compute]. solve_Permutation. Qed.

(** C63 *)
Theorem demo_characters l :
  Forall scalar l →
  munge_rev (text l) = text (reverse l) ∧ munge_rot13 (text l) = text (rotated <$> l).
Proof. intros H. split; [by apply rev_text|by apply rot13_text]. Qed.
Print Assumptions demo_characters.
Theorem demo_valid_output s :
  valid_utf8 (munge_rev s) ∧ valid_utf8 (munge_rot13 s) ∧
  length (runes_of (munge_rev s)) = length (runes_of s) ∧
  length (runes_of (munge_rot13 s)) = length (runes_of s).
Proof.
  split; [apply rev_valid|]. split; [apply rot13_valid|].
  rewrite runes_rev, runes_rot13, reverse_length, fmap_length. done.
Qed.
Print Assumptions demo_valid_output.
Example demo_characters_example :
  Forall scalar ex_chars ∧ rotated <$> ex_chars = [78; 111; 0xE9; 0x20AC; 0x1F600].
Proof. split; [exact ex_chars_scalar|by vm_compute]. Qed.

(** C79 *)
Theorem demo_sequence l chars out :
  Forall scalar chars →
  munge_all l (DemoTarget (text chars) out) =
  DemoTarget (text (effect l chars)) (out +:+ printed (echo_lines l chars)).
Proof. apply munge_all_text. Qed.
Print Assumptions demo_sequence.
Theorem demo_only_fail_fails x t :
  ((munge x t).2 = false ↔ x = Fail) ∧ (x = Fail → (munge x t).1 = t).
Proof. destruct x; simpl; naive_solver. Qed.
Print Assumptions demo_only_fail_fails.
Example demo_sequence_example :
  Forall scalar [33; 97; 98] ∧
  munge_all [Echo; Rev; Sleep 2; Rot13; Echo; Rev; Rev] (DemoTarget (text [33; 97; 98]) "") =
  DemoTarget "on!" (text [33; 97; 98; 10; 111; 110; 33; 10]).
Proof. split; [repeat constructor; unfold scalar; lia|by vm_compute]. Qed.
