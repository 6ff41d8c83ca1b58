(** What a line with words "@FILE" should mean. *)
From Coq Require Import String Ascii.
From stdpp Require Import gmap list strings.
From Verif Require Import GoBase GoStrings.

Definition line_end : string := String "010" "".
(** The lines of a text, each with its end; the last one may have none, and an end of a line
    may be preceded by a carriage return. *)
Definition trimmed (l x : string) : Prop := l = x +:+ String "013" "" ∨ (l = x ∧ ∀ y, l ≠ y +:+ String "013" "").
Inductive has_lines : string → list string → Prop :=
| lines_none : has_lines "" []
| lines_last l x : l ≠ "" → ¬ has_byte "010" l → trimmed l x → has_lines l [x]
| lines_next l x s xs : ¬ has_byte "010" l → trimmed l x → has_lines s xs → has_lines (l +:+ line_end +:+ s) (x :: xs).
(** The words in a file: its lines but the comments. *)
Inductive comments_out : list string → list string → Prop :=
| out_none : comments_out [] []
| out_comment l ls ws : begins_with "#" l → comments_out ls ws → comments_out (l :: ls) ws
| out_word l ls ws : ¬ begins_with "#" l → comments_out ls ws → comments_out (l :: ls) (l :: ws).
Definition words_in (text : string) (ws : list string) : Prop := ∃ ls, has_lines text ls ∧ comments_out ls ws.
(** The line with the words of the files in place of the words "@FILE"; behind "--" nothing is
    replaced, and the name of a file that cannot be read is left (and will be refused). *)
Inductive expands (files : string → option string) : list string → list string → Prop :=
| expands_end : expands files [] []
| expands_stop ws : expands files ("--" :: ws) ("--" :: ws)
| expands_word w ws ws' : w ≠ "--" → ¬ begins_with "@" w → expands files ws ws' → expands files (w :: ws) (w :: ws')
| expands_bad name ws ws' : name = "" ∨ files name = None → expands files ws ws' →
    expands files (("@" +:+ name) :: ws) (("@" +:+ name) :: ws')
| expands_file name text us ws ws' : name ≠ "" → files name = Some text → words_in text us →
    expands files (us ++ ws) ws' → expands files (("@" +:+ name) :: ws) ws'.
(** A word like "-v-" would be taken for "-v --". *)
Definition dash_behind (w : string) : Prop := ∃ c r, w = "-" +:+ String c r +:+ "-" ∧ c ≠ "-"%char.
