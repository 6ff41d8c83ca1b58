(** Lemmas about GoBase: strings are totally ordered, sorting is canonical. *)
From Coq Require Import String Ascii.
From stdpp Require Import gmap sets list strings sorting.
From Verif Require Import GoBase.

Lemma ascii_compare_refl a : Ascii.compare a a = Eq.
Proof. unfold Ascii.compare. apply N.compare_refl. Qed.

Lemma str_compare_refl s : String.compare s s = Eq.
Proof. induction s as [|a s IH]; simpl; [done|]. by rewrite ascii_compare_refl. Qed.

Lemma str_le_cons a s b t :
  str_le (String a s) (String b t) ↔
  (N_of_ascii a < N_of_ascii b)%N ∨ (a = b ∧ str_le s t).
Proof.
  unfold str_le, String.leb. simpl. unfold Ascii.compare.
  destruct (N.compare_spec (N_of_ascii a) (N_of_ascii b)) as [H|H|H].
  - assert (a = b) as <-.
    { rewrite <-(ascii_N_embedding a), <-(ascii_N_embedding b). by f_equal. }
    split; [by right|]. intros [?|[_ ?]]; [lia|done].
  - split; [by left|done].
  - split; [done|]. intros [?|[<- ?]]; lia.
Qed.

Global Instance str_le_refl : Reflexive str_le.
Proof. intros s. unfold str_le, String.leb. by rewrite str_compare_refl. Qed.

Global Instance str_le_trans : Transitive str_le.
Proof.
  intros x. induction x as [|a x IH]; intros [|b y] [|c z]; try done.
  rewrite !str_le_cons. intros [H1|[-> H1]] [H2|[-> H2]].
  - left; lia.
  - by left.
  - by left.
  - right. split; [done|]. by eapply IH.
Qed.

Global Instance str_le_antisym : AntiSymm (=) str_le.
Proof. intros x y. apply String.leb_antisym. Qed.

Global Instance str_le_total : Total str_le.
Proof. intros x y. apply String.leb_total. Qed.

Lemma sort_strings_perm l : sort_strings l ≡ₚ l.
Proof. apply merge_sort_Permutation. Qed.

Lemma sort_strings_sorted l : Sorted str_le (sort_strings l).
Proof. apply Sorted_merge_sort, _. Qed.

(** Sorting is canonical: any sorted permutation of the input is the result. *)
Lemma sort_strings_canonical l l' :
  Sorted str_le l' → l' ≡ₚ l → l' = sort_strings l.
Proof.
  intros Hs Hp. apply (Sorted_unique str_le); [done|apply sort_strings_sorted|].
  by rewrite sort_strings_perm.
Qed.

Lemma sort_strings_perm_eq l l' : l ≡ₚ l' → sort_strings l = sort_strings l'.
Proof.
  intros Hp. apply sort_strings_canonical; [apply sort_strings_sorted|].
  by rewrite sort_strings_perm.
Qed.

Lemma elem_of_sort_strings x l : x ∈ sort_strings l ↔ x ∈ l.
Proof. by rewrite sort_strings_perm. Qed.

Lemma range_of_elem {A} (m : gmap string A) l x : range_of m l → x ∈ l ↔ x ∈ dom m.
Proof. unfold range_of. intros ->. by rewrite elem_of_elements. Qed.

Lemma range_of_NoDup {A} (m : gmap string A) l : range_of m l → NoDup l.
Proof. unfold range_of. intros ->. apply NoDup_elements. Qed.

Lemma range_of_set_elem X l x : range_of_set X l → x ∈ l ↔ x ∈ X.
Proof. unfold range_of_set. intros ->. by rewrite elem_of_elements. Qed.

Lemma range_of_set_NoDup X l : range_of_set X l → NoDup l.
Proof. unfold range_of_set. intros ->. apply NoDup_elements. Qed.

Lemma range_of_length {A} (m : gmap string A) l : range_of m l → length l = size (dom m).
Proof. unfold range_of. intros ->. done. Qed.
