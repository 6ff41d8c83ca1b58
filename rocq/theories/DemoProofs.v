(** Proofs about the demo tasks. *)
From Coq Require Import String Ascii.
From stdpp Require Import list list_numbers strings numbers.
From Verif Require Import GoStringsProofs GoUtf8 GoUtf8Proofs DemoModel DemoSpec.
Local Open Scope Z_scope.

Lemma rev_loop_lookup k i l m :
  (i + k ≤ length l / 2)%nat →
  length (rev_loop k i l) = length l ∧
  ((m < length l)%nat → rev_loop k i l !! m =
    if decide ((i ≤ m < i + k)%nat ∨ (i ≤ length l - 1 - m < i + k)%nat)
    then l !! (length l - 1 - m)%nat else l !! m).
Proof.
  revert i l. induction k as [|k IH]; intros i l Hle; simpl.
  { split; [done|]. intros _. rewrite decide_False by lia. done. }
  assert (length l / 2 * 2 ≤ length l)%nat as Hhalf.
  { pose proof (Nat.div_mod (length l) 2). lia. }
  destruct (lookup_lt_is_Some_2 l i ltac:(lia)) as [x Hx].
  destruct (lookup_lt_is_Some_2 l (length l - i - 1)%nat ltac:(lia)) as [y Hy].
  rewrite Hx, Hy. set (l' := <[_:=x]> (<[i:=y]> l)).
  assert (length l' = length l) as Hl' by (unfold l'; by rewrite !insert_length).
  destruct (IH (S i) l' ltac:(rewrite Hl'; lia)) as [IH1 IH2]. rewrite Hl' in IH1, IH2.
  split; [done|]. intros Hm. rewrite IH2 by done. clear IH IH1 IH2.
  assert (∀ p, (p < length l)%nat → l' !! p =
    if decide (p = i ∨ p = length l - i - 1)%nat then l !! (length l - 1 - p)%nat else l !! p) as Hl2.
  { intros p Hp. unfold l'. destruct (decide (p = length l - i - 1)%nat) as [->|Hn].
    - rewrite list_lookup_insert by (rewrite insert_length; lia).
      rewrite decide_True by lia. by replace (length l - 1 - (length l - i - 1))%nat with i by lia.
    - rewrite list_lookup_insert_ne by lia. destruct (decide (p = i)) as [->|Hn'].
      + rewrite list_lookup_insert by lia. rewrite decide_True by lia.
        by replace (length l - 1 - i)%nat with (length l - i - 1)%nat by lia.
      + rewrite list_lookup_insert_ne by lia. by rewrite decide_False by lia. }
  destruct (decide ((S i ≤ m < S i + k)%nat ∨ (S i ≤ length l - 1 - m < S i + k)%nat)) as [H1|H1].
  - rewrite Hl2 by lia. rewrite decide_False by lia. by rewrite decide_True by lia.
  - rewrite Hl2 by lia. destruct (decide (m = i ∨ m = length l - i - 1)%nat) as [H2|H2].
    + by rewrite decide_True by lia.
    + by rewrite decide_False by lia.
Qed.
Lemma rev_loop_reverse l : rev_loop (length l / 2) 0 l = reverse l.
Proof.
  apply list_eq. intros m.
  destruct (rev_loop_lookup (length l / 2) 0 l m ltac:(lia)) as [Hlen Hlk].
  destruct (decide (m < length l)%nat) as [Hm|Hm].
  - rewrite Hlk by done. rewrite reverse_lookup by done.
    pose proof (Nat.div_mod (length l) 2). pose proof (Nat.mod_upper_bound (length l) 2).
    case_decide as Hd; [f_equal; lia|]. f_equal. lia.
  - rewrite !lookup_ge_None_2; [done|rewrite reverse_length; lia|lia].
Qed.
Lemma munge_rev_eq s : munge_rev s = of_runes (reverse (runes_of s)).
Proof. unfold munge_rev. by rewrite rev_loop_reverse. Qed.

Lemma rot13_rune_eq r : rot13_rune r = rotated r.
Proof.
  unfold rot13_rune, rotated.
  destruct (decide (97 ≤ r < 97 + 26)) as [H|H]; [|destruct (decide (65 ≤ r < 65 + 26)) as [H'|H']].
  - repeat case_bool_decide; lia.
  - repeat case_bool_decide; lia.
  - repeat case_bool_decide; lia.
Qed.
Lemma rot13_rune_invol r : rot13_rune (rot13_rune r) = r.
Proof. unfold rot13_rune. repeat case_bool_decide; lia. Qed.
Lemma rot13_rune_scalar r : scalar r → scalar (rot13_rune r).
Proof. unfold scalar, rot13_rune. repeat case_bool_decide; lia. Qed.
Lemma rot13_list_scalar l : Forall scalar l → Forall scalar (rot13_rune <$> l).
Proof. induction 1; constructor; [by apply rot13_rune_scalar|done]. Qed.
Lemma reverse_scalar l : Forall scalar l → Forall scalar (reverse l).
Proof. by rewrite Forall_reverse. Qed.

Lemma runes_of_runes l : Forall scalar l → runes_of (of_runes l) = l.
Proof. intros H. rewrite of_runes_text by done. by apply runes_of_text. Qed.

Lemma runes_rev s : runes_of (munge_rev s) = reverse (runes_of s).
Proof. rewrite munge_rev_eq. apply runes_of_runes, reverse_scalar, runes_of_scalar. Qed.
Lemma runes_rot13 s : runes_of (munge_rot13 s) = rot13_rune <$> runes_of s.
Proof. apply runes_of_runes, rot13_list_scalar, runes_of_scalar. Qed.
Lemma rev_valid s : valid_utf8 (munge_rev s).
Proof. rewrite munge_rev_eq. apply valid_utf8_of_runes. Qed.
Lemma rot13_valid s : valid_utf8 (munge_rot13 s).
Proof. apply valid_utf8_of_runes. Qed.

Lemma rev_rev s : munge_rev (munge_rev s) = of_runes (runes_of s).
Proof. by rewrite munge_rev_eq, runes_rev, reverse_involutive. Qed.
Lemma rot13_rot13 s : munge_rot13 (munge_rot13 s) = of_runes (runes_of s).
Proof.
  unfold munge_rot13 at 1. rewrite runes_rot13. f_equal. rewrite <-list_fmap_compose.
  rewrite <-(list_fmap_id (runes_of s)) at 2. apply list_fmap_ext. intros _ x _. apply rot13_rune_invol.
Qed.
Lemma rev_rot13 s : munge_rev (munge_rot13 s) = munge_rot13 (munge_rev s).
Proof.
  rewrite munge_rev_eq, runes_rot13. unfold munge_rot13. rewrite runes_rev. by rewrite fmap_reverse.
Qed.

Lemma munge_comm x y t :
  not_echo x → not_echo y → (munge x (munge y t).1).1 = (munge y (munge x t).1).1.
Proof. intros Hx Hy. destruct x, y; try done; simpl; by rewrite rev_rot13. Qed.
Lemma munge_all_perm l l' t : Forall not_echo l → l ≡ₚ l' → munge_all l t = munge_all l' t.
Proof.
  intros Hne Hp. revert t Hne. induction Hp as [|x l l' Hp IH|x y l|l1 l2 l3 H1 IH1 H2 IH2]; intros t Hne.
  - done.
  - apply Forall_cons_1 in Hne as [_ Hne]. by apply IH.
  - apply Forall_cons_1 in Hne as [Hy [Hx _]%Forall_cons_1]. unfold munge_all. simpl.
    by rewrite munge_comm.
  - rewrite IH1 by done. apply IH2. by rewrite <-H1.
Qed.

Lemma rev_text l : Forall scalar l → munge_rev (text l) = text (reverse l).
Proof. intros H. rewrite munge_rev_eq, runes_of_text by done. by apply of_runes_text, reverse_scalar. Qed.
Lemma rot13_text l : Forall scalar l → munge_rot13 (text l) = text (rotated <$> l).
Proof.
  intros H. unfold munge_rot13. rewrite runes_of_text by done.
  rewrite of_runes_text by by apply rot13_list_scalar. f_equal. apply list_fmap_ext.
  intros _ x _. apply rot13_rune_eq.
Qed.

Lemma rotated_invol r : rotated (rotated r) = r.
Proof. rewrite <-!rot13_rune_eq. apply rot13_rune_invol. Qed.
Lemma rotated_list_invol (l : list Z) : rotated <$> (rotated <$> l) = l.
Proof.
  rewrite <-list_fmap_compose. rewrite <-(list_fmap_id l) at 2. apply list_fmap_ext.
  intros _ x _. apply rotated_invol.
Qed.
Lemma times_snoc x l y : times x (l ++ [y]) = (times x l + if decide (y = x) then 1 else 0)%nat.
Proof.
  unfold times. rewrite list.filter_app, app_length. f_equal. rewrite filter_cons, filter_nil.
  by case_decide.
Qed.
Lemma effect_snoc l x cs : effect (l ++ [x]) cs =
  match x with
  | Rev => reverse (effect l cs)
  | Rot13 => rotated <$> effect l cs
  | _ => effect l cs
  end.
Proof.
  unfold effect. rewrite !times_snoc. destruct x;
    rewrite ?(decide_True (P := Rev = Rev)), ?(decide_True (P := Rot13 = Rot13)) by done;
    rewrite ?decide_False by done; rewrite ?Nat.add_0_r, ?Nat.add_1_r; try done.
  - rewrite Nat.odd_succ, <-Nat.negb_odd. destruct (Nat.odd (times Rev l)); simpl; [|done].
    by rewrite reverse_involutive.
  - rewrite Nat.odd_succ, <-Nat.negb_odd. destruct (Nat.odd (times Rot13 l)), (Nat.odd (times Rev l)); simpl;
      rewrite ?fmap_reverse, ?rotated_list_invol; done.
Qed.
Lemma effect_scalar l cs : Forall scalar cs → Forall scalar (effect l cs).
Proof.
  intros H. induction l as [|x l IH] using rev_ind; [done|]. rewrite effect_snoc.
  destruct x; try done; [by apply reverse_scalar|].
  replace (rotated <$> effect l cs) with (rot13_rune <$> effect l cs); [by apply rot13_list_scalar|].
  apply list_fmap_ext. intros _ r _. apply rot13_rune_eq.
Qed.
Lemma echo_lines_snoc l x cs : echo_lines (l ++ [x]) cs =
  echo_lines l cs ++ match x with Echo => [effect l cs] | _ => [] end.
Proof.
  unfold echo_lines. rewrite app_length, seq_app, omap_app. f_equal.
  - apply list_omap_ext. apply Forall2_same_length_lookup_2; [done|].
    intros i y z Hy Hz. rewrite Hy in Hz. injection Hz as <-.
    apply lookup_seq in Hy as [-> Hi]. simpl.
    rewrite lookup_app_l by done. by rewrite take_app_le by lia.
  - simpl. rewrite lookup_app_r by lia. rewrite Nat.sub_diag. simpl.
    destruct x; try done. by rewrite take_app.
Qed.
Lemma printed_snoc ls cs : printed (ls ++ [cs]) = printed ls +:+ text cs +:+ String (of_byte 10) "".
Proof.
  unfold printed. induction ls as [|l ls IH]; [done|].
  change (foldr ?f ?e ((l :: ls) ++ [cs])) with (f l (foldr f e (ls ++ [cs]))). cbv beta.
  rewrite IH. cbn [foldr]. rewrite <-app_str_assoc, app_str_cons. done.
Qed.
Lemma munge_all_text l cs out : Forall scalar cs →
  munge_all l (DemoTarget (text cs) out) =
  DemoTarget (text (effect l cs)) (out +:+ printed (echo_lines l cs)).
Proof.
  intros H. induction l as [|x l IH] using rev_ind.
  { unfold munge_all, echo_lines. simpl. by rewrite app_str_nil_r. }
  unfold munge_all in *. rewrite foldl_app. cbn [foldl]. rewrite IH.
  rewrite effect_snoc, echo_lines_snoc. pose proof (effect_scalar l cs H) as Hs.
  destruct x; simpl; rewrite ?app_nil_r, ?rev_text, ?rot13_text by done; try done.
  by rewrite printed_snoc, <-(app_str_assoc out).
Qed.
