(** Lemmas about GoUtf8: decoding inverts encoding. *)
From Coq Require Import String Ascii ZifyBool.
From stdpp Require Import list strings numbers.
From Verif Require Import GoStringsProofs GoUtf8.
Local Open Scope Z_scope.
Ltac Zify.zify_post_hook ::= Z.to_euclidean_division_equations.

Lemma byte_of_range a : 0 ≤ byte_of a < 256.
Proof. unfold byte_of. pose proof (N_ascii_bounded a). lia. Qed.
Lemma byte_of_of_byte z : 0 ≤ z < 256 → byte_of (of_byte z) = z.
Proof. intros H. unfold byte_of, of_byte. rewrite N_ascii_embedding by lia. lia. Qed.

Lemma concat_cons x l : String.concat "" (x :: l) = x +:+ String.concat "" l.
Proof. destruct l; [simpl; by rewrite app_str_nil_r|done]. Qed.
Lemma text_cons r l : text (r :: l) = utf8 r +:+ text l.
Proof. unfold text. by rewrite fmap_cons, concat_cons. Qed.
Lemma text_app l l' : text (l ++ l') = text l +:+ text l'.
Proof.
  induction l as [|r l IH]; [done|]. change ((r :: l) ++ l') with (r :: (l ++ l')).
  by rewrite !text_cons, IH, app_str_assoc.
Qed.
Lemma of_runes_cons r l : of_runes (r :: l) = encode_rune r +:+ of_runes l.
Proof. unfold of_runes. by rewrite fmap_cons, concat_cons. Qed.
Lemma of_runes_text l : Forall scalar l → of_runes l = text l.
Proof.
  induction 1 as [|r l Hr _ IH]; [done|]. rewrite of_runes_cons, text_cons, IH.
  unfold encode_rune. by rewrite decide_True.
Qed.

Lemma runes_of_utf8 r s : scalar r → runes_of (utf8 r +:+ s) = r :: runes_of s.
Proof.
  intros [H1 H2]. unfold utf8. case_bool_decide as Ha; [|case_bool_decide as Hb; [|case_bool_decide as Hc]].
  - rewrite app_str_cons. change ("" +:+ s) with s. simpl. rewrite byte_of_of_byte by lia.
    by rewrite bool_decide_true by lia.
  - rewrite !app_str_cons. change ("" +:+ s) with s. simpl. rewrite !byte_of_of_byte by lia.
    rewrite bool_decide_false by lia. rewrite bool_decide_true by lia.
    unfold is_cont, ok2. rewrite bool_decide_true by lia.
    assert (val2 (192 + r / 64) (128 + r mod 64) = r) as -> by (unfold val2; lia).
    by rewrite bool_decide_true by lia.
  - rewrite !app_str_cons. change ("" +:+ s) with s. simpl. rewrite !byte_of_of_byte by lia.
    rewrite bool_decide_false by lia. rewrite bool_decide_false by lia.
    rewrite bool_decide_true by lia. unfold is_cont, ok3.
    rewrite bool_decide_true by lia. rewrite bool_decide_true by lia.
    assert (val3 (224 + r / 4096) (128 + (r / 64) mod 64) (128 + r mod 64) = r) as -> by (unfold val3; lia).
    rewrite bool_decide_true by lia. by rewrite bool_decide_false by lia.
  - rewrite !app_str_cons. change ("" +:+ s) with s. simpl. rewrite !byte_of_of_byte by lia.
    rewrite bool_decide_false by lia. rewrite bool_decide_false by lia.
    rewrite bool_decide_false by lia. rewrite bool_decide_true by lia.
    unfold is_cont, ok4.
    rewrite bool_decide_true by lia. rewrite bool_decide_true by lia. rewrite bool_decide_true by lia.
    assert (val4 (240 + r / 262144) (128 + (r / 4096) mod 64) (128 + (r / 64) mod 64) (128 + r mod 64) = r)
      as -> by (unfold val4; lia).
    by rewrite bool_decide_true by lia.
Qed.

Lemma runes_of_text l : Forall scalar l → runes_of (text l) = l.
Proof. induction 1 as [|r l Hr _ IH]; [done|]. by rewrite text_cons, runes_of_utf8, IH. Qed.

Lemma rune_error_scalar : scalar rune_error.
Proof. unfold scalar, rune_error. lia. Qed.
Lemma runes_of_scalar s : Forall scalar (runes_of s).
Proof.
  remember (String.length s) as n eqn:Hn. assert (String.length s ≤ n)%nat as Hle by lia. clear Hn.
  revert s Hle. induction n as [|n IH]; intros s Hle; (destruct s as [|a s1]; [constructor|]); simpl in Hle; [lia|].
  assert (Forall scalar (rune_error :: runes_of s1)) as Herr.
  { constructor; [apply rune_error_scalar|apply IH; lia]. }
  simpl. pose proof (byte_of_range a). set (a' := byte_of a) in *.
  case_bool_decide; [constructor; [unfold scalar; lia|apply IH; lia]|].
  case_bool_decide.
  { destruct s1 as [|b s2]; [done|]. pose proof (byte_of_range b).
    destruct (is_cont (byte_of b) && ok2 (val2 a' (byte_of b))) eqn:Hok; [|done].
    constructor; [|apply IH; simpl in Hle; lia].
    unfold ok2, val2, is_cont, scalar in *. apply andb_true_iff in Hok as [K3%bool_decide_eq_true K4%bool_decide_eq_true]. lia. }
  case_bool_decide.
  { destruct s1 as [|b [|c s3]]; [done..|]. pose proof (byte_of_range b). pose proof (byte_of_range c).
    destruct (is_cont (byte_of b) && is_cont (byte_of c) && ok3 (val3 a' (byte_of b) (byte_of c))) eqn:Hok; [|done].
    constructor; [|apply IH; simpl in Hle; lia].
    unfold ok3 in Hok. apply andb_true_iff in Hok as [_ [K3%bool_decide_eq_true K4%negb_true_iff%bool_decide_eq_false]%andb_true_iff].
    unfold scalar. split; [|done]. unfold val3 in *. lia. }
  case_bool_decide; [|done].
  destruct s1 as [|b [|c [|d s4]]]; [done..|].
  destruct (is_cont (byte_of b) && is_cont (byte_of c) && is_cont (byte_of d) &&
    ok4 (val4 a' (byte_of b) (byte_of c) (byte_of d))) eqn:Hok; [|done].
  constructor; [|apply IH; simpl in Hle; lia].
  apply andb_true_iff in Hok as [_ K3%bool_decide_eq_true]. unfold scalar. lia.
Qed.

Lemma valid_utf8_runes s : valid_utf8 s → of_runes (runes_of s) = s.
Proof. intros (l & Hl & ->). by rewrite runes_of_text, of_runes_text. Qed.
Lemma valid_utf8_of_runes l : valid_utf8 (of_runes l).
Proof.
  exists ((λ r, if decide (scalar r) then r else rune_error) <$> l). split.
  - apply Forall_fmap, Forall_true. intros r. simpl. case_decide; [done|apply rune_error_scalar].
  - unfold of_runes, text. by rewrite <-list_fmap_compose.
Qed.
Lemma valid_utf8_iff s : valid_utf8 s ↔ of_runes (runes_of s) = s.
Proof. split; [apply valid_utf8_runes|]. intros <-. apply valid_utf8_of_runes. Qed.
Lemma text_inj l l' : Forall scalar l → Forall scalar l' → text l = text l' → l = l'.
Proof. intros H1 H2 H. by rewrite <-(runes_of_text l), <-(runes_of_text l'), H. Qed.
