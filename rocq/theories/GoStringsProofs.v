(** Lemmas about GoStrings. *)
From Coq Require Import String Ascii.
From stdpp Require Import list strings.
From Verif Require Import GoStrings.

Lemma app_str_cons c a b : String c a +:+ b = String c (a +:+ b).
Proof. done. Qed.
Lemma app_str_nil_r a : a +:+ "" = a.
Proof. induction a as [|c a IH]; [done|]. by rewrite app_str_cons, IH. Qed.
Lemma app_str_assoc a b c : a +:+ (b +:+ c) = (a +:+ b) +:+ c.
Proof. induction a as [|x a IH]; [done|]. by rewrite !app_str_cons, IH. Qed.
Lemma app_str_inj_l a b c : a +:+ b = a +:+ c → b = c.
Proof. induction a as [|x a IH]; [done|]. rewrite !app_str_cons. intros [= H]. by apply IH. Qed.

Lemma has_byte_nil c : ¬ has_byte c "".
Proof. intros ([|] & b & H); done. Qed.
Lemma has_byte_cons c d s : has_byte c (String d s) ↔ d = c ∨ has_byte c s.
Proof.
  split.
  - intros ([|x a] & b & H); [injection H as -> _; by left|].
    injection H as <- ->. right. by exists a, b.
  - intros [->|(a & b & ->)]; [by exists "", s|]. by exists (String d a), b.
Qed.
Lemma has_byte_app c a b : has_byte c (a +:+ b) ↔ has_byte c a ∨ has_byte c b.
Proof.
  induction a as [|d a IH].
  - change ("" +:+ b) with b. split; [by right|]. intros [H%has_byte_nil|H]; done.
  - rewrite app_str_cons, !has_byte_cons, IH. tauto.
Qed.

Lemma index_byte_None c s : index_byte c s = None ↔ ¬ has_byte c s.
Proof.
  induction s as [|d s IH]; simpl.
  - split; [intros _; apply has_byte_nil|done].
  - rewrite has_byte_cons. case_decide as Hd; [subst d; split; [done|tauto]|].
    destruct (index_byte c s) as [n|] eqn:Hi; simpl.
    + split; [done|]. intros H. exfalso. apply H. right. destruct IH as [_ IH].
      assert (¬ ¬ has_byte c s) as Hnn by (intros Hn; apply IH in Hn; done).
      clear -Hnn Hi. revert n Hi. induction s as [|d s IHs]; intros n Hi; [done|]. simpl in Hi.
      rewrite has_byte_cons. case_decide as Hd; [by left|]. right.
      destruct (index_byte c s) as [m|] eqn:Hm; [|done]. eapply IHs; [|done].
      intros Hn. apply Hnn. rewrite has_byte_cons. tauto.
    + split; [|done]. intros _ [?|?]; [done|]. by apply IH.
Qed.
Lemma index_byte_Some c s n :
  index_byte c s = Some n →
  s = str_take n s +:+ String c (str_drop (S n) s) ∧ ¬ has_byte c (str_take n s) ∧
  String.length (str_take n s) = n.
Proof.
  revert n. induction s as [|d s IH]; intros n; simpl; [done|].
  case_decide as Hd.
  - intros [= <-]. subst d. simpl. destruct s; (split; [done|split; [apply has_byte_nil|done]]).
  - destruct (index_byte c s) as [m|] eqn:Hm; simpl; [|done]. intros [= <-].
    destruct (IH m eq_refl) as (H1 & H2 & H3). simpl. split; [rewrite app_str_cons; f_equal; exact H1|].
    split; [rewrite has_byte_cons; tauto|by rewrite H3].
Qed.
Lemma index_byte_app c a b :
  ¬ has_byte c a → index_byte c (a +:+ String c b) = Some (String.length a).
Proof.
  induction a as [|d a IH].
  - intros _. change ("" +:+ String c b) with (String c b). simpl. by rewrite decide_True.
  - rewrite has_byte_cons. intros H. rewrite app_str_cons. simpl.
    rewrite decide_False by tauto. by rewrite IH by tauto.
Qed.
Lemma str_take_app a b : str_take (String.length a) (a +:+ b) = a.
Proof. induction a as [|d a IH]; [by destruct b|]. rewrite app_str_cons. simpl. by rewrite IH. Qed.
Lemma str_drop_app a b : str_drop (String.length a) (a +:+ b) = b.
Proof. induction a as [|d a IH]; [by destruct b|]. rewrite app_str_cons. simpl. done. Qed.
Lemma str_take_drop n s : str_take n s +:+ str_drop n s = s.
Proof. revert s. induction n as [|n IH]; intros [|d s]; try done. simpl. by rewrite app_str_cons, IH. Qed.

Lemma contains_byte_spec c s : contains_byte c s = true ↔ has_byte c s.
Proof.
  unfold contains_byte. destruct (index_byte c s) as [n|] eqn:Hi.
  - split; [|done]. intros _. apply index_byte_Some in Hi as (-> & _ & _). by eexists _, _.
  - apply index_byte_None in Hi. split; [done|]. by intros ?%Hi.
Qed.
Lemma has_prefix_spec s p : has_prefix s p = true ↔ begins_with p s.
Proof.
  unfold has_prefix, begins_with. revert s. induction p as [|c p IH]; intros s; simpl.
  - split; [|by destruct s]. intros _. by exists s.
  - destruct s as [|d s]; [split; [done|by intros [r Hr]]|].
    change (String.prefix (String c p) (String d s))
      with (if ascii_dec c d then String.prefix p s else false).
    destruct (ascii_dec c d) as [->|Hn].
    + rewrite IH. split; intros [r Hr]; exists r; [by rewrite Hr|].
      rewrite app_str_cons in Hr. by injection Hr.
    + split; [done|]. intros [r Hr]. rewrite app_str_cons in Hr. injection Hr as ? _. done.
Qed.
(** The decomposition at the first separator is unique. *)
Lemma first_sep_unique c a b a' b' :
  ¬ has_byte c a → ¬ has_byte c a' →
  a +:+ String c b = a' +:+ String c b' → a = a' ∧ b = b'.
Proof.
  intros Ha Ha' Heq.
  assert (String.length a = String.length a') as Hl.
  { pose proof (index_byte_app c a b Ha) as H1. pose proof (index_byte_app c a' b' Ha') as H2.
    rewrite Heq, H2 in H1. by injection H1. }
  assert (a = a') as <-.
  { rewrite <-(str_take_app a (String c b)), Heq, Hl. apply str_take_app. }
  split; [done|]. apply app_str_inj_l in Heq. by injection Heq.
Qed.
