(** Proofs about the directory of a runbook. *)
From Coq Require Import String Ascii.
From stdpp Require Import gmap list strings.
From Verif Require Import GoBase GoStrings GoStringsProofs PathModel PathSpec.

(** * Names *)
Notation slashless := (λ c, ¬ has_byte "/" c).
Lemma pieces_cons s : ∃ x l, pieces s = x :: l.
Proof. destruct s as [|c s]; simpl; [by eexists _, _|]. case_decide; [by eexists _, _|]. destruct (pieces s); by eexists _, _. Qed.
Lemma concat_slash x y l : String.concat "/" (x :: y :: l) = x +:+ String "/" (String.concat "/" (y :: l)).
Proof. done. Qed.
Lemma pieces_spec s : ∀ x l, String.concat "/" (x :: l) = s → Forall slashless (x :: l) → pieces s = x :: l.
Proof.
  induction s as [|c s IH]; intros x l Hc Hf.
  - destruct l as [|y l]; [simpl in Hc; by subst x|]. rewrite concat_slash in Hc. destruct x; done.
  - apply list.Forall_cons in Hf as [Hx Hl]. simpl. destruct x as [|d x].
    + destruct l as [|y l]; [done|]. rewrite concat_slash in Hc.
      change ("" +:+ String ?a ?b) with (String a b) in Hc. injection Hc as <- Hc.
      rewrite decide_True by done. f_equal. by apply IH.
    + assert (d = c ∧ String.concat "/" (x :: l) = s) as [-> Hs].
      { destruct l as [|y l]; [simpl in Hc; by simplify_eq|]. rewrite concat_slash in Hc |- *.
        rewrite app_str_cons in Hc. by simplify_eq. }
      rewrite has_byte_cons in Hx. rewrite decide_False by (intros ->; apply Hx; by left).
      rewrite (IH x l Hs); [done|]. apply list.Forall_cons. split; [|done]. intros H. apply Hx. by right.
Qed.
Lemma parts_pieces s cs : parts s cs → cs = pieces s.
Proof. intros (Hn & Hc & Hf). destruct cs as [|x l]; [done|]. symmetry. by apply pieces_spec. Qed.
Lemma pieces_parts s : parts s (pieces s).
Proof.
  induction s as [|c s IH]; simpl.
  - split_and!; [done..|]. apply list.Forall_cons. split; [apply has_byte_nil|by apply list.Forall_nil].
  - destruct IH as (_ & Hc & Hf). destruct (pieces_cons s) as (x & l & E). rewrite E in *. case_decide as Hd.
    + subst c. split_and!; [done| |].
      * rewrite concat_slash, Hc. done.
      * apply list.Forall_cons. split; [apply has_byte_nil|done].
    + apply list.Forall_cons in Hf as [Hx Hl]. split_and!; [done| |].
      * rewrite <-Hc. by destruct l.
      * apply list.Forall_cons. split; [|done]. rewrite has_byte_cons. intros [?|?]; done.
Qed.
Lemma pieces_app a b : pieces (a +:+ String "/" b) = pieces a ++ pieces b.
Proof.
  induction a as [|c a IH].
  - change ("" +:+ ?x) with x. simpl. by rewrite ?decide_True by done.
  - rewrite app_str_cons. simpl. rewrite IH. destruct (pieces_cons a) as (x & l & ->). simpl. by case_decide.
Qed.
Lemma pieces_slashless s : Forall slashless (pieces s).
Proof. apply pieces_parts. Qed.
Lemma pieces_concat cs : Forall slashless cs → cs ≠ [] → pieces (String.concat "/" cs) = cs.
Proof. destruct cs; [done|]. intros H _. by apply pieces_spec. Qed.
Lemma pieces_root cs : Forall slashless cs → pieces ("/" +:+ String.concat "/" cs) = "" :: match cs with [] => [""] | _ => cs end.
Proof.
  intros H. change ("/" +:+ String.concat "/" cs) with ("" +:+ String "/" (String.concat "/" cs)). rewrite pieces_app. simpl. f_equal.
  destruct cs as [|c cs]; [done|]. by apply pieces_concat.
Qed.
Lemma upto_slash_spec pre last : ¬ has_byte "/" last → (pre = "" ∨ ∃ r, pre = r +:+ "/") → upto_slash (pre +:+ last) = pre.
Proof.
  intros Hl Hp. assert (Hlast : upto_slash last = "").
  { destruct last as [|c r]; [done|]. cbn [upto_slash]. destruct (contains_byte "/" (String c r)) eqn:E; [|done].
    by apply contains_byte_spec in E. }
  destruct Hp as [->|[r ->]]; [done|]. induction r as [|c r IH].
  - change ("" +:+ "/") with "/". rewrite app_str_cons. change ("" +:+ last) with last. cbn [upto_slash].
    assert (E : contains_byte "/" (String "/" last) = true) by (apply contains_byte_spec, has_byte_cons; by left).
    by rewrite E, Hlast.
  - rewrite !app_str_cons. cbn [upto_slash].
    assert (E : contains_byte "/" (String c ((r +:+ "/") +:+ last)) = true).
    { apply contains_byte_spec, has_byte_cons. right. apply has_byte_app. left. apply has_byte_app. right. by exists "", "". }
    by rewrite E, IH.
Qed.

(** * Going up and down in names alone; last name first *)
Definition up (r : list string) (c : string) : list string :=
  if decide (c = "" ∨ c = ".") then r else if decide (c = "..") then tail r else c :: r.
Local Ltac expand := match goal with |- context [up ?z ?c] =>
  is_var c; change (up z c) with (if decide (c = "" ∨ c = ".") then z else if decide (c = "..") then tail z else c :: z) end.
Lemma up_plain r c : plain c → up r c = c :: r.
Proof. intros (H1 & H2 & H3). unfold up. rewrite decide_False by (intros [|]; done). by rewrite decide_False by done. Qed.
Lemma clean_rooted cs : ∀ out, clean_loop true cs out 0 = foldl up out cs.
Proof.
  induction cs as [|c cs IH]; intros out; [done|]. simpl. expand. case_decide; [apply IH|]. case_decide; [|apply IH].
  case_decide as Hl; [apply IH|]. rewrite IH. by destruct out; [|simpl in Hl; lia].
Qed.
Lemma clean_relative r cs : ∀ a b, Forall plain a → 
  foldl up r (reverse (clean_loop false cs (a ++ b) (length b))) = foldl up (foldl up r (reverse (a ++ b))) cs.
Proof.
  induction cs as [|c cs IH]; intros a b Ha; [done|]. simpl. expand. case_decide as H1; [by apply IH|].
  case_decide as H2.
  - destruct a as [|x a].
    + rewrite decide_False by (simpl; lia). specialize (IH [] (".." :: b) (list.Forall_nil_2 _)). simpl in IH |- *. rewrite IH.
      by rewrite reverse_cons, foldl_snoc.
    + rewrite decide_True by (rewrite app_length; simpl; lia). apply list.Forall_cons in Ha as [Hx Ha]. simpl tail. rewrite IH by done.
      f_equal. change ((x :: a) ++ b) with (x :: (a ++ b)). rewrite reverse_cons, foldl_snoc, up_plain by done. done.
  - assert (plain c) as Hc by (split_and!; naive_solver). specialize (IH (c :: a) b). rewrite <-app_comm_cons in IH.
    rewrite IH by by apply list.Forall_cons. by rewrite reverse_cons, foldl_snoc, up_plain.
Qed.
Lemma up_within x cs : ∀ r, x ∈ foldl up r cs → x ∈ r ∨ (x ∈ cs ∧ plain x).
Proof.
  induction cs as [|c cs IH]; intros r; simpl; [by left|]. intros [H|[H Hp]]%IH; [|right; split; [by right|done]].
  unfold up in H. case_decide as H1; [by left|]. case_decide as H2.
  - left. destruct r as [|y r]; [done|]. by right.
  - apply elem_of_cons in H as [->|H]; [|by left]. right. split; [by left|]. split_and!; naive_solver.
Qed.
Lemma clean_slashless rooted cs : ∀ out n, Forall slashless cs → Forall slashless out → Forall slashless (clean_loop rooted cs out n).
Proof.
  induction cs as [|c cs IH]; intros out n Hc Ho; [done|]. apply list.Forall_cons in Hc as [Hx Hc]. simpl.
  case_decide; [by apply IH|]. case_decide as H2.
  - case_decide; [apply IH; [done|]; destruct out; [done|]; by apply list.Forall_cons in Ho as [_ ?]|].
    destruct rooted; [by apply IH|]. apply IH; [done|]. apply list.Forall_cons. by subst c.
  - apply IH; [done|]. by apply list.Forall_cons.
Qed.
Lemma up_names cs : Forall plain cs → ∀ r, foldl up r cs = reverse cs ++ r.
Proof.
  induction 1 as [|c cs Hc _ IH]; intros r; [done|]. simpl. rewrite up_plain, IH by done. by rewrite reverse_cons, <-app_assoc.
Qed.

(** * The directory computed *)
Lemma slash_or s : has_prefix s "/" = true ∧ begins_with "/" s ∨ has_prefix s "/" = false ∧ ¬ begins_with "/" s.
Proof. rewrite <-has_prefix_spec. destruct (has_prefix s "/"); [by left|by right]. Qed.
Lemma clean_absolute s : begins_with "/" s → clean s = "/" +:+ String.concat "/" (reverse (foldl up [] (pieces s))).
Proof. intros H. unfold clean. apply has_prefix_spec in H. by rewrite H, clean_rooted. Qed.
Lemma up_slashless cs r : Forall slashless r → Forall slashless cs → Forall slashless (foldl up r cs).
Proof. rewrite !list.Forall_forall. intros H1 H2 x [?|[? _]]%up_within; auto. Qed.
Lemma up_clean r s : ¬ begins_with "/" s → foldl up r (pieces (clean s)) = foldl up r (pieces s).
Proof.
  intros H. unfold clean. destruct (slash_or s) as [[_ ?]|[-> _]]; [done|].
  pose proof (clean_relative r (pieces s) [] [] (list.Forall_nil_2 _)) as Hc. simpl in Hc.
  change (foldl up r (reverse [])) with r in Hc. rewrite <-Hc.
  assert (Hs : Forall slashless (reverse (clean_loop false (pieces s) [] 0))).
  { apply list.Forall_reverse, clean_slashless; [apply pieces_slashless|by apply list.Forall_nil]. }
  destruct (reverse (clean_loop false (pieces s) [] 0)) as [|c l]; [done|]. by rewrite pieces_concat.
Qed.
Lemma clean_relative_name s : ¬ begins_with "/" s → ¬ begins_with "/" (clean s).
Proof.
  intros H. unfold clean. destruct (slash_or s) as [[_ ?]|[-> _]]; [done|].
  assert (Hs : Forall slashless (reverse (clean_loop false (pieces s) [] 0))).
  { apply list.Forall_reverse, clean_slashless; [apply pieces_slashless|by apply list.Forall_nil]. }
  assert (Hp : Forall (λ c, c ≠ "") (reverse (clean_loop false (pieces s) [] 0))).
  { apply list.Forall_reverse. clear Hs. assert (Forall (λ c, c ≠ "") (@nil string)) as Ho by by apply list.Forall_nil.
    revert Ho. generalize (@nil string) at 1 2 as out. generalize 0%nat as n. induction (pieces s) as [|c cs IH]; intros n out Ho; [done|]. simpl.
    case_decide as H1; [by apply IH|]. case_decide.
    - case_decide; [apply IH; destruct out; [done|]; by apply list.Forall_cons in Ho as [_ ?]|].
      apply IH. by apply list.Forall_cons.
    - apply IH. apply list.Forall_cons. split; [|done]. intros ->. apply H1. by left. }
  destruct (reverse (clean_loop false (pieces s) [] 0)) as [|c l]; [by intros [r Hr]|].
  apply list.Forall_cons in Hs as [Hs _]. apply list.Forall_cons in Hp as [Hp _]. intros [r Hr].
  destruct c as [|a c]; [done|]. apply Hs. exists "", c. f_equal. destruct l; simpl in Hr; by injection Hr as ->.
Qed.
(** The names of the directory commands are started in. *)
Lemma basedir_names wd pre last : begins_with "/" wd → ¬ has_byte "/" last → (pre = "" ∨ ∃ r, pre = r +:+ "/") →
  basedir (Some wd) (pre +:+ last) = Some ("/" +:+ String.concat "/" (reverse (foldl up []
    ((if has_prefix pre "/" then [] else pieces wd) ++ pieces pre)))).
Proof.
  intros Hwd Hl Hp. unfold basedir, dir. rewrite upto_slash_spec by done. unfold abs. destruct (slash_or pre) as [[-> H]|[-> H]].
  - rewrite clean_absolute by done. set (B := reverse (foldl up [] (pieces pre))).
    assert (E : has_prefix ("/" +:+ String.concat "/" B) "/" = true) by (apply has_prefix_spec; by eexists).
    rewrite E. clear E. rewrite clean_absolute by by eexists. simpl app. do 4 f_equal.
    assert (Forall plain B ∧ Forall slashless B) as [HB1 HB2].
    { unfold B. split; apply list.Forall_reverse.
      - apply list.Forall_forall. intros x [Hx|[_ ?]]%up_within; [by apply elem_of_nil in Hx|done].
      - apply up_slashless; [by apply list.Forall_nil|apply pieces_slashless]. }
    rewrite pieces_root by done. assert (E : foldl up [] ("" :: match B with [] => [""] | _ => B end) = foldl up [] B) by by destruct B.
    rewrite E, up_names by done. rewrite app_nil_r. unfold B. by rewrite reverse_involutive.
  - destruct (slash_or (clean pre)) as [[_ E]|[-> _]]; [by apply clean_relative_name in E|]. f_equal.
    rewrite clean_absolute. 2:{ destruct Hwd as [r ->]. exists (r +:+ "/" +:+ clean pre). by rewrite <-app_str_assoc. }
    change (wd +:+ "/" +:+ clean pre) with (wd +:+ String "/" (clean pre)). by rewrite pieces_app, !foldl_app, up_clean.
Qed.

(** * Walks *)
Lemma walks_app fs p a m b q : walks fs p a m → walks fs m b q → walks fs p (a ++ b) q.
Proof.
  intros H Hb. induction H; simpl.
  - done.
  - apply walks_stay; auto.
  - apply walks_root; auto.
  - apply walks_up; auto.
  - eapply walks_in; eauto.
  - eapply walks_link_root; eauto. rewrite app_assoc. auto.
  - eapply walks_link; eauto. rewrite app_assoc. auto.
Qed.
Definition keep (c : string) : Prop := ¬ (c = "" ∨ c = ".").
Local Instance keep_dec c : Decision (keep c).
Proof. unfold keep. apply _. Defined.
Lemma plain_keep c : plain c → keep c.
Proof. intros (? & ? & ?) [|]; done. Qed.
Lemma walks_filter fs p l q : walks fs p l q → ∀ ts cs, l = ts ++ cs → walks fs p (ts ++ filter keep cs) q.
Proof.
  induction 1 as [p|p c l q Hc Hd Hw IH|l q Hd Hw IH|p x l q Hd Hw IH|p c l n q Hc Hd Hn Hk Hw IH
    |p c l t us q Hc Hd Hn Ht Hb Hw IH|p c l t us q Hc Hd Hn Ht Hb Hw IH]; intros ts cs E.
  - symmetry in E. apply app_eq_nil in E as [-> ->]. apply walks_end.
  - destruct ts as [|y ts]; simpl in E; [subst cs|injection E as <- ->].
    + simpl. rewrite filter_cons_False by (intros H; by apply H). by apply (IH []).
    + simpl. apply walks_stay; [done..|]. by apply IH.
  - destruct ts as [|y ts]; simpl in E; [subst cs|injection E as <- ->].
    + simpl. rewrite filter_cons_True by (intros [|]; done). apply walks_root; [done|]. by apply (IH []).
    + simpl. apply walks_root; [done|]. by apply IH.
  - destruct ts as [|y ts]; simpl in E; [subst cs|injection E as <- ->].
    + simpl. rewrite filter_cons_True by (intros [|]; done). apply walks_up; [done|]. by apply (IH []).
    + simpl. apply walks_up; [done|]. by apply IH.
  - destruct ts as [|y ts]; simpl in E; [subst cs|injection E as <- ->].
    + simpl. rewrite filter_cons_True by by apply plain_keep. eapply walks_in; [done..|]. by apply (IH []).
    + simpl. eapply walks_in; [done..|]. by apply IH.
  - destruct ts as [|y ts]; simpl in E; [subst cs|injection E as <- ->].
    + simpl. rewrite filter_cons_True by by apply plain_keep. eapply walks_link_root; [done..|]. by apply IH.
    + simpl. eapply walks_link_root; [done..|]. rewrite app_assoc. apply IH. by rewrite app_assoc.
  - destruct ts as [|y ts]; simpl in E; [subst cs|injection E as <- ->].
    + simpl. rewrite filter_cons_True by by apply plain_keep. eapply walks_link; [done..|]. by apply IH.
    + simpl. eapply walks_link; [done..|]. rewrite app_assoc. apply IH. by rewrite app_assoc.
Qed.
Lemma up_filter cs : ".." ∉ cs → ∀ r, foldl up r cs = reverse (filter keep cs) ++ r.
Proof.
  induction cs as [|c cs IH]; intros Hn r; [done|]. apply not_elem_of_cons in Hn as [Hc Hn]. simpl. expand.
  case_decide as H1.
  - rewrite filter_cons_False by (intros H; by apply H). by apply IH.
  - rewrite decide_False by (intros ->; done). rewrite filter_cons_True by done. rewrite IH by done.
    by rewrite reverse_cons, <-app_assoc.
Qed.
(** Without links the place one comes to can be told from the names. *)
Definition held (fs : system) (p : list string) : Prop :=
  is_Some (fs p) ∧ ∀ p1 c p2, p = p1 ++ c :: p2 → fs p1 = Some Dir.
Lemma held_front fs p x : held fs (p ++ [x]) → held fs p.
Proof.
  intros [_ H]. split; [by rewrite (H p x [] eq_refl)|]. intros p1 c p2 ->. apply (H p1 c (p2 ++ [x])). by rewrite <-app_assoc.
Qed.
Lemma exists_last_or (l : list string) : l = [] ∨ ∃ k y, l = k ++ [y].
Proof. induction l as [|y k _] using rev_ind; [by left|]. right. by exists k, y. Qed.
Lemma held_in fs p c : held fs p → fs p = Some Dir → is_Some (fs (p ++ [c])) → held fs (p ++ [c]).
Proof.
  intros [_ H] Hd Hc. split; [done|]. intros p1 x p2 E. destruct (exists_last_or p2) as [->|(p3 & y & ->)].
  - apply app_inj_tail in E as [-> _]. done.
  - rewrite app_comm_cons, app_assoc in E. apply app_inj_tail in E as [-> _]. by eapply H.
Qed.
Lemma walks_names fs p cs q : no_links fs → walks fs p cs q → held fs p → held fs q ∧ reverse q = foldl up (reverse p) cs.
Proof.
  intros Hn. induction 1 as [p|p c l q Hc Hd Hw IH|l q Hd Hw IH|p x l q Hd Hw IH|p c l n q Hc Hd Hnn Hk Hw IH
    |p c l t us q Hc Hd Hnn Ht Hb Hw IH|p c l t us q Hc Hd Hnn Ht Hb Hw IH]; intros Hp.
  - done.
  - simpl. expand. rewrite decide_True by done. by apply IH.
  - simpl. by apply IH.
  - destruct (IH (held_front _ _ _ Hp)) as [H1 H2]. split; [done|]. rewrite H2, reverse_snoc. done.
  - destruct (IH (held_in _ _ _ Hp Hd ltac:(by eexists))) as [H1 H2]. split; [done|]. simpl. by rewrite H2, reverse_snoc, up_plain.
  - by apply Hn in Hnn.
  - by apply Hn in Hnn.
Qed.
Lemma held_walks fs p2 : no_links fs → ∀ p1, held fs (p1 ++ p2) → Forall plain p2 → walks fs p1 p2 (p1 ++ p2).
Proof.
  intros Hn. induction p2 as [|c p2 IH]; intros p1 Hh Hp; [rewrite app_nil_r; apply walks_end|].
  apply list.Forall_cons in Hp as [Hc Hp]. assert (Hh' : held fs ((p1 ++ [c]) ++ p2)) by by rewrite <-app_assoc.
  assert (is_Some (fs (p1 ++ [c]))) as [n Hx].
  { destruct p2 as [|d p2]; [rewrite app_nil_r in Hh'; apply Hh'|]. destruct Hh' as [_ Hh']. by rewrite (Hh' _ d p2 eq_refl). }
  specialize (IH (p1 ++ [c]) Hh' Hp). rewrite <-app_assoc in IH. eapply walks_in; [done| |done| |exact IH].
  - destruct Hh as [_ Hh]. by eapply Hh.
  - intros t ->. by apply Hn in Hx.
Qed.
