(** A line with words "@FILE": C147. *)
From Coq Require Import String Ascii.
From stdpp Require Import gmap list strings.
From Verif Require Import GoBase GoStrings GoStringsProofs ArgsModel ArgsFileModel ArgsFileSpec.

Lemma lines_from_line l s : ¬ has_byte "010" l → ∀ acc, lines_from acc (l +:+ line_end +:+ s) = (acc +:+ l) :: lines_from "" s.
Proof.
  induction l as [|c l IH]; intros Hn acc.
  - change ("" +:+ line_end +:+ s) with (String "010" s). simpl. by rewrite app_str_nil_r.
  - rewrite has_byte_cons in Hn. rewrite app_str_cons. cbn [lines_from]. rewrite decide_False by (intros ->; apply Hn; by left).
    rewrite IH by (intros H; apply Hn; by right). by rewrite <-app_str_assoc.
Qed.
Lemma lines_from_last l : ¬ has_byte "010" l → ∀ acc, lines_from acc l = if decide (acc +:+ l = "") then [] else [acc +:+ l].
Proof.
  induction l as [|c l IH]; intros Hn acc.
  - simpl. by rewrite app_str_nil_r.
  - rewrite has_byte_cons in Hn. cbn [lines_from]. rewrite decide_False by (intros ->; apply Hn; by left).
    rewrite IH by (intros H; apply Hn; by right). by rewrite <-app_str_assoc.
Qed.
Lemma drop_cr_some x : drop_cr (x +:+ String "013" "") = x.
Proof.
  induction x as [|c x IH]; [done|]. rewrite app_str_cons. cbn [drop_cr]. destruct (x +:+ String "013" "") as [|d y] eqn:E; [by destruct x|].
  by rewrite IH.
Qed.
Lemma drop_cr_none l : (∀ y, l ≠ y +:+ String "013" "") → drop_cr l = l.
Proof.
  induction l as [|c l IH]; intros H; [done|]. cbn [drop_cr]. destruct l as [|d l].
  - rewrite decide_False; [done|]. intros ->. by apply (H "").
  - rewrite IH; [done|]. intros y Hy. apply (H (String c y)). by rewrite Hy.
Qed.
Lemma trimmed_drop l x : trimmed l x → drop_cr l = x.
Proof. intros [->|[-> H]]; [apply drop_cr_some|by apply drop_cr_none]. Qed.
Lemma has_lines_from s ls : has_lines s ls → drop_cr <$> lines_from "" s = ls.
Proof.
  induction 1 as [|l x Hl Hn Ht|l x s xs Hn Ht Hs IH]; [done| |].
  - rewrite lines_from_last by done. change ("" +:+ l) with l. rewrite decide_False by done. simpl. by rewrite (trimmed_drop _ _ Ht).
  - rewrite lines_from_line by done. change ("" +:+ l) with l. cbn. rewrite (trimmed_drop _ _ Ht). f_equal. exact IH.
Qed.
Lemma comments_out_filter ls ws : comments_out ls ws → filter (λ l, has_prefix l "#" = false) ls = ws.
Proof.
  induction 1 as [|l ls ws Hl Hw IH|l ls ws Hl Hw IH]; [done| |].
  - rewrite filter_cons_False; [done|]. apply has_prefix_spec in Hl. by rewrite Hl.
  - rewrite filter_cons_True; [by rewrite IH|]. destruct (has_prefix l "#") eqn:E; [|done]. by apply has_prefix_spec in E.
Qed.
Lemma words_in_file text ws : words_in text ws → file_words text = ws.
Proof. intros (ls & Hl & Hc). unfold file_words. rewrite (has_lines_from _ _ Hl). by apply comments_out_filter. Qed.

(** Next has one result at most. *)
Lemma next_at_once files known i r1 r2 : next_at files known i r1 → next_at files known i r2 → r1 = r2.
Proof.
  intros H. revert r2. induction H as [i Hi|name ws Hb|name ws text r Hn Hf Hr IH]; intros r2 H2.
  - inversion H2 as [|name ws Hb|name ws text r Hn Hf Hr]; subst; [done|by destruct (Hi name ws)..].
  - inversion H2 as [i Hi|name' ws' Hb'|name' ws' text r Hn Hf Hr]; subst; [by destruct (Hi name ws)|done|].
    destruct Hb; congruence.
  - inversion H2 as [i Hi|name' ws' Hb'|name' ws' text' r' Hn' Hf' Hr']; subst; [by destruct (Hi name ws)| |].
    + destruct Hb'; congruence.
    + apply IH. by assert (text' = text) as -> by congruence.
Qed.
(** The parser with the line as typed, and with the line expanded. *)
Definition related (files : string → option string) (i i' : input) : Prop :=
  peeked i' = peeked i ∧ only i' = only i ∧
  (only i = true → words i' = words i) ∧
  (only i = false → expands files (words i) (words i') ∧ Forall (λ w, ¬ dash_behind w) (words i')).
Lemma next_related files known i i' : related files i i' →
  ∃ r, next_at files known i r ∧ r.1 = (next known i').1 ∧ related files r.2 (next known i').2.
Proof.
  destruct i as [p ws o], i' as [p' ws' o']. intros (Hp & Ho & H1 & H2). simpl in *. subst p' o'.
  destruct p as [|t p].
  2:{ eexists. split; [by apply at_other|]. by split. }
  destruct o.
  { rewrite (H1 eq_refl). eexists. split; [by apply at_other|]. split; [done|]. destruct ws; by split_and!. }
  clear H1. destruct (H2 eq_refl) as [He Hd]. clear H2.
  induction He as [|ws|w ws ws' Hw Hat He IH|name ws ws' Hb He IH|name text us ws ws' Hn Hf Hus He IH].
  - eexists. split; [by apply at_other|]. split; [done|]. split_and!; [done..|]. intros _. split; [apply expands_end|done].
  - eexists. split; [by apply at_other|]. split; [done|]. destruct ws; by split_and!.
  - eexists. split.
    { apply at_other. intros name us [= -> ->]. apply Hat. by eexists. }
    apply list.Forall_cons in Hd as [Hdw Hd].
    assert (Hrel : ∀ p, related files (Input p ws false) (Input p ws' false)) by (intros p; by split_and!).
    destruct w as [|a w1]; [by split|]. cbn [next peeked words only].
    destruct (decide (a = "@"%char)) as [->|_]; [exfalso; apply Hat; by eexists|].
    destruct (decide (a ≠ "-"%char)) as [Ha|Ha]; cbn iota.
    { split; [done|apply Hrel]. }
    apply dec_stable in Ha as ->.
    destruct w1 as [|b w2]; [split; [done|apply Hrel]|].
    destruct (decide (b = "-"%char)) as [->|Hb].
    + destruct w2 as [|c w2]; [done|]. destruct (index_byte "=" (String c w2)); (split; [done|apply Hrel]).
    + destruct w2 as [|c w2]; [split; [done|apply Hrel]|].
      assert (Hpush : related files (Input [] (String "-" (String c w2) :: ws) false) (Input [] (String "-" (String c w2) :: ws') false)).
      { split_and!; [done..|]. intros _. simpl. split.
        - apply expands_word; [|by intros [x Hx]|done]. intros [= -> ->]. apply Hdw. by exists b, "".
        - apply list.Forall_cons. split; [|done]. intros (d & r & E & _). apply Hdw. exists b, (String d r). split; [|done].
          rewrite !app_str_cons in E |- *. by injection E as -> ->. }
      destruct (find_short known (Some b)) as [f|]; [destruct (is_switch f)|]; (split; [done|first [apply Hpush|apply Hrel]]).
  - apply list.Forall_cons in Hd as [_ Hd]. eexists. split; [by apply at_bad|]. split; [done|]. by split_and!.
  - destruct (IH Hd) as (r & Hr & H1 & H2). exists r. split; [|done]. eapply at_file; [done|done|].
    by rewrite (words_in_file _ _ Hus).
Qed.

(** A parser that reads the line through Next, given the flags known at the time, and may
    push tokens back. *)
Inductive parser (A : Type) := Done (a : A) | Ask (known : list flag) (k : token → parser A) | Back (t : token) (p : parser A).
Arguments Done {_} _. Arguments Ask {_} _ _. Arguments Back {_} _ _.
(** What it results in: for the line as typed, and without words "@FILE". *)
Inductive results {A} (files : string → option string) : parser A → input → A → Prop :=
| results_done a i : results files (Done a) i a
| results_ask known k i t j a : next_at files known i (t, j) → results files (k t) j a → results files (Ask known k) i a
| results_back t p i a : results files p (push t i) a → results files (Back t p) i a.
Fixpoint result {A} (p : parser A) (i : input) : A :=
  match p with
  | Done a => a
  | Ask known k => result (k (next known i).1) (next known i).2
  | Back t p => result p (push t i)
  end.
Lemma results_same {A} files (p : parser A) : ∀ i i' a, related files i i' → results files p i a ↔ result p i' = a.
Proof.
  induction p as [b|known k IH|t p IH]; intros i i' a Hrel; simpl.
  - split; [by inversion 1|intros ->; apply results_done].
  - destruct (next_related files known i i' Hrel) as ([t j] & Hn & Ht & Hj). simpl in Ht, Hj. subst t. split.
    + intros H. inversion H as [|? ? ? t' j' ? Hn' Hr|]; subst.
      pose proof (next_at_once _ _ _ _ _ Hn Hn') as [= <- <-]. by eapply IH in Hr.
    + intros H. eapply results_ask; [exact Hn|]. by eapply IH.
  - assert (Hrel' : related files (push t i) (push t i')).
    { destruct Hrel as (H1 & H2 & H3 & H4). unfold push. simpl. rewrite H1, H2. by split_and!. }
    split.
    + intros H. inversion H; subst. by eapply IH.
    + intros H. apply results_back. by eapply IH.
Qed.

(** C147: a word "@FILE" is as good as the lines of the file.
    Missing: [ArgsModel.parse] is not restated as a [parser]; that kingpin reads the line
    with Next and Push only is read off the code. *)
Theorem at_file_partial A (p : parser A) files ws ws' a :
  expands files ws ws' → Forall (λ w, ¬ dash_behind w) ws' →
  results files p (Input [] ws false) a ↔ result p (Input [] ws' false) = a.
Proof. intros He Hd. by apply results_same. Qed.
Print Assumptions at_file_partial.

(** C147: a file that begins with its own name is read for ever: no parser that looks at
    the line comes to a result. *)
Theorem at_file_itself A files name text us ws known k (a : A) :
  name ≠ "" → files name = Some text → words_in text (("@" +:+ name) :: us) →
  ¬ results files (Ask known k) (Input [] (("@" +:+ name) :: ws) false) a.
Proof.
  intros Hn Hf Hw%words_in_file H. inversion H as [|? ? ? t j ? Hnx _|]; subst. clear H.
  assert (∀ i r, next_at files known i r → ∀ vs, i ≠ Input [] (("@" +:+ name) :: vs) false) as Hno; [|by eapply Hno in Hnx].
  clear Hnx. induction 1 as [i Hi|name' ws' Hb|name' ws' text' r' Hn' Hf' Hr' IH]; intros vs E.
  - by apply (Hi name vs).
  - injection E as -> ->. destruct Hb; congruence.
  - injection E as -> ->. assert (text' = text) as -> by congruence. rewrite Hw in IH. by apply (IH (us ++ vs)).
Qed.
Print Assumptions at_file_itself.

(** * Examples *)
Definition nl : string := String "010" "".
Definition ex_files (name : string) : option string :=
  if decide (name = "opts") then Some ("# the usual" +:+ nl +:+ "--host=up" +:+ String "013" nl +:+ "@more" +:+ nl)
  else if decide (name = "more") then Some "-v" else if decide (name = "self") then Some ("@self" +:+ nl) else None.
(** Reads the first [n] tokens. *)
Fixpoint first_tokens (n : nat) : parser (list token) :=
  match n with
  | O => Done []
  | S n => Ask [] (λ t, (fix after (p : parser (list token)) := match p with
      | Done l => Done (t :: l) | Ask known k => Ask known (λ t', after (k t')) | Back t' p => Back t' (after p) end) (first_tokens n))
  end.
Lemma no_byte c s : contains_byte c s = false → ¬ has_byte c s.
Proof. intros H H'. apply contains_byte_spec in H'. congruence. Qed.
Lemma no_trim l : drop_cr l = l → ∀ y, l ≠ y +:+ String "013" "".
Proof. intros H y ->. rewrite drop_cr_some in H. by induction y as [|c y IH]; [|injection H as H; apply IH]. Qed.
Lemma ex_more : words_in "-v" ["-v"].
Proof.
  exists ["-v"]. split.
  - apply lines_last; [done|by apply no_byte|]. right. split; [done|by apply no_trim].
  - apply out_word; [by intros [x Hx]|apply out_none].
Qed.
Lemma ex_self : words_in ("@self" +:+ nl) ["@self"].
Proof.
  exists ["@self"]. split.
  - apply (lines_next "@self" "@self" "" []); [by apply no_byte| |apply lines_none]. right. split; [done|by apply no_trim].
  - apply out_word; [by intros [x Hx]|apply out_none].
Qed.
Lemma ex_opts : words_in ("# the usual" +:+ nl +:+ "--host=up" +:+ String "013" nl +:+ "@more" +:+ nl) ["--host=up"; "@more"].
Proof.
  exists ["# the usual"; "--host=up"; "@more"]. split.
  - apply (lines_next "# the usual" "# the usual" ("--host=up" +:+ String "013" nl +:+ "@more" +:+ nl)); [by apply no_byte|right; split; [done|by apply no_trim]|].
    apply (lines_next ("--host=up" +:+ String "013" "") "--host=up" ("@more" +:+ nl)); [by apply no_byte|by left|].
    apply (lines_next "@more" "@more" ""); [by apply no_byte|right; split; [done|by apply no_trim]|apply lines_none].
  - apply out_comment; [by eexists|]. apply out_word; [by intros [x Hx]|]. apply out_word; [by intros [x Hx]|]. apply out_none.
Qed.
Example at_file_example :
  expands ex_files ["ping"; "@opts"; "--"; "@x"] ["ping"; "--host=up"; "-v"; "--"; "@x"] ∧
  Forall (λ w, ¬ dash_behind w) ["ping"; "--host=up"; "-v"; "--"; "@x"] ∧
  result (first_tokens 6) (Input [] ["ping"; "--host=up"; "-v"; "--"; "@x"] false) =
    [TArg "ping"; TLong "host"; TArg "up"; TShort (Some "v"%char); TArg "@x"; TEnd].
Proof.
  split_and!; [| |by vm_compute].
  - apply expands_word; [done|by intros [x Hx]|].
    apply (expands_file _ "opts" _ _ _ _ ltac:(done) eq_refl ex_opts). apply expands_word; [done|by intros [x Hx]|].
    apply (expands_file _ "more" _ _ _ _ ltac:(done) eq_refl ex_more). apply expands_word; [done|by intros [x Hx]|]. apply expands_stop.
  - repeat (apply list.Forall_cons; split); [..|by apply list.Forall_nil]; intros (c & r & E & Hc); try done.
    + injection E as <- _. done.
    + injection E as <- E. by destruct r.
    + injection E as <- E. by destruct r.
Qed.
Example at_file_itself_example : ex_files "self" = Some ("@self" +:+ nl) ∧ words_in ("@self" +:+ nl) (("@" +:+ "self") :: []).
Proof. split; [done|apply ex_self]. Qed.
(** C147, false: behind a word like -v- the word "@more" is taken literally. *)
Theorem at_file_refuted : ∃ A (p : parser A) files ws ws' a,
  expands files ws ws' ∧ results files p (Input [] ws false) a ∧ result p (Input [] ws' false) ≠ a.
Proof.
  exists _, (first_tokens 2), ex_files, ["-v-"; "@more"], ["-v-"; "-v"], [TShort (Some "v"%char); TArg "@more"]. split_and!.
  - apply expands_word; [done|by intros [x Hx]|]. apply (expands_file _ "more" _ _ _ _ ltac:(done) eq_refl ex_more).
    apply expands_word; [done|by intros [x Hx]|]. apply expands_end.
  - apply (results_ask _ _ _ _ (TShort (Some "v"%char)) (Input [] ["--"; "@more"] false));
      [by apply (at_other ex_files [] (Input [] ["-v-"; "@more"] false))|].
    apply (results_ask _ _ _ _ (TArg "@more") (Input [] [] true));
      [by apply (at_other ex_files [] (Input [] ["--"; "@more"] false))|]. apply results_done.
  - by vm_compute.
Qed.
Print Assumptions at_file_refuted.
