(** Proofs about the texts of HCL: what is printed is read. *)
From Coq Require Import String Ascii.
From stdpp Require Import gmap list strings numbers pretty.
From Verif Require Import GoStrings GoUtf8 GoStringsProofs GoUtf8Proofs DdlModel DdlProofs PgModel HclModel HclSpec HclText.
Local Open Scope Z_scope.

(** * Quoted texts *)

(** Every character by computation. *)
Definition all_bytes (P : ascii → bool) : bool := forallb (λ n, P (ascii_of_nat n)) (seq 0 256).
Lemma all_bytes_spec P c : all_bytes P = true → P c = true.
Proof.
  unfold all_bytes. rewrite forallb_forall. intros H. rewrite <- (ascii_nat_embedding c). apply H.
  apply in_seq. pose proof (nat_ascii_bounded c). lia.
Qed.
(** A character that needs no look at the next one: what is read is the character again, and
    nothing of it can be part of the beginning of a template. *)
Fixpoint unescapes (st : unescaping) (s : string) : option (string * unescaping) :=
  match s with
  | "" => Some ("", st)
  | String c s => '(o, st) ← unescape_step st c; '(r, st) ← unescapes st s; Some (o +:+ r, st)
  end.
Lemma unescapes_app st a b o st' :
  unescapes st a = Some (o, st') → unescape st (a +:+ b) = r ← unescape st' b; Some (o +:+ r).
Proof.
  revert st o. induction a as [|c a IH]; intros st o; cbn.
  - intros [= <- <-]. change ("" +:+ b) with b. by destruct (unescape st b).
  - destruct (unescape_step st c) as [[o1 st1]|] eqn:E1; [|done]. cbn.
    destruct (unescapes st1 a) as [[o2 st2]|] eqn:E; [|done]. cbn. intros [= <- <-].
    rewrite app_str_cons. cbn [unescape]. rewrite E1. cbn. rewrite (IH _ _ E). destruct (unescape st2 b); [|done]. cbn. by rewrite app_str_assoc.
Qed.
Global Instance unescaping_eq : EqDecision unescaping.
Proof. solve_decision. Defined.
Global Instance token_eq : EqDecision token.
Proof. solve_decision. Defined.
Global Instance lexing_eq : EqDecision lexing.
Proof. solve_decision. Defined.
Definition plain_ok (c : ascii) : bool :=
  is_dollar c ||
  (bool_decide (unescapes UPlain (escape_char c "") = Some (String c "", UPlain)) &&
   (bool_decide (c = "{"%char) ||
    (bool_decide (unescapes (UOne "$") (escape_char c "") = Some (String "$" (String c ""), UPlain)) &&
     bool_decide (unescapes (UOne "%") (escape_char c "") = Some (String "%" (String c ""), UPlain)) &&
     bool_decide (unescapes (UTwo "$") (escape_char c "") = Some (String "$" (String "$" (String c "")), UPlain)) &&
     bool_decide (unescapes (UTwo "%") (escape_char c "") = Some (String "%" (String "%" (String c "")), UPlain))))).
Lemma plain_ok_all c : plain_ok c = true.
Proof. apply all_bytes_spec. vm_compute. reflexivity. Qed.

Lemma is_dollar_cases c : is_dollar c = true ↔ c = "$"%char ∨ c = "%"%char.
Proof. unfold is_dollar. by rewrite orb_true_iff, !bool_decide_eq_true. Qed.
Lemma escape_char_next c s : is_dollar c = false → escape_char c s = escape_char c "".
Proof. intros H. unfold escape_char. by rewrite H. Qed.
Lemma unescape_escape_all s :
  unescape UPlain (escape s) = Some s ∧
  (first_is "{" s = false → ∀ d, is_dollar d = true →
     unescape (UOne d) (escape s) = Some (String d s) ∧
     unescape (UTwo d) (escape s) = Some (String d (String d s))).
Proof.
  induction s as [|c s [IH1 IH2]]; [done|]. cbn [escape].
  destruct (is_dollar c) eqn:Hc.
  - assert (escape_char c s = if first_is "{" s then String c (String c "") else String c "") as ->.
    { apply is_dollar_cases in Hc as [->| ->]; reflexivity. }
    destruct (first_is "{" s) eqn:Hb.
    + destruct s as [|x s]; [done|]. apply bool_decide_eq_true in Hb as ->.
      change (escape (String "{" s)) with (String "{" (escape s)) in *.
      assert (Hs : unescape UPlain (escape s) = Some s).
      { change (unescape UPlain (String "{" (escape s))) with (r ← unescape UPlain (escape s); Some ("{" +:+ r)) in IH1. destruct (unescape UPlain (escape s)) as [r|]; [|done]. change (Some (String "{" r) = Some (String "{" s)) in IH1. congruence. }
      change (String c (String c "") +:+ String "{" (escape s)) with (String c (String c "{") +:+ escape s).
      split; [|intros _ d Hd; apply is_dollar_cases in Hd as [->| ->]; split];
        apply is_dollar_cases in Hc as [->| ->];
        (erewrite unescapes_app by (vm_compute; reflexivity)); rewrite Hs; reflexivity.
    + specialize (IH2 eq_refl).
      destruct (IH2 "$"%char eq_refl) as [E1 E2]; destruct (IH2 "%"%char eq_refl) as [E3 E4].
      split; [|intros _ d Hd; apply is_dollar_cases in Hd as [->| ->]; split];
        apply is_dollar_cases in Hc as [->| ->];
        (erewrite unescapes_app by (vm_compute; reflexivity));
        (rewrite E1 || rewrite E2 || rewrite E3 || rewrite E4); reflexivity.
  - rewrite escape_char_next by done. pose proof (plain_ok_all c) as H. unfold plain_ok in H. rewrite Hc in H.
    cbn [orb] in H. apply andb_true_iff in H as [H1 H2]. apply bool_decide_eq_true in H1. split.
    + rewrite (unescapes_app _ _ _ _ _ H1), IH1. done.
    + intros Hf d Hd. cbn in Hf. rewrite Hf in H2. cbn [orb] in H2. rewrite !andb_true_iff, !bool_decide_eq_true in H2.
      destruct H2 as [[[E1 E2] E3] E4].
      apply is_dollar_cases in Hd as [->| ->]; split;
        rewrite (unescapes_app _ _ _ _ _ E1) || rewrite (unescapes_app _ _ _ _ _ E2) ||
        rewrite (unescapes_app _ _ _ _ _ E3) || rewrite (unescapes_app _ _ _ _ _ E4); rewrite IH1; done.
Qed.
Lemma unescape_escape s : read_quoted (escape s) = Some s.
Proof. apply unescape_escape_all. Qed.

(** * Tokens *)

Definition lexes (st : lexing) (s : string) (l : list token) (st' : lexing) : Prop :=
  ∀ rest, lex st (s +:+ rest) = r ← lex st' rest; Some (l ++ r).
Lemma lexes_nil st : lexes st "" [] st.
Proof. intros rest. change ("" +:+ rest) with rest. by destruct (lex st rest). Qed.
Lemma lexes_app st st1 st2 a b l1 l2 :
  lexes st a l1 st1 → lexes st1 b l2 st2 → lexes st (a +:+ b) (l1 ++ l2) st2.
Proof.
  intros Ha Hb rest. rewrite <- app_str_assoc, Ha, Hb. destruct (lex st2 rest); [|done]. cbn. by rewrite app_assoc.
Qed.
Lemma lexes_char st c l st' : lex_step st c = Some (l, st') → lexes st (String c "") l st'.
Proof. intros H rest. change (String c "" +:+ rest) with (String c rest). cbn [lex]. by rewrite H. Qed.
Lemma lexes_cons st c s l st' l' st'' :
  lex_step st c = Some (l, st') → lexes st' s l' st'' → lexes st (String c s) (l ++ l') st''.
Proof. intros H1 H2. change (String c s) with (String c "" +:+ s). eapply lexes_app; [by apply lexes_char|done]. Qed.
(** A text ends; a word may go on. *)
Definition flush (st : lexing) : list token := match st with LWord w => [TWord w] | _ => [] end.
Definition between (st : lexing) : Prop := match st with LStart | LWord _ => True | _ => False end.
Lemma lexes_after st c l st' :
  between st → is_word_char c = false → lex_start c = Some (l, st') → lexes st (String c "") (flush st ++ l) st'.
Proof.
  intros Hst Hc H. apply lexes_char. destruct st; try done. cbn. rewrite Hc, H. done.
Qed.
Lemma lexes_spaces n : lexes LStart (spaces n) [] LStart.
Proof. induction n as [|n IH]; [apply lexes_nil|]. by eapply (lexes_cons _ _ _ [] _ []). Qed.
Fixpoint word_chars (s : string) : bool := match s with "" => true | String c s => is_word_char c && word_chars s end.
Lemma word_chars_app a b : word_chars (a +:+ b) = word_chars a && word_chars b.
Proof. induction a as [|c a IH]; [done|]. rewrite app_str_cons. cbn [word_chars]. by rewrite IH, andb_assoc. Qed.
Lemma lexes_in_word w s : word_chars s = true → lexes (LWord w) s [] (LWord (w +:+ s)).
Proof.
  revert w. induction s as [|c s IH]; intros w H; [rewrite app_str_nil_r; apply lexes_nil|].
  cbn in H. apply andb_true_iff in H as [Hc Hs].
  replace (w +:+ String c s) with (snoc w c +:+ s) by (unfold snoc; by rewrite <- app_str_assoc).
  eapply (lexes_cons _ _ _ [] _ []); [|by apply IH]. cbn. by rewrite Hc.
Qed.
Definition word_start_ok (c : ascii) : bool :=
  implb (is_word_char c) (bool_decide (lex_start c = Some ([], LWord (String c "")))).
Lemma word_start c : is_word_char c = true → lex_start c = Some ([], LWord (String c "")).
Proof.
  intros H. assert (word_start_ok c = true) as H' by (apply all_bytes_spec; vm_compute; reflexivity).
  unfold word_start_ok in H'. rewrite H in H'. by apply bool_decide_eq_true in H'.
Qed.
Lemma lexes_word w : w ≠ "" → word_chars w = true → lexes LStart w [] (LWord w).
Proof.
  destruct w as [|c w]; [done|]. intros _ H. cbn in H. apply andb_true_iff in H as [Hc H].
  eapply (lexes_cons _ _ _ [] _ []); [by apply word_start|]. by apply (lexes_in_word (String c "")).
Qed.

(** Quoted texts. *)
Fixpoint lexes_fast (st : lexing) (s : string) : option (list token * lexing) :=
  match s with
  | "" => Some ([], st)
  | String c s => '(l, st) ← lex_step st c; '(r, st) ← lexes_fast st s; Some (l ++ r, st)
  end.
Lemma lexes_by st s l st' : lexes_fast st s = Some (l, st') → lexes st s l st'.
Proof.
  revert st l. induction s as [|c s IH]; intros st l; cbn; [intros [= <- <-]; apply lexes_nil|].
  destruct (lex_step st c) as [[l1 st1]|] eqn:E1; [|done]. cbn.
  destruct (lexes_fast st1 s) as [[l2 st2]|] eqn:E2; [|done]. cbn. intros [= <- <-].
  eapply lexes_cons; [done|]. by apply IH.
Qed.
(** What one escaped character becomes does not depend on what is before it. *)
Fixpoint text_end (esc : bool) (s : string) : option bool :=
  match s with
  | "" => Some esc
  | String c s =>
      if bool_decide (c = newline) then None
      else if esc then text_end false s
      else if bool_decide (c = dquote) then None
      else text_end (bool_decide (c = bslash)) s
  end.
Lemma text_end_lexes w esc s :
  text_end esc s = Some false →
  lexes (if esc then LEscape w else LText w) s [] (LText (w +:+ (if esc then String bslash s else s))).
Proof.
  revert w esc. induction s as [|c s IH]; intros w esc; cbn [text_end].
  - intros [= ->]. rewrite app_str_nil_r. apply lexes_nil.
  - case_bool_decide as Hn; [done|]. destruct esc.
    + intros H. replace (w +:+ String bslash (String c s)) with (snoc (snoc w bslash) c +:+ s).
      2:{ unfold snoc. by rewrite <- !app_str_assoc. }
      eapply (lexes_cons _ _ _ [] _ []); [|apply (IH _ false); done].
      cbn. by rewrite bool_decide_eq_false_2 by done.
    + case_bool_decide as Hq; [done|]. case_bool_decide as Hb.
      * subst c. intros H. eapply (lexes_cons _ _ _ [] _ []); [|apply (IH w true); done].
        cbn. done.
      * intros H. replace (w +:+ String c s) with (snoc w c +:+ s) by (unfold snoc; by rewrite <- app_str_assoc).
        eapply (lexes_cons _ _ _ [] _ []); [|apply (IH _ false); done].
        unfold lex_step. by rewrite !bool_decide_eq_false_2 by done.
Qed.
Lemma text_end_app a b esc : text_end esc a = Some false → text_end esc (a +:+ b) = text_end false b.
Proof.
  revert esc. induction a as [|c a IH]; intros esc; [intros [= ->]; done|]. rewrite app_str_cons. cbn.
  case_bool_decide; [done|]. destruct esc; [apply IH|]. case_bool_decide; [done|]. apply IH.
Qed.
Definition escape_char_end_ok (c : ascii) : bool := bool_decide (text_end false (escape_char c "") = Some false).
Lemma escape_char_end c s : text_end false (escape_char c s) = Some false.
Proof.
  destruct (is_dollar c) eqn:Hc.
  - apply is_dollar_cases in Hc as [->| ->]; unfold escape_char; cbn; by destruct (first_is "{" s).
  - rewrite escape_char_next by done.
    assert (escape_char_end_ok c = true) as H by (apply all_bytes_spec; vm_compute; reflexivity).
    by apply bool_decide_eq_true in H.
Qed.
Lemma escape_end s : text_end false (escape s) = Some false.
Proof. induction s as [|c s IH]; [done|]. cbn [escape]. by rewrite text_end_app by apply escape_char_end. Qed.
Lemma lexes_quoted s : lexes LStart (quoted s) [TQuoted (escape s)] LStart.
Proof.
  unfold quoted. eapply (lexes_cons _ _ _ [] (LText "") [TQuoted (escape s)]); [done|].
  eapply (lexes_app _ _ _ _ _ [] [_]); [apply (text_end_lexes "" false), escape_end|].
  apply lexes_char. done.
Qed.

(** * Numbers *)

Definition digit_ok (c : ascii) : bool :=
  match digit c with
  | None => true
  | Some _ => is_word_char c && negb (bool_decide (c = "-"%char)) && negb (bool_decide (c = "."%char)) &&
      negb (bool_decide (c = "n"%char)) && negb (bool_decide (c = "t"%char)) && negb (bool_decide (c = "f"%char))
  end.
Lemma digit_ok_all c : digit_ok c = true.
Proof. apply all_bytes_spec. vm_compute. reflexivity. Qed.
Lemma digits_chars acc s z : digits acc s = Some z → word_chars s = true ∧ ¬ has_byte "." s.
Proof.
  revert acc. induction s as [|c s IH]; intros acc H; [split; [done|apply has_byte_nil]|].
  cbn [digits] in H. destruct (digit c) as [d|] eqn:E; [|done]. destruct (IH _ H) as [H1 H2].
  pose proof (digit_ok_all c) as Hc. unfold digit_ok in Hc. rewrite E in Hc.
  rewrite !andb_true_iff, !negb_true_iff, !bool_decide_eq_false in Hc. destruct_and? Hc.
  split; [cbn [word_chars]; by rewrite H1, H0|]. rewrite has_byte_cons. intros [?|?]; done.
Qed.
Lemma zeros_digits n s acc : digits 0 s = Some acc → digits 0 (zeros n +:+ s) = Some acc.
Proof. intros H. induction n as [|n IH]; [done|]. cbn [zeros]. rewrite app_str_cons. cbn [digits]. exact IH. Qed.
Lemma zeros_length n : String.length (zeros n) = n.
Proof. induction n; cbn; congruence. Qed.
Lemma str_length_app a b : String.length (a +:+ b) = (String.length a + String.length b)%nat.
Proof. induction a as [|c a IH]; [done|]. rewrite app_str_cons. cbn. congruence. Qed.
Lemma str_take_length n s : String.length (str_take n s) = Nat.min n (String.length s).
Proof. revert s. induction n as [|n IH]; intros [|c s]; cbn; [done..|]. by rewrite IH. Qed.
Lemma str_drop_length n s : String.length (str_drop n s) = (String.length s - n)%nat.
Proof. revert s. induction n as [|n IH]; intros [|c s]; cbn; [done..|]. by rewrite IH. Qed.

(** The digits that are printed. *)
Definition number_digits (m : Z) (e : nat) : string :=
  let s : string := pretty (Z.to_N (Z.abs m)) in zeros (S e - String.length s) +:+ s.
Lemma number_digits_ok m e :
  digits 0 (number_digits m e) = Some (Z.abs m) ∧ (e < String.length (number_digits m e))%nat.
Proof.
  unfold number_digits. cbn zeta. split.
  - apply zeros_digits. rewrite digits_pretty_N. f_equal. lia.
  - rewrite str_length_app, zeros_length. lia.
Qed.
Definition unsigned (m : Z) (e : nat) : string :=
  let s := number_digits m e in
  match e with
  | O => s
  | _ => str_take (String.length s - e) s +:+ "." +:+ str_drop (String.length s - e) s
  end.
Lemma print_unsigned m e : print_number m e = (if bool_decide (m < 0) then "-" else "") +:+ unsigned m e.
Proof. reflexivity. Qed.
Lemma read_unsigned_again m e : read_unsigned (unsigned m e) = Some (Z.abs m, e).
Proof.
  destruct (number_digits_ok m e) as [Hd Hl]. unfold unsigned. cbn zeta. set (s := number_digits m e) in *.
  destruct e as [|e].
  - unfold read_unsigned. destruct (digits_chars _ _ _ Hd) as [_ Hb]. apply index_byte_None in Hb. rewrite Hb.
    rewrite bool_decide_eq_false_2 by (intros E; rewrite E in Hl; cbn in Hl; lia). rewrite Hd. done.
  - set (k := (String.length s - S e)%nat). assert (Hs : str_take k s +:+ str_drop k s = s) by apply str_take_drop.
    assert (Ha : String.length (str_take k s) = k) by (rewrite str_take_length; lia).
    assert (Hb : String.length (str_drop k s) = S e) by (rewrite str_drop_length; lia).
    set (a := str_take k s) in *. set (b := str_drop k s) in *.
    assert (Hn : ¬ has_byte "." a).
    { destruct (digits_chars _ _ _ Hd) as [_ H]. rewrite <- Hs, has_byte_app in H. tauto. }
    unfold read_unsigned. change ("." +:+ b) with (String "." b). rewrite index_byte_app by done. cbn zeta.
    rewrite str_take_app. replace (str_drop (S (String.length a)) (a +:+ String "." b)) with b.
    2:{ replace (a +:+ String "." b) with (snoc a "." +:+ b) by (unfold snoc; by rewrite <- app_str_assoc).
        replace (S (String.length a)) with (String.length (snoc a ".")).
        - by rewrite str_drop_app.
        - unfold snoc. rewrite str_length_app. cbn. lia. }
    rewrite !bool_decide_eq_false_2.
    + cbn [orb]. rewrite Hs, Hd. cbn. by rewrite Hb.
    + intros E. by rewrite E in Hb.
    + intros E. rewrite E in Ha. cbn in Ha. lia.
Qed.
Lemma unsigned_first m e : ∃ c r, unsigned m e = String c r ∧ digit c ≠ None.
Proof.
  destruct (number_digits_ok m e) as [Hd Hl]. unfold unsigned. cbn zeta. set (s := number_digits m e) in *.
  destruct s as [|c r] eqn:E; [cbn in Hl; lia|]. cbn [digits] in Hd.
  destruct (digit c) eqn:Ec; [|done].
  destruct e as [|e]; [exists c, r; by rewrite Ec|]. cbn [String.length] in *.
  replace (S (String.length r) - S e)%nat with (S (String.length r - S e)) by lia.
  exists c. eexists. split; [cbn [str_take]; rewrite app_str_cons; reflexivity|]. by rewrite Ec.
Qed.
Lemma unsigned_chars m e : word_chars (unsigned m e) = true.
Proof.
  destruct (number_digits_ok m e) as [Hd _]. unfold unsigned. cbn zeta. set (s := number_digits m e) in *.
  destruct (digits_chars _ _ _ Hd) as [Hs _]. destruct e as [|e]; [done|].
  rewrite <- (str_take_drop (String.length s - S e) s), word_chars_app, andb_true_iff in Hs. destruct Hs as [H1 H2].
  rewrite !word_chars_app, H1, H2. done.
Qed.
Lemma canonical_same m e : e = 0%nat ∨ m mod 10 ≠ 0 → canonical m e = (m, e).
Proof. destruct e as [|e]; [done|]. intros [?|H]; [done|]. cbn [canonical]. by rewrite bool_decide_eq_false_2. Qed.
Lemma read_number_again m e : e = 0%nat ∨ m mod 10 ≠ 0 → read_number (print_number m e) = Some (m, e).
Proof.
  intros H. rewrite print_unsigned. destruct (unsigned_first m e) as (c & r & E & Hc). case_bool_decide as Hm.
  - change ("-" +:+ unsigned m e) with (String "-" (unsigned m e)). cbn [read_number].
    rewrite bool_decide_eq_true_2 by done. rewrite read_unsigned_again. cbn.
    replace (- Z.abs m) with m by lia. by rewrite canonical_same.
  - change ("" +:+ unsigned m e) with (unsigned m e). pose proof (read_unsigned_again m e) as Hr. rewrite E in *.
    unfold read_number. rewrite bool_decide_eq_false_2.
    2:{ intros ->. by apply Hc. }
    rewrite Hr. cbn. replace (Z.abs m) with m by lia. by rewrite canonical_same.
Qed.
Lemma print_number_word m e :
  print_number m e ≠ "" ∧ word_chars (print_number m e) = true ∧
  print_number m e ≠ "null" ∧ print_number m e ≠ "true" ∧ print_number m e ≠ "false".
Proof.
  rewrite print_unsigned. destruct (unsigned_first m e) as (c & r & E & Hc). pose proof (unsigned_chars m e) as Hw.
  case_bool_decide.
  - change ("-" +:+ unsigned m e) with (String "-" (unsigned m e)). split_and!; try done.
  - change ("" +:+ unsigned m e) with (unsigned m e). rewrite E in *.
    split_and!; try done; intros [= -> ->]; by apply Hc.
Qed.
Lemma read_number_word m e : e = 0%nat ∨ m mod 10 ≠ 0 → read_word (print_number m e) = Some (HNumber m e).
Proof.
  intros H. destruct (print_number_word m e) as (_ & _ & H1 & H2 & H3). unfold read_word.
  rewrite !bool_decide_eq_false_2 by done. by rewrite read_number_again.
Qed.

(** * Values *)

Lemma hval_nested (P : hval → Prop) :
  P HNull → (∀ s, P (HText s)) → (∀ b, P (HBool b)) → (∀ m e, P (HNumber m e)) →
  (∀ l, Forall P l → P (HList l)) → P HOther → ∀ v, P v.
Proof.
  intros H1 H2 H3 H4 H5 H6. fix IH 1. intros [|s|b|m e|l|]; [done|auto..| |done].
  apply H5. induction l as [|v l IHl]; constructor; [apply IH|exact IHl].
Qed.
(** A text whose last token may be a word that goes on. *)
Definition lexed (s : string) (toks : list token) : Prop :=
  ∃ l st, lexes LStart s l st ∧ between st ∧ l ++ flush st = toks.
Lemma lexed_then s toks c l st :
  lexed s toks → is_word_char c = false → lex_start c = Some (l, st) → lexes LStart (s +:+ String c "") (toks ++ l) st.
Proof.
  intros (l1 & st1 & H1 & H2 & <-) Hc Hl. rewrite <- app_assoc. eapply lexes_app; [exact H1|]. by apply lexes_after.
Qed.
Lemma lexes_lexed s toks : lexes LStart s toks LStart → lexed s toks.
Proof. intros H. exists toks, LStart. cbn. by rewrite app_nil_r. Qed.
Lemma lexed_word w : w ≠ "" → word_chars w = true → lexed w [TWord w].
Proof. intros H1 H2. exists [], (LWord w). split_and!; [by apply lexes_word|done|done]. Qed.
Lemma lexes_lexed_app a b l toks : lexes LStart a l LStart → lexed b toks → lexed (a +:+ b) (l ++ toks).
Proof.
  intros H (l1 & st & H1 & H2 & <-). exists (l ++ l1), st. split_and!; [by eapply lexes_app|done|by rewrite <- app_assoc].
Qed.
Definition not_close (toks : list token) : Prop :=
  match toks with [] => False | TSign c :: _ => c ≠ "]"%char | _ => True end.
Definition value_again (v : hval) : Prop :=
  ∃ toks, lexed (print_value v) toks ∧ not_close toks ∧
    ∀ fuel rest, (length toks ≤ fuel)%nat → read_value fuel (toks ++ rest) = Some (v, rest).
Lemma word_again w v : w ≠ "" → word_chars w = true → read_word w = Some v → print_value v = w → value_again v.
Proof.
  intros H1 H2 H3 H4. exists [TWord w]. rewrite H4. split_and!; [by apply lexed_word|done|].
  intros [|fuel] rest Hf; [cbn in Hf; lia|]. cbn. by rewrite H3.
Qed.
Lemma items_again l :
  Forall value_again l →
  ∃ toks, lexed (String.concat ", " (print_value <$> l)) toks ∧
    ∀ fuel rest, (length toks < fuel)%nat → read_items fuel (toks ++ TSign "]" :: rest) = Some (l, rest).
Proof.
  induction 1 as [|v l Hv Hl IH].
  { exists []. split; [apply lexes_lexed, lexes_nil|]. intros [|fuel] rest Hf; [lia|]. done. }
  destruct Hv as (tv & Lv & Nv & Rv).
  assert (Hstep : ∀ fuel rest, (length tv < S fuel)%nat →
    read_items (S fuel) (tv ++ rest) = read_more fuel v rest).
  { intros fuel rest Hf. assert (read_items (S fuel) (tv ++ rest) = '(v, l) ← read_value fuel (tv ++ rest); read_more fuel v l) as ->.
    { destruct tv as [|[| |c|] tv]; [done|done|done| |done]. cbn [app read_items].
      by rewrite bool_decide_eq_false_2 by exact Nv. }
    rewrite Rv by lia. done. }
  assert (Hn : (1 ≤ length tv)%nat) by (destruct tv; [done|cbn; lia]).
  destruct l as [|w l].
  - exists tv. split; [exact Lv|]. intros [|fuel] rest Hf; [lia|]. rewrite Hstep by lia.
    destruct fuel as [|fuel]; [lia|]. done.
  - destruct IH as (tl & Ll & Rl). exists (tv ++ TSign "," :: tl). split.
    + change (String.concat ", " (print_value <$> v :: w :: l))
        with (print_value v +:+ String "," (String " " (String.concat ", " (print_value <$> w :: l)))).
      set (r := String.concat ", " (print_value <$> w :: l)) in *.
      replace (print_value v +:+ String "," (String " " r)) with ((print_value v +:+ String "," "") +:+ (String " " "" +:+ r))
        by (by rewrite <- app_str_assoc).
      change (TSign "," :: tl) with ([TSign ","] ++ tl). rewrite app_assoc.
      eapply lexes_lexed_app; [by eapply lexed_then|]. apply (lexes_lexed_app _ _ []); [by apply lexes_char|exact Ll].
    + intros [|fuel] rest Hf; [lia|]. rewrite app_length in Hf. cbn [length] in Hf.
      rewrite <- app_assoc, <- app_comm_cons. rewrite Hstep by lia. destruct fuel as [|fuel]; [lia|]. cbn [read_more].
      change (bool_decide ("," = "]")%char) with false. change (bool_decide ("," = ",")%char) with true. cbn iota.
      rewrite Rl by lia. done.
Qed.
Lemma values_again good v : good_value good v → value_again v.
Proof.
  induction v as [|s|b|m e|l IH|] using hval_nested; intros Hv.
  - by apply (word_again "null").
  - exists [TQuoted (escape s)]. split_and!; [by apply lexes_lexed, lexes_quoted|done|].
    intros [|fuel] rest Hf; [cbn in Hf; lia|]. cbn [app read_value]. by rewrite unescape_escape.
  - destruct b; [by apply (word_again "true")|by apply (word_again "false")].
  - destruct (print_number_word m e) as (H1 & H2 & _). apply (word_again (print_number m e)); [done|done| |done].
    by apply read_number_word.
  - assert (Forall value_again l) as Hl.
    { cbn in Hv. clear -IH Hv. induction IH as [|v l Hv' Hl IHl]; [by apply list.Forall_nil|]. destruct Hv as [Hv1 Hv2].
      apply list.Forall_cons. auto. }
    destruct (items_again l Hl) as (tl & Ll & Rl). exists (TSign "[" :: tl ++ [TSign "]"]). split_and!; [|done|].
    + change (print_value (HList l)) with (String "[" "" +:+ (String.concat ", " (print_value <$> l) +:+ "]")).
      apply (lexes_lexed_app _ _ [TSign "["]); [by apply lexes_char|]. apply lexes_lexed.
      by eapply lexed_then.
    + intros [|fuel] rest Hf; cbn [length] in Hf; [lia|]. rewrite app_length in Hf. cbn [length] in Hf.
      rewrite <- app_comm_cons, <- app_assoc. cbn [read_value]. rewrite bool_decide_eq_true_2 by done.
      cbn [app]. rewrite Rl by lia. done.
  - done.
Qed.

(** * Bodies *)

Lemma body_nested (P : body → Prop) :
  (∀ a l, Forall (λ x : string * block, P x.2.2) l → P (Body a l)) → ∀ b, P b.
Proof.
  intros H. fix IH 1. intros [a l]. apply H. induction l as [|[n [labels inner]] l IHl]; constructor; [apply IH|exact IHl].
Qed.
Lemma spaces_snoc k r : spaces k +:+ String " " r = String " " (spaces k +:+ r).
Proof. induction k as [|k IH]; [done|]. cbn [spaces]. rewrite !app_str_cons. by rewrite IH. Qed.
Lemma is_word_ok w : is_word w → w ≠ "" ∧ word_chars w = true.
Proof.
  intros [H1 H2]. split; [done|]. clear H1. induction w as [|c w IH]; [done|]. cbn [word_chars].
  rewrite IH by (intros d Hd; apply H2; by right).
  rewrite andb_true_r. destruct (H2 c) as [->|Hc]; [by left|done|].
  unfold is_word_char, byte_of. rewrite bool_decide_eq_true_2; [done|]. unfold nat_of_ascii in Hc. lia.
Qed.
Lemma lexes_nl : lexes LStart nl [TNewline] LStart.
Proof. by apply lexes_char. Qed.
Lemma attr_again good i k n v :
  is_word n → good_value good v →
  ∃ toks, lexes LStart (print_attr i k (n, v)) (TWord n :: TSign "=" :: toks ++ [TNewline]) LStart ∧
    ∀ fuel rest, (length toks ≤ fuel)%nat → read_value fuel (toks ++ rest) = Some (v, rest).
Proof.
  intros Hn Hv. apply is_word_ok in Hn as [Hn1 Hn2]. destruct (values_again _ _ Hv) as (tv & Lv & _ & Rv).
  exists tv. split; [|exact Rv]. unfold print_attr. cbn [fst snd].
  apply (lexes_app _ _ _ _ _ [] _ (lexes_spaces i)).
  change (" = " +:+ print_value v +:+ nl) with (String " " (String "=" (String " " (print_value v +:+ nl)))).
  rewrite spaces_snoc.
  replace (n +:+ String " " (spaces (k - String.length n) +:+ String "=" (String " " (print_value v +:+ nl))))
    with ((n +:+ String " " "") +:+ (spaces (k - String.length n) +:+ (String "=" (String " " (print_value v +:+ nl)))))
    by (by rewrite <- app_str_assoc).
  change (TWord n :: TSign "=" :: tv ++ [TNewline]) with (([TWord n] ++ []) ++ [] ++ [TSign "="] ++ [] ++ tv ++ [TNewline]).
  eapply lexes_app; [eapply lexed_then; [by apply lexed_word|done|done]|].
  eapply lexes_app; [apply lexes_spaces|]. eapply lexes_cons; [done|]. eapply lexes_cons; [done|].
  by eapply lexed_then.
Qed.
Lemma labels_again labels :
  lexes LStart (texts ((λ s, " " +:+ quoted s) <$> labels) +:+ " ") (TQuoted ∘ escape <$> labels) LStart.
Proof.
  induction labels as [|s labels IH]; [by apply lexes_char|]. cbn [fmap list_fmap].
  assert (Ht : texts ((" " +:+ quoted s) :: ((λ s, " " +:+ quoted s) <$> labels)) =
    String " " (quoted s +:+ texts ((λ s, " " +:+ quoted s) <$> labels))).
  { unfold texts. destruct labels; cbn; [by rewrite app_str_nil_r|]. done. }
  rewrite Ht, app_str_cons, <- app_str_assoc.
  eapply (lexes_cons _ _ _ [] _ (_ :: _)); [done|]. by apply (lexes_app _ _ _ _ _ [_] _ (lexes_quoted s)).
Qed.
Lemma read_labels_again labels rest :
  match rest with TQuoted _ :: _ => False | _ => True end →
  read_labels ((TQuoted ∘ escape <$> labels) ++ rest) = Some (labels, rest).
Proof.
  intros Hr. induction labels as [|s labels IH]; [by destruct rest as [|[] rest]|].
  cbn [fmap list_fmap app compose read_labels]. rewrite unescape_escape. cbn. by rewrite IH.
Qed.
Definition stops (rest : list token) : Prop := match rest with [] => True | TSign c :: _ => c = "}"%char | _ => False end.
Definition body_again (b : body) : Prop :=
  ∀ i, ∃ toks, lexes LStart (print_body i b) toks LStart ∧
    ∀ fuel rest, (length toks < fuel)%nat → stops rest → read_body fuel (toks ++ rest) = Some (b, rest).
Fixpoint print_blocks (i : nat) (before : string) (l : list (string * block)) : string :=
  match l with
  | [] => ""
  | (n, (labels, inner)) :: l =>
      gap before n +:+ spaces i +:+ n +:+ texts ((λ s, " " +:+ quoted s) <$> labels) +:+ " {" +:+ nl +:+
      print_body (2 + i) inner +:+ spaces i +:+ "}" +:+ nl +:+ print_blocks i n l
  end.
Lemma print_body_blocks i a l :
  print_body i (Body a l) = texts (print_attr i (width a) <$> a) +:+ print_blocks i "" l.
Proof.
  cbn [print_body]. f_equal.
  match goal with |- ?f "" l = _ => enough (∀ before, f before l = print_blocks i before l) by done end.
  induction l as [|[n [labels inner]] l IH]; intros before; [done|]. cbn [print_blocks]. by rewrite <- IH.
Qed.
Lemma read_stop fuel rest : (0 < fuel)%nat → stops rest → read_body fuel rest = Some (Body [] [], rest).
Proof.
  destruct fuel as [|fuel]; [lia|]. intros _. destruct rest as [|[] rest]; try done. cbn. intros ->. done.
Qed.
Lemma blocks_again good i before l :
  Forall (λ x : string * block, is_word x.1 ∧ Forall good x.2.1 ∧ body_again x.2.2) l →
  ∃ toks, lexes LStart (print_blocks i before l) toks LStart ∧
    ∀ fuel rest, (length toks < fuel)%nat → stops rest → read_body fuel (toks ++ rest) = Some (Body [] l, rest).
Proof.
  intros H. revert before. induction H as [|[n [labels inner]] l (Hn & _ & Hi) Hl IH]; intros before.
  { exists []. split; [apply lexes_nil|]. intros fuel rest Hf Hr. apply read_stop; [lia|done]. }
  cbn [fst snd] in *. apply is_word_ok in Hn as [Hn1 Hn2].
  destruct (Hi (2 + i)%nat) as (ti & Li & Ri). destruct (IH n) as (tl & Ll & Rl).
  assert (∃ g, lexes LStart (gap before n) g LStart ∧ (g = [] ∨ g = [TNewline])) as (g & Lg & Hg).
  { unfold gap. case_bool_decide; [exists []; split; [apply lexes_nil|by left]|].
    exists [TNewline]. split; [apply lexes_nl|by right]. }
  exists (g ++ [] ++ ([TWord n] ++ []) ++ (TQuoted ∘ escape <$> labels) ++ [TSign "{"] ++ [TNewline] ++ ti ++ [] ++ [TSign "}"] ++ [TNewline] ++ tl).
  split.
  - cbn [print_blocks]. eapply lexes_app; [exact Lg|]. eapply lexes_app; [apply lexes_spaces|].
    set (r := nl +:+ print_body (2 + i) inner +:+ spaces i +:+ "}" +:+ nl +:+ print_blocks i n l).
    assert (Lr : lexes LStart r ([TNewline] ++ ti ++ [] ++ [TSign "}"] ++ [TNewline] ++ tl) LStart).
    { subst r. eapply lexes_app; [apply lexes_nl|]. eapply lexes_app; [exact Li|]. eapply lexes_app; [apply lexes_spaces|].
      eapply lexes_app; [by apply lexes_char|]. eapply lexes_app; [apply lexes_nl|]. exact Ll. }
    clearbody r. change (" {" +:+ r) with (" " +:+ String "{" r). rewrite (app_str_assoc (texts _)).
    destruct labels as [|s labels].
    + change (texts ((λ s, " " +:+ quoted s) <$> []) +:+ " ") with " ".
      rewrite (app_str_assoc n). cbn [fmap list_fmap].
      eapply lexes_app; [eapply lexed_then; [by apply lexed_word|done|done]|].
      apply (lexes_app _ LStart _ "" _ []); [apply lexes_nil|]. by eapply lexes_cons.
    + pose proof (labels_again (s :: labels)) as Hq.
      assert (Ht : texts ((λ s, " " +:+ quoted s) <$> s :: labels) +:+ " " =
        " " +:+ (quoted s +:+ texts ((λ s, " " +:+ quoted s) <$> labels) +:+ " ")).
      { rewrite (app_str_assoc (quoted s)), (app_str_assoc " "). f_equal. unfold texts. destruct labels; cbn; [by rewrite app_str_nil_r|done]. }
      rewrite Ht in *. rewrite <- (app_str_assoc " "), (app_str_assoc n).
      eapply lexes_app; [eapply lexed_then; [by apply lexed_word|done|done]|].
      apply (lexes_app _ LStart); [|by eapply lexes_cons].
      intros rest. specialize (Hq rest). rewrite <- (app_str_assoc " ") in Hq.
      change (" " +:+ ((quoted s +:+ texts ((λ s, " " +:+ quoted s) <$> labels) +:+ " ") +:+ rest))
        with (String " " ((quoted s +:+ texts ((λ s, " " +:+ quoted s) <$> labels) +:+ " ") +:+ rest)) in Hq.
      rewrite <- Hq. cbn [lex lex_step]. change (lex_start " ") with (Some ([] : list token, LStart)). cbn.
      match goal with |- ?x = _ => by destruct x end.
  - intros fuel rest Hf Hr. rewrite !app_length in Hf. cbn [length app] in Hf.
    assert (Hmain : ∀ fuel, (length labels + length ti + length tl + 5 < fuel)%nat →
      read_body fuel ((TWord n :: (TQuoted ∘ escape <$> labels) ++ TSign "{" :: TNewline :: ti ++ TSign "}" :: TNewline :: tl) ++ rest)
      = Some (Body [] ((n, (labels, inner)) :: l), rest)).
    { clear fuel Hf. intros [|[|fuel]] Hf; [lia|lia|].
      set (r := ((TQuoted ∘ escape <$> labels) ++ TSign "{" :: TNewline :: ti ++ TSign "}" :: TNewline :: tl) ++ rest).
      assert (Hb : read_block (S fuel) n r = Some (Body [] ((n, (labels, inner)) :: l), rest)).
      { subst r. rewrite <- app_assoc. cbn [app]. cbn [read_block]. rewrite read_labels_again by done. cbn [mbind option_bind].
        change (bool_decide ("{" = "{")%char) with true. cbn iota.
        rewrite <- app_assoc. cbn [app]. rewrite Ri by (done || lia). cbn [mbind option_bind].
        change (bool_decide ("}" = "}")%char) with true. cbn iota. rewrite Rl by (done || lia). done. }
      change ((TWord n :: (TQuoted ∘ escape <$> labels) ++ TSign "{" :: TNewline :: ti ++ TSign "}" :: TNewline :: tl) ++ rest)
        with (TWord n :: r).
      destruct labels as [|s labels]; [|exact Hb]. exact Hb. }
    rewrite fmap_length in Hf. destruct Hg as [-> | ->]; cbn [length] in Hf.
    + apply (Hmain fuel). lia.
    + destruct fuel as [|fuel]; [lia|]. apply (Hmain fuel). lia.
Qed.
Lemma texts_cons x l : texts (x :: l) = x +:+ texts l.
Proof. unfold texts. destruct l; cbn; [by rewrite app_str_nil_r|done]. Qed.
Lemma bodies_again good b : good_body good b → body_again b.
Proof.
  induction b as [a l IH] using body_nested. intros (_ & Ha & Hl) i.
  assert (Forall (λ x : string * block, is_word x.1 ∧ Forall good x.2.1 ∧ body_again x.2.2) l) as Hb.
  { clear -IH Hl. induction IH as [|[n [labels inner]] l Hx IH IHl]; [by apply list.Forall_nil|].
    destruct Hl as [(H1 & H2 & H3) Hl]. apply list.Forall_cons. auto. }
  destruct (blocks_again good i "" l Hb) as (tl & Ll & Rl). rewrite print_body_blocks. generalize (width a). intros w.
  induction Ha as [|[n v] a [Hn Hv] Ha IHa].
  - exists tl. split; [exact Ll|exact Rl].
  - destruct IHa as (ta & La & Ra). destruct (attr_again good i w n v Hn Hv) as (tv & Lv & Rv).
    exists ((TWord n :: TSign "=" :: tv ++ [TNewline]) ++ ta). split.
    + cbn [fmap list_fmap]. rewrite texts_cons, <- app_str_assoc. by eapply lexes_app.
    + intros [|fuel] rest Hf Hr; [lia|]. rewrite app_length in Hf. cbn [length] in Hf. rewrite app_length in Hf. cbn [length] in Hf.
      rewrite <- app_assoc. cbn [app]. rewrite <- app_assoc. cbn [read_body app].
      change (bool_decide ("=" = "=")%char) with true. cbn iota. rewrite Rv by lia. cbn [mbind option_bind].
      rewrite Ra by (done || lia). done.
Qed.
(** What is printed is read. *)
Lemma printed_read good b : good_body good b → read_text (print_body 0 b) = Some b.
Proof.
  intros Hb. destruct (bodies_again _ _ Hb 0%nat) as (toks & Lt & Rt). unfold read_text.
  specialize (Lt ""). rewrite app_str_nil_r in Lt. rewrite Lt. cbn [lex mbind option_bind]. rewrite app_nil_r.
  specialize (Rt (S (length toks)) []). rewrite app_nil_r in Rt. rewrite Rt by (done || lia). done.
Qed.

(** * The instance *)

Lemma canonical_canonical m e : let '(m', e') := canonical m e in e' = 0%nat ∨ m' mod 10 ≠ 0.
Proof.
  revert m. induction e as [|e IH]; intros m; cbn [canonical]; [by left|].
  case_bool_decide as H; [apply IH|by right].
Qed.
Lemma change_good_value n v : good_value (λ _, True) v → good_value (λ _, True) (change_value n v).
Proof.
  induction v as [|s|b|m e|l IH|] using hval_nested; try done. cbn.
  induction IH as [|v l Hv Hl IHl]; [done|]. cbn. intros [H1 H2]. auto.
Qed.
Lemma change_good_body n b : good_body (λ _, True) b → good_body (λ _, True) (change_body n b).
Proof.
  induction b as [a l IH] using body_nested. intros (H1 & H2 & H3). cbn. split_and!.
  - rewrite <- list_fmap_compose. exact H1.
  - apply list.Forall_fmap. eapply list.Forall_impl; [exact H2|]. intros [m v] [Hm Hv]. split; [done|].
    by apply change_good_value.
  - clear -IH H3. induction IH as [|[m [labels inner]] l Hx Hl IHl]; [done|]. destruct H3 as [(Hm & _ & Hi) H3].
    cbn. split; [|by apply IHl]. split_and!; [done| |by apply Hx].
    apply list.Forall_forall. done.
Qed.
Definition decimal_text (f : string) : Prop := ∃ m e, (e = 0%nat ∨ m mod 10 ≠ 0) ∧ f = print_number m e.
Lemma plain_ok_lib : ok_lib plain_lib clean (λ _, True) decimal_text.
Proof.
  split.
  - intros b Hb. cbn. by apply (printed_read (λ _, True)), change_good_body.
  - intros f (m & e & H & ->). cbn. unfold decimal_of. rewrite read_number_again by done. cbn.
    unfold float_of. by rewrite canonical_same.
  - intros m e f. cbn. unfold float_of. pose proof (canonical_canonical m e) as H.
    destruct (canonical m e) as [m' e']. intros [= <-]. by exists m', e'.
Qed.
