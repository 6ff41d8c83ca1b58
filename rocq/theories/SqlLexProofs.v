(** Proofs about the token reading of generated SQL. *)
From Coq Require Import String Ascii.
From stdpp Require Import list strings numbers.
From Verif Require Import GoStrings GoStringsProofs GoUtf8 GoUtf8Proofs DdlModel DdlSpec DdlProofs SqlLex.
Local Open Scope Z_scope.

Global Instance word_char_dec c : Decision (word_char c).
Proof. unfold word_char. simpl. apply _. Defined.
Global Instance is_space_dec c : Decision (is_space c).
Proof. unfold is_space. apply _. Defined.

(** Facts about given characters. *)
Ltac decided := apply (bool_decide_unpack _); vm_compute; exact I.

Lemma starts_cons P c s : starts P (String c s) ↔ P c.
Proof. split; [intros (x & r & [= <- <-] & H); done|]. intros H. by exists c, s. Qed.
Lemma starts_nil P : ¬ starts P "".
Proof. by intros (x & r & ? & _). Qed.
Lemma all_bytes_cons P c s : all_bytes P (String c s) ↔ P c ∧ all_bytes P s.
Proof.
  unfold all_bytes. split.
  - intros H. split; [apply H, has_byte_cons; by left|]. intros d Hd. apply H, has_byte_cons. by right.
  - intros [H1 H2] d [->|Hd]%has_byte_cons; [done|by apply H2].
Qed.
Lemma all_bytes_nil P : all_bytes P "".
Proof. intros c H%has_byte_nil. done. Qed.
Lemma all_bytes_app P a b : all_bytes P a → all_bytes P b → all_bytes P (a +:+ b).
Proof. intros H1 H2 c [H|H]%has_byte_app; [by apply H1|by apply H2]. Qed.

Lemma space_not_word c : is_space c → ¬ word_char c.
Proof.
  unfold is_space, word_char. rewrite !elem_of_cons, elem_of_nil. simpl. lia.
Qed.

(** The longest prefix of characters of a class is unique. *)
Lemma run_unique P a s a' s' :
  all_bytes P a → ¬ starts P s → all_bytes P a' → ¬ starts P s' → a +:+ s = a' +:+ s' → a = a' ∧ s = s'.
Proof.
  revert a'. induction a as [|c a IH]; intros [|d a'] Ha Hs Ha' Hs' H.
  - done.
  - exfalso. apply Hs. change (s = String d (a' +:+ s')) in H. rewrite H.
    apply all_bytes_cons in Ha' as [? _]. by apply starts_cons.
  - exfalso. apply Hs'. change (String c (a +:+ s) = s') in H. rewrite <-H.
    apply all_bytes_cons in Ha as [? _]. by apply starts_cons.
  - rewrite !app_str_cons in H. injection H as <- H. apply all_bytes_cons in Ha as [_ Ha], Ha' as [_ Ha'].
    destruct (IH a' Ha Hs Ha' Hs' H) as [-> ->]. done.
Qed.
Lemma str_app_split (a b c d : string) : a +:+ b = c +:+ d →
  (∃ y, c = a +:+ y ∧ b = y +:+ d) ∨ (∃ y, a = c +:+ y ∧ d = y +:+ b).
Proof.
  revert c. induction a as [|x a IH]; intros c H.
  - left. exists c. done.
  - destruct c as [|z c].
    + right. exists (String x a). done.
    + rewrite !app_str_cons in H. injection H as <- H. destruct (IH c H) as [(y & -> & ->)|(y & -> & ->)].
      * left. by exists y.
      * right. by exists y.
Qed.
Lemma dollar_unique_le x y s s' : dollar_text (x +:+ y) → "$$" +:+ s = y +:+ "$$" +:+ s' → y = "".
Proof.
  intros H Heq. destruct y as [|a [|b y]]; [done|exfalso..].
  - rewrite !app_str_cons in Heq. injection Heq as <- Heq.
    specialize (H x "$"). change "" with EmptyString in H. discriminate H.
    by rewrite <-app_str_assoc.
  - rewrite !app_str_cons in Heq. injection Heq as <- <- Heq.
    specialize (H x (y +:+ "$$")).
    assert (y +:+ "$$" = "") as Hn; [|by destruct y]. apply H. by rewrite <-app_str_assoc.
Qed.
Lemma dollar_unique x s x' s' :
  dollar_text x → dollar_text x' → x +:+ "$$" +:+ s = x' +:+ "$$" +:+ s' → x = x' ∧ s = s'.
Proof.
  intros Hx Hx' H. destruct (str_app_split _ _ _ _ H) as [(y & -> & Hy)|(y & -> & Hy)].
  - pose proof (dollar_unique_le _ _ _ _ Hx' Hy) as ->. rewrite app_str_nil_r. split; [done|].
    change ("$$" +:+ s = "$$" +:+ s') in Hy. by apply app_str_inj_l in Hy.
  - pose proof (dollar_unique_le _ _ _ _ Hx Hy) as ->. rewrite app_str_nil_r. split; [done|].
    change ("$$" +:+ s' = "$$" +:+ s) in Hy. symmetry. by apply app_str_inj_l in Hy.
Qed.

(** Which rule applies is decided by the first character or two. *)
Definition rule (s : string) : nat :=
  match s with
  | "" => 0
  | String c r =>
      if decide (is_space c) then 1
      else if decide (String.prefix "--" s = true) then 2
      else if decide (c = dollar) then 6
      else if decide (word_char c) then 3
      else if decide (c = dquote) then 4
      else if decide (c = squote) then 5
      else 7
  end%nat.
Lemma prefix_begins p s : String.prefix p s = true ↔ begins_with p s.
Proof. exact (has_prefix_spec s p). Qed.
Inductive lex_rule : nat → string → list token → Prop :=
  | lr_end : lex_rule 0 "" []
  | lr_space c s ts : is_space c → lexes s ts → lex_rule 1 (String c s) ts
  | lr_comment l s ts :
      ¬ has_byte newline l → ¬ starts (λ c, c ≠ newline) s → lexes s ts → lex_rule 2 ("--" +:+ l +:+ s) ts
  | lr_word w s ts :
      starts (λ c, word_char c ∧ c ≠ dollar) w → all_bytes word_char w → ¬ starts word_char s →
      ¬ starts (eq squote) s → lexes s ts → lex_rule 3 (w +:+ s) (Word w :: ts)
  | lr_name n t s ts : lex_identifier t = Some (n, s) → lexes s ts → lex_rule 4 t (Name n :: ts)
  | lr_text x s ts :
      plain_text x → ¬ starts (eq squote) s → lexes s ts →
      lex_rule 5 (String squote (x +:+ String squote s)) (Text x :: ts)
  | lr_dollar x s ts :
      dollar_text x → lexes s ts → lex_rule 6 ("$$" +:+ x +:+ "$$" +:+ s) (Text x :: ts)
  | lr_sym c s ts : sym_char c → lexes s ts → lex_rule 7 (String c s) (Sym c :: ts).
Lemma rule_lexes s ts : lexes s ts → lex_rule (rule s) s ts.
Proof.
  destruct 1 as [|c s ts Hc H|l s ts Hl Hs H|w s ts Hw Hw' Hs Hs' H|n t s ts Hn H|x s ts Hx Hs H|x s ts Hx H|c s ts Hc H1 H2 H].
  - constructor.
  - unfold rule. rewrite decide_True by done. by constructor.
  - replace (rule ("--" +:+ l +:+ s)) with 2%nat; [by eapply lr_comment|].
    rewrite !app_str_cons. unfold rule. rewrite decide_False by decided.
    rewrite decide_True; [done|]. apply prefix_begins. by exists (l +:+ s).
  - replace (rule (w +:+ s)) with 3%nat; [by eapply lr_word|].
    destruct Hw as (c & r & -> & Hc & Hd). rewrite app_str_cons. unfold rule.
    rewrite decide_False. 2:{ by intros Hsp%space_not_word. }
    rewrite decide_False. 2:{ intros [t Ht]%prefix_begins. injection Ht as -> _. revert Hc. decided. }
    rewrite decide_False by done. by rewrite decide_True.
  - replace (rule t) with 4%nat; [by eapply lr_name|].
    unfold lex_identifier in Hn. destruct t as [|c t]; [done|]. case_decide as Hc; [|done]. subst c.
    unfold rule. repeat (rewrite decide_False; [|decided]). by rewrite decide_True.
  - replace (rule (String squote (x +:+ String squote s))) with 5%nat; [by eapply lr_text|].
    unfold rule. repeat (rewrite decide_False; [|decided]). by rewrite decide_True.
  - replace (rule ("$$" +:+ x +:+ "$$" +:+ s)) with 6%nat; [by eapply lr_dollar|].
    rewrite !app_str_cons. unfold rule. rewrite decide_False by decided.
    rewrite decide_False; [by rewrite decide_True|]. intros [r Hr]%prefix_begins. discriminate Hr.
  - replace (rule (String c s)) with 7%nat; [by eapply lr_sym|].
    destruct Hc as (Hw & Hsp & Hd & Hq). unfold rule. rewrite decide_False by done.
    rewrite decide_False by (by rewrite prefix_begins).
    rewrite decide_False. 2:{ intros ->. apply Hw. decided. }
    by rewrite !decide_False by done.
Qed.
Lemma lex_body_shorter m : ∀ s n r, (String.length s ≤ m)%nat →
  lex_body s = Some (n, r) → (String.length r < String.length s)%nat.
Proof.
  induction m as [|m IH]; intros s n r Hm H; destruct s as [|c s]; simpl in Hm; try done; [lia|].
  simpl in H. case_decide.
  - destruct s as [|d s]; [by injection H as <- <-; simpl; lia|]. case_decide.
    + destruct (lex_body s) as [[n' r']|] eqn:E; [|done]. injection H as <- <-.
      apply IH in E; simpl in *; lia.
    + injection H as <- <-. simpl. lia.
  - destruct (lex_body s) as [[n' r']|] eqn:E; [|done]. injection H as <- <-.
    apply IH in E; simpl in *; lia.
Qed.
Lemma lexes_functional s ts ts' : lexes s ts → lexes s ts' → ts = ts'.
Proof.
  remember (String.length s) as n eqn:Hn. assert (String.length s ≤ n)%nat as Hle by lia. clear Hn.
  revert s ts ts' Hle. induction n as [n IHn] using lt_wf_ind. intros s ts ts' Hle H1 H2.
  assert (∀ r us us', (String.length r < String.length s)%nat → lexes r us → lexes r us' → us = us') as IH.
  { intros r us us' Hr. apply (IHn (String.length r)); lia. }
  clear IHn Hle. apply rule_lexes in H1, H2. remember (rule s) as k eqn:Hk. clear Hk.
  destruct H1 as [|c s ts Hc H|l s ts Hl Hs H|w s ts Hw Hw' Hs Hs' H|n' t s ts Hn H|x s ts Hx Hs H
    |x s ts Hx H|c s ts Hc H].
  - by inversion H2.
  - inversion H2; subst. apply (IH s); [simpl; lia|done..].
  - inversion H2 as [| |l' s' ts2 Hl' Hs' H' E0 E| | | | |]; subst.
    assert (∀ l, ¬ has_byte newline l → all_bytes (λ c, c ≠ newline) l) as Hall by (intros ? ? ? ? ->; done).
    destruct (run_unique (λ c, c ≠ newline) l' s' l s) as [-> ->]; auto.
    apply (IH s); [rewrite !str_length_app; simpl; lia|done..].
  - inversion H2 as [| | |w' s' ts2 Hw2 Hw2' Hs2 Hs2' H' E0 E| | | |]; subst.
    destruct (run_unique word_char w' s' w s) as [-> ->]; auto. f_equal.
    apply (IH s); [|done..]. destruct Hw as (c & r & -> & _). rewrite str_length_app. simpl. lia.
  - inversion H2 as [| | | |n2 t2 s2 ts2 Hn2 H' E0 E| | |]; subst. rewrite Hn in Hn2. injection Hn2 as <- <-.
    f_equal. apply (IH s); [|done..]. unfold lex_identifier in Hn. destruct t as [|c t]; [done|].
    case_decide; [|done]. apply (lex_body_shorter (String.length t)) in Hn; simpl; lia.
  - inversion H2 as [| | | | |x' s' ts2 Hx' Hs' H' E0 E| |]; subst.
    apply (first_sep_unique squote) in E as [-> ->]; [|done..]. f_equal.
    apply (IH s); [simpl; rewrite str_length_app; simpl; lia|done..].
  - inversion H2 as [| | | | | |x' s' ts2 Hx' H' E0 E|]; subst.
    apply dollar_unique in E as [-> ->]; [|done..]. f_equal.
    apply (IH s); [rewrite !str_length_app; simpl; lia|done..].
  - inversion H2; subst. f_equal. apply (IH s); [simpl; lia|done..].
Qed.

(** * Reading pieces *)
Lemma boundary_not_word s : boundary s → ¬ starts word_char s ∧ ¬ starts (eq squote) s.
Proof.
  intros [->|(c & r & -> & Hc)]; [split; apply starts_nil|]. rewrite !starts_cons. split.
  - destruct Hc as [Hc|[->| ->]]; [|decided..].
    by apply space_not_word.
  - destruct Hc as [Hc|[->| ->]]; [|done..]. intros <-. revert Hc. decided.
Qed.
Lemma reads_word w : a_word w → reads w [Word w].
Proof.
  intros [H1 H2] rest us Hb H. simpl. destruct (boundary_not_word _ Hb). by constructor.
Qed.
Lemma reads_nil : reads "" [].
Proof. by intros rest us Hb H. Qed.
Lemma boundary_app p rest : boundary p → (p = "" → boundary rest) → boundary (p +:+ rest).
Proof.
  intros [->|(c & r & -> & Hc)] Hr; [by apply Hr|]. right. exists c, (r +:+ rest). done.
Qed.
Lemma reads_app p q ts us : reads p ts → reads q us → boundary q → reads (p +:+ q) (ts ++ us).
Proof.
  intros Hp Hq Hb rest vs Hr H. rewrite <-app_str_assoc, <-app_assoc. apply Hp.
  - by apply boundary_app.
  - by apply Hq.
Qed.
Lemma reads_space c p ts : is_space c → reads p ts → reads (String c p) ts.
Proof. intros Hc Hp rest us Hb H. rewrite app_str_cons. apply lex_space; [done|]. by apply Hp. Qed.
Lemma lex_sym_paren c s ts : c = "("%char ∨ c = ")"%char ∨ c = ","%char ∨ c = ";"%char →
  lexes s ts → lexes (String c s) (Sym c :: ts).
Proof.
  intros Hc H. constructor; [| | |done].
  - destruct Hc as [->|[->|[->| ->]]]; (split; [decided|]); (split; [decided|done]).
  - intros [r Hr]. destruct Hc as [->|[->|[->| ->]]]; discriminate Hr.
  - intros [r Hr]. destruct Hc as [->|[->|[->| ->]]]; discriminate Hr.
Qed.
Lemma reads_lexes p ts : reads p ts → lexes p ts.
Proof.
  intros H. rewrite <-(app_str_nil_r p), <-(app_nil_r ts). apply H; [by left|constructor].
Qed.

(** * Given texts
    A reader of words, white space and simple symbols.  [w] is the word being read;
    [closed] asks that no word is left at the end. *)
Definition flush (w : string) : list token := if decide (w = "") then [] else [Word w].
Definition simple_sym (c : ascii) : bool := bool_decide (byte_of c ∈ [40; 41; 44; 58; 59; 61; 62; 46]).
Fixpoint kw (closed : bool) (w : string) (s : string) : option (list token) :=
  match s with
  | "" => if closed then (if decide (w = "") then Some [] else None) else Some (flush w)
  | String c s =>
      if decide (word_char c ∧ (w = "" → c ≠ dollar)) then kw closed (w +:+ String c "") s
      else if decide (is_space c) then
        match kw closed "" s with Some ts => Some (flush w ++ ts) | None => None end
      else if simple_sym c then
        match kw closed "" s with Some ts => Some (flush w ++ Sym c :: ts) | None => None end
      else None
  end.
Lemma simple_sym_spec c : simple_sym c = true → sym_char c ∧ c ≠ "-"%char ∧ c ≠ "/"%char.
Proof.
  unfold simple_sym. rewrite bool_decide_eq_true. intros H.
  assert (∀ d, byte_of c = byte_of d → c = d) as Hinj.
  { intros d Hd. unfold byte_of in Hd. apply N2Z.inj in Hd.
    by rewrite <-(ascii_N_embedding c), <-(ascii_N_embedding d), Hd. }
  rewrite !elem_of_cons, elem_of_nil in H.
  destruct_or! H; try done;
  (match type of H with _ = ?n => rewrite (Hinj (of_byte n)) by (rewrite H; by vm_compute) end);
  (split; [split; [decided|split; [decided|split; by vm_compute]]|split; by vm_compute]).
Qed.
Lemma lex_sym_simple c s ts : simple_sym c = true → lexes s ts → lexes (String c s) (Sym c :: ts).
Proof.
  intros (H & H1 & H2)%simple_sym_spec Hs. constructor; [done| | |done].
  - intros [r Hr]. rewrite app_str_cons in Hr. by injection Hr.
  - intros [r Hr]. rewrite app_str_cons in Hr. by injection Hr.
Qed.
Lemma lex_flush w s ts : w = "" ∨ a_word w → ¬ starts word_char s → ¬ starts (eq squote) s → lexes s ts →
  lexes (w +:+ s) (flush w ++ ts).
Proof.
  intros Hw H1 H2 H. unfold flush. case_decide as Hw'; [by subst|].
  destruct Hw as [|[Hw1 Hw2]]; [done|]. by constructor.
Qed.
Lemma kw_sound closed s : ∀ w ts rest us, kw closed w s = Some ts → w = "" ∨ a_word w →
  (closed = false → boundary rest) → lexes rest us → lexes (w +:+ s +:+ rest) (ts ++ us).
Proof.
  induction s as [|c s IH]; intros w ts rest us Hk Hw Hb H; simpl in Hk.
  - rewrite (eq_refl : "" +:+ rest = rest). destruct closed.
    + case_decide; [|done]. injection Hk as <-. by subst.
    + injection Hk as <-. destruct (boundary_not_word rest); [by apply Hb|]. by apply lex_flush.
  - case_decide as Hc.
    + eapply IH in Hk; [|right|done..].
      * by rewrite <-app_str_assoc in Hk.
      * destruct Hc as [Hc1 Hc2]. destruct Hw as [->|[Hw1 Hw2]]; split.
        -- apply starts_cons. split; [done|]. by apply Hc2.
        -- apply all_bytes_cons. split; [done|apply all_bytes_nil].
        -- destruct Hw1 as (d & r & -> & ?). by eapply starts_cons.
        -- apply all_bytes_app; [done|]. apply all_bytes_cons. split; [done|apply all_bytes_nil].
    + assert (w = "" ∨ ¬ word_char c) as Hwc.
      { destruct (decide (w = "")); [by left|]. right. intros ?. by apply Hc. }
      rewrite app_str_cons. case_decide as Hsp; [|destruct (simple_sym c) eqn:Hsy; [|done]].
      * destruct (kw closed "" s) as [ts'|] eqn:E; [|done]. injection Hk as <-. rewrite <-app_assoc.
        eapply IH in E; [|by left|done..]. apply lex_flush; [done|..].
        -- rewrite starts_cons. by apply space_not_word.
        -- rewrite starts_cons. intros <-. revert Hsp. decided.
        -- by apply lex_space.
      * destruct (kw closed "" s) as [ts'|] eqn:E; [|done]. injection Hk as <-.
        rewrite <-app_assoc, <-app_comm_cons.
        eapply IH in E; [|by left|done..]. destruct (simple_sym_spec _ Hsy) as ((H1 & H2 & H3 & H4) & _).
        apply lex_flush; [done|..].
        -- by rewrite starts_cons.
        -- rewrite starts_cons. by intros <-.
        -- by apply lex_sym_simple.
Qed.
Lemma kw_closed p ts rest us : kw true "" p = Some ts → lexes rest us → lexes (p +:+ rest) (ts ++ us).
Proof. intros Hk H. apply (kw_sound true p "" ts rest us Hk); [by left|done|done]. Qed.
Lemma kw_reads p ts : kw false "" p = Some ts → reads p ts.
Proof. intros Hk rest us Hb H. apply (kw_sound false p "" ts rest us Hk); [by left|done|done]. Qed.

Lemma lex_quoted n s ts : ¬ starts (eq dquote) s → lexes s ts → lexes (quote_name n +:+ s) (Name n :: ts).
Proof.
  intros Hs H. apply lex_name with (s := s); [|done]. apply lex_quote_name.
  intros [r ->]. apply Hs. by apply starts_cons.
Qed.

(** * The generated statements *)
Lemma boundary_char c s : is_space c ∨ c = "("%char ∨ c = ")"%char → boundary (String c s).
Proof. intros H. right. by exists c, s. Qed.
Lemma no_quote_next c s : c ≠ dquote → ¬ starts (eq dquote) (String c s).
Proof. rewrite starts_cons. congruence. Qed.
(** Read the text [p] at the front, as [l]. *)
Ltac text p :=
  lazymatch goal with |- lexes _ ?ts =>
    let v := eval vm_compute in (kw true "" p) in
    lazymatch v with Some ?l => apply (kw_closed p l); [by vm_compute|] end
  end.
Ltac quoted := apply lex_quoted; [by apply no_quote_next|].

Lemma lex_keys keys rest us : ¬ starts (eq dquote) rest → lexes rest us →
  lexes (index_keys_sql keys +:+ rest) (separated ((λ c, [Name c]) <$> (ik_column <$> keys)) ++ us).
Proof.
  intros Hr H. unfold index_keys_sql. induction keys as [|k keys IH]; [done|]. destruct keys as [|k' keys].
  - by apply lex_quoted.
  - rewrite !fmap_cons, concat_sep_cons, <-!app_str_assoc. rewrite !fmap_cons in IH.
    change (lexes (quote_name (ik_column k) +:+ ", " +:+ String.concat ", "
      (quote_name (ik_column k') :: ((λ k, quote_name (ik_column k)) <$> keys)) +:+ rest)
      (Name (ik_column k) :: [Sym ","] ++ (separated ([Name (ik_column k')] ::
        ((λ c, [Name c]) <$> (ik_column <$> keys))) ++ us))).
    quoted. text ", ". by apply IH.
Qed.
Lemma index_statement i : ix_primary i = true →
  lexes (index_to_sql i) (primary_key_statement (ix_table i) (ix_name i) (ik_column <$> ix_keys i)).
Proof.
  intros Hp. unfold index_to_sql, primary_key_statement. rewrite Hp, <-!app_str_assoc.
  text "ALTER TABLE ". quoted. text nl. text "  ADD ". case_decide as Hn.
  - text "PRIMARY KEY (". apply lex_keys; [by apply no_quote_next|].
    text ")". text nl. text ";". text nl. constructor.
  - rewrite <-!app_str_assoc, <-app_assoc. text "CONSTRAINT ". quoted. text nl. text "  ".
    text "PRIMARY KEY (". apply lex_keys; [by apply no_quote_next|].
    text ")". text nl. text ";". text nl. constructor.
Qed.

Lemma lex_column c ts rest us : column_reads c ts → lexes rest us →
  lexes (column_sql c +:+ rest) (ts ++ us).
Proof.
  intros [c' type dflt Ht Hd] H. unfold column_sql, column_tokens. rewrite <-!app_str_assoc.
  rewrite <-app_comm_cons, <-!app_assoc. quoted. text " ".
  assert (boundary ((if decide (co_default c' = "") then "" else " DEFAULT " +:+ co_default c') +:+ nl +:+ rest) ∧
    lexes ((if decide (co_default c' = "") then "" else " DEFAULT " +:+ co_default c') +:+ nl +:+ rest)
    (match dflt with Some d => words ["DEFAULT"] ++ d | None => [] end ++ us)) as [Hb Hl].
  { destruct dflt as [d|].
    - destruct Hd as [Hne Hd]. rewrite decide_False by done. split; [apply boundary_char; left; decided|].
      rewrite <-app_str_assoc, <-app_assoc. text " DEFAULT ". apply Hd; [apply boundary_char; left; decided|].
      by text nl.
    - rewrite decide_True by done. split; [apply boundary_char; left; decided|]. by text nl. }
  apply Ht; destruct (co_not_null c').
  - apply boundary_char. left. decided.
  - done.
  - apply (kw_reads " NOT NULL"); [by vm_compute|done..].
  - done.
Qed.
Lemma lex_check c ts rest us : check_reads c ts → lexes rest us →
  lexes ("CHECK(" +:+ ck_expression c +:+ ")" +:+ nl +:+ rest) (ts ++ us).
Proof.
  intros [c' e He] H. rewrite <-!app_assoc. text "CHECK(". apply He.
  - apply boundary_char. by right; right.
  - text ")". by text nl.
Qed.
Lemma separated_cons x l : separated (x :: l) = x ++ mjoin ((λ y, Sym "," :: y) <$> l).
Proof.
  revert x. induction l as [|y l IH]; intros x; [by rewrite app_nil_r|].
  rewrite fmap_cons. change (x ++ Sym "," :: separated (y :: l) =
    x ++ (Sym "," :: y) ++ mjoin ((λ y, Sym "," :: y) <$> l)). by rewrite IH.
Qed.
Lemma separated_app x l l' : separated ((x :: l) ++ l') = separated (x :: l) ++ mjoin ((λ y, Sym "," :: y) <$> l').
Proof.
  rewrite <-app_comm_cons, !separated_cons, fmap_app, <-app_assoc. f_equal.
  induction l as [|y l IH]; [done|]. rewrite fmap_cons, <-app_comm_cons.
  change ((Sym "," :: y) ++ mjoin (((λ y, Sym "," :: y) <$> l) ++ ((λ y, Sym "," :: y) <$> l')) =
    ((Sym "," :: y) ++ mjoin ((λ y, Sym "," :: y) <$> l)) ++ mjoin ((λ y, Sym "," :: y) <$> l')).
  by rewrite IH, <-app_assoc.
Qed.
Lemma lex_checks l items rest us : Forall2 check_reads l items → lexes rest us →
  lexes (checks_sql l +:+ rest) (mjoin ((λ y, Sym "," :: y) <$> items) ++ us).
Proof.
  intros H Hr. induction H as [|c ts l items Hc H IH]; [done|].
  unfold checks_sql. rewrite fmap_cons, concat_cons, <-!app_str_assoc, fmap_cons.
  change (lexes (", " +:+ "CHECK(" +:+ ck_expression c +:+ ")" +:+ nl +:+ checks_sql l +:+ rest)
    (([Sym ","] ++ ts ++ mjoin ((λ y, Sym "," :: y) <$> items)) ++ us)).
  rewrite <-!app_assoc. text ", ". by apply lex_check.
Qed.
Lemma lex_columns_rest l items rest us : Forall2 column_reads l items → lexes rest us →
  lexes (String.concat "" ((λ c, ", " +:+ column_sql c) <$> l) +:+ rest)
    (mjoin ((λ y, Sym "," :: y) <$> items) ++ us).
Proof.
  intros H Hr. induction H as [|c ts l items Hc H IH]; [done|].
  rewrite fmap_cons, concat_cons, <-!app_str_assoc, fmap_cons.
  change (lexes (", " +:+ column_sql c +:+ String.concat "" ((λ c, ", " +:+ column_sql c) <$> l) +:+ rest)
    (([Sym ","] ++ ts ++ mjoin ((λ y, Sym "," :: y) <$> items)) ++ us)).
  rewrite <-!app_assoc. text ", ". by apply lex_column.
Qed.
Lemma table_statement t cols checks :
  tb_columns t ≠ [] ∨ tb_checks t = [] →
  Forall2 column_reads (tb_columns t) cols → Forall2 check_reads (tb_checks t) checks →
  lexes (table_to_sql t) (create_table_statement (tb_name t) (cols ++ checks)).
Proof.
  intros Hne Hcols Hchecks. unfold table_to_sql, create_table_statement.
  text "CREATE TABLE ". quoted. text " (". text nl.
  assert (lexes (")" +:+ nl +:+ ";" +:+ nl) [Sym ")"; Sym ";"]) as Hend.
  { text ")". text nl. text ";". text nl. constructor. }
  inversion Hcols as [E1 E2|c ts l items Hc Hl E1 E2].
  - destruct Hne as [Hne|Hne]; [by rewrite <-E1 in Hne|]. rewrite Hne in Hchecks |- *.
    by inversion Hchecks.
  - lazymatch goal with |- lexes ?s _ =>
      change (lexes s (separated ((ts :: items) ++ checks) ++ [Sym ")"; Sym ";"])) end.
    rewrite separated_app, separated_cons, <-!app_assoc.
    unfold columns_sql. rewrite <-!app_str_assoc. text "  ". apply lex_column; [done|].
    apply lex_columns_rest; [done|]. by apply lex_checks.
Qed.
Lemma trigger_statement t whn fn :
  reads (tg_when t) whn → reads (tg_function t) fn →
  lexes (trigger_to_sql t)
    (create_trigger_statement (tg_name t) whn (tg_update t) (tg_table t) (tg_each_row t) fn).
Proof.
  intros Hw Hf. unfold trigger_to_sql, create_trigger_statement.
  text "CREATE TRIGGER ". quoted. text nl. text "  ".
  assert (∀ b : bool, boundary ((if b then " UPDATE" else "") +:+ " ON " +:+ quote_name (tg_table t) +:+
    (if tg_each_row t then nl +:+ "  FOR EACH ROW" else "") +:+
    nl +:+ "  EXECUTE PROCEDURE " +:+ tg_function t +:+ "()" +:+ nl +:+ ";" +:+ nl)) as Hb.
  { intros []; apply boundary_char; left; decided. }
  apply Hw; [apply Hb|].
  assert (lexes (" ON " +:+ quote_name (tg_table t) +:+
    (if tg_each_row t then nl +:+ "  FOR EACH ROW" else "") +:+
    nl +:+ "  EXECUTE PROCEDURE " +:+ tg_function t +:+ "()" +:+ nl +:+ ";" +:+ nl)
    (words ["ON"] ++ Name (tg_table t) :: (if tg_each_row t then words ["FOR"; "EACH"; "ROW"] else []) ++
      words ["EXECUTE"; "PROCEDURE"] ++ fn ++ [Sym "("; Sym ")"; Sym ";"])) as H.
  { text " ON ".
    assert (lexes (nl +:+ "  EXECUTE PROCEDURE " +:+ tg_function t +:+ "()" +:+ nl +:+ ";" +:+ nl)
      (words ["EXECUTE"; "PROCEDURE"] ++ fn ++ [Sym "("; Sym ")"; Sym ";"])) as H.
    { text nl. text "  EXECUTE PROCEDURE ". apply Hf; [apply boundary_char; by right; left|].
      text "()". text nl. text ";". text nl. constructor. }
    apply lex_quoted.
    - destruct (tg_each_row t); by apply no_quote_next.
    - destruct (tg_each_row t); [|done]. rewrite <-app_str_assoc. text nl.
      apply (kw_reads "  FOR EACH ROW" (words ["FOR"; "EACH"; "ROW"])); [by vm_compute| |done]. apply boundary_char. left. decided. }
  destruct (tg_update t); [|done].
  apply (kw_reads " UPDATE" (words ["UPDATE"])); [by vm_compute| |done]. apply boundary_char. left. decided.
Qed.
Lemma func_statement f name returns :
  reads (fn_name f) name → reads (fn_returns f) returns →
  dollar_text (nl +:+ fn_definition f) → plain_text (fn_language f) →
  lexes (func_to_sql f)
    (create_function_statement name returns (nl +:+ fn_definition f) (fn_language f)).
Proof.
  intros Hn Hr Hd Hl. unfold func_to_sql, create_function_statement.
  text "CREATE OR REPLACE FUNCTION ". apply Hn; [apply boundary_char; by right; left|].
  text "()". text nl. text "RETURNS ". apply Hr; [apply boundary_char; left; decided|].
  text " AS ". change (lexes ("$$" +:+ nl +:+ fn_definition f +:+ "$$" +:+ " LANGUAGE " +:+
    String squote (fn_language f +:+ String squote (nl +:+ ";" +:+ nl)))
    (Text (nl +:+ fn_definition f) :: words ["LANGUAGE"] ++ [Text (fn_language f); Sym ";"])).
  rewrite (app_str_assoc nl). apply lex_dollar; [done|]. text " LANGUAGE ". apply lex_text; [done|..].
  - rewrite (eq_refl : nl +:+ ";" +:+ nl = String newline (";" +:+ nl)), starts_cons. by vm_compute.
  - text nl. text ";". text nl. constructor.
Qed.

(** No dollar followed by another or by the end. *)
Fixpoint no_dollar_pair (s : string) : bool :=
  match s with
  | "" => true
  | String c r =>
      negb (bool_decide (c = dollar) &&
        match r with "" => true | String d _ => bool_decide (d = dollar) end) && no_dollar_pair r
  end.
Lemma no_dollar_pair_text s : no_dollar_pair s = true → dollar_text s.
Proof.
  intros H a. revert s H. induction a as [|c a IH]; intros s H b Heq.
  - destruct s as [|c s].
    + change ("$$" +:+ "" = "$$" +:+ b) in Heq. symmetry. by apply app_str_inj_l in Heq.
    + exfalso. simpl in H. apply andb_prop in H as [H _]. rewrite app_str_cons in Heq.
      change (String c (s +:+ "$$") = String dollar (String dollar b)) in Heq. injection Heq as -> Heq.
      rewrite bool_decide_true in H by done. destruct s as [|d s]; [done|].
      rewrite app_str_cons in Heq. injection Heq as -> _. by rewrite bool_decide_true in H.
  - destruct s as [|d s].
    + rewrite !app_str_cons in Heq. change (String dollar (String dollar "") = String c (a +:+ "$$" +:+ b)) in Heq.
      injection Heq as _ Heq. destruct a as [|? a]; [discriminate Heq|].
      rewrite app_str_cons in Heq. injection Heq as _ Heq. by destruct a.
    + simpl in H. apply andb_prop in H as [_ H]. rewrite !app_str_cons in Heq. injection Heq as _ Heq.
      by apply (IH s).
Qed.
