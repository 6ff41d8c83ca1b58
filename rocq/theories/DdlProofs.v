(** Proofs about internal/ddl: quoting, ToSQL, text utilities. *)
From Coq Require Import String Ascii.
From stdpp Require Import gmap list strings numbers pretty.
From Verif Require Import GoStrings GoStringsProofs GoUtf8 GoUtf8Proofs DdlModel DdlSpec.
Local Open Scope Z_scope.

(** * Quoting *)
Definition starts_quote (s : string) : Prop := ∃ r, s = String dquote r.
Lemma lex_body_double n rest :
  ¬ starts_quote rest → lex_body (double_quotes n +:+ String dquote rest) = Some (n, rest).
Proof.
  intros Hr. induction n as [|c n IH].
  - change (double_quotes "") with "". change ("" +:+ String dquote rest) with (String dquote rest).
    cbn [lex_body]. rewrite decide_True by done. destruct rest as [|d r]; [done|].
    rewrite decide_False; [done|]. intros ->. apply Hr. by eexists.
  - cbn [double_quotes]. destruct (decide (c = dquote)) as [->|Hc].
    + rewrite !app_str_cons. cbn [lex_body]. rewrite !decide_True by done. by rewrite IH.
    + rewrite app_str_cons. cbn [lex_body]. rewrite decide_False by done. by rewrite IH.
Qed.
Lemma lex_quote_name n rest :
  ¬ starts_quote rest → lex_identifier (quote_name n +:+ rest) = Some (n, rest).
Proof.
  intros Hr. unfold quote_name. rewrite app_str_cons. cbn [lex_identifier].
  rewrite decide_True by done. rewrite <-app_str_assoc. by apply lex_body_double.
Qed.
Lemma quote_app_inj a b r r' :
  ¬ starts_quote r → ¬ starts_quote r' → quote_name a +:+ r = quote_name b +:+ r' → a = b ∧ r = r'.
Proof.
  intros H1 H2 Heq. pose proof (lex_quote_name a r H1) as E1. rewrite Heq, lex_quote_name in E1 by done.
  by injection E1.
Qed.
Lemma quote_name_inj a b : quote_name a = quote_name b → a = b.
Proof.
  intros H. destruct (quote_app_inj a b "" ""); [by intros [? ?]..|by rewrite H|done].
Qed.
Lemma starts_quote_cons c s : c ≠ dquote → ¬ starts_quote (String c s).
Proof. intros Hc [r Hr]. injection Hr as ? _. done. Qed.
Lemma starts_quote_nil : ¬ starts_quote "".
Proof. by intros [r Hr]. Qed.

Lemma concat_sep_cons sep x y l :
  String.concat sep (x :: y :: l) = x +:+ sep +:+ String.concat sep (y :: l).
Proof. done. Qed.
Lemma lex_qualified_identifier parts rest n :
  parts ≠ [] → (length parts ≤ n)%nat → ¬ starts_quote rest → ¬ begins_with "." rest →
  lex_qualified n (identifier parts +:+ rest) = Some (parts, rest).
Proof.
  intros Hne Hlen Hq Hd. revert n Hlen. induction parts as [|p parts IH]; intros n Hlen; [done|].
  destruct n as [|n]; [simpl in Hlen; lia|]. cbn [lex_qualified].
  unfold identifier. rewrite fmap_cons. destruct parts as [|q parts].
  - rewrite fmap_nil. simpl String.concat. rewrite lex_quote_name by done.
    destruct rest as [|c r]; [done|]. rewrite decide_False; [done|]. intros ->. apply Hd. by exists r.
  - rewrite fmap_cons, concat_sep_cons, <-fmap_cons. rewrite <-!app_str_assoc.
    rewrite lex_quote_name by (by apply starts_quote_cons). change ("." +:+ ?x) with (String "." x).
    cbv iota beta. rewrite decide_True by done. change (String.concat "." (quote_name <$> q :: parts)) with (identifier (q :: parts)).
    rewrite IH; [done|done|simpl in *; lia].
Qed.

(** * ToSQL *)
Lemma keys_sql_inj k1 k2 r r' :
  index_keys_sql k1 +:+ ")" +:+ r = index_keys_sql k2 +:+ ")" +:+ r' →
  ik_column <$> k1 = ik_column <$> k2 ∧ r = r'.
Proof.
  unfold index_keys_sql. revert k2. induction k1 as [|a k1 IH]; intros [|b k2].
  - intros H. simpl in H. by injection H as ->.
  - intros H. exfalso. rewrite fmap_cons in H. destruct k2; simpl in H; done.
  - intros H. exfalso. rewrite fmap_cons in H. destruct k1; simpl in H; done.
  - rewrite !fmap_cons. destruct k1 as [|a' k1], k2 as [|b' k2]; rewrite ?fmap_cons, ?fmap_nil, ?concat_sep_cons, <-?app_str_assoc.
    + simpl String.concat. intros [E H]%quote_app_inj; [|by apply starts_quote_cons..]. injection H as ->. split; [|done]. cbn. by rewrite E.
    + simpl String.concat. intros [_ H]%quote_app_inj; [done|by apply starts_quote_cons..].
    + simpl String.concat. intros [_ H]%quote_app_inj; [done|by apply starts_quote_cons..].
    + rewrite <-!fmap_cons. intros [E H]%quote_app_inj; [|by apply starts_quote_cons..].
      apply app_str_inj_l in H. apply (IH (b' :: k2)) in H as [H ->]. rewrite !fmap_cons in *. split; [|done]. by rewrite E, H.
Qed.

Lemma index_sql_inj i1 i2 :
  ix_primary i1 = true → ix_primary i2 = true → index_to_sql i1 = index_to_sql i2 →
  ix_table i1 = ix_table i2 ∧ ix_name i1 = ix_name i2 ∧ ik_column <$> ix_keys i1 = ik_column <$> ix_keys i2.
Proof.
  intros P1 P2. unfold index_to_sql. rewrite P1, P2. rewrite <-!app_str_assoc.
  intros H. apply app_str_inj_l in H. apply quote_app_inj in H as [-> H]; [|by apply starts_quote_cons..].
  do 2 apply app_str_inj_l in H. split; [done|].
  destruct (decide (ix_name i1 = "")) as [N1|N1], (decide (ix_name i2 = "")) as [N2|N2].
  - change ("" +:+ ?x) with x in H. apply app_str_inj_l in H. apply keys_sql_inj in H as [H _].
    split; [congruence|done].
  - exfalso. rewrite <-!app_str_assoc in H. by injection H.
  - exfalso. rewrite <-!app_str_assoc in H. by injection H.
  - rewrite <-!app_str_assoc in H. apply app_str_inj_l in H.
    apply quote_app_inj in H as [-> H]; [|by apply starts_quote_cons..].
    do 3 apply app_str_inj_l in H. apply keys_sql_inj in H as [H _]. done.
Qed.

Lemma table_name_inj t1 t2 : table_to_sql t1 = table_to_sql t2 → tb_name t1 = tb_name t2.
Proof.
  unfold table_to_sql. intros H%app_str_inj_l. by apply quote_app_inj in H as [-> _]; [|by apply starts_quote_cons..].
Qed.

Lemma no_newline_lit s : contains_byte newline s = false → ¬ has_byte newline s.
Proof. intros H1 H2%contains_byte_spec. congruence. Qed.
Lemma column_sql_inj c1 c2 r r' :
  one_line_column c1 → one_line_column c2 →
  column_sql c1 +:+ r = column_sql c2 +:+ r' → co_name c1 = co_name c2 ∧ r = r'.
Proof.
  intros [T1 D1] [T2 D2]. unfold column_sql. rewrite <-!app_str_assoc.
  intros [-> H]%quote_app_inj; [|by apply starts_quote_cons..]. split; [done|].
  apply app_str_inj_l in H. rewrite !app_str_assoc in H.
  assert (∀ c, one_line_column c →
    ¬ has_byte newline ((co_type c +:+ (if co_not_null c then " NOT NULL" else "")) +:+
      (if decide (co_default c = "") then "" else " DEFAULT " +:+ co_default c))) as Hn.
  { intros c [T D]. rewrite !has_byte_app. intros [[?|Hb]|Hb]; [done|..].
    - destruct (co_not_null c); by apply no_newline_lit in Hb.
    - case_decide; [by apply no_newline_lit in Hb|]. apply has_byte_app in Hb as [Hb|Hb]; [|done].
      by apply no_newline_lit in Hb. }
  unfold nl in H. rewrite <-!(app_str_assoc _ (String newline "")) in H.
  change (String newline "" +:+ r) with (String newline r) in H.
  change (String newline "" +:+ r') with (String newline r') in H.
  apply first_sep_unique in H as [_ H]; [done|by apply Hn..].
Qed.

(** What follows the columns never looks like a column. *)
Lemma columns_rest_inj l1 l2 r r' :
  Forall one_line_column l1 → Forall one_line_column l2 →
  ¬ begins_with (", " +:+ String dquote "") r → ¬ begins_with (", " +:+ String dquote "") r' →
  String.concat "" ((λ c, ", " +:+ column_sql c) <$> l1) +:+ r =
  String.concat "" ((λ c, ", " +:+ column_sql c) <$> l2) +:+ r' →
  co_name <$> l1 = co_name <$> l2 ∧ r = r'.
Proof.
  intros H1 H2 N1 N2. revert l2 H2. induction l1 as [|a l1 IH]; intros [|b l2] H2 H.
  - done.
  - exfalso. apply N1. change (_ +:+ r) with r in H at 1. rewrite fmap_cons, concat_cons in H. rewrite H.
    unfold column_sql, quote_name. eexists. rewrite <-!app_str_assoc. done.
  - exfalso. apply N2. change (_ +:+ r') with r' in H at 1. rewrite fmap_cons, concat_cons in H. rewrite <-H.
    unfold column_sql, quote_name. eexists. rewrite <-!app_str_assoc. done.
  - apply Forall_cons_1 in H1 as [Ha H1]. apply Forall_cons_1 in H2 as [Hb H2].
    rewrite !fmap_cons, !concat_cons, <-!app_str_assoc in H. apply app_str_inj_l in H.
    apply column_sql_inj in H as [Hn H]; [|done..]. apply IH in H as [H ->]; [|done..].
    rewrite !fmap_cons, H, Hn. done.
Qed.
Lemma checks_no_column l r : ¬ begins_with (", " +:+ String dquote "") (checks_sql l +:+ ")" +:+ r).
Proof.
  intros [x Hx]. unfold checks_sql in Hx. destruct l as [|c l]; [done|].
  rewrite fmap_cons, concat_cons, <-!app_str_assoc in Hx. done.
Qed.
Lemma table_columns_inj t1 t2 :
  Forall one_line_column (tb_columns t1) → Forall one_line_column (tb_columns t2) →
  table_to_sql t1 = table_to_sql t2 →
  tb_name t1 = tb_name t2 ∧ co_name <$> tb_columns t1 = co_name <$> tb_columns t2.
Proof.
  intros H1 H2 H. split; [by apply table_name_inj|]. unfold table_to_sql in H.
  apply app_str_inj_l in H. apply quote_app_inj in H as [_ H]; [|by apply starts_quote_cons..].
  do 2 apply app_str_inj_l in H. unfold columns_sql in H.
  destruct (tb_columns t1) as [|a l1], (tb_columns t2) as [|b l2].
  - done.
  - exfalso. rewrite <-!app_str_assoc in H. change ("" +:+ ?x) with x in H. unfold checks_sql in H.
    destruct (tb_checks t1); [done|]. rewrite fmap_cons, concat_cons, <-!app_str_assoc in H. done.
  - exfalso. rewrite <-!app_str_assoc in H. change ("" +:+ ?x) with x in H. unfold checks_sql in H.
    destruct (tb_checks t2); [done|]. rewrite fmap_cons, concat_cons, <-!app_str_assoc in H. done.
  - rewrite <-!app_str_assoc in H. apply app_str_inj_l in H.
    apply Forall_cons_1 in H1 as [Ha H1]. apply Forall_cons_1 in H2 as [Hb H2].
    apply column_sql_inj in H as [Hn H]; [|done..].
    apply columns_rest_inj in H as [H _]; [|done|done|apply checks_no_column..].
    by rewrite !fmap_cons, H, Hn.
Qed.

Lemma trigger_name_inj t1 t2 : trigger_to_sql t1 = trigger_to_sql t2 → tg_name t1 = tg_name t2.
Proof.
  unfold trigger_to_sql. intros H%app_str_inj_l. by apply quote_app_inj in H as [-> _]; [|by apply starts_quote_cons..].
Qed.

(** * Collapsing white space *)
Lemma re_space_spec c : re_space c = true ↔ is_space c.
Proof. unfold re_space, is_space. by rewrite bool_decide_eq_true. Qed.
Lemma collapse_spec s : collapsed s (collapse false s) ∧
  (∃ w s', s = w +:+ s' ∧ all_bytes is_space w ∧ ¬ starts is_space s' ∧ collapsed s' (collapse true s)).
Proof.
  induction s as [|c s [IH1 (w & s' & Hs & Hw & Hn & IH2)]].
  - split; [constructor|]. exists "", "". split; [done|].
    split; [by intros c ?%has_byte_nil|]. split; [by intros (? & ? & ? & _)|constructor].
  - cbn [collapse]. destruct (re_space c) eqn:Hc.
    + apply re_space_spec in Hc. split.
      * replace (String c s) with (String c w +:+ s') by (by rewrite app_str_cons, <-Hs).
        constructor; [done| |done|done].
        intros d [<-|?]%has_byte_cons; [done|by apply Hw].
      * exists (String c w), s'. split; [by rewrite app_str_cons, <-Hs|].
        split; [intros d [<-|?]%has_byte_cons; [done|by apply Hw]|done].
    + assert (¬ is_space c) as Hc' by (intros H%re_space_spec; congruence). split; [by constructor|].
      exists "", (String c s). split; [done|]. split; [by intros d ?%has_byte_nil|].
      split; [intros (? & ? & [= <- <-] & ?); done|]. by constructor.
Qed.
Lemma space_is_space : is_space " ".
Proof. by apply re_space_spec. Qed.
Lemma collapse_idem s : collapse false (collapse false s) = collapse false s ∧
  collapse true (collapse true s) = collapse true s.
Proof.
  induction s as [|c s [IH1 IH2]]; [done|]. cbn [collapse]. destruct (re_space c) eqn:Hc.
  - split; [|done]. cbn [collapse]. assert (re_space " " = true) as -> by by apply re_space_spec, space_is_space.
    by rewrite IH2.
  - cbn [collapse]. rewrite Hc. by rewrite IH1.
Qed.
Lemma adjacent_cons c s : adjacent_spaces (String c s) → (is_space c ∧ starts is_space s) ∨ adjacent_spaces s.
Proof.
  intros ([|x a] & d & e & b & Hs & Hd & He).
  - injection Hs as -> ->. left. split; [done|]. by exists e, b.
  - injection Hs as -> ->. right. by exists a, d, e, b.
Qed.
Lemma collapse_not_adjacent s :
  ¬ adjacent_spaces (collapse false s) ∧ ¬ adjacent_spaces (collapse true s) ∧
  ¬ starts is_space (collapse true s).
Proof.
  induction s as [|c s (IH1 & IH2 & IH3)].
  - cbn. split; [|split].
    + by intros ([|] & ? & ? & ? & ? & _).
    + by intros ([|] & ? & ? & ? & ? & _).
    + by intros (? & ? & ? & _).
  - cbn [collapse]. destruct (re_space c) eqn:Hc.
    + split; [|done]. by intros [[_ ?]|?]%adjacent_cons.
    + assert (¬ is_space c) as Hc' by (intros H%re_space_spec; congruence).
      split; [by intros [[? _]|?]%adjacent_cons|]. split; [by intros [[? _]|?]%adjacent_cons|].
      intros (? & ? & [= <- _] & ?). done.
Qed.
Lemma collapsed_functional s t t' : collapsed s t → collapsed s t' → t = t'.
Proof.
  intros H. revert t'. induction H as [|c s t Hc _ IH|w s t Hw Ha Hn _ IH]; intros t' H'.
  - inversion H' as [| |w s' ? Hw' ? ? ? E]; [done|]. destruct w; [done|]. by rewrite app_str_cons in E.
  - inversion H' as [|? ? ? ? ? E|w s' ? Hw' Ha' ? ? E]; subst.
    + f_equal. by apply IH.
    + destruct w as [|d w]; [done|]. rewrite app_str_cons in E. injection E as Ed _. subst d.
      destruct Hc. apply Ha', has_byte_cons. by left.
  - remember (w +:+ s) as ws eqn:Ews. destruct H' as [|d s' t' Hd H'|w' s' t' Hw' Ha' Hn' H'].
    + destruct w; [done|]. by rewrite app_str_cons in Ews.
    + destruct w as [|x w]; [done|]. rewrite app_str_cons in Ews. injection Ews as -> _.
      destruct Hd. apply Ha, has_byte_cons. by left.
    + f_equal. apply IH. assert (s' = s) as ->; [|done]. clear -Ews Ha Ha' Hn Hn'.
      revert w' Ews Ha'. induction w as [|x w IHw]; intros w' Ews Ha'.
      * change ("" +:+ s) with s in Ews. destruct w' as [|y w']; [done|]. exfalso. apply Hn.
        rewrite <-Ews, app_str_cons. eexists _, _. split; [done|]. apply Ha', has_byte_cons. by left.
      * rewrite app_str_cons in Ews. destruct w' as [|y w'].
        { exfalso. apply Hn'. change ("" +:+ s') with s' in Ews. rewrite Ews. eexists _, _. split; [done|].
          apply Ha, has_byte_cons. by left. }
        rewrite app_str_cons in Ews. injection Ews as _ Ews. apply (IHw ltac:(intros d Hd; apply Ha, has_byte_cons; by right) w');
          [done|]. intros d Hd. apply Ha', has_byte_cons. by right.
Qed.

(** * trim *)
Lemma str_rev_app a b : str_rev (a +:+ b) = str_rev b +:+ str_rev a.
Proof.
  induction a as [|c a IH]; [by rewrite app_str_nil_r|]. rewrite app_str_cons. cbn [str_rev].
  by rewrite IH, app_str_assoc.
Qed.
Lemma str_rev_invol s : str_rev (str_rev s) = s.
Proof. induction s as [|c s IH]; [done|]. cbn [str_rev]. by rewrite str_rev_app, IH. Qed.
Lemma str_length_app a b : String.length (a +:+ b) = (String.length a + String.length b)%nat.
Proof. induction a as [|c a IH]; [done|]. rewrite app_str_cons. simpl. by rewrite IH. Qed.
Lemma str_rev_length s : String.length (str_rev s) = String.length s.
Proof. induction s as [|c s IH]; [done|]. cbn [str_rev]. rewrite str_length_app, IH. simpl. lia. Qed.

Lemma strip_spec codes n s :
  Forall (λ p, p ≠ "") codes → (String.length s ≤ n)%nat →
  ∃ l, Forall (λ p, p ∈ codes) l ∧ s = String.concat "" l +:+ strip codes n s ∧
    ∀ p, p ∈ codes → ¬ begins_with p (strip codes n s).
Proof.
  intros Hne. revert s. induction n as [|n IH]; intros s Hn.
  - exists []. split; [done|]. destruct s; [|simpl in Hn; lia]. split; [done|].
    intros p Hp [r Hr]. rewrite Forall_forall in Hne. specialize (Hne p Hp). by destruct p.
  - cbn [strip]. destruct (list_find (λ p, has_prefix s p = true) codes) as [[i p]|] eqn:Hf.
    + apply list_find_Some in Hf as (Hp & Hpre & _). apply elem_of_list_lookup_2 in Hp.
      apply has_prefix_spec in Hpre as [r ->]. rewrite str_drop_app.
      assert (p ≠ "") as Hp0 by (rewrite Forall_forall in Hne; by apply Hne).
      destruct (IH r) as (l & H1 & H2 & H3).
      { rewrite str_length_app in Hn. destruct p; [done|]. simpl in Hn. lia. }
      exists (p :: l). split; [by constructor|]. split; [|done].
      by rewrite concat_cons, <-app_str_assoc, <-H2.
    + exists []. split; [done|]. split; [done|]. intros p Hp Hb. apply has_prefix_spec in Hb.
      apply list_find_None in Hf. rewrite Forall_forall in Hf. by apply (Hf p).
Qed.
Lemma codes_text l : Forall (λ p, p ∈ space_codes) l → ∃ rs, white_space rs ∧ String.concat "" l = text rs.
Proof.
  induction 1 as [|p l Hp _ (rs & Hrs & IH)]; [exists []; split; [constructor|done]|].
  apply elem_of_list_fmap in Hp as (r & -> & Hr). exists (r :: rs). split; [by constructor|].
  by rewrite concat_cons, text_cons, IH.
Qed.
Lemma codes_text_rev l :
  Forall (λ p, p ∈ str_rev <$> space_codes) l → ∃ rs, white_space rs ∧ str_rev (String.concat "" l) = text rs.
Proof.
  induction 1 as [|p l Hp _ (rs & Hrs & IH)]; [exists []; split; [constructor|done]|].
  apply elem_of_list_fmap in Hp as (q & -> & Hq). apply elem_of_list_fmap in Hq as (r & -> & Hr).
  exists (rs ++ [r]). split; [apply Forall_app; split; [done|by constructor]|].
  rewrite concat_cons, str_rev_app, str_rev_invol, IH, text_app, text_cons. unfold text at 3. simpl.
  by rewrite app_str_nil_r.
Qed.
Lemma space_codes_nonempty : Forall (λ p, p ≠ "") space_codes.
Proof. unfold space_codes, space_runes. repeat constructor; done. Qed.
Lemma trim_spec s : trimmed s (trim s).
Proof.
  unfold trim, trim_right, trim_left.
  destruct (strip_spec space_codes (String.length s) s space_codes_nonempty ltac:(lia)) as (l & H1 & H2 & H3).
  set (u := strip space_codes (String.length s) s) in *.
  destruct (strip_spec (str_rev <$> space_codes) (String.length u) (str_rev u)) as (l' & K1 & K2 & K3).
  { apply Forall_fmap. eapply Forall_impl; [apply space_codes_nonempty|]. intros p Hp Hr. simpl in Hr. apply Hp.
    rewrite <-(str_rev_invol p), Hr. done. }
  { by rewrite str_rev_length. }
  set (v := strip (str_rev <$> space_codes) (String.length u) (str_rev u)) in *.
  destruct (codes_text l H1) as (rs & Hrs & Hl). destruct (codes_text_rev l' K1) as (rs' & Hrs' & Hl').
  assert (u = str_rev v +:+ text rs') as Hu.
  { rewrite <-(str_rev_invol u), K2, str_rev_app, Hl'. done. }
  exists rs, rs'. split; [done|]. split; [done|]. split; [by rewrite <-Hu, <-Hl|]. split.
  - intros (r & t & Hr & Ht). apply (H3 (utf8 r)); [by apply elem_of_list_fmap; exists r|].
    rewrite Hu, Ht, <-app_str_assoc. by eexists.
  - intros (r & t & Hr & Ht). apply (K3 (str_rev (utf8 r))).
    + apply elem_of_list_fmap. exists (utf8 r). split; [done|]. by apply elem_of_list_fmap; exists r.
    + rewrite <-(str_rev_invol v), Ht, str_rev_app. by eexists.
Qed.

(** * parseError.Error *)
Lemma line_at_here data line after :
  data = line +:+ after → ¬ has_byte newline line → (after = "" ∨ starts (eq newline) after) →
  (index_byte newline data = None ∧ data = line) ∨
  (index_byte newline data = Some (String.length line) ∧ str_take (String.length line) data = line).
Proof.
  intros -> Hl [->|(c & r & -> & <-)].
  - left. rewrite app_str_nil_r. split; [by apply index_byte_None|done].
  - right. split; [by apply index_byte_app|apply str_take_app].
Qed.
Lemma str_drop_sep x c y : str_drop (S (String.length x)) (x +:+ String c y) = y.
Proof. induction x as [|d x IH]; [done|]. rewrite app_str_cons. simpl. exact IH. Qed.
Lemma str_drop_app_le n b t : (n ≤ String.length b)%nat → str_drop n (b +:+ t) = str_drop n b +:+ t.
Proof.
  revert b. induction n as [|n IH]; intros b Hn; [by destruct b|]. destruct b as [|d b]; [simpl in Hn; lia|].
  rewrite app_str_cons. simpl. apply IH. simpl in Hn. lia.
Qed.
Lemma error_loop_spec n data line before after col :
  (String.length data < n)%nat → data = before +:+ line +:+ after →
  ¬ has_byte newline line → (before = "" ∨ ∃ b, before = b +:+ nl) →
  (after = "" ∨ starts (eq newline) after) → -1 ≤ col < Z.of_nat (String.length line) ∨ col = -1 →
  error_loop n (Z.of_nat (String.length before) + col) data = Some (col, line).
Proof.
  revert data before. induction n as [|n IH]; intros data before Hn Hd Hl Hb Ha Hcol; [lia|].
  cbn [error_loop]. destruct (index_byte newline before) as [m|] eqn:Hi.
  - apply index_byte_Some in Hi as (Hi & Hx & _).
    set (x := str_take m before) in *. set (y := str_drop (S m) before) in *. clearbody x y. subst before.
    rewrite <-app_str_assoc, app_str_cons in Hd. rewrite Hd, index_byte_app by done.
    rewrite bool_decide_false by (rewrite str_length_app; simpl; lia).
    rewrite Nat.add_1_r, str_drop_sep, str_length_app. simpl String.length.
    replace (Z.of_nat (String.length x + S (String.length y)) + col - (Z.of_nat (String.length x) + 1))
      with (Z.of_nat (String.length y) + col) by lia.
    apply IH; try done.
    + rewrite Hd, str_length_app in Hn. simpl in Hn. lia.
    + destruct y as [|c y]; [by left|]. right. destruct Hb as [Hb|[b Hb]]; [by destruct x|].
      assert (String.length (x +:+ String newline (String c y)) = String.length (b +:+ nl)) as E by by rewrite Hb.
      rewrite !str_length_app in E. simpl in E.
      exists (str_drop (S (String.length x)) b). rewrite <-str_drop_app_le, <-Hb, str_drop_sep; [done|lia].
  - apply index_byte_None in Hi. assert (before = "") as ->.
    { destruct Hb as [->|[b ->]]; [done|]. exfalso. apply Hi. by exists b, "". }
    simpl. change ("" +:+ line +:+ after) with (line +:+ after) in Hd.
    destruct (line_at_here data line after Hd Hl Ha) as [[-> ->]|[-> Htk]]; [done|].
    rewrite bool_decide_true by lia. by rewrite Htk.
Qed.
(** Every offset is inside a line or at the newline before one. *)
Lemma offset_line data cs :
  0 ≤ cs < Z.of_nat (String.length data) →
  ∃ line n, line_at data line n ∧
    (Z.of_nat n ≤ cs < Z.of_nat n + Z.of_nat (String.length line) ∨ Z.of_nat n = cs + 1).
Proof.
  remember (String.length data) as k eqn:Hk. revert data cs Hk.
  induction (lt_wf k) as [k _ IH]. intros data cs -> Hcs.
  destruct (index_byte newline data) as [m|] eqn:Hi.
  - apply index_byte_Some in Hi as (Hi & Hx & _).
    set (x := str_take m data) in *. set (y := str_drop (S m) data) in *. clearbody x y. subst data.
    rewrite str_length_app in Hcs. simpl in Hcs.
    destruct (decide (cs < Z.of_nat (String.length x))) as [Hlt|Hge].
    + exists x, O. split; [|lia]. exists "", (String newline y). split; [done|]. split; [done|]. split; [done|].
      split; [by left|]. right. by eexists _, _.
    + assert (∀ line n, line_at y line n → line_at (x +:+ String newline y) line (S (String.length x) + n)) as Hlift.
      { intros line n (before & after & -> & <- & Hl & Hb & Ha).
        exists (x +:+ String newline before), after. rewrite <-app_str_assoc, app_str_cons. split; [done|].
        split; [rewrite str_length_app; simpl; lia|]. split; [done|]. split; [|done].
        right. destruct Hb as [->|[b ->]]; [by exists x|]. exists (x +:+ String newline b).
        by rewrite <-app_str_assoc, app_str_cons. }
      destruct (decide (cs = Z.of_nat (String.length x))) as [->|Hne].
      * destruct (index_byte newline y) as [m'|] eqn:Hi'.
        { apply index_byte_Some in Hi' as (Hi' & Hx' & _).
          exists (str_take m' y), (S (String.length x) + 0)%nat. split; [|lia]. apply Hlift.
          exists "", (String newline (str_drop (S m') y)). split; [done|]. split; [done|]. split; [done|].
          split; [by left|]. right. by eexists _, _. }
        apply index_byte_None in Hi'. exists y, (S (String.length x) + 0)%nat. split; [|lia]. apply Hlift.
        exists "", "". rewrite app_str_nil_r. split; [done|]. split; [done|]. split; [done|].
        split; [by left|]. by left.
      * destruct (IH (String.length y)) with (data := y) (cs := cs - Z.of_nat (String.length x) - 1)
          as (line & n & Hl & Hn); [rewrite str_length_app; simpl; lia|done|lia|].
        exists line, (S (String.length x) + n)%nat. split; [by apply Hlift|]. lia.
  - apply index_byte_None in Hi. exists data, O. split; [|lia]. exists "", "". rewrite app_str_nil_r.
    split; [done|]. split; [done|]. split; [done|]. split; by left.
Qed.
Lemma line_at_length data line n : line_at data line n → (n + String.length line ≤ String.length data)%nat.
Proof. intros (b & a & -> & <- & _). rewrite !str_length_app. lia. Qed.
Lemma spaces_pad k : pad_caret (Z.of_nat k + 1) = spaces k +:+ "^".
Proof. unfold pad_caret. f_equal. f_equal. lia. Qed.
Lemma error_inside data line n k :
  line_at data line n → (k < String.length line)%nat →
  parse_error_text (Z.of_nat (n + k)) data = Some (line +:+ nl +:+ spaces k +:+ "^").
Proof.
  intros Hl Hk. pose proof (line_at_length _ _ _ Hl) as Hlen. unfold parse_error_text.
  rewrite bool_decide_false by lia. destruct Hl as (b & a & Hd & <- & Hl & Hb & Ha).
  rewrite Nat2Z.inj_add. erewrite error_loop_spec; [by rewrite spaces_pad|lia|done|done|done|done|lia].
Qed.
Lemma error_newline data line n :
  line_at data line (S n) → (n < String.length data)%nat →
  parse_error_text (Z.of_nat n) data = Some (line +:+ nl +:+ "^").
Proof.
  intros Hl Hn. pose proof (line_at_length _ _ _ Hl) as Hlen. unfold parse_error_text.
  rewrite bool_decide_false by lia. destruct Hl as (b & a & Hd & Hb' & Hl & Hb & Ha).
  replace (Z.of_nat n) with (Z.of_nat (String.length b) + -1) by lia.
  erewrite error_loop_spec; [done|lia|done|done|done|done|lia].
Qed.
Lemma error_total cs data : 0 ≤ cs → ∃ t, parse_error_text cs data = Some t.
Proof.
  intros Hcs. destruct (decide (Z.of_nat (String.length data) ≤ cs)) as [H|H].
  - unfold parse_error_text. rewrite bool_decide_true by done. by eexists.
  - destruct (offset_line data cs) as (line & n & Hl & [Hn|Hn]); [lia|..].
    + replace cs with (Z.of_nat (n + Z.to_nat (cs - Z.of_nat n))) by lia. eexists. apply error_inside; [done|lia].
    + destruct n as [|n]; [lia|]. replace cs with (Z.of_nat n) by lia. eexists. apply error_newline; [done|lia].
Qed.

(** * Storage parameters *)
Lemma digits_app acc a b : digits acc (a +:+ b) = match digits acc a with Some x => digits x b | None => None end.
Proof.
  revert acc. induction a as [|c a IH]; intros acc; [done|]. rewrite app_str_cons. cbn [digits].
  destruct (digit c); [apply IH|done].
Qed.
Lemma digit_char x : (x < 10)%N → digit (pretty_N_char x) = Some (Z.of_N x).
Proof.
  intros Hx. assert (x = 0 ∨ x = 1 ∨ x = 2 ∨ x = 3 ∨ x = 4 ∨ x = 5 ∨ x = 6 ∨ x = 7 ∨ x = 8 ∨ x = 9)%N as H by lia.
  destruct H as [->|[->|[->|[->|[->|[->|[->|[->|[->| ->]]]]]]]]]; by vm_compute.
Qed.
Lemma digits_pretty_go x s acc :
  (0 < x)%N → ∃ k, digits acc (pretty_N_go x s) = digits (k * acc + Z.of_N x) s ∧ (acc = 0 ∨ True).
Proof.
  revert s acc. induction (N.lt_wf_0 x) as [x _ IH]. intros s acc Hx.
  rewrite pretty_N_go_step by done. destruct (decide (x < 10)%N) as [Hlt|Hge].
  - rewrite N.div_small, pretty_N_go_0 by done. cbn [digits]. rewrite N.mod_small, digit_char by done.
    exists 10. split; [done|by right].
  - destruct (IH (x `div` 10)%N) with (s := String (pretty_N_char (x `mod` 10)) s) (acc := acc) as (k & -> & _).
    + apply N.div_lt; lia.
    + apply N.div_str_pos. lia.
    + cbn [digits]. rewrite digit_char by (apply N.mod_lt; lia). exists (10 * k). split; [|by right].
      f_equal. rewrite N2Z.inj_div, N2Z.inj_mod. pose proof (Z.div_mod (Z.of_N x) (Z.of_N 10)). lia.
Qed.
Lemma digits_pretty_N x : digits 0 (pretty x) = Some (Z.of_N x).
Proof.
  unfold pretty, pretty_N. case_decide as Hx; [subst; done|].
  destruct (digits_pretty_go x "" 0) as (k & -> & _); [lia|]. cbn. f_equal. lia.
Qed.
Lemma digits_nonempty (x : N) : (pretty x : string) ≠ "" ∧ ∀ c r, (pretty x : string) = String c r → digit c ≠ None.
Proof.
  pose proof (digits_pretty_N x) as H. split.
  - intros E. unfold pretty, pretty_N in E. case_decide; [done|].
    assert (∀ x s, (s = "" → (0 < x)%N) → pretty_N_go x s ≠ "") as Hg.
    { clear. intros x. induction (N.lt_wf_0 x) as [x _ IH]. intros s Hs. destruct (decide (x = 0%N)) as [->|Hx].
      - rewrite pretty_N_go_0. intros ->. specialize (Hs eq_refl). lia.
      - rewrite pretty_N_go_step by lia. apply IH; [apply N.div_lt; lia|done]. }
    by eapply Hg; [|done]; intros _; lia.
  - intros c r E. rewrite E in H. cbn in H. by destruct (digit c).
Qed.
Lemma digit_spec c d : digit c = Some d ↔ digit_of c d.
Proof.
  unfold digit, digit_of. case_bool_decide as H.
  - split; [intros [= <-]; lia|]. intros [? ->]. f_equal. lia.
  - split; [done|]. intros [? ?]. lia.
Qed.
Lemma digits_numeral_app p acc s z : numeral p acc → digits acc s = Some z → numeral (p +:+ s) z.
Proof.
  revert p acc. induction s as [|c s IH]; intros p acc Hp.
  - intros [= <-]. by rewrite app_str_nil_r.
  - cbn [digits]. destruct (digit c) as [d|] eqn:E; [|done]. apply digit_spec in E. intros H.
    assert (numeral ((p +:+ String c "") +:+ s) z) as Hn.
    { eapply IH; [|exact H]. by constructor. }
    by rewrite <-app_str_assoc in Hn.
Qed.
Lemma digits_numeral s z : s ≠ "" ∧ digits 0 s = Some z ↔ numeral s z.
Proof.
  split.
  - intros [Hs H]. destruct s as [|c s]; [done|]. cbn [digits] in H.
    destruct (digit c) as [d|] eqn:E; [|done]. apply digit_spec in E.
    change (String c s) with (String c "" +:+ s). eapply digits_numeral_app; [|exact H]. by constructor.
  - induction 1 as [c d H|s z c d H [Hs IH] Hd].
    + split; [done|]. cbn [digits]. by rewrite (proj2 (digit_spec c d) H).
    + split; [by destruct s|]. rewrite digits_app, IH. cbn [digits]. by rewrite (proj2 (digit_spec c d) Hd).
Qed.
Lemma numeral_pretty (x : N) : numeral (pretty x) (Z.of_N x).
Proof. apply digits_numeral. split; [apply digits_nonempty|apply digits_pretty_N]. Qed.
Lemma decimal_pretty (z : Z) : - max_int - 1 ≤ z ≤ max_int → decimal (pretty z) z.
Proof.
  intros H. split; [|done]. destruct z as [|p|p].
  - left. apply (numeral_pretty 0).
  - left. apply (numeral_pretty (N.pos p)).
  - right; right. exists (pretty (N.pos p)), (Z.pos p). split; [done|]. split; [apply (numeral_pretty (N.pos p))|done].
Qed.
Lemma numeral_head s z c : numeral (String c s) z → ∃ d, digit_of c d.
Proof.
  intros [_ H]%digits_numeral. cbn [digits] in H. destruct (digit c) as [d|] eqn:E; [|done].
  exists d. by apply digit_spec.
Qed.
Lemma atoi_decimal s z : atoi s = (z, true) ↔ decimal s z.
Proof.
  assert (∀ (neg : bool) body,
    (if decide (body = "") then (0, false)
     else match digits 0 body with
       | None => (0, false)
       | Some n =>
           let z := if neg then - n else n in
           if bool_decide (max_int < z) then (max_int, false)
           else if bool_decide (z < - max_int - 1) then (- max_int - 1, false)
           else (z, true)
       end) = (z, true) ↔
    (∃ n, numeral body n ∧ z = if neg then - n else n) ∧ - max_int - 1 ≤ z ≤ max_int) as Hbody.
  { intros neg body. case_decide as Hb; [split; [done|intros [(n & [? _]%digits_numeral & _) _]; done]|].
    destruct (digits 0 body) as [n|] eqn:E.
    - cbv zeta. case_bool_decide; [|case_bool_decide].
      + split; [done|]. intros [(n' & [_ ?]%digits_numeral & ->) ?]. simplify_eq. lia.
      + split; [done|]. intros [(n' & [_ ?]%digits_numeral & ->) ?]. simplify_eq. lia.
      + split.
        * intros [= <-]. split; [|lia]. exists n. split; [by apply digits_numeral|done].
        * intros [(n' & [_ ?]%digits_numeral & ->) ?]. by simplify_eq.
    - split; [done|]. intros [(n & [_ ?]%digits_numeral & _) _]. congruence. }
  unfold atoi, decimal. destruct s as [|c r].
  - rewrite (Hbody false). split.
    + intros [(n & H & ->) ?]. split; [by left|done].
    + intros [[H|[(t & ? & _)|(t & n & ? & _)]] ?]; [|done|done]. split; [|done]. by exists z.
  - destruct (decide (c = "-"%char)) as [->|Hm].
    + rewrite (Hbody true). split.
      * intros [(n & H & ->) ?]. split; [|done]. right; right. by exists r, n.
      * intros [[H|[(t & ? & _)|(t & n & [= <-] & H & ->)]] ?]; [|done|].
        { apply numeral_head in H as (d & ? & H). change (byte_of "-") with 45 in H. lia. }
        split; [|done]. by exists n.
    + destruct (decide (c = "+"%char)) as [->|Hp].
      * rewrite (Hbody false). split.
        { intros [(n & H & ->) ?]. split; [|done]. right; left. by exists r. }
        intros [[H|[(t & [= <-] & H)|(t & n & ? & _)]] ?]; [|by split; [exists z|]|done].
        apply numeral_head in H as (d & ? & H). change (byte_of "+") with 43 in H. lia.
      * rewrite (Hbody false). split.
        { intros [(n & H & ->) ?]. split; [by left|done]. }
        intros [[H|[(t & Ht & _)|(t & n & Ht & _)]] ?]; [|congruence|congruence]. split; [by exists z|done].
Qed.

Lemma assoc_unknown {A} (l : list (string * A)) k : k ∉ l.*1 → assoc l k = None.
Proof.
  intros H. unfold assoc. destruct (list_find _ l) as [[i [k' a]]|] eqn:E; [|done].
  apply list_find_Some in E as (E & Hk & _). simpl in Hk. subst. destruct H.
  apply elem_of_list_lookup_2 in E. by apply (elem_of_list_fmap_1 fst) in E.
Qed.
Lemma assoc_Some {A} (l : list (string * A)) k a : assoc l k = Some a → (k, a) ∈ l.
Proof.
  unfold assoc. destruct (list_find _ l) as [[i [k' a']]|] eqn:E; [|done].
  apply list_find_Some in E as (E & Hk & _). simpl in Hk. subst. intros [= <-].
  by eapply elem_of_list_lookup_2.
Qed.
Lemma nodup_fmap_inj {A B} (f : A → B) (l : list A) x y : NoDup (f <$> l) → x ∈ l → y ∈ l → f x = f y → x = y.
Proof.
  induction l as [|a l IH]; [by intros _ ?%elem_of_nil|]. rewrite fmap_cons. intros [Hn Hd]%list.NoDup_cons.
  intros [->|Hx]%elem_of_cons [->|Hy]%elem_of_cons E; [done|..].
  - destruct Hn. rewrite E. by apply elem_of_list_fmap_1.
  - destruct Hn. rewrite <-E. by apply elem_of_list_fmap_1.
  - by apply IH.
Qed.
Global Instance kind_eq_dec : EqDecision kind.
Proof. solve_decision. Defined.
Lemma cases_parameters : (λ p, (p.1.1, (p.1.2, p.2))) <$> parameters = storage_cases.
Proof. done. Qed.
Lemma keys_nodup : NoDup storage_cases.*1.
Proof. apply (bool_decide_unpack _). by vm_compute. Qed.
Lemma fields_nodup : NoDup ((λ p, p.1.2) <$> parameters).
Proof. apply (bool_decide_unpack _). by vm_compute. Qed.
Lemma assoc_In {A} (l : list (string * A)) k a : NoDup l.*1 → (k, a) ∈ l → assoc l k = Some a.
Proof.
  intros Hd Hin. unfold assoc. destruct (list_find _ l) as [[i [k' a']]|] eqn:E.
  - apply list_find_Some in E as (E & Hk & _). simpl in Hk. subst. apply elem_of_list_lookup_2 in E.
    by pose proof (nodup_fmap_inj fst l _ _ Hd E Hin eq_refl) as [= ->].
  - apply list_find_None in E. rewrite Forall_forall in E. by destruct (E _ Hin).
Qed.
Lemma parameter_case key field k : (key, field, k) ∈ parameters → assoc storage_cases key = Some (field, k).
Proof.
  intros H. apply assoc_In; [apply keys_nodup|]. rewrite <-cases_parameters.
  by apply (elem_of_list_fmap_1 (λ p, (p.1.1, (p.1.2, p.2)))) in H.
Qed.
Lemma case_parameter key field k : assoc storage_cases key = Some (field, k) → (key, field, k) ∈ parameters.
Proof.
  intros H%assoc_Some. rewrite <-cases_parameters in H. apply elem_of_list_fmap in H as ([[a b] c] & [= -> -> ->] & H).
  done.
Qed.
Lemma set_unknown pf p key v : ¬ known key → storage_set pf p key v = (p, true).
Proof.
  intros H. unfold storage_set. destruct (assoc storage_cases key) as [[f k]|] eqn:E; [|done].
  apply case_parameter in E. destruct H. by exists f, k.
Qed.
Lemma set_other pf p key v key' field k :
  (key', field, k) ∈ parameters → key' ≠ key → (storage_set pf p key v).1 !! field = p !! field.
Proof.
  intros Hin Hne. unfold storage_set. destruct (assoc storage_cases key) as [[f k']|] eqn:E; [|done].
  destruct (convert pf k' v) as [x ok]. simpl. apply lookup_insert_ne. intros ->.
  apply case_parameter in E. by pose proof (nodup_fmap_inj _ _ _ _ fields_nodup E Hin eq_refl) as [= ? ?].
Qed.
Lemma parse_bool_true s : s ∈ ["1"; "t"; "T"; "true"; "TRUE"; "True"] → parse_bool s = (true, true).
Proof. intros H. unfold parse_bool. by rewrite decide_True. Qed.
Lemma parse_bool_false s : s ∈ ["0"; "f"; "F"; "false"; "FALSE"; "False"] → parse_bool s = (false, true).
Proof.
  intros H. unfold parse_bool. rewrite decide_False, decide_True by
    (try done; rewrite !elem_of_cons, elem_of_nil in *; naive_solver). done.
Qed.
Lemma set_says pf p key field k v x :
  (key, field, k) ∈ parameters → says pf k v x → storage_set pf p key v = (<[field := x]> p, true).
Proof.
  intros Hin Hs. unfold storage_set. rewrite (parameter_case _ _ _ Hin). destruct k; simpl in *.
  - destruct Hs as (z & -> & Hz). by rewrite (proj2 (atoi_decimal _ _) Hz).
  - destruct Hs as [[-> H]|[-> H]]; [by rewrite parse_bool_true|by rewrite parse_bool_false].
  - destruct Hs as (f & -> & ->). done.
Qed.
Lemma convert_says pf k v x : convert pf k v = (x, true) ↔ says pf k v x.
Proof.
  destruct k; unfold convert, says.
  - destruct (atoi v) as [z ok] eqn:E. split.
    + intros [= <- ->]. exists z. split; [done|]. by apply atoi_decimal.
    + intros (z' & -> & H%atoi_decimal). congruence.
  - split.
    + destruct (parse_bool v) as [b ok] eqn:E. intros [= <- ->]. revert E. unfold parse_bool.
      case_decide; [intros [= <-]; by left|]. case_decide; [intros [= <-]; by right|done].
    + intros [[-> H]|[-> H]]; [by rewrite parse_bool_true|by rewrite parse_bool_false].
  - destruct (pf v) as [f ok] eqn:E. split; [intros [= <- ->]; by exists f|].
    intros (f' & -> & H). congruence.
Qed.
Lemma set_ok pf p key v p' :
  storage_set pf p key v = (p', true) ↔
  (¬ known key ∧ p' = p) ∨ ∃ field k x, (key, field, k) ∈ parameters ∧ says pf k v x ∧ p' = <[field := x]> p.
Proof.
  split.
  - unfold storage_set. destruct (assoc storage_cases key) as [[field k]|] eqn:E.
    + destruct (convert pf k v) as [x ok] eqn:Ec. intros [= <- ->]. right. exists field, k, x.
      split; [by apply case_parameter|]. split; [by apply convert_says|done].
    + intros [= <-]. left. split; [|done]. intros (field & k & H%parameter_case). congruence.
  - intros [[H ->]|(field & k & x & H1 & H2 & ->)]; [by apply set_unknown|by eapply set_says].
Qed.
Lemma set_known_ok pf p key field k v p' :
  (key, field, k) ∈ parameters →
  storage_set pf p key v = (p', true) ↔ ∃ x, says pf k v x ∧ p' = <[field := x]> p.
Proof.
  intros Hin. rewrite set_ok. split.
  - intros [[[] _]|(field' & k' & x & Hin' & H)]; [by eexists _, _|].
    apply parameter_case in Hin, Hin'. simplify_eq. by exists x.
  - intros (x & H). right. by exists field, k, x.
Qed.
Lemma set_all_app pf p l l' : set_all pf p (l ++ l') = set_all pf (set_all pf p l) l'.
Proof. revert p. induction l as [|[k v] l IH]; intros p; [done|]. apply IH. Qed.
Lemma set_all_other pf p l key field k :
  (key, field, k) ∈ parameters → key ∉ l.*1 → set_all pf p l !! field = p !! field.
Proof.
  intros Hin. revert p. induction l as [|[k' v] l IH]; intros p Hn; [done|].
  rewrite fmap_cons in Hn. apply not_elem_of_cons in Hn as [Hne Hn]. cbn [set_all].
  rewrite IH by done. by eapply set_other.
Qed.
Lemma set_all_last pf p l l' key field k v x :
  (key, field, k) ∈ parameters → says pf k v x → key ∉ l'.*1 →
  set_all pf p (l ++ (key, v) :: l') !! field = Some x.
Proof.
  intros Hin Hs Hn. rewrite set_all_app. cbn [set_all]. rewrite (set_all_other _ _ _ _ _ _ Hin Hn).
  rewrite (set_says _ _ _ _ _ _ _ Hin Hs). apply lookup_insert.
Qed.
