(** Lemmas about trimming, collapsing and capitals used by the parsers. *)
From Coq Require Import String Ascii.
From stdpp Require Import prelude strings.
From Verif Require Import GoStrings GoStringsProofs GoUtf8 GoUtf8Proofs DdlModel DdlSpec DdlProofs ParseSpec.
Local Open Scope Z_scope.

Lemma app_split a b c d :
  a +:+ b = c +:+ d → (∃ e, a = c +:+ e ∧ d = e +:+ b) ∨ (∃ e, c = a +:+ e ∧ b = e +:+ d).
Proof.
  revert c. induction a as [|x a IH]; intros c H; [right; by exists c|].
  destruct c as [|y c]; [left; by exists (String x a)|]. rewrite !app_str_cons in H. injection H as -> H.
  destruct (IH c H) as [(e & -> & ->)|(e & -> & ->)]; [left|right]; exists e; by rewrite app_str_cons.
Qed.
Definition prefix_free (codes : list string) : Prop :=
  ∀ p q, p ∈ codes → q ∈ codes → begins_with p q → p = q.
Lemma prefix_free_forallb codes :
  forallb (λ p, forallb (λ q, negb (has_prefix q p) || String.eqb p q) codes) codes = true → prefix_free codes.
Proof.
  intros H p q Hp Hq Hb. rewrite forallb_forall in H. specialize (H p). rewrite <-elem_of_list_In in H.
  specialize (H Hp). rewrite forallb_forall in H. specialize (H q). rewrite <-elem_of_list_In in H.
  specialize (H Hq). apply orb_true_iff in H as [H|H]; [|by apply String.eqb_eq].
  apply has_prefix_spec in Hb. by rewrite Hb in H.
Qed.
Lemma strip_unique codes l t n :
  prefix_free codes → Forall (λ p, p ≠ "") codes → Forall (λ p, p ∈ codes) l →
  (∀ p, p ∈ codes → ¬ begins_with p t) → (String.length (String.concat "" l +:+ t) ≤ n)%nat →
  strip codes n (String.concat "" l +:+ t) = t.
Proof.
  intros Hpf Hne Hl Ht. revert n. induction Hl as [|p l Hp Hl IH]; intros n Hn.
  - change (String.concat "" [] +:+ t) with t in *. destruct n as [|n]; [done|]. simpl.
    destruct (list_find _ codes) as [[i p]|] eqn:E; [|done]. exfalso.
    apply list_find_Some in E as (Hi & Hpre & _). apply (Ht p); [by eapply elem_of_list_lookup_2|].
    by apply has_prefix_spec.
  - rewrite concat_cons, <-app_str_assoc in *. rewrite str_length_app in Hn.
    assert (p ≠ "") as Hp0 by (rewrite list.Forall_forall in Hne; exact (Hne p Hp)).
    destruct p as [|c p']; [done|]. destruct n as [|n]; [simpl in Hn; lia|]. cbn [strip].
    set (s := String c p' +:+ (String.concat "" l +:+ t)) in *.
    destruct (list_find _ codes) as [[i q]|] eqn:E.
    + apply list_find_Some in E as (Hi & Hpre & _). apply elem_of_list_lookup_2 in Hi.
      apply has_prefix_spec in Hpre as [r Hr]. assert (q = String c p') as ->.
      { unfold s in Hr. apply app_split in Hr as [(e & H & _)|(e & H & _)].
        - apply Hpf; [done|done|]. by exists e.
        - symmetry. apply Hpf; [done|done|]. by exists e. }
      unfold s. rewrite str_drop_app. apply IH. simpl in Hn. lia.
    + apply list_find_None in E. rewrite list.Forall_forall in E. exfalso. apply (E _ Hp).
      apply has_prefix_spec. by exists (String.concat "" l +:+ t).
Qed.
Lemma space_codes_free : prefix_free space_codes.
Proof. apply prefix_free_forallb. by vm_compute. Qed.
Lemma space_codes_rev_free : prefix_free (str_rev <$> space_codes).
Proof. apply prefix_free_forallb. by vm_compute. Qed.
Lemma space_codes_rev_nonempty : Forall (λ p, p ≠ "") (str_rev <$> space_codes).
Proof. apply (bool_decide_unpack _). by vm_compute. Qed.

Fixpoint continuation (s : string) : bool :=
  match s with "" => true | String c s => (128 <=? byte_of c) && (byte_of c <=? 191) && continuation s end.
Definition one_code (s : string) : bool :=
  match s with "" => false | String c s => negb ((128 <=? byte_of c) && (byte_of c <=? 191)) && continuation s end.
Lemma space_runes_codes r : r ∈ space_runes → one_code (utf8 r) = true.
Proof.
  assert (Forall (λ r, one_code (utf8 r) = true) space_runes) as H; [|rewrite list.Forall_forall in H; apply H].
  apply (bool_decide_unpack _). by vm_compute.
Qed.
Lemma text_concat l : text l = String.concat "" (utf8 <$> l).
Proof. induction l as [|r l IH]; [done|]. by rewrite text_cons, fmap_cons, concat_cons, IH. Qed.
Lemma text_rev l : str_rev (text l) = String.concat "" (reverse (str_rev <$> (utf8 <$> l))).
Proof.
  induction l as [|r l IH]; [done|]. rewrite text_cons, str_rev_app, IH, !fmap_cons, reverse_cons.
  assert (∀ k k', String.concat "" (k ++ k') = String.concat "" k +:+ String.concat "" k') as Happ.
  { induction k as [|x k IHk]; intros k'; [done|]. change ((x :: k) ++ k') with (x :: (k ++ k')).
    by rewrite !concat_cons, IHk, app_str_assoc. }
  by rewrite Happ, concat_cons, app_str_nil_r.
Qed.
Lemma white_codes l : white_space l → Forall (λ p, p ∈ space_codes) (utf8 <$> l).
Proof. intros H. apply list.Forall_fmap. eapply list.Forall_impl; [exact H|]. intros r Hr. by apply elem_of_list_fmap_1. Qed.
Lemma continuation_app a b : continuation (a +:+ b) = continuation a && continuation b.
Proof. induction a as [|c a IH]; [done|]. rewrite app_str_cons. simpl. rewrite IH. by rewrite andb_assoc. Qed.
Lemma trim_unique s t : trimmed s t → trim s = t.
Proof.
  intros (l & l' & Hl & Hl' & -> & Hst & Het). unfold trim.
  assert (trim_left (text l +:+ t +:+ text l') = match t with "" => "" | _ => t +:+ text l' end) as ->.
  { destruct t as [|c t].
    - change ("" +:+ text l') with (text l'). rewrite <-text_app.
      unfold trim_left. rewrite text_concat. rewrite <-(app_str_nil_r (String.concat _ _)) at 2.
      apply strip_unique; [apply space_codes_free|apply space_codes_nonempty| | |by rewrite app_str_nil_r].
      + apply white_codes. by apply list.Forall_app.
      + intros p Hp [r Hr]. pose proof space_codes_nonempty as H. rewrite list.Forall_forall in H.
        specialize (H p Hp). by destruct p.
    - unfold trim_left. rewrite (text_concat l).
      apply strip_unique; [apply space_codes_free|apply space_codes_nonempty|by apply white_codes| |done].
      intros p Hp [x Hx]. apply elem_of_list_fmap in Hp as (r & -> & Hr).
      apply app_split in Hx as [(e & He & _)|(e & He & Hx)].
      + apply Hst. exists r, e. done.
      + destruct e as [|b e]; [apply Hst; exists r, ""; by rewrite He, !app_str_nil_r|].
        destruct l' as [|r' l']; [done|]. rewrite text_cons in Hx.
        apply list.Forall_cons in Hl' as [Hr' _]. pose proof (space_runes_codes r Hr) as Hc.
        pose proof (space_runes_codes r' Hr') as Hc'. rewrite He in Hc. rewrite app_str_cons in Hc.
        cbn [one_code] in Hc. apply andb_true_iff in Hc as [_ Hc]. rewrite continuation_app in Hc.
        apply andb_true_iff in Hc as [_ Hc]. cbn [continuation] in Hc. apply andb_true_iff in Hc as [Hc _].
        destruct (utf8 r') as [|b' u]; [done|]. rewrite !app_str_cons in Hx. injection Hx as -> _.
        cbn [one_code] in Hc'. rewrite Hc in Hc'. done. }
  destruct t as [|c t]; [done|]. set (u := String c t) in *.
  unfold trim_right. rewrite str_rev_app, text_rev.
  rewrite strip_unique; [apply str_rev_invol|apply space_codes_rev_free|apply space_codes_rev_nonempty| | |].
  - apply Forall_reverse, list.Forall_fmap. eapply list.Forall_impl; [by apply white_codes|]. intros p Hp.
    by apply elem_of_list_fmap_1.
  - intros p Hp [x Hx]. apply elem_of_list_fmap in Hp as (q & -> & Hq).
    apply elem_of_list_fmap in Hq as (r & -> & Hr). apply Het. exists r, (str_rev x). split; [done|].
    apply (f_equal str_rev) in Hx. by rewrite str_rev_invol, str_rev_app, str_rev_invol in Hx.
  - rewrite <-text_rev, <-str_rev_app, str_rev_length. done.
Qed.
Lemma trimmed_functional s t t' : trimmed s t → trimmed s t' → t = t'.
Proof. intros H%trim_unique H'%trim_unique. congruence. Qed.

(** * White space bytes *)
Lemma byte_of_inj c d : byte_of c = byte_of d → c = d.
Proof.
  unfold byte_of. intros H. assert (N_of_ascii c = N_of_ascii d) as E by lia.
  rewrite <-(ascii_N_embedding c), <-(ascii_N_embedding d). by rewrite E.
Qed.
Lemma space_byte_rune c : space_byte c → ∃ r, r ∈ space_runes ∧ String c "" = utf8 r.
Proof.
  intros H. exists (byte_of c). split.
  - assert (byte_of c ∈ [9; 10; 11; 12; 13; 32]) as Hin.
    { destruct H as [H| ->]; [|set_solver]. assert (byte_of c = 9 ∨ byte_of c = 10 ∨ byte_of c = 11 ∨
        byte_of c = 12 ∨ byte_of c = 13) as Hc by lia. set_solver. }
    unfold space_runes. set_solver.
  - assert (byte_of c < 128) as Hc by (destruct H; lia). unfold utf8.
    rewrite bool_decide_true by lia. f_equal. apply byte_of_inj. rewrite byte_of_of_byte; [done|].
    pose proof (byte_of_range c). lia.
Qed.
Lemma spaces_white w : spaces_text w → ∃ l, white_space l ∧ w = text l.
Proof.
  induction w as [|c w IH]; intros H; [exists []; split; [constructor|done]|].
  destruct IH as (l & Hl & ->); [intros d Hd; apply H, has_byte_cons; by right|].
  destruct (space_byte_rune c) as (r & Hr & Hu); [apply H, has_byte_cons; by left|].
  exists (r :: l). rewrite text_cons, <-Hu. split; [by constructor|done].
Qed.
Lemma trimmed_spaces w s t : spaces_text w → trimmed s t → trimmed (w +:+ s) t.
Proof.
  intros Hw (l & l' & Hl & Hl' & -> & H). apply spaces_white in Hw as (k & Hk & ->).
  exists (k ++ l), l'. split; [by apply list.Forall_app|]. split; [done|]. split; [|done].
  by rewrite text_app, <-app_str_assoc.
Qed.

(** * Keywords *)
Lemma upper_app a b : upper (a +:+ b) = upper a +:+ upper b.
Proof. induction a as [|c a IH]; [done|]. rewrite app_str_cons. simpl. by rewrite IH, app_str_cons. Qed.
(** Keywords are written in capitals. *)
Definition capitals (k : string) : Prop := all_bytes (λ c, 65 ≤ byte_of c ≤ 90) k.
Lemma spelled_upper k s : capitals k → spelled k s → upper s = k.
Proof.
  revert s. induction k as [|c k IH]; intros [|d s] Hk H; try done. destruct H as [Hd H]. simpl.
  rewrite (IH s); [|intros e He; apply Hk, has_byte_cons; by right|done]. f_equal.
  assert (65 ≤ byte_of c ≤ 90) as Hc by (apply Hk, has_byte_cons; by left).
  unfold upper_byte. apply byte_of_inj. case_bool_decide; [rewrite byte_of_of_byte; lia|lia].
Qed.
Lemma spelled_letters k s : capitals k → spelled k s → all_bytes letter_byte s.
Proof.
  revert s. induction k as [|c k IH]; intros [|d s] Hk H; try done; [by intros e ?%has_byte_nil|].
  destruct H as [Hd H]. intros e [<-|He]%has_byte_cons.
  - assert (65 ≤ byte_of c ≤ 90) as Hc by (apply Hk, has_byte_cons; by left). unfold letter_byte. lia.
  - eapply IH; [intros e' He'; apply Hk, has_byte_cons; by right|done|done].
Qed.
Lemma spelled_length k s : spelled k s → String.length s = String.length k.
Proof. revert s. induction k as [|c k IH]; intros [|d s] H; try done. destruct H as [_ H]. simpl. f_equal. by apply IH. Qed.
Lemma capitals_check k : forallb (λ c, (65 <=? byte_of c) && (byte_of c <=? 90)) (list_ascii_of_string k) = true → capitals k.
Proof.
  induction k as [|c k IH]; intros H; [by intros d ?%has_byte_nil|]. simpl in H. apply andb_true_iff in H as [Hc H].
  intros d [<-|Hd]%has_byte_cons; [lia|by apply IH].
Qed.
Lemma upper_spaces w : spaces_text w → upper w = w.
Proof.
  induction w as [|c w IH]; intros H; [done|]. simpl. rewrite IH by (intros d Hd; apply H, has_byte_cons; by right).
  f_equal. unfold upper_byte. rewrite bool_decide_false; [done|].
  assert (space_byte c) as [|] by (apply H, has_byte_cons; by left); lia.
Qed.

(** * Collapsing *)
Lemma is_space_cases c : is_space c → byte_of c = 9 ∨ byte_of c = 10 ∨ byte_of c = 12 ∨ byte_of c = 13 ∨ byte_of c = 32.
Proof. unfold is_space. set_solver. Qed.
Lemma not_space_letter c : letter_byte c → ¬ is_space c.
Proof. intros Hc Hs%is_space_cases. unfold letter_byte in Hc. lia. Qed.
Lemma collapse_plain b k : all_bytes (λ c, ¬ is_space c) k → collapse b k = k.
Proof.
  revert b. induction k as [|c k IH]; intros b H; [done|]. simpl.
  assert (re_space c = false) as ->.
  { destruct (re_space c) eqn:E; [|done]. apply re_space_spec in E. exfalso. eapply H; [|exact E]. apply has_byte_cons. by left. }
  rewrite IH; [done|]. intros d Hd. apply H, has_byte_cons. by right.
Qed.
Lemma collapse_app_plain b x k : all_bytes (λ c, ¬ is_space c) k → collapse b (x +:+ k) = collapse b x +:+ k.
Proof.
  intros H. revert b. induction x as [|c x IH]; intros b; [by apply collapse_plain|].
  rewrite app_str_cons. simpl. destruct (re_space c); [destruct b|]; by rewrite IH, ?app_str_cons.
Qed.
Lemma collapse_plain_app k x : all_bytes (λ c, ¬ is_space c) k → collapse false (k +:+ x) = k +:+ collapse false x.
Proof.
  induction k as [|c k IH]; intros H; [done|]. rewrite !app_str_cons. simpl.
  assert (re_space c = false) as ->.
  { destruct (re_space c) eqn:E; [|done]. apply re_space_spec in E. exfalso. eapply H; [|exact E]. apply has_byte_cons. by left. }
  rewrite IH; [done|]. intros d Hd. apply H, has_byte_cons. by right.
Qed.
Lemma collapse_whitespace_iff s t : collapsed s t ↔ collapse_whitespace s = t.
Proof.
  split.
  - intros H. by apply (collapsed_functional s); [apply collapse_spec|].
  - intros <-. apply collapse_spec.
Qed.
(** Text that starts and ends with a letter is trimmed already. *)
Lemma letter_code c : letter_byte c → byte_of c < 128.
Proof. intros [H|H]; lia. Qed.
Definition last_not_letter (s : string) : bool :=
  match str_rev s with "" => false | String c _ => negb (((65 <=? byte_of c) && (byte_of c <=? 90)) || ((97 <=? byte_of c) && (byte_of c <=? 122))) end.
Definition first_not_letter (s : string) : bool :=
  match s with "" => false | String c _ => negb (((65 <=? byte_of c) && (byte_of c <=? 90)) || ((97 <=? byte_of c) && (byte_of c <=? 122))) end.
Lemma trimmed_letters c s d u :
  letter_byte c → letter_byte d → String c s = u +:+ String d "" → trimmed (String c s) (String c s).
Proof.
  intros Hc Hd E. exists [], []. split; [by constructor|]. split; [by constructor|].
  change (text []) with "". split; [by rewrite app_str_nil_r|]. split.
  - intros (r & t & Hr & H). assert (Forall (λ r, first_not_letter (utf8 r) = true) space_runes) as Hf
      by (apply (bool_decide_unpack _); by vm_compute). rewrite list.Forall_forall in Hf. specialize (Hf r Hr).
    destruct (utf8 r) as [|c' u']; [done|]. rewrite app_str_cons in H. injection H as -> _. simpl in Hf.
    unfold letter_byte in Hc. lia.
  - intros (r & t & Hr & H). assert (Forall (λ r, last_not_letter (utf8 r) = true) space_runes) as Hf
      by (apply (bool_decide_unpack _); by vm_compute). rewrite list.Forall_forall in Hf. specialize (Hf r Hr).
    rewrite E in H. apply (f_equal str_rev) in H. rewrite !str_rev_app in H. unfold last_not_letter in Hf.
    destruct (str_rev (utf8 r)) as [|c' u']; [done|]. rewrite app_str_cons in H. cbn [str_rev] in H.
    change ("" +:+ String d "") with (String d "") in H. rewrite app_str_cons in H. injection H as -> _.
    unfold letter_byte in Hd. lia.
Qed.
Lemma all_bytes_app P a b : all_bytes P (a +:+ b) ↔ all_bytes P a ∧ all_bytes P b.
Proof.
  split.
  - intros H. split; intros c Hc; apply H, has_byte_app; auto.
  - intros [Ha Hb] c [Hc|Hc]%has_byte_app; auto.
Qed.
Lemma snoc_string s : s ≠ "" → ∃ u c, s = u +:+ String c "".
Proof.
  induction s as [|c s IH]; [done|]. intros _. destruct s as [|d s]; [by exists "", c|].
  destruct IH as (u & e & E); [done|]. exists (String c u), e. rewrite app_str_cons. by rewrite <-E.
Qed.
Lemma trimmed_word s : s ≠ "" → (∀ c r, s = String c r → letter_byte c) →
  (∀ c u, s = u +:+ String c "" → letter_byte c) → trimmed s s.
Proof.
  intros Hne Hf Hl. destruct s as [|c s]; [done|]. destruct (snoc_string (String c s)) as (u & d & E); [done|].
  by apply (trimmed_letters c s d u); [eapply Hf|eapply Hl|].
Qed.
Lemma is_ident_plain s : is_ident s → all_bytes (λ c, ¬ is_space c) s.
Proof.
  intros (c & r & -> & Hc & Hr). assert (∀ d, name_byte d → ¬ is_space d) as Hn.
  { intros d Hd Hs%is_space_cases. unfold name_byte, letter_byte in Hd. lia. }
  intros d [<-|Hd]%has_byte_cons; [by apply not_space_letter|]. by apply Hn, Hr.
Qed.
(** Two keywords with white space between them. *)
Lemma two_keywords_text k1 k2 s1 w s2 :
  k1 ≠ "" → k2 ≠ "" → capitals k1 → capitals k2 → spelled k1 s1 → spelled k2 s2 → spaces_text w →
  trim (s1 +:+ w +:+ s2) = s1 +:+ w +:+ s2 ∧
  upper (s1 +:+ w +:+ s2) = k1 +:+ w +:+ k2 ∧
  collapse_whitespace (k1 +:+ w +:+ k2) = k1 +:+ collapse_whitespace w +:+ k2.
Proof.
  intros Hn1 Hn2 Hk1 Hk2 Hs1 Hs2 Hw. split; [|split].
  - apply trim_unique. pose proof (spelled_letters _ _ Hk1 Hs1) as L1. pose proof (spelled_letters _ _ Hk2 Hs2) as L2.
    apply trimmed_word.
    + destruct s1; [by destruct k1|done].
    + intros c r E. destruct s1 as [|d s1]; [by destruct k1|]. rewrite app_str_cons in E. injection E as -> _.
      apply L1, has_byte_cons. by left.
    + intros c u E. destruct (snoc_string s2) as (u' & d & E'); [destruct s2; [by destruct k2|done]|].
      rewrite E', !app_str_assoc in E. apply (f_equal str_rev) in E. rewrite !str_rev_app in E. cbn [str_rev] in E.
      injection E as -> _. apply L2. rewrite E'. apply has_byte_app. right. apply has_byte_cons. by left.
  - rewrite !upper_app. rewrite (spelled_upper k1 s1) by done. rewrite (spelled_upper k2 s2) by done. by rewrite upper_spaces.
  - assert (∀ k, capitals k → all_bytes (λ c, ¬ is_space c) k) as Hp.
    { intros k Hk c Hc. apply not_space_letter. left. by apply Hk. }
    unfold collapse_whitespace. rewrite collapse_plain_app by by apply Hp.
    by rewrite collapse_app_plain by by apply Hp.
Qed.
Lemma one_keyword_text k s :
  k ≠ "" → capitals k → spelled k s →
  trim s = s ∧ upper s = k ∧ collapse_whitespace k = k.
Proof.
  intros Hn Hk Hs. pose proof (spelled_letters _ _ Hk Hs) as L. split; [|split].
  - apply trim_unique, trimmed_word.
    + destruct s; [by destruct k|done].
    + intros c r ->. apply L, has_byte_cons. by left.
    + intros c u ->. apply L, has_byte_app. right. apply has_byte_cons. by left.
  - by apply spelled_upper.
  - apply collapse_plain. intros c Hc. apply not_space_letter. left. by apply Hk.
Qed.
