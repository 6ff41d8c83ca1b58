(** ParseCheck against ParseSpec.v. *)
From Coq Require Import String Ascii.
From stdpp Require Import prelude strings.
From Verif Require Import GoStrings GoStringsProofs GoUtf8 GoUtf8Proofs DdlModel DdlSpec DdlProofs
  MachineModel MachineTables Re ParseGrammar ParseModel ParseSpec ParseText ParseProofs ParseEquiv ParseCheck.
Local Open Scope Z_scope.

(** * Languages *)
Definition ignore : semantics (string * unit) := λ _ _ _ m, Some m.
Notation accepts r p := (impl ignore r p (λ _ v, v)).
Lemma ignore_pos a c p p' m : ignore a c p m = ignore a c p' m. Proof. done. Qed.
Lemma spells_accepts {X} r (p : reads X) s : accepts r p → spells r s ↔ ∃ v, p s v.
Proof.
  intros [H1 H2]. split.
  - intros (t & Ht & <-). destruct (H1 t Ht) as (a & Ha & _). by exists a.
  - intros [v Hv]. destruct (H2 s v Hv) as (t & Ht & Hb & _). by exists t.
Qed.
Lemma accepts_any : accepts g_any anything.
Proof.
  eapply (impl_map ignore g_any (is (all_bytes (λ _, True)) ()) _ (λ _ v, v)).
  - apply impl_skip; [|done]. apply (texts_bytes ignore skips (skips_nil) (skips_app) Cls (skip_cls ignore ignore_pos)). apply in_any.
  - intros s [] _. exists s. done.
  - intros s b ->. exists (). split; [|done]. split; [|done]. by intros ??.
Qed.
Lemma accepts_ws : accepts g_ws ws. Proof. by apply (impl_ws ignore ignore_pos). Qed.
Lemma accepts_ows : accepts g_ows ows. Proof. by apply (impl_ows ignore ignore_pos). Qed.
Lemma accepts_kw {X} k (a : X) : accepts (kw k) (keyword k a). Proof. by apply (impl_kw ignore ignore_pos). Qed.
Lemma accepts_one c : accepts (one c) (lit (String c "")). Proof. by apply (impl_one ignore ignore_pos). Qed.
Lemma accepts_after {X Y} r s (p : reads X) (q : reads Y) : accepts r p → accepts s q → accepts (Seq r s) (p >> q).
Proof. intros H K. by eapply (impl_after ignore r s p q (λ _ v, v)). Qed.
Lemma accepts_upto {X Y} r s (p : reads X) (q : reads Y) : accepts r p → accepts s q → accepts (Seq r s) (p << q).
Proof. intros H K. by eapply (impl_upto ignore r s p q (λ _ v, v) (λ _ v, v)). Qed.
Lemma accepts_both {X Y} r s (p : reads X) (q : reads Y) : accepts r p → accepts s q → accepts (Seq r s) (p ** q).
Proof. intros H K. by eapply (impl_both ignore r s p q (λ _ v, v) (λ _ v, v)). Qed.
Lemma accepts_either {X} r s (p q : reads X) : accepts r p → accepts s q → accepts (Alt r s) (p <|> q).
Proof. intros H K. by eapply impl_either. Qed.
Lemma accepts_maybe {X} r (p : reads X) : accepts r p → accepts (opt r) (maybe p).
Proof. intros H. eapply impl_ext; [by eapply impl_maybe|]. by intros []. Qed.
Lemma accepts_giving {X Y} (f : X → Y) r (p : reads X) : accepts r p → accepts r (giving f p).
Proof. intros H. by eapply impl_giving. Qed.
Lemma accepts_iff {X Y} r (p : reads X) (q : reads Y) :
  accepts r p → (∀ s, (∃ v, p s v) ↔ ∃ v, q s v) → accepts r q.
Proof.
  intros H E. eapply impl_map; [exact H| |].
  - intros s a Ha. destruct (proj1 (E s)) as [b Hb]; [by exists a|]. by exists b.
  - intros s b Hb. destruct (proj2 (E s)) as [a Ha]; [by exists b|]. by exists a.
Qed.
Ltac accepted := first
  [ apply accepts_ws | apply accepts_ows | apply accepts_kw | apply accepts_one | apply accepts_any
  | apply accepts_giving; accepted | apply accepts_maybe; accepted | apply accepts_after; accepted
  | apply accepts_upto; accepted | apply accepts_both; accepted | apply accepts_either; accepted ].
Lemma accepts_open {X} l r (p : reads X) : all (r :: l) = r → accepts r p → accepts (all (g_open ++ r :: l)) (check_then p).
Proof.
  intros E H. unfold check_then. cbn [g_open app all]. cbn [all] in E. rewrite E.
  apply accepts_after; [apply accepts_ows|]. apply accepts_after; [apply accepts_kw|].
  apply accepts_after; [apply accepts_ows|]. apply accepts_after; [apply accepts_one|]. done.
Qed.
Lemma accepts_suffix : accepts g_check_suffix deferral.
Proof. unfold g_check_suffix, deferral, initially, key. cbn [any_of all]. accepted. Qed.
Lemma accepts_check : accepts g_check (check_then (anything << (lit ")" >> deferral >> ows))).
Proof.
  unfold g_check, check_then, key. cbn [g_open app all].
  do 4 (apply accepts_after; [accepted|]). apply accepts_upto; [accepted|].
  apply accepts_after; [accepted|]. apply accepts_after; [apply accepts_suffix|accepted].
Qed.
Lemma a_space_anything s : (∃ v, (a_space >> anything) s v) ↔ ∃ v, (ws >> anything) s v.
Proof.
  split.
  - intros (v & s1 & s2 & [] & -> & [(c & -> & Hc) _] & ->). exists s2, (String c ""), s2, (). split; [done|].
    split; [|done]. split; [|done]. split; [done|]. intros d [<-|?%has_byte_nil]%has_byte_cons; [by apply in_space|done].
  - intros (v & s1 & s2 & [] & -> & [[Hne Hs] _] & ->). destruct s1 as [|c s1]; [done|].
    exists (s1 +:+ s2), (String c ""), (s1 +:+ s2), (). split; [done|]. split; [|done]. split; [|done].
    exists c. split; [done|]. apply in_space, Hs, has_byte_cons. by left.
Qed.
Lemma accepts_a_space : accepts (Cls c_space) a_space.
Proof. apply impl_skip; [apply (skip_cls ignore ignore_pos)|done]. Qed.
Lemma accepts_deferrable :
  accepts g_deferrable (check_then (anything >> lit ")" >> ws >> key "DEFERRABLE" >> ws >> anything)).
Proof.
  unfold g_deferrable, check_then, key. cbn [g_open app all].
  do 8 (apply accepts_after; [accepted|]).
  apply (accepts_iff _ (a_space >> anything)); [apply accepts_after; [apply accepts_a_space|apply accepts_any]|]. apply a_space_anything.
Qed.
Lemma accepts_deferred :
  accepts g_deferred (check_then (anything >> lit ")" >> ws >> maybe (key "DEFERRABLE" >> ws) >>
    key "INITIALLY" >> ws >> key "DEFERRED" >> anything)).
Proof. unfold g_deferred, check_then, key. cbn [g_open app all]. accepted. Qed.

(** * The marks *)
Fixpoint no_act (r : re) : bool :=
  match r with
  | Eps | Cls _ => true | Act _ => false
  | Seq r s | Alt r s => no_act r && no_act s | Star r => no_act r
  end.
Fixpoint plain (t : trace) : bool := match t with [] => true | A _ :: _ => false | B _ :: t => plain t end.
Lemma plain_app t t' : plain (t ++ t') = plain t && plain t'.
Proof. induction t as [|[a|c] t IH]; [done|done|]. simpl. apply IH. Qed.
Lemma no_act_plain r t : no_act r = true → lang r t → plain t = true.
Proof.
  revert t. induction r as [| | |r IHr s IHs|r IHr s IHs|r IHr]; intros t H Hl; simpl in H, Hl; try done.
  - by subst t.
  - by destruct Hl as (c & -> & _).
  - apply andb_true_iff in H as [H1 H2]. destruct Hl as (t1 & t2 & -> & K1 & K2).
    rewrite plain_app, IHr, IHs; done.
  - apply andb_true_iff in H as [H1 H2]. destruct Hl as [Hl|Hl]; auto.
  - destruct Hl as (l & -> & Hl). induction Hl as [|t l Ht Hl IH]; [done|]. simpl. rewrite plain_app, IHr; done.
Qed.
Lemma position_plain a p t t' d : plain t = true →
  position a p (t ++ t') d = position a (p + Z.of_nat (String.length (bytes t))) t' d.
Proof.
  revert p. induction t as [|[b|c] t IH]; intros p H; [|done|].
  - simpl. f_equal. lia.
  - simpl in H |- *. rewrite IH by done. f_equal. lia.
Qed.
Lemma mark_step p t d1 d2 : lang g_mark t →
  ∃ c, bytes t = String c "" ∧ ∀ t', position SetMark1 p (t ++ t') d1 = position SetMark1 (p + 1) t' d1 ∧
    position SetMark2 p (t ++ t') d2 = position SetMark2 (p + 1) t' (if bool_decide (c = ")"%char) then p else d2).
Proof.
  intros [(c & -> & Hc)|(t1 & t2 & -> & H1 & c & -> & Hc)].
  - exists c. split; [done|]. intros t'. split; [done|]. rewrite bool_decide_false; [done|]. intros ->. by vm_compute in Hc.
  - simpl in H1. subst t1. apply in_one in Hc as ->. exists ")"%char. split; [done|]. intros t'. split; done.
Qed.
Definition last_close (p : Z) (s : string) (d v : Z) : Prop :=
  (¬ has_byte ")" s ∧ v = d) ∨
  ∃ e r, s = e +:+ ")" +:+ r ∧ ¬ has_byte ")" r ∧ v = p + Z.of_nat (String.length e).
Lemma mark_all p d1 d2 l : Forall (lang g_mark) l →
  position SetMark1 p (concat l) d1 = d1 ∧ last_close p (bytes (concat l)) d2 (position SetMark2 p (concat l) d2).
Proof.
  intros Hl. revert p d2. induction Hl as [|t l Ht Hl IH]; intros p d2.
  - split; [done|]. left. split; [by intros ?%has_byte_nil|done].
  - destruct (mark_step p t d1 d2 Ht) as (c & Hb & Hp). destruct (Hp (concat l)) as [E1 E2].
    cbn [List.concat]. rewrite E1, E2, bytes_app, Hb. change (String c "" +:+ bytes (concat l)) with (String c (bytes (concat l))).
    destruct (IH (p + 1) (if bool_decide (c = ")"%char) then p else d2)) as [K1 K2]. split; [done|].
    destruct K2 as [[Hn E]|(e & r & Hs & Hn & E)].
    + case_bool_decide as Hc.
      * subst c. right. exists "", (bytes (concat l)). split; [done|]. split; [done|]. rewrite E. simpl. lia.
      * left. split; [|done]. by intros [?|?]%has_byte_cons.
    + right. exists (String c e), r. rewrite Hs. split; [done|]. split; [done|]. rewrite E. simpl. lia.
Qed.
Definition open_text (o : string) : Prop := ∃ v, (ows >> key "CHECK" >> ows) o v.
Lemma open_text_paren o : open_text o → ¬ has_byte "(" o.
Proof.
  intros ([] & o1 & o2 & [] & -> & [H1 _] & k & o3 & [] & -> & [Hk _] & [H3 _]).
  intros [H|[H|H]%has_byte_app]%has_byte_app.
  - specialize (H1 _ H). unfold space_byte in H1. change (byte_of "(") with 40 in H1. lia.
  - eapply spelled_letters in Hk; [|by apply capitals_check]. specialize (Hk _ H). unfold letter_byte in Hk.
    change (byte_of "(") with 40 in Hk. lia.
  - specialize (H3 _ H). unfold space_byte in H3. change (byte_of "(") with 40 in H3. lia.
Qed.
Lemma g_open_lang r t : lang (all (g_open ++ [r])) t →
  ∃ t1 t2, t = t1 ++ t2 ∧ plain t1 = true ∧ lang r t2 ∧ ∃ o, bytes t1 = o +:+ "(" ∧ open_text o.
Proof.
  cbn [g_open app all]. intros (a & t' & -> & Ha & b & t2 & -> & Hb & c & t3 & -> & Hc & d & t4 & -> & Hd & H).
  exists (a ++ b ++ c ++ d), t4. split; [by rewrite <-!app_assoc|]. split.
  { rewrite !plain_app. by rewrite (no_act_plain _ _ (eq_refl : no_act g_ows = true) Ha),
      (no_act_plain _ _ (eq_refl : no_act (kw "CHECK") = true) Hb), (no_act_plain _ _ (eq_refl : no_act g_ows = true) Hc),
      (no_act_plain _ _ (eq_refl : no_act (one "(") = true) Hd). }
  split; [done|]. destruct Hd as (e & -> & He). apply in_one in He as ->.
  exists (bytes a +:+ bytes b +:+ bytes c). rewrite !bytes_app. split; [by rewrite <-!app_str_assoc|].
  destruct (accepts_after _ _ _ _ accepts_ows (accepts_after _ _ _ _ (accepts_kw "CHECK" ()) accepts_ows)) as [Hacc _].
  destruct (Hacc (a ++ b ++ c)) as (v & Hv & _).
  { exists a, (b ++ c). split; [done|]. split; [done|]. by exists b, c. }
  rewrite !bytes_app in Hv. by exists v.
Qed.
Lemma check_then_open {X} (p : reads X) s v : check_then p s v ↔ ∃ o x, s = o +:+ "(" +:+ x ∧ open_text o ∧ p x v.
Proof.
  split.
  - intros (a & s1 & u1 & -> & Ha & b & s2 & u2 & -> & Hb & c & s3 & u3 & -> & Hc & d & x & u4 & -> & [-> _] & Hx).
    exists (a +:+ b +:+ c), x. split; [by rewrite <-!app_str_assoc|]. split; [|done].
    exists u3, a, (b +:+ c), u1. split; [done|]. split; [done|]. by exists b, c, u2.
  - intros (o & x & -> & (u3 & a & bc & u1 & -> & Ha & b & c & u2 & -> & Hb & Hc) & Hx).
    exists a, (b +:+ c +:+ "(" +:+ x), u1. split; [by rewrite <-!app_str_assoc|]. split; [done|].
    exists b, (c +:+ "(" +:+ x), u2. split; [done|]. split; [done|].
    exists c, ("(" +:+ x), u3. split; [done|]. split; [done|].
    by exists "(", x, ().
Qed.
Lemma open_unique o x o' x' : open_text o → open_text o' → o +:+ "(" +:+ x = o' +:+ "(" +:+ x' → o = o' ∧ x = x'.
Proof. intros H%open_text_paren H'%open_text_paren E. by apply (first_sep_unique "(" o x o' x'). Qed.
Lemma check_accept s t q' :
  path check_machine 1 s = Some (t, q') → (56 ≤ q')%N →
  ∃ o e r, s = o +:+ "(" +:+ e +:+ ")" +:+ r ∧ open_text o ∧ ¬ has_byte ")" r ∧
    position SetMark1 0 t 0 = Z.of_nat (String.length o) + 1 ∧
    position SetMark2 0 t 0 = Z.of_nat (String.length o) + 1 + Z.of_nat (String.length e).
Proof.
  intros Hp Hq.
  assert (spells g_check s) as Hg by (apply accepted_iff; by exists t, q').
  apply (spells_accepts _ _ _ accepts_check) in Hg as [v Hv]. apply check_then_open in Hv as (o & x & -> & Ho & Hx).
  destruct Hx as (y & z & u & -> & -> & z1 & z2 & u2 & -> & [-> _] & _).
  pose proof (check_sound check_marks_td N.eqb N_eqb_eq 5000 1%N g_marks marks_checked (o +:+ "(" +:+ y +:+ ")" +:+ z2)) as Hs.
  rewrite tr_marks, Hp in Hs. destruct (N.ltb_spec q' 7); [lia|].
  destruct (proj1 (Hs _) eq_refl) as [Hl Hb]. apply g_open_lang in Hl as (t1 & t2 & Et & Hpl & Hl2 & o' & Eb & Ho').
  rewrite Et, bytes_app, Eb, <-app_str_assoc in Hb. destruct (open_unique _ _ _ _ Ho' Ho Hb) as [-> Hb2].
  rewrite <-(position_only SetMark1), <-(position_only SetMark2) by done. rewrite Et, !position_plain, Eb by done.
  assert (Z.of_nat (String.length (o +:+ "(")) = Z.of_nat (String.length o) + 1) as -> by (rewrite str_length_app; simpl; lia).
  rewrite Z.add_0_l.
  destruct Hl2 as [->|(a & t3 & -> & Ha & t4 & t5 & -> & H4 & l & -> & Hf)].
  { simpl in Hb2. destruct y; done. }
  simpl in Ha. subst a. 
  destruct (mark_all (Z.of_nat (String.length o) + 1) (Z.of_nat (String.length o) + 1) 0 (t4 :: l)) as [K1 K2]; [by constructor|].
  cbn [List.concat] in K1, K2. cbn [app position]. 
  change (act_eqb SetMark1 SetMark1) with true. change (act_eqb SetMark2 SetMark1) with false. cbn iota.
  rewrite K1. destruct K2 as [[Hn _]|(e & r & Es & Hn & E)].
  - exfalso. apply Hn. cbn [app bytes] in Hb2. rewrite Hb2. apply has_byte_app. right. apply has_byte_app. left. by apply has_byte_cons; left.
  - exists o, e, r. cbn [app bytes] in Hb2. rewrite <-Hb2, Es. done.
Qed.

(** * ParseCheck *)
Lemma check_no_crash_run s : run check_machine check_act 1 0 (CheckVars 0 0 false false) s ≠ Crash.
Proof.
  apply (run_no_crash _ _ (λ _, false) (within ck_ok) (within ck_ok) (λ _ _, True)); [done| | |by vm_compute|by vm_compute|done].
  - intros b acts b' c p mem Hw _. destruct (within_do check_act ck_ok acts b b' (Some c) p mem) as [mem' E]; [|done|by exists mem'].
    intros [] ? [] H; (done || by eexists).
  - intros b acts b' p mem Hw _ E. destruct (within_do check_act ck_ok acts b b' None p mem) as [mem' E']; [|done|congruence].
    intros [] ? [] H; (done || by eexists).
Qed.
Lemma slice_middle a e b :
  slice (a +:+ e +:+ b) (Z.of_nat (String.length a)) (Z.of_nat (String.length a) + Z.of_nat (String.length e)) = Some e.
Proof.
  unfold slice. rewrite bool_decide_true by (rewrite !str_length_app; lia).
  rewrite Nat2Z.id. replace (Z.to_nat (_ + _ - _)) with (String.length e) by lia.
  by rewrite str_drop_app, str_take_app.
Qed.
Lemma parse_check_cases s :
  (∃ v, run check_machine check_act 1 0 (CheckVars 0 0 false false) s = Parsed v ∧
    check_form s ∧ ∃ e r, check_body s e r ∧
    parse_check s = Parsed (Check "" (trim e) (cv_deferrable v) (cv_deferred v)) ∧
    (cv_deferrable v = true ↔ mentions_deferrable s) ∧ (cv_deferred v = true ↔ mentions_deferred s)) ∨
  (¬ check_form s ∧ ∃ cs, parse_check s = ParseError cs).
Proof.
  destruct (run check_machine check_act 1 0 (CheckVars 0 0 false false) s) as [v|cs|] eqn:Er.
  - left. exists v. split; [done|]. pose proof Er as Hr. apply check_run in Hr as (t & q' & Hp & Hq & Ex).
    assert (check_form s) as Hf.
    { apply (spells_accepts _ _ s accepts_check). apply accepted_iff. by exists t, q'. }
    split; [done|].
    rewrite exec_check in Ex by by eapply path_ok. injection Ex as <-. cbn [cv_deferrable cv_deferred orb].
    destruct (check_accept s t q' Hp Hq) as (o & e & r & Es & Ho & Hn & E1 & E2). exists e, r. split.
    { exists o. split; [done|]. split; [by apply open_text_paren|done]. }
    split.
    + unfold parse_check. rewrite Er. cbn [cv_mark1 cv_mark2]. rewrite E1, E2.
      pose proof (slice_middle (o +:+ "(") e (")" +:+ r)) as Hsl. rewrite <-app_str_assoc in Hsl.
      rewrite str_length_app in Hsl. change (String.length "(") with 1%nat in Hsl.
      rewrite Nat2Z.inj_add in Hsl. rewrite Es at 1. change (Z.of_nat 1) with 1 in Hsl. rewrite Hsl. done.
    + split.
      * rewrite (flag_iff _ _ s t q' deferrable_checked Hp). apply (spells_accepts _ _ s accepts_deferrable).
      * rewrite (flag_iff _ _ s t q' deferred_checked Hp). apply (spells_accepts _ _ s accepts_deferred).
  - right. split; [|exists cs; unfold parse_check; by rewrite Er].
    intros Hf. apply (spells_accepts _ _ s accepts_check), accepted_iff in Hf as (t & q' & Hp & Hq).
    assert (run check_machine check_act 1 0 (CheckVars 0 0 false false) s = Parsed
      (CheckVars (position SetMark1 0 t 0) (position SetMark2 0 t 0) (false || occurs CheckDeferrable t) (false || occurs CheckDeferred t))) as E.
    { apply check_run. exists t, q'. split; [done|]. split; [done|]. apply exec_check. by eapply path_ok. }
    congruence.
  - by apply check_no_crash_run in Er.
Qed.
Lemma parse_check_accepts s : (∃ c, parse_check s = Parsed c) ↔ check_form s.
Proof.
  destruct (parse_check_cases s) as [(v & _ & Hf & e & r & _ & E & _)|[Hn (cs & E)]]; rewrite E.
  - split; [done|]. intros _. by eexists.
  - split; [by intros [c ?]|done].
Qed.
Lemma check_no_crash s : parse_check s ≠ Crash.
Proof. destruct (parse_check_cases s) as [(v & _ & Hf & e & r & _ & E & _)|[Hn (cs & E)]]; by rewrite E. Qed.
Lemma parse_check_expression s c :
  parse_check s = Parsed c → ∃ e r, check_body s e r ∧ trimmed e (ck_expression c).
Proof.
  destruct (parse_check_cases s) as [(v & _ & Hf & e & r & Hb & E & _)|[Hn (cs & E)]]; rewrite E; [|done].
  intros [= <-]. exists e, r. split; [done|]. simpl. apply trim_spec.
Qed.
Lemma parse_check_flags s c :
  parse_check s = Parsed c →
  (ck_deferrable c = true ↔ mentions_deferrable s) ∧ (ck_deferred c = true ↔ mentions_deferred s) ∧ ck_name c = "".
Proof.
  destruct (parse_check_cases s) as [(v & _ & Hf & e & r & Hb & E & H1 & H2)|[Hn (cs & E)]]; rewrite E; [|done].
  by intros [= <-].
Qed.
