(** Proofs about the command line: numbers for --port. *)
From Coq Require Import String Ascii.
From stdpp Require Import list gmap strings.
From Verif Require Import GoStrings GoStringsProofs GoUtf8 ArgsModel ArgsSpec.
Local Open Scope Z_scope.

Lemma digit_spec c d : digit c = Some d ↔ digit_is c d.
Proof.
  unfold digit, digit_is. repeat case_decide; split; try (intros [= <-]); try done; try lia.
  all: intros Hx; f_equal; lia.
Qed.
Lemma numeral_nonneg base s n : 0 < base → numeral base s n → 0 ≤ n.
Proof.
  intros Hb. induction 1 as [c d Hd|s n c d _ IH Hd|s n c d _ IH Hd].
  - unfold digit_is in Hd. lia.
  - assert (0 ≤ d) by (unfold digit_is in Hd; lia). nia.
  - assert (0 ≤ d) by (unfold digit_is in Hd; lia). nia.
Qed.
Lemma digit_not_under c d : digit_is c d → c ≠ "_"%char.
Proof. intros Hd ->. unfold digit_is in Hd. change (byte_of "_") with 95 in Hd. lia. Qed.
Lemma digits_step base acc c d s : digit_is c d → d < base → base * acc + d ≤ 65535 →
  digits base acc (String c s) = digits base (base * acc + d) s.
Proof.
  intros Hd Hlt Hle. simpl. rewrite decide_False by by eapply digit_not_under. apply digit_spec in Hd. rewrite Hd. simpl.
  by rewrite !decide_False by lia.
Qed.
Lemma digits_complete base s n :
  0 < base → numeral base s n → n ≤ 65535 → ∀ t, digits base 0 (s +:+ t) = digits base n t.
Proof.
  intros Hb. induction 1 as [c d Hd Hlt|s n c d Hs IH Hd Hlt|s n c d Hs IH Hd Hlt]; intros Hn t.
  - rewrite app_str_cons. change ("" +:+ t) with t. rewrite (digits_step _ _ _ d) by (done || lia). f_equal. lia.
  - pose proof (numeral_nonneg _ _ _ Hb Hs). assert (0 ≤ d) by (unfold digit_is in Hd; lia).
    rewrite <-app_str_assoc, IH by nia. rewrite app_str_cons. change ("" +:+ t) with t. by apply digits_step.
  - pose proof (numeral_nonneg _ _ _ Hb Hs). assert (0 ≤ d) by (unfold digit_is in Hd; lia).
    rewrite <-app_str_assoc, IH by nia. rewrite !app_str_cons. change ("" +:+ t) with t.
    transitivity (digits base n (String c t)); [done|]. by apply digits_step.
Qed.
(** What underscoreOK takes for digits includes those of the base. *)
Definition covers (hex : bool) (base : Z) : Prop := base ≤ if hex then 16 else 10.
Lemma underscores_digit hex base l c d s : covers hex base → digit_is c d → d < base →
  underscores hex l (String c s) = underscores hex SawDigit s.
Proof. intros Hc Hd%digit_spec Hlt. unfold covers in Hc. simpl. rewrite Hd. by rewrite decide_True by lia. Qed.
Lemma underscores_complete hex base s n : covers hex base → numeral base s n →
  ∀ l t, underscores hex l (s +:+ t) = underscores hex SawDigit t.
Proof.
  intros Hc. induction 1 as [c d Hd Hlt|s n c d Hs IH Hd Hlt|s n c d Hs IH Hd Hlt]; intros l t.
  - rewrite app_str_cons. by eapply underscores_digit.
  - rewrite <-app_str_assoc, IH, app_str_cons. by eapply underscores_digit.
  - rewrite <-app_str_assoc, IH, !app_str_cons. change ("" +:+ t) with t.
    transitivity (underscores hex SawUnderscore (String c t)); [done|]. by eapply underscores_digit.
Qed.
Lemma digits_sound hex base s : covers hex base → ∀ p acc n, numeral base p acc → acc ≤ 65535 → digits base acc s = Some n →
  (underscores hex SawDigit s = true → numeral base (p +:+ s) n ∧ n ≤ 65535) ∧
  (underscores hex SawUnderscore s = true → numeral base (p +:+ String "_" s) n ∧ n ≤ 65535).
Proof.
  intros Hcov. induction s as [|c s IH]; intros p acc n Hp Hle H.
  - simpl in H. injection H as <-. split; [|done]. by rewrite app_str_nil_r.
  - destruct (decide (c = "_"%char)) as [->|Hc].
    + split; [|done]. change (digits base acc s = Some n) in H. intros Hu. by apply (IH p acc n).
    + simpl in H. rewrite decide_False in H by done. destruct (digit c) as [d|] eqn:Ed; [|done]. simpl in H.
      do 2 (case_decide; [done|]). apply digit_spec in Ed.
      split; rewrite (underscores_digit hex base _ c d) by (done || lia); intros Hu.
      * replace (p +:+ String c s) with ((p +:+ String c "") +:+ s) by by rewrite <-app_str_assoc.
        apply (IH _ (base * acc + d)); [|lia|done|done]. constructor; [done|done|lia].
      * replace (p +:+ String "_" (String c s)) with ((p +:+ String "_" (String c "")) +:+ s) by by rewrite <-app_str_assoc.
        apply (IH _ (base * acc + d)); [|lia|done|done]. apply numeral_group; [done|done|lia].
Qed.
Lemma digits_first hex base l s n : covers hex base → s ≠ "" → digits base 0 s = Some n → underscores hex l s = true →
  (numeral base s n ∨ (l = SawDigit ∧ ∃ t, s = String "_" t ∧ numeral base t n)) ∧ n ≤ 65535.
Proof.
  intros Hcov Hs H Hu.
  assert (Hfirst : ∀ c r, c ≠ "_"%char → digits base 0 (String c r) = Some n → (∃ l', underscores hex l' (String c r) = true) →
    numeral base (String c r) n ∧ n ≤ 65535).
  { intros c r Hc Hd [l' Hul]. simpl in Hd. rewrite decide_False in Hd by done. destruct (digit c) as [d|] eqn:Ed; [|done].
    simpl in Hd. do 2 (case_decide; [done|]). apply digit_spec in Ed. replace (base * 0 + d) with d in * by lia.
    rewrite (underscores_digit hex base _ c d) in Hul by (done || lia). change (String c r) with (String c "" +:+ r).
    apply (digits_sound hex base r Hcov (String c "") d n); [constructor; [done|lia]|lia|done|done]. }
  destruct s as [|c r]; [done|]. destruct (decide (c = "_"%char)) as [->|Hc].
  - destruct l; [|done|done]. change (digits base 0 r = Some n) in H. change (underscores hex SawUnderscore r = true) in Hu.
    destruct r as [|c r]; [done|]. destruct (decide (c = "_"%char)) as [->|Hc]; [done|].
    destruct (Hfirst c r Hc H ltac:(by eexists)) as [Hn Hle]. split; [|done]. right. split; [done|]. by eexists.
  - destruct (Hfirst c r Hc H ltac:(by eexists)) as [Hn Hle]. split; [|done]. by left.
Qed.
Lemma numeral_start base s n :
  numeral base s n → ∃ c r d, s = String c r ∧ digit_is c d ∧ d < base.
Proof.
  induction 1 as [c d Hd Hlt|s n c d Hs (c' & r & d' & -> & Hd' & Hlt') Hd Hlt|s n c d Hs (c' & r & d' & -> & Hd' & Hlt') Hd Hlt].
  - by exists c, "", d.
  - exists c', (r +:+ String c ""), d'. by rewrite app_str_cons.
  - exists c', (r +:+ String "_" (String c "")), d'. by rewrite app_str_cons.
Qed.
Lemma letter_not_digit c d :
  c ∈ ["b"%char; "B"%char; "o"%char; "O"%char; "x"%char; "X"%char] → digit_is c d → 10 < d.
Proof.
  intros Hc Hd%digit_spec.
  repeat (apply elem_of_cons in Hc as [->|Hc]; [vm_compute in Hd; injection Hd as <-; lia|]).
  by apply elem_of_nil in Hc.
Qed.
Lemma port_number_spec s n : port_number s = Some n ↔ number_text s n ∧ n ≤ 65535.
Proof.
  split.
  - unfold port_number. destruct (decide (s = "")) as [|Hne]; [done|]. intros H.
    destruct s as [|c0 s1]; [done|]. unfold prefixed in H.
    destruct (decide (c0 = "0"%char)) as [->|H0].
    + assert (Hoct : digits 8 0 s1 = Some n → underscores false SawOther (String "0" s1) = true →
        number_text (String "0" s1) n ∧ n ≤ 65535).
      { intros Hd Hu. change (underscores false SawDigit s1 = true) in Hu. destruct (decide (s1 = "")) as [->|Hn1].
        - simpl in Hd. injection Hd as <-. split; [constructor|done].
        - apply (digits_first false 8 SawDigit) in Hd as [[Hd|(_ & t & -> & Hd)] Hle]; [| |done..]; (split; [|done]).
          + by apply (number_octal s1).
          + by apply (number_octal_group t). }
      destruct s1 as [|c [|d s3]].
      * destruct (digits 8 0 "") eqn:E; [|done]. simpl in H. injection H as <-. by apply Hoct.
      * destruct (digits 8 0 (String c "")) eqn:E; [|done]. cbn [mbind option_bind] in H.
        destruct (underscores _ _ _) eqn:Eu; [|done]. injection H as <-. by apply Hoct.
      * assert (Hbase : ∀ hex base, covers hex base →
          (c, base) ∈ [("b"%char, 2); ("B"%char, 2); ("o"%char, 8); ("O"%char, 8); ("x"%char, 16); ("X"%char, 16)] →
          digits base 0 (String d s3) = Some n → underscores hex SawDigit (String d s3) = true →
          number_text (String "0" (String c (String d s3))) n ∧ n ≤ 65535).
        { intros hex base Hcov Hb Hd Hu.
          apply (digits_first hex base SawDigit) in Hd as [[Hd|(_ & t & Et & Hd)] Hle]; [| |done..]; (split; [|done]).
          - apply (number_base c base (String d s3)); [done|by left|done].
          - rewrite Et. apply (number_base c base t); [done|by right|done]. }
        destruct (decide (c = "b"%char ∨ c = "B"%char)) as [Hc|_].
        { destruct (digits 2 0 (String d s3)) eqn:E; [|done]. cbn [mbind option_bind] in H.
          destruct (underscores _ _ _) eqn:Eu; [|done]. injection H as <-. apply (Hbase false 2); [done| |done|done].
          destruct Hc as [->| ->]; [by left|right; by left]. }
        destruct (decide (c = "o"%char ∨ c = "O"%char)) as [Hc|_].
        { destruct (digits 8 0 (String d s3)) eqn:E; [|done]. cbn [mbind option_bind] in H.
          destruct (underscores _ _ _) eqn:Eu; [|done]. injection H as <-. apply (Hbase false 8); [done| |done|done].
          destruct Hc as [->| ->]; [do 2 right; by left|do 3 right; by left]. }
        destruct (decide (c = "x"%char ∨ c = "X"%char)) as [Hc|_].
        { destruct (digits 16 0 (String d s3)) eqn:E; [|done]. cbn [mbind option_bind] in H.
          destruct (underscores _ _ _) eqn:Eu; [|done]. injection H as <-. apply (Hbase true 16); [done| |done|done].
          destruct Hc as [->| ->]; [do 4 right; by left|do 5 right; by left]. }
        destruct (digits 8 0 (String c (String d s3))) eqn:E; [|done]. cbn [mbind option_bind] in H.
        destruct (underscores _ _ _) eqn:Eu; [|done]. injection H as <-. by apply Hoct.
    + destruct (digits 10 0 (String c0 s1)) eqn:E; [|done]. cbn [mbind option_bind] in H.
      destruct (underscores _ _ _) eqn:Eu; [|done]. injection H as <-.
      apply (digits_first false 10 SawOther) in E as [[Hd|[? _]] Hle]; [|done..]. split; [|done]. apply number_decimal; [|done].
      intros [r Hr]. rewrite app_str_cons in Hr. by injection Hr.
  - intros [Ht Hle].
    assert (Hdig : ∀ base t m, 0 < base → numeral base t m → m ≤ 65535 → digits base 0 t = Some m).
    { intros base t m Hb Hn Hm. by rewrite <-(app_str_nil_r t), (digits_complete base t m). }
    assert (Hund : ∀ hex base l t m, covers hex base → numeral base t m → underscores hex l t = true).
    { intros hex base l t m Hc Hn. by rewrite <-(app_str_nil_r t), (underscores_complete hex base t m). }
    destruct Ht as [|s n Hz Hn|s n Hn|s n Hn|c base s n Hb t Ht Hn].
    + done.
    + destruct (numeral_start _ _ _ Hn) as (c & r & d & -> & Hd & Hlt).
      unfold port_number, prefixed. rewrite decide_False by done.
      rewrite decide_False by (intros ->; apply Hz; by exists r).
      rewrite (Hdig 10 _ n) by (done || lia). cbn [mbind option_bind]. by rewrite (Hund false 10 _ _ n).
    + destruct (numeral_start _ _ _ Hn) as (c & r & d & -> & Hd & Hlt).
      change ("0" +:+ String c r) with (String "0" (String c r)) in *.
      assert (Hpre : prefixed (String "0" (String c r)) =
        (8, String c r, (false, SawOther, String "0" (String c r)))).
      { unfold prefixed. rewrite decide_True by done. destruct r as [|e r]; [done|].
        assert (Hnl : c ∉ ["b"%char; "B"%char; "o"%char; "O"%char; "x"%char; "X"%char]).
        { intros Hx. pose proof (letter_not_digit _ _ Hx Hd). lia. }
        rewrite !not_elem_of_cons in Hnl. destruct Hnl as (?&?&?&?&?&?&_).
        rewrite !decide_False by naive_solver. done. }
      unfold port_number. rewrite decide_False by done. rewrite Hpre.
      rewrite (Hdig 8 _ n) by (done || lia). cbn [mbind option_bind].
      change (underscores false SawOther (String "0" (String c r))) with (underscores false SawDigit (String c r)).
      by rewrite (Hund false 8 _ _ n).
    + destruct (numeral_start _ _ _ Hn) as (c & r & d & -> & Hd & Hlt).
      change ("0_" +:+ String c r) with (String "0" (String "_" (String c r))) in *.
      unfold port_number. rewrite decide_False by done.
      change (prefixed (String "0" (String "_" (String c r)))) with
        (8, String "_" (String c r), (false, SawOther, String "0" (String "_" (String c r)))).
      cbv beta iota zeta. change (digits 8 0 (String "_" (String c r))) with (digits 8 0 (String c r)).
      rewrite (Hdig 8 _ n) by (done || lia). cbn [mbind option_bind].
      change (underscores false SawOther (String "0" (String "_" (String c r)))) with (underscores false SawUnderscore (String c r)).
      by rewrite (Hund false 8 _ _ n).
    + destruct (numeral_start _ _ _ Hn) as (d & r & x & -> & Hd & Hlt).
      assert (Hpre : ∃ hex, (∀ y u, prefixed (String "0" (String c (String y u))) = (base, String y u, (hex, SawDigit, String y u))) ∧
        0 < base ∧ covers hex base).
      { repeat (apply elem_of_cons in Hb as [Hb|Hb]); [..|by apply elem_of_nil in Hb];
          injection Hb as -> ->; (exists true; split_and!; [reflexivity|lia|done]) || (exists false; split_and!; [reflexivity|lia|done]). }
      destruct Hpre as (hex & Hpre & Hpos & Hcov). unfold port_number. rewrite decide_False by done.
      destruct Ht as [->| ->]; rewrite Hpre.
      * rewrite (Hdig base _ n) by done. cbn [mbind option_bind]. by rewrite (Hund hex base _ _ n).
      * change (digits base 0 (String "_" (String d r))) with (digits base 0 (String d r)).
        change (underscores hex SawDigit (String "_" (String d r))) with (underscores hex SawUnderscore (String d r)).
        rewrite (Hdig base _ n) by done. cbn [mbind option_bind]. by rewrite (Hund hex base _ _ n).
Qed.
Lemma digits_range base acc s n : 0 < base → 0 ≤ acc ≤ 65535 → digits base acc s = Some n → 0 ≤ n ≤ 65535.
Proof.
  intros Hb. revert acc. induction s as [|c s IH]; intros acc Ha H; simpl in H; [by injection H as <-|].
  case_decide; [by eapply IH|]. destruct (digit c) as [d|] eqn:Ed; [|done]. simpl in H.
  do 2 (case_decide; [done|]). eapply IH; [|done]. apply digit_spec in Ed. unfold digit_is in Ed. nia.
Qed.
Lemma port_range s n : port_number s = Some n → 0 ≤ n ≤ 65535.
Proof.
  unfold port_number. destruct (decide (s = "")); [done|].
  destruct (prefixed s) as [[base t] [[hex l] u]] eqn:E.
  assert (0 < base) by (unfold prefixed in E; repeat case_decide; repeat case_match; simplify_eq; lia).
  destruct (digits base 0 t) as [m|] eqn:Ed; [|done]. simpl. destruct (underscores hex l u); [|done].
  intros [= <-]. by eapply digits_range.
Qed.
