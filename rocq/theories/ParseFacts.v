(** Consequences of the grammars: C42, C44 and C45. *)
From Coq Require Import String Ascii.
From stdpp Require Import prelude strings.
From Verif Require Import GoStrings GoStringsProofs GoUtf8 GoUtf8Proofs DdlModel DdlSpec DdlProofs
  MachineModel ParseModel ParseSpec ParseText ParseEquiv ParseCheck ParseCheckEquiv.
Local Open Scope Z_scope.

(** * First letters *)
Definition starts (n : Z) (s : string) : Prop := ∃ c r, s = String c r ∧ (byte_of c = n ∨ byte_of c = n + 32).
Lemma spelled_starts c k a x : spelled (String c k) a → starts (byte_of c) (a +:+ x).
Proof. destruct a as [|d a]; [done|]. intros [Hd _]. exists d, (a +:+ x). by rewrite app_str_cons. Qed.
Lemma starts_distinct n m s : 65 ≤ n ≤ 90 → 65 ≤ m ≤ 90 → starts n s → starts m s → n = m.
Proof. intros Hn Hm (c & r & -> & Hc) (d & r' & [= -> ->] & Hd). lia. Qed.
Lemma starts_not_spaces n s : 65 ≤ n ≤ 90 → starts n s → ¬ spaces_text s.
Proof.
  intros Hn (c & r & -> & Hc) H. assert (space_byte c) as Hs by (apply H, has_byte_cons; by left).
  unfold space_byte in Hs. lia.
Qed.
Lemma space_split n m w w' x x' :
  65 ≤ n ≤ 90 → 65 ≤ m ≤ 90 → spaces_text w → spaces_text w' → starts n x → starts m x' →
  w +:+ x = w' +:+ x' → w = w' ∧ x = x'.
Proof.
  intros Hn Hm. revert w'. induction w as [|c w IH]; intros [|c' w'] Hw Hw' Hx Hx' E; [done| | |].
  - exfalso. change ("" +:+ x) with x in E. rewrite app_str_cons in E. destruct Hx as (d & r & -> & Hd). injection E as -> _.
    assert (space_byte c') as Hs by (apply Hw', has_byte_cons; by left). unfold space_byte in Hs. lia.
  - exfalso. change ("" +:+ x') with x' in E. rewrite app_str_cons in E. destruct Hx' as (d & r & -> & Hd). injection E as -> _.
    assert (space_byte d) as Hs by (apply Hw, has_byte_cons; by left). unfold space_byte in Hs. lia.
  - rewrite !app_str_cons in E. injection E as -> E.
    destruct (IH w') as [-> ->]; try done; intros e He; [apply Hw|apply Hw']; apply has_byte_cons; by right.
Qed.
Lemma length_split a a' x x' : String.length a = String.length a' → a +:+ x = a' +:+ x' → a = a' ∧ x = x'.
Proof.
  revert a'. induction a as [|c a IH]; intros [|c' a'] Hl E; try done. rewrite !app_str_cons in E. injection E as -> E.
  injection Hl as Hl. by destruct (IH a' Hl E) as [-> ->].
Qed.
Lemma spelled_split k a a' x x' : spelled k a → spelled k a' → a +:+ x = a' +:+ x' → a = a' ∧ x = x'.
Proof. intros H%spelled_length H'%spelled_length. apply length_split. congruence. Qed.
Lemma length_split_r a a' x x' : String.length x = String.length x' → a +:+ x = a' +:+ x' → a = a' ∧ x = x'.
Proof.
  intros Hl E. apply length_split; [|done]. assert (String.length (a +:+ x) = String.length (a' +:+ x')) as H by by rewrite E.
  rewrite !str_length_app in H. lia.
Qed.

(** * The suffix of a check *)
Definition closed (r : string) : Prop := all_bytes (λ c, letter_byte c ∨ space_byte c) r.
Lemma closed_spaces w : spaces_text w → closed w.
Proof. intros H c Hc. right. by apply H. Qed.
Lemma closed_keyword k s : capitals k → spelled k s → closed s.
Proof. intros Hk H c Hc. left. by eapply spelled_letters. Qed.
Lemma closed_app a b : closed a → closed b → closed (a +:+ b).
Proof. intros Ha Hb. by apply all_bytes_app. Qed.
Lemma closed_nil : closed "". Proof. by intros c ?%has_byte_nil. Qed.
Lemma closed_close r : closed r → ¬ has_byte ")" r.
Proof. intros H Hc. apply H in Hc. unfold letter_byte, space_byte in Hc. change (byte_of ")") with 41 in Hc. lia. Qed.
Lemma initially_inv s b : initially s b → ∃ a w k, s = a +:+ w +:+ k ∧ spelled "INITIALLY" a ∧ ws w () ∧
  ((spelled "IMMEDIATE" k ∧ b = false) ∨ (spelled "DEFERRED" k ∧ b = true)).
Proof.
  intros (a & s1 & u & -> & [Ha _] & w & k & [] & -> & Hw & Hk). exists a, w, k. split; [done|]. split; [done|].
  split; [done|]. destruct Hk as [[Hk ->]|[Hk ->]]; [by left|by right].
Qed.
Lemma closed_initially s b : initially s b → closed s.
Proof.
  intros (a & w & k & -> & Ha & [[_ Hw] _] & Hk)%initially_inv. repeat apply closed_app.
  - by apply (closed_keyword "INITIALLY"); [apply capitals_check|].
  - by apply closed_spaces.
  - destruct Hk as [[Hk _]|[Hk _]]; (eapply closed_keyword; [|exact Hk]); by apply capitals_check.
Qed.
Lemma closed_deferral r b : (deferral << ows) r b → closed r.
Proof.
  destruct b as [d f]. intros (s & w & [] & -> & Hd & [Hw _]). apply closed_app; [|by apply closed_spaces].
  apply deferral_inv in Hd as [(-> & _)|[[Hn _]|(w1 & s1 & s2 & o1 & o2 & -> & [[_ Hw1] _] & H1 & H2 & _)]].
  - apply closed_nil.
  - destruct Hn as (w1 & x & u & -> & [[_ Hw1] _] & n & y & u' & -> & [Hn _] & w2 & k & u'' & -> & [[_ Hw2] _] & [Hk _]).
    repeat apply closed_app; try (by apply closed_spaces); (eapply closed_keyword; [|eassumption]); by apply capitals_check.
  - apply closed_app; [by apply closed_spaces|]. apply closed_app.
    + destruct H1 as [[-> _]|(u & _ & k & x & u' & -> & [Hk _] & [[_ Hx] _])]; [apply closed_nil|].
      apply closed_app; [|by apply closed_spaces]. eapply closed_keyword; [|exact Hk]. by apply capitals_check.
    + destruct H2 as [[-> _]|(b & _ & Hb)]; [apply closed_nil|by eapply closed_initially].
Qed.
Lemma letters65 c : forallb (λ c, (65 <=? byte_of c) && (byte_of c <=? 90)) [c] = true → 65 ≤ byte_of c ≤ 90.
Proof. simpl. lia. Qed.
(** How the suffix begins decides what it says. *)
Lemma deferral_says_deferrable w k x d f :
  (deferral << ows) (w +:+ k +:+ x) (d, f) → ws w () → spelled "DEFERRABLE" k → d = true.
Proof.
  intros (s & w0 & [] & E & Hd & [Hw0 _]) [[_ Hw] _] Hk. pose proof (spelled_starts _ _ _ x Hk) as Hs.
  assert (¬ spaces_text (k +:+ x)) as Hns by (eapply starts_not_spaces; [|exact Hs]; by apply letters65).
  apply deferral_inv in Hd as [(-> & _)|[[Hn _]|(w1 & s1 & s2 & o1 & o2 & -> & [[_ Hw1] _] & H1 & H2 & -> & _)]].
  - exfalso. apply Hns. change ("" +:+ w0) with w0 in E. rewrite <-E in Hw0. by apply all_bytes_app in Hw0 as [_ ?].
  - exfalso. destruct Hn as (w1 & z & u & -> & [[_ Hw1] _] & n & y & u' & -> & [Hn _] & _).
    rewrite <-!app_str_assoc in E. pose proof (spelled_starts _ _ _ (y +:+ w0) Hn) as Hs'.
    eapply space_split in E as [-> E]; [|by apply (letters65 "D")|by apply (letters65 "N")|done|done|exact Hs|exact Hs'].
    rewrite E in Hs. eapply starts_distinct in Hs; [| | |exact Hs']; by (vm_compute in Hs || apply letters65).
  - destruct H1 as [[-> ->]|(u & -> & H1)]; [|done]. exfalso. change ("" +:+ s2) with s2 in E.
    destruct H2 as [[-> _]|(b & _ & Hb)].
    + apply Hns. change ("" +:+ w0) with w0 in E. rewrite app_str_nil_r in E.
      assert (spaces_text (w1 +:+ w0)) as H by by apply all_bytes_app. rewrite <-E in H. by apply all_bytes_app in H as [_ ?].
    + apply initially_inv in Hb as (a & w2 & k2 & -> & Ha & _). rewrite <-!app_str_assoc in E.
      pose proof (spelled_starts _ _ _ (w2 +:+ k2 +:+ w0) Ha) as Hs'.
      eapply space_split in E as [-> E]; [|by apply (letters65 "D")|by apply (letters65 "I")|done|done|exact Hs|exact Hs'].
      rewrite E in Hs. eapply starts_distinct in Hs; [| | |exact Hs']; by (vm_compute in Hs || apply letters65).
Qed.
Lemma deferral_says_deferred w s1 o a w2 k x d f :
  (deferral << ows) (w +:+ s1 +:+ a +:+ w2 +:+ k +:+ x) (d, f) → ws w () → maybe (key "DEFERRABLE" >> ws) s1 o →
  spelled "INITIALLY" a → ws w2 () → spelled "DEFERRED" k → f = true.
Proof.
  intros (s & w0 & [] & E & Hd & [Hw0 _]) [[_ Hw] _] H1 Ha [[_ Hw2] _] Hk.
  assert (∀ n y, 65 ≤ n ≤ 90 → starts n y → w +:+ y = w0 → False) as Hnone.
  { intros n y Hn Hy <-. apply all_bytes_app in Hw0 as [_ H]. exact (starts_not_spaces n y Hn Hy H). }
  assert (∀ w3 y, spaces_text w3 → w +:+ y = w3 → ∀ n, 65 ≤ n ≤ 90 → starts n y → False) as Hsp.
  { intros w3 y H3 <- n Hn Hy. apply all_bytes_app in H3 as [_ H]. exact (starts_not_spaces n y Hn Hy H). }
  pose proof (spelled_starts _ _ _ (w2 +:+ k +:+ x) Ha) as Hsa.
  assert (65 ≤ byte_of "I" ≤ 90) as HI by by apply letters65.
  assert (65 ≤ byte_of "D" ≤ 90) as HD by by apply letters65.
  assert (65 ≤ byte_of "N" ≤ 90) as HN by by apply letters65.
  assert (∀ y, starts (byte_of "I") y → starts (byte_of "D") y → False) as HID.
  { intros y Hy Hy'. assert (byte_of "I" = byte_of "D") as H by exact (starts_distinct _ _ y HI HD Hy Hy'). by vm_compute in H. }
  assert (∀ y, starts (byte_of "N") y → starts (byte_of "I") y → False) as HNI.
  { intros y Hy Hy'. assert (byte_of "N" = byte_of "I") as H by exact (starts_distinct _ _ y HN HI Hy Hy'). by vm_compute in H. }
  assert (∀ y, starts (byte_of "N") y → starts (byte_of "D") y → False) as HND.
  { intros y Hy Hy'. assert (byte_of "N" = byte_of "D") as H by exact (starts_distinct _ _ y HN HD Hy Hy'). by vm_compute in H. }
  (* after INITIALLY *)
  assert (∀ v1 v2 s2 o2, spaces_text v1 → spaces_text v2 → maybe initially s2 o2 →
    v1 +:+ a +:+ w2 +:+ k +:+ x = v2 +:+ s2 +:+ w0 → from_option id false o2 = true) as Hi.
  { intros v1 v2 s2 o2 Hv1 Hv2 Ho2 E'. destruct Ho2 as [[-> ->]|(b & -> & Hb)].
    - exfalso. change ("" +:+ w0) with w0 in E'. assert (spaces_text (v2 +:+ w0)) as H by by apply all_bytes_app.
      rewrite <-E' in H. apply all_bytes_app in H as [_ H]. exact (starts_not_spaces _ _ HI Hsa H).
    - apply initially_inv in Hb as (a' & w3 & k3 & -> & Ha' & [[_ Hw3] _] & Hk3). rewrite <-!app_str_assoc in E'.
      eapply space_split in E' as [-> E']; [|exact HI|exact HI|done|done|exact Hsa|by eapply spelled_starts].
      apply (spelled_split "INITIALLY") in E' as [-> E']; [|done..].
      pose proof (spelled_starts _ _ _ x Hk) as Hsk.
      destruct Hk3 as [[Hk3 ->]|[Hk3 ->]]; [|done]. exfalso. pose proof (spelled_starts _ _ _ w0 Hk3) as Hsk3.
      eapply space_split in E' as [-> E']; [|exact HD|exact HI|done|done|exact Hsk|exact Hsk3].
      rewrite E' in Hsk. by eapply HID. }
  assert (∃ n, 65 ≤ n ≤ 90 ∧ starts n (s1 +:+ a +:+ w2 +:+ k +:+ x) ∧ (n = byte_of "I" ∨ n = byte_of "D")) as (n & Hn & Hs1 & Hn').
  { destruct H1 as [[-> _]|(u & _ & e & w3 & u' & -> & [He _] & _)].
    - exists (byte_of "I"). auto.
    - exists (byte_of "D"). rewrite <-!app_str_assoc. split; [done|]. split; [by eapply spelled_starts|by right]. }
  apply deferral_inv in Hd as [(-> & _)|[[Hn0 _]|(w1 & t1 & t2 & o1 & o2 & -> & [[_ Hw1] _] & K1 & K2 & _ & ->)]].
  - exfalso. change ("" +:+ w0) with w0 in E. exact (Hnone n _ Hn Hs1 E).
  - exfalso. destruct Hn0 as (w1 & z & u & -> & [[_ Hw1] _] & m & y & u' & -> & [Hm _] & _).
    rewrite <-!app_str_assoc in E. pose proof (spelled_starts _ _ _ (y +:+ w0) Hm) as Hs'.
    eapply space_split in E as [-> E]; [|exact Hn|exact HN|done|done|exact Hs1|exact Hs'].
    rewrite E in Hs1. destruct Hn' as [-> | ->]; [exact (HNI _ Hs' Hs1)|exact (HND _ Hs' Hs1)].
  - rewrite <-!app_str_assoc in E.
    destruct H1 as [[-> _]|(u & _ & e & w3 & u' & -> & [He _] & [[_ Hw3] _])];
      destruct K1 as [[-> _]|(u2 & _ & e' & w3' & u2' & -> & [He' _] & [[_ Hw3'] _])].
    + change ("" +:+ ?y) with y in E. by eapply (Hi w w1 t2 o2).
    + exfalso. change ("" +:+ ?y) with y in E. rewrite <-!app_str_assoc in E.
      pose proof (spelled_starts _ _ _ (w3' +:+ t2 +:+ w0) He') as Hs'.
      eapply space_split in E as [-> E]; [|exact HI|exact HD|done|done|exact Hsa|exact Hs'].
      rewrite E in Hsa. by eapply HID.
    + exfalso. change ("" +:+ ?y) with y in E. rewrite <-!app_str_assoc in E.
      pose proof (spelled_starts _ _ _ (w3 +:+ a +:+ w2 +:+ k +:+ x) He) as Hs.
      destruct K2 as [[-> ->]|(b & -> & Hb)].
      * change ("" +:+ w0) with w0 in E. assert (spaces_text (w1 +:+ w0)) as H by by apply all_bytes_app.
        exact (Hsp (w1 +:+ w0) _ H E _ HD Hs).
      * apply initially_inv in Hb as (a' & w4 & k4 & -> & Ha' & _). rewrite <-!app_str_assoc in E.
        pose proof (spelled_starts _ _ _ (w4 +:+ k4 +:+ w0) Ha') as Hs'.
        eapply space_split in E as [-> E]; [|exact HD|exact HI|done|done|exact Hs|exact Hs'].
        rewrite E in Hs. by eapply HID.
    + rewrite <-!app_str_assoc in E.
      pose proof (spelled_starts _ _ _ (w3 +:+ a +:+ w2 +:+ k +:+ x) He) as Hs.
      pose proof (spelled_starts _ _ _ (w3' +:+ t2 +:+ w0) He') as Hs'.
      eapply space_split in E as [-> E]; [|exact HD|exact HD|done|done|exact Hs|exact Hs'].
      apply (spelled_split "DEFERRABLE") in E as [-> E]; [|done..].
      by eapply (Hi w3 w3' t2 o2).
Qed.
(** Parentheses. *)
Lemma close_unique y X e r : ¬ has_byte ")" e → ¬ has_byte ")" r → y +:+ ")" +:+ X = e +:+ ")" +:+ r → y = e ∧ X = r.
Proof.
  intros He Hr E. apply first_sep_unique in E; [done| |done]. intros Hy. apply app_split in E as [(x & -> & Ex)|(x & -> & Ex)].
  - destruct x as [|c x]; [rewrite app_str_nil_r in Hy; done|]. change (String ")" r = String c (x +:+ String ")" X)) in Ex. injection Ex as <- Ex. apply Hr.
    rewrite Ex. apply has_byte_app. right. apply has_byte_cons. by left.
  - apply He. apply has_byte_app. by left.
Qed.
Lemma last_close_unique e r e' r' :
  ¬ has_byte ")" r → ¬ has_byte ")" r' → e +:+ ")" +:+ r = e' +:+ ")" +:+ r' → e = e' ∧ r = r'.
Proof.
  assert (∀ e r e' r' x, ¬ has_byte ")" r' → e = e' +:+ x → ")" +:+ r' = x +:+ ")" +:+ r → e = e' ∧ r = r') as H.
  { intros e1 r1 e1' r1' [|c x] Hr' -> E.
    - rewrite app_str_nil_r. split; [done|]. change ("" +:+ ?y) with y in E. by injection E.
    - exfalso. change (String ")" r1' = String c (x +:+ String ")" r1)) in E. injection E as <- ->. apply Hr', has_byte_app. right. apply has_byte_cons. by left. }
  intros Hr Hr' E. apply app_split in E as [(x & -> & Ex)|(x & -> & Ex)].
  - by eapply (H _ r e' r' x).
  - destruct (H (e +:+ x) r' e r x) as [? ?]; done.
Qed.
Lemma check_body_unique s e r e' r' : check_body s e r → check_body s e' r' → e = e' ∧ r = r'.
Proof.
  intros (o & -> & Ho & Hr) (o' & E & Ho' & Hr').
  apply (first_sep_unique "(" o _ o' _) in E as [-> E]; [|done..]. by apply last_close_unique in E.
Qed.
(** C42 *)
Lemma check_suffix_flags s c e d f :
  parse_check s = Parsed c → check_then (anything ** (lit ")" >> deferral << ows)) s (e, (d, f)) →
  (d = true → ck_deferrable c = true) ∧ (f = true → ck_deferred c = true) ∧
  (¬ has_byte ")" e → ck_deferrable c = d ∧ ck_deferred c = f).
Proof.
  intros (H1 & H2 & _)%parse_check_flags. intros (o & x & -> & Ho & Hx)%check_then_open.
  destruct Hx as (e' & y & -> & Ee & cl & r & [] & -> & [-> _] & Hr). simpl in Ee, Hr. unfold anything in Ee. subst e'.
  assert (∀ n, (n = true → ck_deferrable c = true) → (ck_deferrable c = true → n = true) → ck_deferrable c = n) as Hb1
    by (intros []; destruct (ck_deferrable c); naive_solver).
  assert (∀ n, (n = true → ck_deferred c = true) → (ck_deferred c = true → n = true) → ck_deferred c = n) as Hb2
    by (intros []; destruct (ck_deferred c); naive_solver).
  assert (d = true → ck_deferrable c = true) as Hd.
  { intros ->. apply H1. destruct Hr as (r1 & w0 & [] & -> & Hd & _).
    apply deferral_inv in Hd as [(_ & [=] & _)|[(_ & [=] & _)|(w1 & t1 & t2 & o1 & o2 & -> & Hw1 & K1 & K2 & E & _)]].
    destruct K1 as [[_ ->]|(u & -> & k & w3 & u' & -> & Hk & Hw3)]; [done|].
    eexists. apply check_then_open. exists o, (e +:+ ")" +:+ (w1 +:+ (k +:+ w3) +:+ t2) +:+ w0). split; [done|]. split; [done|].
    exists e, (")" +:+ (w1 +:+ (k +:+ w3) +:+ t2) +:+ w0), e. split; [done|]. split; [done|].
    exists ")", ((w1 +:+ (k +:+ w3) +:+ t2) +:+ w0), (). split; [done|]. split; [done|].
    exists w1, (k +:+ w3 +:+ t2 +:+ w0), (). split; [by rewrite <-!app_str_assoc|]. split; [done|].
    exists k, (w3 +:+ t2 +:+ w0), u'. split; [done|]. split; [done|].
    by exists w3, (t2 +:+ w0), u. }
  assert (f = true → ck_deferred c = true) as Hf.
  { intros ->. apply H2. destruct Hr as (r1 & w0 & [] & -> & Hd' & _).
    apply deferral_inv in Hd' as [(_ & _ & [=])|[(_ & _ & [=])|(w1 & t1 & t2 & o1 & o2 & -> & Hw1 & K1 & K2 & _ & E)]].
    destruct K2 as [[_ ->]|(b & -> & Hb)]; [done|]. simpl in E. unfold id in E. subst b.
    apply initially_inv in Hb as (a & w2 & k & -> & Ha & Hw2 & [[_ [=]]|[Hk _]]).
    eexists. apply check_then_open. exists o, (e +:+ ")" +:+ (w1 +:+ t1 +:+ a +:+ w2 +:+ k) +:+ w0). split; [done|]. split; [done|].
    exists e, (")" +:+ (w1 +:+ t1 +:+ a +:+ w2 +:+ k) +:+ w0), e. split; [done|]. split; [done|].
    exists ")", ((w1 +:+ t1 +:+ a +:+ w2 +:+ k) +:+ w0), (). split; [done|]. split; [done|].
    exists w1, (t1 +:+ a +:+ w2 +:+ k +:+ w0), (). split; [by rewrite <-!app_str_assoc|]. split; [done|].
    exists t1, (a +:+ w2 +:+ k +:+ w0), o1. split; [done|]. split; [done|].
    exists a, (w2 +:+ k +:+ w0), (). split; [done|]. split; [done|].
    exists w2, (k +:+ w0), (). split; [done|]. split; [done|].
    by exists k, w0, (). }
  split; [done|]. split; [done|]. intros He.
  pose proof (closed_close _ (closed_deferral _ _ Hr)) as Hcl. split.
  - apply Hb1; [done|]. intros (v & Hm)%H1. apply check_then_open in Hm as (o' & x & E & Ho' & Hx).
    destruct (open_unique _ _ _ _ Ho Ho' E) as [_ <-].
    destruct Hx as (y & z & v1 & E' & _ & cl' & z1 & [] & -> & [-> _] & w & z2 & [] & -> & Hw & k & z3 & [] & -> & [Hk _] & _).
    symmetry in E'. destruct (close_unique _ _ _ _ He Hcl E') as [_ <-]. by eapply deferral_says_deferrable.
  - apply Hb2; [done|]. intros (v & Hm)%H2. apply check_then_open in Hm as (o' & x & E & Ho' & Hx).
    destruct (open_unique _ _ _ _ Ho Ho' E) as [_ <-].
    destruct Hx as (y & z & v1 & E' & _ & cl' & z1 & [] & -> & [-> _] & w & z2 & [] & -> & Hw &
      t1 & z3 & o1 & -> & Ht1 & a & z4 & [] & -> & [Ha _] & w2 & z5 & [] & -> & Hw2 & k & z6 & [] & -> & [Hk _] & _).
    symmetry in E'. destruct (close_unique _ _ _ _ He Hcl E') as [_ <-]. by eapply (deferral_says_deferred w t1 o1 a w2 k).
Qed.

(** * C44 *)
Definition vertical_tab : ascii := "011".
Lemma collapse_one w : w ≠ "" → all_bytes is_space w → collapse_whitespace w = " ".
Proof.
  unfold collapse_whitespace. destruct w as [|c w]; [done|]. intros _ H. simpl.
  assert (re_space c = true) as -> by (apply re_space_spec, H, has_byte_cons; by left). f_equal.
  assert (all_bytes is_space w) as Hw by (intros d Hd; apply H, has_byte_cons; by right). clear H.
  induction w as [|d w IH]; [done|]. simpl.
  assert (re_space d = true) as -> by (apply re_space_spec, Hw, has_byte_cons; by left).
  apply IH. intros x Hx. apply Hw, has_byte_cons. by right.
Qed.
Lemma space_no_tab c : space_byte c → c ≠ vertical_tab → is_space c.
Proof.
  intros H Hn. assert (byte_of c ≠ 11) as Hb.
  { intros E. apply Hn, byte_of_inj. by rewrite E. }
  unfold is_space. assert (byte_of c = 9 ∨ byte_of c = 10 ∨ byte_of c = 12 ∨ byte_of c = 13 ∨ byte_of c = 32) as Hc
    by (unfold space_byte in H; lia). set_solver.
Qed.
Lemma two_keywords_canonical k1 k2 s v :
  two_keywords k1 k2 s v → ¬ has_byte vertical_tab s → v = k1 +:+ " " +:+ k2.
Proof.
  intros (s1 & w & s2 & w' & -> & _ & Hne & Hw & _ & Hc & ->) Hv. apply collapse_whitespace_iff in Hc.
  rewrite <-Hc, collapse_one; [done|done|]. intros c H. apply space_no_tab; [by apply Hw|]. intros ->. apply Hv.
  apply has_byte_app. right. apply has_byte_app. by left.
Qed.
Definition actions : list string := ["NO ACTION"; "RESTRICT"; "CASCADE"; "SET NULL"; "SET DEFAULT"].
Lemma on_action_known s v : on_action s v → ¬ has_byte vertical_tab s → v ∈ actions.
Proof.
  unfold actions. intros [H|[[_ ->]|[[_ ->]|[H|H]]]] Hv; try set_solver;
    (eapply two_keywords_canonical in H; [|done]; rewrite H; set_solver).
Qed.
Lemma has_byte_r c a b : ¬ has_byte c (a +:+ b) → ¬ has_byte c b.
Proof. intros H H'. apply H, has_byte_app. by right. Qed.
Lemma has_byte_l c a b : ¬ has_byte c (a +:+ b) → ¬ has_byte c a.
Proof. intros H H'. apply H, has_byte_app. by left. Qed.
Lemma maybe_action s v k1 k2 :
  maybe (ws >> key k1 >> ws >> key k2 >> ws >> on_action) s v → ¬ has_byte vertical_tab s →
  from_option id "" v = "" ∨ from_option id "" v ∈ actions.
Proof.
  intros [[-> ->]|(a & -> & H)] Hv; [by left|right].
  destruct H as (? & ? & [] & -> & _ & ? & ? & [] & -> & _ & ? & ? & [] & -> & _ & ? & ? & [] & -> & _ & ? & ? & [] & -> & _ & H).
  eapply on_action_known; [exact H|]. do 5 apply has_byte_r in Hv. done.
Qed.
Lemma foreign_key_actions s fk :
  parse_foreign_key s = Parsed fk → ¬ has_byte vertical_tab s →
  (fk_on_delete fk = "" ∨ fk_on_delete fk ∈ actions) ∧ (fk_on_update fk = "" ∨ fk_on_update fk ∈ actions).
Proof.
  intros (v & Hv & ->)%parse_foreign_key_spec Hs.
  destruct v as [cols [tbl [refs [mt [del [upd [d f]]]]]]]. simpl.
  destruct Hv as (s1 & t1 & -> & _ & s2 & t2 & -> & _ & s3 & t3 & -> & _ & s4 & t4 & -> & _ & s5 & t5 & -> & Hd & s6 & t6 & -> & Hu & _).
  simpl in Hd, Hu. do 4 apply has_byte_r in Hs. split.
  - eapply maybe_action; [exact Hd|]. by apply has_byte_l in Hs.
  - eapply maybe_action; [exact Hu|]. apply has_byte_r in Hs. by apply has_byte_l in Hs.
Qed.

(** * C45 *)
(** No text ending in [x] ends in the letters BLE. *)
Definition never (x : string) : Prop := ∀ y p a, y +:+ x = p +:+ a → ¬ spelled "BLE" a.
Lemma never_app y x : never x → never (y +:+ x).
Proof. intros H z p a E. rewrite app_str_assoc in E. by eapply H. Qed.
Lemma never_opt y x : never y → x = "" ∨ never x → never (y +:+ x).
Proof. intros Hy [->|Hx]; [by rewrite app_str_nil_r|by apply never_app]. Qed.
Lemma spelled_split_app k1 k2 s : spelled (k1 +:+ k2) s → ∃ a b, s = a +:+ b ∧ spelled k1 a ∧ spelled k2 b.
Proof.
  revert s. induction k1 as [|c k1 IH]; intros s H; [by exists "", s|]. rewrite app_str_cons in H.
  destruct s as [|d s]; [done|]. destruct H as [Hd H]. apply IH in H as (a & b & -> & Ha & Hb).
  by exists (String d a), b.
Qed.
Lemma spelled_differ k k' a : spelled k a → spelled k' a → capitals k → capitals k' → k = k'.
Proof. intros H1 H2 C1 C2. by rewrite <-(spelled_upper _ _ C1 H1), <-(spelled_upper _ _ C2 H2). Qed.
Lemma never_keyword k1 k2 x : spelled (k1 +:+ k2) x → String.length k2 = 3%nat → capitals k2 → k2 ≠ "BLE" → never x.
Proof.
  intros (u & b & -> & _ & Hb)%spelled_split_app Hl Hc Hk y p a E Ha. rewrite app_str_assoc in E.
  apply length_split_r in E as [_ <-].
  - apply Hk. eapply spelled_differ; [exact Hb|exact Ha|done|by apply capitals_check].
  - rewrite (spelled_length _ _ Hb), (spelled_length _ _ Ha). done.
Qed.
Lemma never_byte x c : ¬ letter_byte c → never (x +:+ String c "").
Proof.
  intros Hc. apply never_app. intros y p a E Ha. pose proof (spelled_length _ _ Ha) as Hl.
  destruct (snoc_string a) as (a' & d & ->); [by intros ->|]. rewrite app_str_assoc in E.
  apply length_split_r in E as [_ [= <-]]; [|done]. apply Hc.
  eapply (spelled_letters _ _ (capitals_check "BLE" eq_refl) Ha). apply has_byte_app. right. apply has_byte_cons. by left.
Qed.
Lemma never_spaces w : spaces_text w → w ≠ "" → never w.
Proof.
  intros Hw Hne. destruct (snoc_string w Hne) as (u & c & ->). apply never_byte.
  assert (space_byte c) as Hc by (apply Hw, has_byte_app; right; apply has_byte_cons; by left).
  unfold letter_byte. unfold space_byte in Hc. lia.
Qed.
Ltac keyword_end k1 k2 H := by apply (never_keyword k1 k2 _ H eq_refl (capitals_check k2 eq_refl)).
Lemma never_match s v : match_type s v → never s.
Proof. intros [[H _]|[[H _]|[H _]]]; [keyword_end "F" "ULL" H|keyword_end "PART" "IAL" H|keyword_end "SIM" "PLE" H]. Qed.
Lemma never_action s v : on_action s v → never s.
Proof.
  intros [H|[[H _]|[[H _]|[H|H]]]].
  - destruct H as (s1 & w & s2 & w' & -> & _ & _ & _ & H & _). do 2 apply never_app. keyword_end "ACT" "ION" H.
  - keyword_end "RESTR" "ICT" H.
  - keyword_end "CASC" "ADE" H.
  - destruct H as (s1 & w & s2 & w' & -> & _ & _ & _ & H & _). do 2 apply never_app. keyword_end "N" "ULL" H.
  - destruct H as (s1 & w & s2 & w' & -> & _ & _ & _ & H & _). do 2 apply never_app. keyword_end "DEFA" "ULT" H.
Qed.
(** A text ending in DEFERRABLE whose suffix is [r]. *)
Lemma deferral_end r d f :
  (deferral << ows) r (d, f) → r = "" ∨ never r ∨ (not_deferrable r () ∧ d = false).
Proof.
  intros (s & w & [] & -> & Hd & [Hw _]).
  assert (w = "" ∨ never w) as Hnw by (destruct (decide (w = "")); [by left|right; by apply never_spaces]).
  destruct Hnw as [->|Hnw]; [|right; left; by apply never_app]. rewrite app_str_nil_r.
  apply deferral_inv in Hd as [(-> & _)|[(Hn & -> & _)|(w1 & s1 & s2 & o1 & o2 & -> & [[Hne1 Hw1] _] & H1 & H2 & _)]].
  - by left.
  - right; right. done.
  - right; left. apply never_spaces in Hne1; [|done]. rewrite app_str_assoc. apply never_opt.
    + apply never_opt; [done|]. destruct H1 as [[-> _]|(u & _ & k & x & u' & -> & _ & [[Hx Hx'] _])]; [by left|right].
      apply never_app. by apply never_spaces.
    + destruct H2 as [[-> _]|(b & _ & Hb)]; [by left|right].
      apply initially_inv in Hb as (a & w2 & k & -> & _ & _ & [[H _]|[H _]]); do 2 apply never_app;
        [keyword_end "IMMEDI" "ATE" H|keyword_end "DEFER" "RED" H].
Qed.
Lemma ends_not_deferrable y r d f s k :
  never y → (deferral << ows) r (d, f) → y +:+ r = s +:+ k → spelled "DEFERRABLE" k →
  d = false ∧ ∃ p n w, s = p +:+ n +:+ w ∧ spelled "NOT" n ∧ ws w ().
Proof.
  intros Hy Hr E Hk. destruct (spelled_split_app "DEFERRA" "BLE" k Hk) as (k1 & k2 & -> & _ & Hk2).
  assert (¬ never (y +:+ r)) as Hno.
  { intros H. apply (H "" (s +:+ k1) k2); [|done]. by rewrite <-app_str_assoc. }
  apply deferral_end in Hr as [->|[Hr|[Hr ->]]].
  - exfalso. apply Hno. by rewrite app_str_nil_r.
  - exfalso. apply Hno. by apply never_app.
  - split; [done|]. destruct Hr as (w1 & x & [] & -> & _ & n & z & [] & -> & [Hn _] & w & k' & [] & -> & Hw & [Hk' _]).
    exists (y +:+ w1), n, w. split; [|done].
    assert (((y +:+ w1) +:+ n +:+ w) +:+ k' = s +:+ k1 +:+ k2) as E' by by rewrite <-E, <-!app_str_assoc.
    apply length_split_r in E' as [-> _]; [done|]. by rewrite (spelled_length _ _ Hk), (spelled_length _ _ Hk').
Qed.
Lemma foreign_key_ends s k fk :
  parse_foreign_key (s +:+ k) = Parsed fk → spelled "DEFERRABLE" k →
  fk_deferrable fk = false ∧ ∃ p n w, s = p +:+ n +:+ w ∧ spelled "NOT" n ∧ ws w ().
Proof.
  intros (v & Hv & ->)%parse_foreign_key_spec Hk.
  destruct v as [cols [tbl [refs [mt [del [upd [d f]]]]]]]. simpl.
  destruct Hv as (s1 & t1 & E & _ & s2 & t2 & -> & _ & s3 & t3 & -> & Href & s4 & t4 & -> & Hm & s5 & t5 & -> & Hd & s6 & t6 & -> & Hu & Hr).
  simpl in Href, Hm, Hd, Hu, Hr.
  apply (ends_not_deferrable (s1 +:+ s2 +:+ s3 +:+ s4 +:+ s5 +:+ s6) t6 d f s k); [|done|by rewrite <-!app_str_assoc|done].
  rewrite !app_str_assoc. apply never_opt; [apply never_opt; [apply never_opt|]|].
  - destruct Href as (a & b & [] & -> & _ & x & y & u & -> & _ & -> & _). do 3 apply never_app.
    apply (never_byte "" ")"). unfold letter_byte. change (byte_of ")") with 41. lia.
  - destruct Hm as [[-> _]|(a & _ & Hm)]; [by left|right].
    destruct Hm as (? & ? & [] & -> & _ & ? & ? & [] & -> & _ & ? & ? & [] & -> & _ & H). do 3 apply never_app. by eapply never_match.
  - destruct Hd as [[-> _]|(a & _ & Hd)]; [by left|right].
    destruct Hd as (? & ? & [] & -> & _ & ? & ? & [] & -> & _ & ? & ? & [] & -> & _ & ? & ? & [] & -> & _ & ? & ? & [] & -> & _ & H).
    do 5 apply never_app. by eapply never_action.
  - destruct Hu as [[-> _]|(a & _ & Hu)]; [by left|right].
    destruct Hu as (? & ? & [] & -> & _ & ? & ? & [] & -> & _ & ? & ? & [] & -> & _ & ? & ? & [] & -> & _ & ? & ? & [] & -> & _ & H).
    do 5 apply never_app. by eapply never_action.
Qed.
Lemma check_ends s k c :
  parse_check (s +:+ k) = Parsed c → spelled "DEFERRABLE" k → ∃ p n w, s = p +:+ n +:+ w ∧ spelled "NOT" n ∧ ws w ().
Proof.
  intros H Hk. assert (check_form (s +:+ k)) as [v Hv] by (apply parse_check_accepts; by exists c).
  apply check_then_open in Hv as (o & x & E & _ & y & z & [] & -> & _ & cl & z1 & [] & -> & [-> _] & r1 & r2 & [d f] & -> & Hr1 & Hr2).
  apply (ends_not_deferrable (o +:+ "(" +:+ y +:+ ")") (r1 +:+ r2) d f s k).
  - do 3 apply never_app. apply (never_byte "" ")"). unfold letter_byte. change (byte_of ")") with 41. lia.
  - by exists r1, r2, ().
  - by rewrite E, <-!app_str_assoc.
  - done.
Qed.
(** With white space after the keyword. *)
Definition bare : reads (bool * bool) := is (λ s, s = "") (false, false).
Lemma deferrable_suffix w k w' : ws w () → spelled "DEFERRABLE" k → ws w' () → (deferral << ows) (w +:+ k +:+ w') (true, false).
Proof.
  intros Hw Hk Hw'. exists (w +:+ (k +:+ w') +:+ ""), "", (). split; [by rewrite !app_str_nil_r|]. split.
  - apply (deferral_some w (k +:+ w') "" (Some ()) None); [done| |by left].
    right. exists (). split; [done|]. exists k, w', (). done.
  - split; [|done]. by intros c ?%has_byte_nil.
Qed.
Lemma foreign_key_extend s v w k w' :
  foreign_key_with bare s v → ws w () → spelled "DEFERRABLE" k → ws w' () →
  ∃ fk, parse_foreign_key s = Parsed fk ∧
    parse_foreign_key (s +:+ w +:+ k +:+ w') =
      Parsed (ForeignKey (fk_name fk) (fk_table fk) (fk_columns fk) (fk_referenced fk) (fk_match fk)
        (fk_on_delete fk) (fk_on_update fk) true false).
Proof.
  intros Hv Hw Hk Hw'. destruct v as [cols [tbl [refs [mt [del [upd [d f]]]]]]].
  destruct Hv as (s1 & t1 & -> & H1 & s2 & t2 & -> & H2 & s3 & t3 & -> & H3 & s4 & t4 & -> & H4 & s5 & t5 & -> & H5 & s6 & t6 & -> & H6 & H7).
  simpl in H1, H2, H3, H4, H5, H6, H7. destruct H7 as [-> [= -> ->]].
  assert (∀ r d f, (deferral << ows) r (d, f) →
    foreign_key_parts (s1 +:+ s2 +:+ s3 +:+ s4 +:+ s5 +:+ s6 +:+ r) (cols, (tbl, (refs, (mt, (del, (upd, (d, f)))))))) as Hany.
  { intros r d f Hr. exists s1, (s2 +:+ s3 +:+ s4 +:+ s5 +:+ s6 +:+ r). split; [done|]. split; [done|].
    exists s2, (s3 +:+ s4 +:+ s5 +:+ s6 +:+ r). split; [done|]. split; [done|].
    exists s3, (s4 +:+ s5 +:+ s6 +:+ r). split; [done|]. split; [done|].
    exists s4, (s5 +:+ s6 +:+ r). split; [done|]. split; [done|].
    exists s5, (s6 +:+ r). split; [done|]. split; [done|].
    by exists s6, r. }
  eexists. split.
  - apply parse_foreign_key_spec. eexists. split; [apply Hany|reflexivity].
    exists "", "", (). split; [done|]. split; [apply deferral_none|]. split; [|done]. by intros c ?%has_byte_nil.
  - apply parse_foreign_key_spec. eexists. split.
    + rewrite <-!app_str_assoc. change ("" +:+ ?x) with x. apply Hany. by apply deferrable_suffix.
    + done.
Qed.
Lemma check_extend s v w k w' :
  check_then (anything << lit ")") s v → ws w () → spelled "DEFERRABLE" k → ws w' () →
  ∃ c c', parse_check s = Parsed c ∧ parse_check (s +:+ w +:+ k +:+ w') = Parsed c' ∧
    ck_deferrable c' = true ∧ ck_expression c' = ck_expression c.
Proof.
  intros Hv Hw Hk Hw'. apply check_then_open in Hv as (o & x & -> & Ho & y & z & [] & -> & -> & [-> _]).
  pose proof (deferrable_suffix w k w' Hw Hk Hw') as Hsuf.
  assert (∀ r b, (deferral << ows) r b → ∃ c, parse_check (o +:+ "(" +:+ y +:+ ")" +:+ r) = Parsed c ∧
    ck_expression c = trim y) as Hany.
  { intros r b Hr. assert (check_form (o +:+ "(" +:+ y +:+ ")" +:+ r)) as Hf.
    { exists y. apply check_then_open. exists o, (y +:+ ")" +:+ r). split; [done|]. split; [done|].
      destruct Hr as (r1 & r2 & [] & -> & Hr1 & Hr2).
      exists y, (")" +:+ r1 +:+ r2), (). split; [done|]. split; [done|]. exists ")", (r1 +:+ r2), (). split; [done|].
      split; [done|]. by exists r1, r2, b. }
    apply parse_check_accepts in Hf as [c Hc]. exists c. split; [done|].
    apply parse_check_expression in Hc as (e & r' & Hb & Ht). apply trim_unique in Ht. rewrite <-Ht. f_equal.
    refine (proj1 (check_body_unique _ e r' y r Hb _)). exists o. split; [done|]. split; [by apply open_text_paren|].
    by eapply closed_close, closed_deferral. }
  destruct (Hany "" (false, false)) as (c & Hc & Ec).
  { exists "", "", (). split; [done|]. split; [apply deferral_none|]. split; [|done]. by intros d ?%has_byte_nil. }
  destruct (Hany _ _ Hsuf) as (c' & Hc' & Ec'). exists c, c'. split; [by rewrite <-Hc, app_str_nil_r|].
  rewrite <-!app_str_assoc. split; [done|]. split; [|congruence].
  refine (proj1 (check_suffix_flags _ c' y true false Hc' _) eq_refl). apply check_then_open.
  exists o, (y +:+ ")" +:+ w +:+ k +:+ w'). split; [done|]. split; [done|].
  exists y, (")" +:+ w +:+ k +:+ w'). split; [done|]. split; [done|]. exists ")", (w +:+ k +:+ w'), (). done.
Qed.
