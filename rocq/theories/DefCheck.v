(** Check constraints as PostgreSQL writes them, read by ParseCheck. *)
From Coq Require Import String Ascii.
From stdpp Require Import list list_numbers strings numbers.
From Verif Require Import GoStrings GoStringsProofs GoUtf8 DdlModel DdlSpec MachineModel MachineTables ParseModel ParseGrammar ParseSpec.
From Verif Require Import GoUtf8Proofs ParseText ParseCheck ParseEquiv ParseCheckEquiv ParseFacts DefModel DefSpec.
Local Open Scope Z_scope.

Lemma open_check : open_text "CHECK ".
Proof.
  exists (), "", "CHECK ", (). split; [done|]. split; [split; [|done]; by intros c ?%has_byte_nil|].
  exists "CHECK", " ", (). split; [done|]. split; [split; [simpl; tauto|done]|]. split; [|done].
  intros c [<-|?%has_byte_nil]%has_byte_cons; [|done]. right. reflexivity.
Qed.
Lemma printed_then {X} (p : reads X) x v : check_then p ("CHECK (" +:+ x) v ↔ p x v.
Proof.
  rewrite check_then_open. split.
  - intros (o & y & E & Ho & Hp). change ("CHECK (" +:+ x) with ("CHECK " +:+ "(" +:+ x) in E.
    apply open_unique in E as [_ ->]; [done|apply open_check|done].
  - intros H. exists "CHECK ", x. split; [done|]. split; [apply open_check|done].
Qed.
Definition check_suffix (k : check_shape) : string :=
  (if cs_no_inherit k then " NO INHERIT" else "") +:+ (if cs_valid k then "" else " NOT VALID").
Lemma suffix_form e r : ¬ has_byte ")" r →
  check_form ("CHECK (" +:+ e +:+ ")" +:+ r) ↔ ∃ v, (deferral << ows) r v.
Proof.
  intros Hr. unfold check_form. setoid_rewrite (printed_then (anything << (lit ")" >> deferral >> ows)) (e +:+ ")" +:+ r)). split.
  - intros (v & a & y & () & E & _ & cl & z & u & -> & [-> _] & d & w & b & -> & Hd & Hw).
    assert ((deferral << ows) (d +:+ w) b) as H by by exists d, w, ().
    pose proof (closed_close _ (closed_deferral _ _ H)) as Hc.
    apply last_close_unique in E as [-> ->]; [|done..]. by exists b.
  - intros (b & d & w & () & -> & Hd & Hw). exists e, e, (")" +:+ d +:+ w), (). split; [done|]. split; [done|].
    exists ")", (d +:+ w), (). split; [done|]. split; [done|]. by exists d, w, b.
Qed.
Lemma suffix_readable k : (∃ v, (deferral << ows) (check_suffix k) v) ↔ readable_check k.
Proof.
  assert (¬ has_byte ")" (check_suffix k)) as Hs.
  { unfold check_suffix. destruct (cs_no_inherit k), (cs_valid k); intros H%contains_byte_spec; by vm_compute in H. }
  rewrite <-(suffix_form "" _ Hs), <-parse_check_accepts. unfold check_suffix, readable_check.
  destruct (cs_no_inherit k), (cs_valid k); (split; [intros [c Hc]; try (by vm_compute in Hc)|]); try done; try (by intros [? ?]).
  intros _. eexists. vm_compute. reflexivity.
Qed.
Lemma printed_check_eq k : printed_check k = "CHECK (" +:+ cs_expression k +:+ ")" +:+ check_suffix k.
Proof. done. Qed.
Lemma check_accepted k : (∃ c, parse_check (printed_check k) = Parsed c) ↔ readable_check k.
Proof.
  rewrite parse_check_accepts, printed_check_eq, suffix_form, suffix_readable; [done|].
  unfold check_suffix. destruct (cs_no_inherit k), (cs_valid k); intros H%contains_byte_spec; by vm_compute in H.
Qed.

(** Text that ends in a closing parenthesis, with one further left. *)
Lemma drop_close e a q b : e +:+ ")" = a +:+ ")" +:+ q +:+ b → q ≠ "" → closed q → ∃ b', b = b' +:+ ")" ∧ e = a +:+ ")" +:+ q +:+ b'.
Proof.
  intros E Hq Hc. destruct (decide (b = "")) as [->|Hb].
  - exfalso. destruct (snoc_string q Hq) as (u & d & ->). rewrite app_str_nil_r, !app_str_assoc in E.
    apply length_split_r in E as [_ [= <-]]; [|done]. apply (closed_close _ Hc). apply has_byte_app. right. apply has_byte_cons. by left.
  - destruct (snoc_string b Hb) as (u & d & ->). rewrite !app_str_assoc in E.
    apply length_split_r in E as [-> [= <-]]; [|done]. exists u. split; [done|]. by rewrite <-!app_str_assoc.
Qed.
Lemma ws_closed w u : ws w u → closed w ∧ w ≠ "".
Proof. intros [[H1 H2] _]. split; [by apply closed_spaces|done]. Qed.
Lemma key_closed k w u : capitals k → key k w u → closed w.
Proof. intros Hk [H _]. by eapply closed_keyword. Qed.
Lemma app_nonempty (a b : string) : a ≠ "" → a +:+ b ≠ "".
Proof. by destruct a. Qed.
Lemma deferrable_text e :
  (∃ v, (anything >> lit ")" >> ws >> key "DEFERRABLE" >> ws >> anything) (e +:+ ")") v) ↔ looks_deferrable e.
Proof.
  split.
  - intros (v & a & y & a' & E & _ & cl & z & u & -> & [-> _] & w & z2 & u2 & -> & Hw & d & z3 & u3 & -> & Hd & w' & b & u4 & -> & Hw' & _).
    rewrite (app_str_assoc d), (app_str_assoc w) in E.
    apply drop_close in E as (b' & -> & ->).
    + exists b', a, (")" +:+ (w +:+ d +:+ w') +:+ b'), a. split; [done|]. split; [done|].
      exists ")", ((w +:+ d +:+ w') +:+ b'), (). split; [done|]. split; [done|].
      exists w, (d +:+ w' +:+ b'), u2. split; [by rewrite <-!app_str_assoc|]. split; [done|].
      exists d, (w' +:+ b'), u3. split; [done|]. split; [done|]. by exists w', b', u4.
    + apply app_nonempty. by apply (ws_closed w u2).
    + apply closed_app; [by eapply ws_closed|]. apply closed_app; [|by eapply ws_closed].
      eapply key_closed; [|done]. by apply capitals_check.
  - intros (v & a & y & a' & -> & _ & cl & z & u & -> & [-> _] & w & z2 & u2 & -> & Hw & d & z3 & u3 & -> & Hd & w' & b & u4 & -> & Hw' & _).
    exists (b +:+ ")"), a, (")" +:+ w +:+ d +:+ w' +:+ b +:+ ")"), a. split; [by rewrite <-!app_str_assoc|]. split; [done|].
    exists ")", (w +:+ d +:+ w' +:+ b +:+ ")"), (). split; [done|]. split; [done|].
    exists w, (d +:+ w' +:+ b +:+ ")"), u2. split; [done|]. split; [done|].
    exists d, (w' +:+ b +:+ ")"), u3. split; [done|]. split; [done|]. by exists w', (b +:+ ")"), u4.
Qed.
Lemma deferred_text e :
  (∃ v, (anything >> lit ")" >> ws >> maybe (key "DEFERRABLE" >> ws) >>
    key "INITIALLY" >> ws >> key "DEFERRED" >> anything) (e +:+ ")") v) ↔ looks_deferred e.
Proof.
  split.
  - intros (v & a & y & a' & E & _ & cl & z & u & -> & [-> _] & w & z2 & u2 & -> & Hw & o & z3 & u3 & -> & Ho &
      i & z4 & u4 & -> & Hi & w' & z5 & u5 & -> & Hw' & d & b & u6 & -> & Hd & _).
    rewrite (app_str_assoc w'), (app_str_assoc i), (app_str_assoc o), (app_str_assoc w) in E.
    apply drop_close in E as (b' & -> & ->).
    + exists b', a, (")" +:+ (w +:+ o +:+ i +:+ w' +:+ d) +:+ b'), a. split; [done|]. split; [done|].
      exists ")", ((w +:+ o +:+ i +:+ w' +:+ d) +:+ b'), (). split; [done|]. split; [done|].
      exists w, (o +:+ i +:+ w' +:+ d +:+ b'), u2. split; [by rewrite <-!app_str_assoc|]. split; [done|].
      exists o, (i +:+ w' +:+ d +:+ b'), u3. split; [done|]. split; [done|].
      exists i, (w' +:+ d +:+ b'), u4. split; [done|]. split; [done|].
      exists w', (d +:+ b'), u5. split; [done|]. split; [done|]. by exists d, b', u6.
    + apply app_nonempty. by apply (ws_closed w u2).
    + apply closed_app; [by eapply ws_closed|]. apply closed_app.
      { destruct Ho as [[-> _]|(x & _ & k & w2 & u7 & -> & Hk & Hw2)]; [apply closed_nil|].
        apply closed_app; [|by eapply ws_closed]. eapply key_closed; [|done]. by apply capitals_check. }
      apply closed_app; [eapply key_closed; [|done]; by apply capitals_check|].
      apply closed_app; [by eapply ws_closed|]. eapply key_closed; [|done]; by apply capitals_check.
  - intros (v & a & y & a' & -> & _ & cl & z & u & -> & [-> _] & w & z2 & u2 & -> & Hw & o & z3 & u3 & -> & Ho &
      i & z4 & u4 & -> & Hi & w' & z5 & u5 & -> & Hw' & d & b & u6 & -> & Hd & _).
    exists (b +:+ ")"), a, (")" +:+ w +:+ o +:+ i +:+ w' +:+ d +:+ b +:+ ")"), a. split; [by rewrite <-!app_str_assoc|]. split; [done|].
    exists ")", (w +:+ o +:+ i +:+ w' +:+ d +:+ b +:+ ")"), (). split; [done|]. split; [done|].
    exists w, (o +:+ i +:+ w' +:+ d +:+ b +:+ ")"), u2. split; [done|]. split; [done|].
    exists o, (i +:+ w' +:+ d +:+ b +:+ ")"), u3. split; [done|]. split; [done|].
    exists i, (w' +:+ d +:+ b +:+ ")"), u4. split; [done|]. split; [done|].
    exists w', (d +:+ b +:+ ")"), u5. split; [done|]. split; [done|]. by exists d, (b +:+ ")"), u6.
Qed.

Lemma check_reads k c : parse_check (printed_check k) = Parsed c →
  readable_check k ∧ trimmed (cs_expression k) (ck_expression c) ∧
  (ck_deferrable c = true ↔ looks_deferrable (cs_expression k)) ∧
  (ck_deferred c = true ↔ looks_deferred (cs_expression k)).
Proof.
  intros H. assert (readable_check k) as Hk by (apply check_accepted; by exists c). split; [done|].
  assert (check_suffix k = "") as Es by (unfold check_suffix; destruct Hk as [-> ->]; done).
  rewrite printed_check_eq, Es, app_str_nil_r in H.
  destruct (parse_check_flags _ _ H) as (H1 & H2 & _). unfold mentions_deferrable, mentions_deferred in H1, H2.
  destruct (parse_check_expression _ _ H) as (e & r & Hb & Ht).
  assert (check_body ("CHECK (" +:+ cs_expression k +:+ ")") (cs_expression k) "") as Hb'.
  { exists "CHECK ". split; [done|]. split; intros Hx%contains_byte_spec; by vm_compute in Hx. }
  destruct (check_body_unique _ _ _ _ _ Hb Hb') as [-> _]. split; [done|].
  setoid_rewrite printed_then in H1. setoid_rewrite printed_then in H2.
  by rewrite H1, H2, deferrable_text, deferred_text.
Qed.
