(** Property theorems C40-C47 and C65 (the four parsers of internal/ddl). *)
From Coq Require Import String Ascii.
From stdpp Require Import prelude strings.
From Verif Require Import GoStrings GoStringsProofs GoUtf8 GoUtf8Proofs DdlModel DdlSpec DdlProofs
  MachineModel MachineTables ParseModel ParseSpec ParseText ParseEquiv ParseCheck ParseCheckEquiv ParseFacts ParseError.
Local Open Scope Z_scope.

Definition tab_between (a b : string) : string := a +:+ String vertical_tab b.
(** Deciding that a text is white space, for the examples. *)
Lemma spaces_dec s : forallb (λ c, ((9 <=? byte_of c) && (byte_of c <=? 13)) || (byte_of c =? 32)) (list_ascii_of_string s) = true →
  spaces_text s.
Proof.
  induction s as [|c s IH]; intros H; [by intros d ?%has_byte_nil|]. simpl in H. apply andb_true_iff in H as [Hc H].
  intros d [<-|Hd]%has_byte_cons; [unfold space_byte; lia|by apply IH].
Qed.

(** C40 *)
Theorem check_grammar s : (∃ c, parse_check s = Parsed c) ↔ check_form s.
Proof. apply parse_check_accepts. Qed.
Print Assumptions check_grammar.
Example check_grammar_example : parse_check " check (length(name) > 0) Initially deferred" =
  Parsed (Check "" "length(name) > 0" false true).
Proof. by vm_compute. Qed.
Example check_grammar_rejects : ¬ check_form "CHECK (a > 0) NO INHERIT".
Proof. rewrite <-check_grammar. intros [c Hc]. by vm_compute in Hc. Qed.

(** C41 *)
Theorem check_expression s :
  parse_check s ≠ Crash ∧
  ∀ c, parse_check s = Parsed c → ∃ e r, check_body s e r ∧ trimmed e (ck_expression c).
Proof. split; [apply check_no_crash|]. intros c. apply parse_check_expression. Qed.
Print Assumptions check_expression.
(** The decomposition is unique, so the expression is determined by the text. *)
Theorem check_expression_unique s e r e' r' : check_body s e r → check_body s e' r' → e = e' ∧ r = r'.
Proof. apply check_body_unique. Qed.
Print Assumptions check_expression_unique.
Example check_expression_example : parse_check "CHECK ( (a > 0) AND f(')') )" =
  Parsed (Check "" "(a > 0) AND f(')')" false false).
Proof. by vm_compute. Qed.

(** C42 *)
Theorem check_deferral_partial s c :
  parse_check s = Parsed c →
  (ck_deferrable c = true ↔ mentions_deferrable s) ∧ (ck_deferred c = true ↔ mentions_deferred s) ∧
  ∀ e d f, check_then (anything ** (lit ")" >> deferral << ows)) s (e, (d, f)) →
    (d = true → ck_deferrable c = true) ∧ (f = true → ck_deferred c = true) ∧
    (¬ has_byte ")" e → ck_deferrable c = d ∧ ck_deferred c = f).
Proof.
  intros H. destruct (parse_check_flags s c H) as (H1 & H2 & _). split; [done|]. split; [done|].
  intros e d f. by apply check_suffix_flags.
Qed.
Print Assumptions check_deferral_partial.
Theorem check_deferral_refuted :
  ∃ s c, parse_check s = Parsed c ∧ check_body s "f(a) deferrable > 0" "" ∧ ck_deferrable c = true.
Proof.
  exists "CHECK (f(a) deferrable > 0)". eexists. split; [by vm_compute|]. split; [|done].
  exists "CHECK ". split; [done|]. split; intros H%contains_byte_spec; by vm_compute in H.
Qed.
Print Assumptions check_deferral_refuted.
Example check_deferral_example :
  check_then (anything ** (lit ")" >> deferral << ows)) "CHECK(a) DEFERRABLE INITIALLY DEFERRED" ("a", (true, true)).
Proof.
  apply check_then_open. exists "CHECK", "a) DEFERRABLE INITIALLY DEFERRED". split; [done|]. split.
  { exists (), "", "CHECK", (). split; [done|]. split; [split; [by apply spaces_dec|done]|].
    exists "CHECK", "", (). split; [done|]. split; [split; [simpl; tauto|done]|]. split; [by apply spaces_dec|done]. }
  exists "a", ") DEFERRABLE INITIALLY DEFERRED". split; [done|]. split; [done|].
  exists ")", " DEFERRABLE INITIALLY DEFERRED", (). split; [done|]. split; [done|].
  exists " DEFERRABLE INITIALLY DEFERRED", "", (). split; [done|]. split; [|split; [by apply spaces_dec|done]].
  apply (deferral_some " " "DEFERRABLE " "INITIALLY DEFERRED" (Some ()) (Some true)).
  - split; [|done]. split; [done|by apply spaces_dec].
  - right. exists (). split; [done|]. exists "DEFERRABLE", " ", (). split; [done|].
    split; [split; [simpl; tauto|done]|]. split; [|done]. split; [done|by apply spaces_dec].
  - right. exists true. split; [done|]. exists "INITIALLY", " DEFERRED", (). split; [done|].
    split; [split; [simpl; tauto|done]|]. exists " ", "DEFERRED", (). split; [done|].
    split; [split; [split; [done|by apply spaces_dec]|done]|]. right. split; [simpl; tauto|done].
Qed.

(** C43 *)
Theorem foreign_key_grammar s :
  (∀ fk, parse_foreign_key s = Parsed fk ↔ foreign_key_syntax s fk) ∧ parse_foreign_key s ≠ Crash.
Proof. split; [intros fk; apply parse_foreign_key_spec|apply foreign_key_no_crash]. Qed.
Print Assumptions foreign_key_grammar.
(** Hence a text has at most one meaning. *)
Theorem foreign_key_unambiguous s fk fk' : foreign_key_syntax s fk → foreign_key_syntax s fk' → fk = fk'.
Proof. intros H%parse_foreign_key_spec H'%parse_foreign_key_spec. congruence. Qed.
Print Assumptions foreign_key_unambiguous.
Example foreign_key_example : foreign_key_syntax
  "FOREIGN KEY (a, b2) REFERENCES other(x,y) match full ON DELETE set  null ON UPDATE NO ACTION INITIALLY DEFERRED"
  (ForeignKey "" "other" ["a"; "b2"] ["x"; "y"] "FULL" "SET NULL" "NO ACTION" false true).
Proof. apply foreign_key_grammar. by vm_compute. Qed.
Example foreign_key_rejects fk : ¬ foreign_key_syntax "FOREIGN KEY () REFERENCES other(x)" fk.
Proof. rewrite <-parse_foreign_key_spec. intros H. by vm_compute in H. Qed.

(** C44 *)
Theorem foreign_key_actions_partial s fk :
  parse_foreign_key s = Parsed fk → ¬ has_byte vertical_tab s →
  (fk_on_delete fk = "" ∨ fk_on_delete fk ∈ actions) ∧ (fk_on_update fk = "" ∨ fk_on_update fk ∈ actions).
Proof. apply foreign_key_actions. Qed.
Print Assumptions foreign_key_actions_partial.
Theorem foreign_key_actions_refuted :
  ∃ s fk, parse_foreign_key s = Parsed fk ∧ fk_on_delete fk ≠ "" ∧ fk_on_delete fk ∉ actions.
Proof.
  exists (tab_between "FOREIGN KEY (a) REFERENCES t(b) ON DELETE SET" "NULL"). eexists. split; [by vm_compute|].
  split; [done|]. apply (bool_decide_unpack _). by vm_compute.
Qed.
Print Assumptions foreign_key_actions_refuted.
Example foreign_key_actions_example :
  let s := "FOREIGN KEY (a) REFERENCES t(b) ON DELETE SET  NULL" in
  (∃ fk, parse_foreign_key s = Parsed fk ∧ fk_on_delete fk = "SET NULL") ∧ ¬ has_byte vertical_tab s.
Proof.
  simpl. split; [eexists; split; [by vm_compute|done]|]. intros H%contains_byte_spec. by vm_compute in H.
Qed.

(** C45 *)
Theorem deferrable_rejected_partial s k :
  spelled "DEFERRABLE" k →
  (** accepted only after NOT *)
  (∀ fk, parse_foreign_key (s +:+ k) = Parsed fk →
    fk_deferrable fk = false ∧ ∃ p n w, s = p +:+ n +:+ w ∧ spelled "NOT" n ∧ ws w ()) ∧
  (∀ c, parse_check (s +:+ k) = Parsed c → ∃ p n w, s = p +:+ n +:+ w ∧ spelled "NOT" n ∧ ws w ()) ∧
  (** white space after the keyword is needed *)
  (∀ v w w', foreign_key_with bare s v → ws w () → ws w' () →
    ∃ fk, parse_foreign_key s = Parsed fk ∧
      parse_foreign_key (s +:+ w +:+ k +:+ w') =
        Parsed (ForeignKey (fk_name fk) (fk_table fk) (fk_columns fk) (fk_referenced fk) (fk_match fk)
          (fk_on_delete fk) (fk_on_update fk) true false)) ∧
  (∀ v w w', check_then (anything << lit ")") s v → ws w () → ws w' () →
    ∃ c c', parse_check s = Parsed c ∧ parse_check (s +:+ w +:+ k +:+ w') = Parsed c' ∧
      ck_deferrable c' = true ∧ ck_expression c' = ck_expression c).
Proof.
  intros Hk. split; [intros fk H; by eapply foreign_key_ends|]. split; [intros c H; by eapply check_ends|].
  split; intros v w w' H Hw Hw'; [by eapply foreign_key_extend|by eapply check_extend].
Qed.
Print Assumptions deferrable_rejected_partial.
Theorem deferrable_refuted :
  (∃ s v, foreign_key_with bare s v ∧ ∀ fk, parse_foreign_key (s +:+ " DEFERRABLE") ≠ Parsed fk) ∧
  (∃ s v, check_then (anything << lit ")") s v ∧ ∀ c, parse_check (s +:+ " DEFERRABLE") ≠ Parsed c).
Proof.
  split.
  - exists "FOREIGN KEY (a) REFERENCES t(b)", (["a"], ("t", (["b"], (None, (None, (None, (false, false))))))).
    split; [|intros fk H; by vm_compute in H].
    assert (∀ c, letter_byte c → is_ident (String c "")) as Hid.
    { intros c Hc. exists c, "". split; [done|]. split; [done|]. by intros d ?%has_byte_nil. }
    assert (∀ x, is_ident x → name_list x [x]) as Hnl.
    { intros x Hx. exists (x, []). split; [|done]. exists x, "". split; [by rewrite app_str_nil_r|]. split; [done|].
      exists []. split; [done|constructor]. }
    assert (ows "" ()) as Hows by (split; [by apply spaces_dec|done]).
    assert (ws " " ()) as Hws by (split; [split; [done|by apply spaces_dec]|done]).
    exists "FOREIGN KEY (a) REFERENCES ", "t(b)". split; [done|]. split; [|].
    + exists "", "FOREIGN KEY (a) REFERENCES ", (). split; [done|]. split; [done|].
      exists "FOREIGN", " KEY (a) REFERENCES ", (). split; [done|]. split; [split; [simpl; tauto|done]|].
      exists " ", "KEY (a) REFERENCES ", (). split; [done|]. split; [done|].
      exists "KEY", " (a) REFERENCES ", (). split; [done|]. split; [split; [simpl; tauto|done]|].
      exists " ", "(a) REFERENCES ", (). split; [done|]. split; [done|].
      exists "(", "a) REFERENCES ", (). split; [done|]. split; [done|].
      exists "", "a) REFERENCES ", (). split; [done|]. split; [done|].
      exists "a", ") REFERENCES ", (). split; [done|]. split; [apply Hnl, Hid; unfold letter_byte; vm_compute; intuition discriminate|].
      exists "", ") REFERENCES ", (). split; [done|]. split; [done|].
      exists ")", " REFERENCES ", (). split; [done|]. split; [done|].
      exists " ", "REFERENCES ", (). split; [done|]. split; [done|].
      exists "REFERENCES", " ", (). split; [done|]. split; [split; [simpl; tauto|done]|done].
    + exists "t(", "b)". split; [done|]. split.
      { exists "t", "(", (). split; [done|]. split; [split; [|done]; apply Hid; unfold letter_byte; vm_compute; intuition discriminate|].
        exists "(", "", (). done. }
      exists "b)", "". split; [done|]. split.
      { exists "b", ")", (). split; [done|]. split; [apply Hnl, Hid; unfold letter_byte; vm_compute; intuition discriminate|].
        exists "", ")", (). done. }
      exists "", "". split; [done|]. split; [by left|].
      exists "", "". split; [done|]. split; [by left|].
      exists "", "". split; [done|]. split; [by left|]. done.
  - exists "CHECK(a)", "a". split; [|intros c H; by vm_compute in H]. apply check_then_open. exists "CHECK", "a)". split; [done|].
    split.
    + exists (), "", "CHECK", (). split; [done|]. split; [split; [by apply spaces_dec|done]|].
      exists "CHECK", "", (). split; [done|]. split; [split; [simpl; tauto|done]|]. split; [by apply spaces_dec|done].
    + exists "a", ")", (). done.
Qed.
Print Assumptions deferrable_refuted.
Example deferrable_example :
  spelled "DEFERRABLE" "Deferrable" ∧
  parse_foreign_key ("FOREIGN KEY (a) REFERENCES t(b) NOT " +:+ "Deferrable") =
    Parsed (ForeignKey "" "t" ["a"] ["b"] "" "" "" false false).
Proof. split; [simpl; vm_compute; tauto|by vm_compute]. Qed.

(** C46 *)
Theorem index_grammar s :
  (∀ i, parse_index s = Parsed i ↔ index_syntax s i) ∧ parse_index s ≠ Crash.
Proof. split; [intros i; apply parse_index_spec|apply index_no_crash]. Qed.
Print Assumptions index_grammar.
Theorem index_unambiguous s i i' : index_syntax s i → index_syntax s i' → i = i'.
Proof. intros H%parse_index_spec H'%parse_index_spec. congruence. Qed.
Print Assumptions index_unambiguous.
Example index_example : index_syntax
  "CREATE UNIQUE INDEX idx ON t USING btree (lower(name) text_ops, id) WHERE  (a  >  0)"
  (Index "" "t" "idx" false true "btree" "(a > 0)" [IndexKey "" "lower(name)" "text_ops" false; IndexKey "id" "" "" false]).
Proof. apply index_grammar. by vm_compute. Qed.
(** A sort direction is taken for an operator class, and nothing is ever Descending. *)
Theorem index_direction :
  (∀ s i, parse_index s = Parsed i → Forall (λ k, ik_descending k = false) (ix_keys i)) ∧
  parse_index "CREATE INDEX i ON t USING btree (id DESC)" =
    Parsed (Index "" "t" "i" false false "btree" "" [IndexKey "id" "" "DESC" false]).
Proof.
  split; [|by vm_compute]. intros s i (v & Hv & ->)%parse_index_spec.
  destruct v as [un [nm [tb [us [ks wh]]]]]. cbn [ix_keys].
  destruct Hv as (s1 & t1 & -> & _ & s2 & t2 & -> & _ & s3 & t3 & -> & _ & s4 & t4 & -> & _ & s5 & t5 & -> & Hk & _).
  simpl in Hk. destruct Hk as (? & ? & [] & -> & _ & ? & ? & [] & -> & _ & ? & ? & [] & -> & _ & ? & ? & [] & -> & Hk & _).
  assert (∀ make p s k, (∀ c o, ik_descending (make c o) = false) → with_class make p s k → ik_descending k = false) as Hw.
  { intros make p s k Hm (v & _ & ->). apply Hm. }
  destruct Hk as ([k l] & (a & b & _ & Hk & ss & _ & Hl) & ->). simpl in Hk, Hl. simpl. constructor.
  - destruct Hk as [Hk|[Hk|Hk]]; by eapply Hw in Hk.
  - clear -Hl Hw. induction Hl as [|s' k' ss l H Hl IH]; constructor; [|done].
    destruct H as (? & ? & [] & -> & _ & ? & ? & [] & -> & _ & ? & ? & [] & -> & _ & H). by eapply Hw in H.
Qed.
Print Assumptions index_direction.

(** C47 *)
Theorem trigger_grammar s :
  (∀ t, parse_trigger s = Parsed t ↔ trigger_syntax s t) ∧ parse_trigger s ≠ Crash.
Proof. split; [intros t; apply parse_trigger_spec|apply trigger_no_crash]. Qed.
Print Assumptions trigger_grammar.
Theorem trigger_unambiguous s t t' : trigger_syntax s t → trigger_syntax s t' → t = t'.
Proof. intros H%parse_trigger_spec H'%parse_trigger_spec. congruence. Qed.
Print Assumptions trigger_unambiguous.
Example trigger_example : trigger_syntax
  "CREATE CONSTRAINT TRIGGER tr AFTER INSERT OR UPDATE OF a,b ON t INITIALLY DEFERRED FOR EACH ROW EXECUTE PROCEDURE f()"
  (Trigger "" "t" "tr" "f" "AFTER" true false true true false true false true ["a"; "b"]).
Proof. apply trigger_grammar. by vm_compute. Qed.
(** DEFERRABLE as PostgreSQL prints it, with one space after it, is rejected. *)
Example trigger_one_space t : ¬ trigger_syntax
  "CREATE CONSTRAINT TRIGGER tr AFTER INSERT ON t DEFERRABLE FOR EACH ROW EXECUTE FUNCTION f()" t.
Proof. rewrite <-parse_trigger_spec. intros H. by vm_compute in H. Qed.

(** C65 *)
Theorem error_state_partial :
  (∀ s cs, parse_check s = ParseError cs → cs = 0%N ↔ hopeless parse_check s) ∧
  (∀ s cs, parse_foreign_key s = ParseError cs → cs = 0%N ↔ hopeless parse_foreign_key s) ∧
  (∀ s cs, parse_index s = ParseError cs → cs = 0%N ↔ hopeless parse_index s) ∧
  (∀ s cs, parse_trigger s = ParseError cs → cs = 0%N ↔ hopeless parse_trigger s).
Proof.
  split; [apply check_error|]. split; [apply foreign_key_error|]. split; [apply index_error|apply trigger_error].
Qed.
Print Assumptions error_state_partial.
(** The offset at which a text stops making sense: the shortest hopeless prefix ends there. *)
Definition fails_at {A} (parse : string → outcome A) (s : string) (n : nat) : Prop :=
  ∃ a c b, s = a +:+ String c b ∧ String.length a = n ∧ ¬ hopeless parse a ∧ hopeless parse (a +:+ String c "").
Theorem error_position_refuted :
  ∃ s n cs, parse_check s = ParseError cs ∧ fails_at parse_check s n ∧ cs ≠ N.of_nat n ∧
    parse_error_text (Z.of_N cs) s = Some (s +:+ nl +:+ "^").
Proof.
  exists "CHECK x > 0", 6%nat, 0%N. split; [by vm_compute|]. split; [|split; [done|by vm_compute]].
  exists "CHECK ", "x"%char, " > 0". split; [done|]. split; [done|]. split.
  - intros H. apply (H "(a)" (Check "" "a" false false)). by vm_compute.
  - apply (proj1 (check_error "CHECK x" 0%N eq_refl)). done.
Qed.
Print Assumptions error_position_refuted.
Example error_state_example :
  (∃ cs, parse_check "CHECK (a" = ParseError cs ∧ cs ≠ 0%N) ∧ parse_check "CHECK (a) x" = ParseError 8.
Proof. split; [eexists; split; [by vm_compute|done]|by vm_compute]. Qed.
