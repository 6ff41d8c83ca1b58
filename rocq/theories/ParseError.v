(** What the state in a parse error says (C65). *)
From Coq Require Import String Ascii.
From stdpp Require Import prelude strings.
From Verif Require Import GoStrings GoStringsProofs GoUtf8 GoUtf8Proofs DdlModel DdlSpec DdlProofs
  MachineModel MachineTables MachineExits Re ParseModel ParseSpec ParseText ParseCheck ParseCheckEquiv.
Local Open Scope Z_scope.

Definition known (m : machine) (q : N) : bool := match find q (ma_states m) with Some _ => true | None => false end.
(** From every known state the exits lead to a final one. *)
Fixpoint leads (m : machine) (exits : list (N * Z)) (n : nat) (q : N) : bool :=
  negb (q <? ma_final m)%N ||
  match n with
  | O => false
  | S n => match find q exits with
           | Some c => (0 <=? c) && (c <? 256) && match step m q c with Some (_, q') => leads m exits n q' | None => false end
           | None => false
           end
  end.
Definition closed_machine (m : machine) (exits : list (N * Z)) : bool :=
  forallb (λ st, leads m exits 200 st.1) (ma_states m) &&
  forallb (λ st, forallb (λ c, match step m st.1 c with Some (_, q') => known m q' && negb (q' =? 0)%N | None => true end) byte_values) (ma_states m).
Section errors.
  Context {M : Type} (m : machine) (act : semantics M) (exits : list (N * Z)) (Hm : closed_machine m exits = true).
  Lemma leads_exit n q : leads m exits n q = true → ∃ x, ∀ p mem cs, run m act q p mem x ≠ ParseError cs.
  Proof.
    revert q. induction n as [|n IH]; intros q H; cbn [leads] in H; destruct (q <? ma_final m)%N eqn:Hq; simpl in H; try done.
    - exists "". intros p mem cs. simpl. rewrite Hq. by destruct (do_all _ _ _ _ _).
    - destruct (find q exits) as [c|]; [|done]. apply andb_true_iff in H as [Hc H].
      destruct (step m q c) as [[acts q']|] eqn:Es; [|done]. destruct (IH q' H) as [x Hx].
      exists (String (of_byte c) x). intros p mem cs. cbn [run]. rewrite byte_of_of_byte by lia. rewrite Es.
      destruct (do_all _ _ _ _ _); [apply Hx|done].
    - exists "". intros p mem cs. simpl. rewrite Hq. by destruct (do_all _ _ _ _ _).
  Qed.
  Lemma known_find q : known m q = true → ∃ t, (q, t) ∈ ma_states m.
  Proof. unfold known. destruct (find q (ma_states m)) as [t|] eqn:E; [|done]. intros _. exists t. by apply find_In. Qed.
  Lemma known_step q c acts q' : step m q (byte_of c) = Some (acts, q') → known m q' = true ∧ q' ≠ 0%N.
  Proof.
    intros Es. unfold closed_machine in Hm. apply andb_true_iff in Hm as [_ H]. rewrite forallb_forall in H.
    assert (∃ t, (q, t) ∈ ma_states m) as [t Ht].
    { apply known_find. unfold known. unfold step in Es. by destruct (find q (ma_states m)). }
    apply elem_of_list_In in Ht. specialize (H _ Ht). rewrite forallb_forall in H. specialize (H (byte_of c)).
    rewrite <-elem_of_list_In in H. specialize (H (byte_values_all c)). simpl in H. rewrite Es in H.
    apply andb_true_iff in H as [H1 H2]. split; [done|]. intros ->. done.
  Qed.
  Lemma known_leads q : known m q = true → leads m exits 200 q = true.
  Proof.
    intros [t Ht]%known_find. unfold closed_machine in Hm. apply andb_true_iff in Hm as [H _]. rewrite forallb_forall in H.
    apply elem_of_list_In in Ht. exact (H _ Ht).
  Qed.
  Lemma run_error w : ∀ q p mem cs, known m q = true → q ≠ 0%N → run m act q p mem w = ParseError cs →
    (cs = 0%N ∧ ∀ x v, run m act q p mem (w +:+ x) ≠ Parsed v) ∨
    (cs ≠ 0%N ∧ ∃ x, ∀ cs, run m act q p mem (w +:+ x) ≠ ParseError cs).
  Proof.
    induction w as [|c w IH]; intros q p mem cs Hk Hq H; cbn [run] in H.
    - right. destruct (do_all _ _ _ _ _); [|done]. destruct (q <? ma_final m)%N; [|done]. injection H as <-. split; [done|].
      destruct (leads_exit 200 q (known_leads q Hk)) as [x Hx]. exists x. intros cs. change ("" +:+ x) with x. apply Hx.
    - destruct (step m q (byte_of c)) as [[acts q']|] eqn:Es.
      + destruct (known_step _ _ _ _ Es) as [Hk' Hq']. destruct (do_all _ _ _ _ _) as [mem'|] eqn:Ed; [|done].
        destruct (IH q' (p + 1) mem' cs Hk' Hq' H) as [[-> Hn]|[Hcs (x & Hx)]].
        * left. split; [done|]. intros x v. rewrite app_str_cons. cbn [run]. rewrite Es, Ed. apply Hn.
        * right. split; [done|]. exists x. intros cs'. rewrite app_str_cons. cbn [run]. rewrite Es, Ed. apply Hx.
      + left. injection H as <-. split; [done|]. intros x v. rewrite app_str_cons. cbn [run]. by rewrite Es.
  Qed.
End errors.
(** The state is zero exactly when no continuation of the text is accepted. *)
Definition hopeless {A} (parse : string → outcome A) (s : string) : Prop := ∀ x v, parse (s +:+ x) ≠ Parsed v.
Lemma error_state {M A} m (act : semantics M) exits mem (f : outcome M → string → outcome A) s cs :
  closed_machine m exits = true → known m 1 = true →
  (∀ o s cs, f o s = ParseError cs ↔ o = ParseError cs) →
  (∀ o s v, f o s = Parsed v → ∃ v', o = Parsed v') →
  (∀ s, f (run m act 1 0 mem s) s ≠ Crash) →
  f (run m act 1 0 mem s) s = ParseError cs →
  cs = 0%N ↔ hopeless (λ s, f (run m act 1 0 mem s) s) s.
Proof.
  intros Hm H1 Hf Hp Hc H. apply Hf in H.
  destruct (run_error m act exits Hm s 1%N 0 mem cs H1) as [[-> Hn]|[Hcs (x & Hx)]]; [done|done| |].
  - split; [|done]. intros _ x v E. apply Hp in E as [v' E]. by eapply Hn.
  - split; [done|]. intros Hh. exfalso. specialize (Hh x). specialize (Hc (s +:+ x)). simpl in Hh.
    destruct (f (run m act 1 0 mem (s +:+ x)) (s +:+ x)) as [v|cs'|] eqn:E; [by eapply Hh| |done].
    apply Hf in E. by eapply Hx.
Qed.
Definition slice_check (o : outcome check_vars) (data : string) : outcome DdlModel.check :=
  match o with
  | Parsed v =>
      match slice data (cv_mark1 v) (cv_mark2 v) with
      | Some e => Parsed (Check "" (trim e) (cv_deferrable v) (cv_deferred v))
      | None => Crash
      end
  | ParseError cs => ParseError cs
  | Crash => Crash
  end.
Lemma check_error s cs : parse_check s = ParseError cs → cs = 0%N ↔ hopeless parse_check s.
Proof.
  apply (error_state check_machine check_act check_exits (CheckVars 0 0 false false) slice_check).
  - by vm_compute.
  - by vm_compute.
  - intros [v|?|] ? ?; simpl; [|naive_solver|done]. by destruct (slice _ _ _).
  - intros [v|?|] ? ?; simpl; [|done|done]. intros _. by exists v.
  - apply check_no_crash.
Qed.
Definition just {A} (o : outcome (string * A)) (_ : string) : outcome A := result o.
Lemma just_error {A} (o : outcome (string * A)) s cs : just o s = ParseError cs ↔ o = ParseError cs.
Proof. destruct o as [[]|?|]; simpl; naive_solver. Qed.
Lemma just_parsed {A} (o : outcome (string * A)) s v : just o s = Parsed v → ∃ v', o = Parsed v'.
Proof. destruct o as [[]|?|]; simpl; naive_solver. Qed.
Lemma foreign_key_error s cs : parse_foreign_key s = ParseError cs → cs = 0%N ↔ hopeless parse_foreign_key s.
Proof.
  apply (error_state foreign_key_machine fk_act foreign_key_exits ("", no_foreign_key) just);
    [by vm_compute|by vm_compute|apply just_error|apply just_parsed|apply foreign_key_no_crash].
Qed.
Lemma index_error s cs : parse_index s = ParseError cs → cs = 0%N ↔ hopeless parse_index s.
Proof.
  eapply (error_state index_machine ix_act index_exits _ just);
    [by vm_compute|by vm_compute|apply just_error|apply just_parsed|apply index_no_crash].
Qed.
Lemma trigger_error s cs : parse_trigger s = ParseError cs → cs = 0%N ↔ hopeless parse_trigger s.
Proof.
  eapply (error_state trigger_machine tg_act trigger_exits _ just);
    [by vm_compute|by vm_compute|apply just_error|apply just_parsed|apply trigger_no_crash].
Qed.
