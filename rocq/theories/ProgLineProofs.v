(** The values kingpin finds are parts of the words. *)
From Coq Require Import String Ascii.
From stdpp Require Import gmap list strings numbers.
From Verif Require Import GoStrings GoStringsProofs CliModel CliSpec ArgsModel ArgsSpec ArgsProofs ArgsValuesProofs ProgModel ProgSpec.
Local Open Scope Z_scope.

Section line.
  Context (line : list string).
  Definition token_in (t : token) : Prop := match t with TArg s => in_line line s | _ => True end.
  (** The first word left may be the rest of a cluster, with a dash before it. *)
  Definition word_in (only : bool) (w : string) : Prop :=
    in_line line w ∨ only = false ∧ ∃ u, w = String "-" u ∧ in_line line u.
  Definition input_in (i : input) : Prop :=
    Forall token_in (peeked i) ∧
    match words i with [] => True | w :: ws => word_in (only i) w ∧ Forall (in_line line) ws end.

  Lemma in_line_word w : w ∈ line → in_line line w.
  Proof. intros H. by exists w, "". Qed.
  Lemma in_line_cons a u : in_line line (String a u) → in_line line u.
  Proof.
    intros (w & pre & Hw & ->). exists (pre +:+ String a u), (pre +:+ String a ""). split; [done|].
    by rewrite <-app_str_assoc.
  Qed.
  Lemma in_line_drop n u : in_line line u → in_line line (str_drop n u).
  Proof.
    revert u. induction n as [|n IH]; intros u H; [by destruct u|]. destruct u as [|a u]; [done|].
    simpl. apply IH. by eapply in_line_cons.
  Qed.
  Lemma words_rest only w ws :
    word_in only w → Forall (in_line line) ws →
    match ws with [] => True | w' :: ws' => word_in only w' ∧ Forall (in_line line) ws' end.
  Proof. intros _ H. destruct ws as [|w' ws]; [done|]. apply list.Forall_cons in H as [H1 H2]. split; [by left|done]. Qed.
  Lemma words_all only ws : Forall (in_line line) ws →
    match ws with [] => True | w' :: ws' => word_in only w' ∧ Forall (in_line line) ws' end.
  Proof. intros H. destruct ws as [|w' ws]; [done|]. apply list.Forall_cons in H as [H1 H2]. split; [by left|done]. Qed.

  Lemma next_in fs i : input_in i → token_in (next fs i).1 ∧ input_in (next fs i).2.
  Proof.
    destruct i as [[|t p] ws b]; intros [Hp Hw]; cbn [peeked words only] in *.
    2:{ apply list.Forall_cons in Hp as [Ht Hp]. split; [done|]. by split. }
    destruct ws as [|w ws]; [done|]. destruct Hw as [Hw Hws]. unfold next. cbn [peeked words only].
    destruct b.
    { destruct Hw as [Hw|[? _]]; [|done]. split; [done|]. split; [by apply list.Forall_nil|]. by apply words_all. }
    assert (Hnil : ∀ b, input_in (Input [] ws b)).
    { intros b. split; [by apply list.Forall_nil|]. by apply words_all. }
    destruct w as [|a w1].
    { split; [|apply Hnil]. simpl. destruct Hw as [Hw|(_ & u & ? & _)]; done. }
    assert (Hw1 : in_line line w1).
    { destruct Hw as [Hw|(_ & u & [= _ ->] & Hu)]; [by eapply in_line_cons|done]. }
    destruct (decide (a = "@"%char)) as [->|Ha]; [by split; [|apply Hnil]|].
    destruct (decide (a ≠ "-"%char)) as [Hd|Hd].
    { split; [|apply Hnil]. simpl. destruct Hw as [Hw|(_ & u & [= -> _] & _)]; done. }
    apply dec_stable in Hd as ->.
    destruct w1 as [|b w2]; [by split; [|apply Hnil]|].
    assert (Hw2 : in_line line w2) by by eapply in_line_cons.
    destruct (decide (b = "-"%char)) as [->|Hb].
    { destruct w2 as [|d w3].
      - destruct ws as [|w' ws']; [split; [done|]; split; [by apply list.Forall_nil|done]|].
        apply list.Forall_cons in Hws as [H1 H2]. split; [done|]. split; [by apply list.Forall_nil|]. by apply words_all.
      - destruct (index_byte _ _) as [n|]; [|by split; [|apply Hnil]]. split; [done|]. split; [|by apply words_all].
        apply list.Forall_cons. split; [|by apply list.Forall_nil]. cbn [token_in]. by apply in_line_drop. }
    destruct w2 as [|d w3]; [by split; [|apply Hnil]|].
    assert (Hcl : input_in (Input [] (String "-" (String d w3) :: ws) false)).
    { split; [by apply list.Forall_nil|]. split; [|done]. right. split; [done|]. by eexists. }
    destruct (find_short _ _) as [f|]; [|done]. destruct (is_switch f); [done|]. split; [done|].
    split; [|by apply words_all]. apply list.Forall_cons. split; [done|by apply list.Forall_nil].
  Qed.
  Lemma push_in t i : token_in t → input_in i → input_in (push t i).
  Proof. intros Ht [Hp Hw]. split; [|done]. by apply list.Forall_cons. Qed.
  Lemma peek_in fs i : input_in i → token_in (peek fs i).1 ∧ input_in (peek fs i).2.
  Proof.
    intros Hi. unfold peek. destruct (peeked i) as [|t p] eqn:E.
    - pose proof (next_in fs i Hi) as [H1 H2]. destruct (next fs i) as [t i']. split; [done|]. by apply push_in.
    - split; [|done]. destruct Hi as [Hp _]. rewrite E in Hp. by apply list.Forall_cons in Hp as [? _].
  Qed.
  Definition element_in (e : element) : Prop :=
    match e with EFlag f v => is_switch f = false → in_line line v | EFile _ v => in_line line v end.
  Lemma flag_value_in fs t f inv i : token_in t → input_in i →
    match flag_value fs t f inv i with
    | inl i' => input_in i'
    | inr (g, v, i') => element_in (EFlag g v) ∧ input_in i'
    end.
  Proof.
    intros Ht Hi. unfold flag_value. pose proof (next_in fs i Hi) as [_ Hi2].
    destruct (is_switch f) eqn:Hs. { split; [|done]. simpl. congruence. }
    destruct inv; [by apply push_in|].
    pose proof (peek_in fs _ Hi2) as [Ht3 Hi3]. destruct (peek fs (next fs i).2) as [t3 i3]. cbn [fst snd] in *.
    destruct t3; try by apply push_in. split; [by intros _|]. by apply next_in.
  Qed.
  Lemma parse_flag_in fs i : input_in i →
    match parse_flag fs i with
    | inl i' => input_in i'
    | inr (g, v, i') => element_in (EFlag g v) ∧ input_in i'
    end.
  Proof.
    intros Hi. unfold parse_flag. pose proof (peek_in fs i Hi) as [Ht Hi2].
    destruct (peek fs i) as [t i2]. cbn [fst snd] in *. destruct t; try done.
    - destruct (find_long fs n); [by apply flag_value_in|]. destruct (has_prefix n "no-"); [|done].
      destruct (find_long fs _); [by apply flag_value_in|done].
    - destruct (find_short fs c); [by apply flag_value_in|done].
  Qed.
  Lemma matched_in c x : input_in (inp x) → Forall element_in (elements x) →
    input_in (inp (matched c x)) ∧ Forall element_in (elements (matched c x)).
  Proof. by destruct c. Qed.
  Lemma step_in x : input_in (inp x) → Forall element_in (elements x) →
    match step x with
    | inl (Matched _ _ es) => Forall element_in es
    | inl _ => True
    | inr x' => input_in (inp x') ∧ Forall element_in (elements x')
    end.
  Proof.
    intros Hi He. unfold step. pose proof (peek_in (known x) _ Hi) as [Ht Hi2].
    destruct (peek (known x) (inp x)) as [t i]. cbn [fst snd] in *.
    assert (Hx : input_in (inp (with_input i x)) ∧ Forall element_in (elements (with_input i x))) by done.
    destruct (chosen (with_input i x)) eqn:Hc; [| |done].
    all: destruct t as [w|n|c0| |]; [| | |done|].
    all: cbn [known subs files chosen inp elements with_input] in *.
    all: try (pose proof (parse_flag_in (known x) i Hi2) as Hf; destruct (parse_flag (known x) i) as [i'|[[f v] i']];
      [destruct (default_command (subs x)) as [cl|]; [by apply matched_in|done]|];
      destruct Hf as [Hf1 Hf2]; destruct (f_kind f); try done; (split; [done|]);
      apply list.Forall_app; (split; [done|]); apply list.Forall_cons; (split; [done|]); by apply list.Forall_nil).
    all: pose proof (next_in (known x) i Hi2) as [_ Hi3].
    all: try (destruct (subs x) as [|c1 cs];
      [destruct (files x); [done|]; (split; [done|]); apply list.Forall_app; (split; [done|]); apply list.Forall_cons;
        (split; [done|]); by apply list.Forall_nil|];
      destruct (find_command (c1 :: cs) w); [by apply matched_in|];
      destruct (default_command (c1 :: cs)); [by apply matched_in|done]).
    all: destruct (default_command (subs x)) as [cl|];
      [pose proof (matched_in cl (with_input i x)) as Hm; fold (with_input i x); destruct (chosen (matched cl (with_input i x))), (files (matched cl (with_input i x))); try done; by apply Hm|].
    all: cbn [known subs files chosen inp elements with_input]; destruct (chosen x), (files x); done.
  Qed.
  Lemma steps_in fuel : ∀ x c k es, input_in (inp x) → Forall element_in (elements x) →
    steps fuel x = Some (Matched c k es) → Forall element_in es.
  Proof.
    induction fuel as [|fuel IH]; intros x c k es Hi He; [done|]. rewrite steps_S.
    pose proof (step_in x Hi He) as H. destruct (step x) as [r|x'].
    - intros [= ->]. done.
    - destruct H as [H1 H2]. by apply IH.
  Qed.
  Lemma gathered_in fuel : ∀ x, input_in (inp x) → Forall element_in (elements x) → Forall element_in (gathered fuel x).
  Proof.
    induction fuel as [|fuel IH]; intros x Hi He; [done|]. cbn [gathered].
    pose proof (step_in x Hi He) as H. destruct (step x) as [r|x']; [clear H|destruct H as [H1 H2]; by apply IH].
    pose proof (peek_in (known x) _ Hi) as [Ht Hi2].
    destruct (peek (known x) (inp x)) as [t i]. cbn [fst snd] in *.
    assert (Hflag : Forall element_in match parse_flag (known x) i with
      | inr (f, v, i') =>
          gathered fuel (Context (known x) (subs x) (files x) (chosen x) i' (elements x ++ [EFlag f v]))
      | inl _ => elements x end).
    { pose proof (parse_flag_in (known x) i Hi2) as Hf. destruct (parse_flag (known x) i) as [i'|[[f v] i']]; [done|].
      destruct Hf as [Hf1 Hf2]. apply IH; [done|]. cbn [elements]. apply list.Forall_app. split; [done|].
      apply list.Forall_cons. split; [done|]. by apply list.Forall_nil. }
    destruct t; try done. destruct (chosen x); try done. apply IH; [|done].
    pose proof (next_in (known x) i Hi2) as [_ Hi3]. done.
  Qed.
End line.
Lemma read_in modern ws c k es : steps (4 + total ws) (start modern ws) = Some (Matched c k es) → Forall (element_in ws) es.
Proof.
  apply steps_in; [|by apply list.Forall_nil]. split; [by apply list.Forall_nil|]. apply words_all.
  apply list.Forall_forall. intros w. apply in_line_word.
Qed.
Lemma given_in modern ws : Forall (element_in ws) (gathered (4 + total ws) (start modern ws)).
Proof.
  apply gathered_in; [|by apply list.Forall_nil]. split; [by apply list.Forall_nil|]. apply words_all.
  apply list.Forall_forall. intros w. apply in_line_word.
Qed.

(** There are never more passes than the fuel. *)
Lemma step_shrinks x x' : step x = inr x' → (size (inp x') ≤ size (inp x))%nat.
Proof.
  pose proof (peek_size (known x) (inp x)) as H1. destruct (peek_top (known x) (inp x)) as [pk Hpk].
  unfold step. destruct (peek (known x) (inp x)) as [t i]. simpl in H1, Hpk.
  pose proof (pop_size (known x) i t pk Hpk) as Hpop.
  assert (Hm : ∀ c y, inp (matched c y) = inp y) by by intros [].
  cbn [chosen with_input subs files known elements inp].
  assert (Hflag : t ≠ TEnd →
    match parse_flag (known x) i with
    | inl i' => match default_command (subs x) with
        | Some c => inr (matched c (with_input i' (with_input i x))) | None => inl Failed end
    | inr (f, v, i') => match f_kind f with AExit => inl Showed
        | _ => inr (Context (known x) (subs x) (files x) (chosen x) i' (elements x ++ [EFlag f v])) end
    end = inr x' → (size (inp x') ≤ size (inp x))%nat).
  { intros Hte Hst. pose proof (parse_flag_size (known x) i t pk Hpk Hte) as Hsz.
    destruct (parse_flag (known x) i) as [i'|[[f v] i']].
    - destruct (default_command (subs x)); [|done]. injection Hst as <-. rewrite Hm. simpl. lia.
    - destruct (f_kind f); try done; injection Hst as <-; simpl; lia. }
  destruct (chosen x); [| |done].
  all: destruct t; [|by apply Hflag|by apply Hflag|done|].
  all: try (destruct (default_command (subs x)); repeat case_match; done).
  all: destruct (subs x) as [|c1 cs];
    [destruct (files x); [done|]; intros [= <-]; simpl; lia|].
  all: destruct (find_command (c1 :: cs) _); [intros [= <-]; rewrite Hm; simpl; lia|].
  all: destruct (default_command (c1 :: cs)); [intros [= <-]; rewrite Hm; simpl; lia|done].
Qed.
Lemma gathered_enough modern n : ∀ x m,
  (∃ p, at_place modern p x ∧ (2 + level p + size (inp x) ≤ n)%nat) ∨ chosen x = ShowsUsage ∧ (1 + size (inp x) ≤ n)%nat →
  (n ≤ m)%nat → gathered m x = gathered n x.
Proof.
  induction n as [|n IH]; intros x m Hx Hm; [destruct Hx as [(p & _ & ?)|[_ ?]]; lia|].
  destruct m as [|m]; [lia|]. cbn [gathered]. destruct (step x) as [r|x'] eqn:Est.
  - pose proof (peek_size (known x) (inp x)) as H1. destruct (peek_top (known x) (inp x)) as [pk Hpk].
    destruct (peek (known x) (inp x)) as [t i]. simpl in H1, Hpk.
    pose proof (pop_size (known x) i t pk Hpk) as Hpop.
    assert (Hflag : t ≠ TEnd → ∀ f v i', parse_flag (known x) i = inr (f, v, i') →
      gathered m (Context (known x) (subs x) (files x) (chosen x) i' (elements x ++ [EFlag f v])) =
      gathered n (Context (known x) (subs x) (files x) (chosen x) i' (elements x ++ [EFlag f v]))).
    { intros Ht f v i' E. pose proof (parse_flag_size (known x) i t pk Hpk Ht) as Hsz. rewrite E in Hsz.
      apply IH; [|lia]. destruct Hx as [(p & Hat & Hle)|[Hc Hle]].
      - left. exists p. split; [done|]. simpl. lia.
      - right. split; [done|]. simpl. lia. }
    destruct t; try done.
    + destruct (chosen x) eqn:Hc; try done. apply IH; [|lia]. right. split; [done|]. simpl in *.
      destruct Hx as [(p & Hat & Hle)|[_ Hle]]; [|lia]. destruct Hat as (_ & _ & Hc' & _).
      rewrite Hc in Hc'. by destruct (action_shows p).
    + destruct (parse_flag (known x) i) as [i'|[[f v] i']] eqn:E; [done|]. by apply Hflag.
    + destruct (parse_flag (known x) i) as [i'|[[f v] i']] eqn:E; [done|]. by apply Hflag.
  - apply IH; [|lia]. pose proof (step_shrinks x x' Est) as Hsz.
    destruct Hx as [(p & Hat & Hle)|[Hc Hle]].
    + destruct (step_size modern p x x' Hat Est) as [Hs|(p' & Hat' & Hlt)].
      * right. split; [done|]. lia.
      * left. exists p'. split; [done|]. lia.
    + exfalso. revert Est. unfold step. destruct (peek _ _) as [t i]. cbn [chosen with_input]. by rewrite Hc.
Qed.
Lemma given_enough modern ws m :
  (4 + total ws ≤ m)%nat → gathered m (start modern ws) = gathered (4 + total ws) (start modern ws).
Proof. intros H. apply (gathered_enough modern); [|done]. left. exists Top. split; [done|]. unfold size. simpl. lia. Qed.
(** A line that is read to the end gave what it was read as. *)
Lemma steps_gathered fuel : ∀ x c k es, steps fuel x = Some (Matched c k es) → gathered fuel x = es.
Proof.
  induction fuel as [|fuel IH]; intros x c k es; [done|]. rewrite steps_S. cbn [gathered].
  destruct (step x) as [r|x'] eqn:Est; [|by apply IH]. intros [= ->]. revert Est. unfold step.
  destruct (peek (known x) (inp x)) as [t i].
  assert (Hm : ∀ c y, elements (matched c y) = elements y) by by intros [].
  destruct (chosen (with_input i x)) eqn:Hc; [| |done].
  all: destruct t; cbn [known subs files chosen inp elements with_input]; try done.
  all: try (intros Hst; exfalso; revert Hst; repeat case_match; done).
  all: destruct (default_command (subs x)) as [cl|];
    [change (elements x) with (elements (with_input i x)); rewrite <-(Hm cl (with_input i x)); fold (with_input i x); destruct (chosen (matched cl (with_input i x))), (files (matched cl (with_input i x))); try done; by intros [= _ _ <-]
    |cbn [known subs files chosen inp elements with_input]; destruct (chosen x), (files x); try done; by intros [= _ _ <-]].
Qed.
