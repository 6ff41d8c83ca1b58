(** Proofs about the command line: reading ends, and the values set are those
    given. *)
From Coq Require Import String Ascii.
From stdpp Require Import list gmap strings.
From Verif Require Import GoStrings GoStringsProofs ArgsModel ArgsSpec ArgsProofs.
Local Open Scope Z_scope.

(** * Reading ends *)
Definition token_size (t : token) : nat := match t with TEnd => 0 | _ => 1 end.
Fixpoint tokens_size (l : list token) : nat :=
  match l with [] => 0 | t :: l => token_size t + tokens_size l end.
Definition size (i : input) : nat := (tokens_size (peeked i) + total (words i))%nat.
Definition level (p : place) : nat := match p with Top => 2 | Book => 1 | In _ => 0 end.

Lemma total_cons w ws : total (w :: ws) = (S (String.length w) + total ws)%nat.
Proof. done. Qed.
Lemma next_size fs i : (token_size (next fs i).1 + size (next fs i).2 ≤ size i)%nat.
Proof.
  destruct i as [[|t pk] wds b]; [|rewrite next_pop; unfold size; destruct t; simpl; lia].
  destruct wds as [|w wds]; [unfold size; simpl; lia|]. unfold next. cbn [peeked words only].
  unfold size. cbn [peeked words]. rewrite total_cons.
  repeat (case_match; simplify_eq); simpl; rewrite ?total_cons; simpl; lia.
Qed.
Lemma peek_size fs i : (size (peek fs i).2 ≤ size i)%nat.
Proof.
  unfold peek. destruct (peeked i) eqn:E; [|done]. pose proof (next_size fs i) as H.
  destruct (next fs i) as [t i']. simpl in *. unfold size, push in *. simpl. lia.
Qed.
Lemma peek_top fs i : ∃ pk, peeked (peek fs i).2 = (peek fs i).1 :: pk.
Proof.
  destruct i as [[|t pk] wds b]; unfold peek; simpl peeked; cbn iota; [|by eexists].
  destruct (next fs _) as [t i']. by eexists.
Qed.
Lemma pop_size fs i t pk : peeked i = t :: pk → size i = (token_size t + size (next fs i).2)%nat.
Proof. destruct i as [pk0 wds b]. simpl. intros ->. unfold size. simpl. lia. Qed.
Lemma push_size t i : size (push t i) = (token_size t + size i)%nat.
Proof. unfold size, push. simpl. lia. Qed.

Lemma flag_value_size fs t f inv i pk :
  peeked i = t :: pk → t ≠ TEnd →
  match flag_value fs t f inv i with inl i' => (size i' ≤ size i)%nat | inr (_, _, i') => (size i' < size i)%nat end.
Proof.
  intros Hpk Ht. pose proof (pop_size fs i t pk Hpk) as H1. unfold flag_value.
  assert (token_size t = 1%nat) by by destruct t.
  destruct (is_switch f); [lia|]. destruct inv; [rewrite push_size; lia|].
  pose proof (peek_size fs (next fs i).2) as H2. destruct (peek_top fs (next fs i).2) as [pk2 Hpk2].
  destruct (peek fs (next fs i).2) as [t1 i1]. simpl in *. pose proof (pop_size fs i1 t1 pk2 Hpk2) as H3.
  destruct t1; rewrite ?push_size; simpl in *; lia.
Qed.
Lemma parse_flag_size fs i t pk :
  peeked i = t :: pk → t ≠ TEnd →
  match parse_flag fs i with inl i' => (size i' ≤ size i)%nat | inr (_, _, i') => (size i' < size i)%nat end.
Proof.
  intros Hpk Ht. unfold parse_flag, peek. rewrite Hpk.
  destruct t as [s|n|c| |]; try done.
  - destruct (find_long fs n) as [f|]; [by eapply flag_value_size|].
    destruct (has_prefix n "no-"); [|done].
    destruct (find_long fs (str_drop 3 n)) as [f|]; [by eapply flag_value_size|done].
  - destruct (find_short fs c) as [f|]; [by eapply flag_value_size|done].
Qed.

Lemma step_size modern p x x' :
  at_place modern p x → step x = inr x' →
  chosen x' = ShowsUsage ∨
  ∃ p', at_place modern p' x' ∧ (level p' + size (inp x') < level p + size (inp x))%nat.
Proof.
  intros Hat. pose proof (peek_size (known x) (inp x)) as H1.
  destruct (peek_top (known x) (inp x)) as [pk Hpk].
  unfold step. destruct (peek (known x) (inp x)) as [t i]. simpl in H1, Hpk.
  pose proof (pop_size (known x) i t pk Hpk) as Hpop.
  cbn [chosen with_input subs files known elements inp].
  assert (Hc : chosen x ≠ ShowsUsage).
  { destruct Hat as (_ & _ & -> & _). apply action_shows. }
  assert (Hflag : t ≠ TEnd →
    match parse_flag (known x) i with
    | inl i' => match default_command (subs x) with
        | Some c => inr (matched c (with_input i' (with_input i x))) | None => inl Failed end
    | inr (f, v, i') => match f_kind f with AExit => inl Showed
        | _ => inr (Context (known x) (subs x) (files x) (chosen x) i' (elements x ++ [EFlag f v])) end
    end = inr x' →
    chosen x' = ShowsUsage ∨
    ∃ p', at_place modern p' x' ∧ (level p' + size (inp x') < level p + size (inp x))%nat).
  { intros Hte Hst. pose proof (parse_flag_size (known x) i t pk Hpk Hte) as Hsz.
    destruct (parse_flag (known x) i) as [i'|[[f v] i']].
    - right. destruct p as [| |c].
      + exfalso. revert Hst. by rewrite (proj1 (proj2 Hat)).
      + destruct (default_at_book modern (with_input i' (with_input i x)) Hat) as (Hd & Hat' & _).
        cbn [subs with_input] in Hd. rewrite Hd in Hst. injection Hst as <-.
        exists (In CRun). split; [done|]. simpl. lia.
      + exfalso. revert Hst. by rewrite (proj1 (proj2 Hat)).
    - right. exists p. destruct (f_kind f); try done; injection Hst as <-; (split; [done|simpl; lia]). }
  destruct t as [s|n|l| |].
  - destruct Hat as (Hk & Hs & Hca & Hfl). rewrite Hs. clear Hflag. simpl token_size in Hpop.
    destruct p as [| |c].
    + rewrite Hca. cbn [place_action]. destruct (place_subs modern Top) as [|c1 cs] eqn:Ecs; [done|]. rewrite <-Ecs in *.
      destruct (find_command (place_subs modern Top) s) as [cl|] eqn:Efc; [|intros Hst; exfalso; revert Hst; clear; by destruct modern].
      intros [= <-].
      destruct (find_command_sound modern Top s cl Efc) as [(p' & Hl & _)|Hshow]; [|by left; apply Hshow].
      destruct (leads_found modern Top s p' Hl) as (cl' & Hcl' & Hat').
      rewrite Efc in Hcl'. injection Hcl' as <-.
      right. exists p'. split; [by apply Hat'|].
      assert (Hinp : ∀ y, inp (matched cl y) = inp y) by by destruct cl. rewrite Hinp. cbn [inp with_input].
      assert (level p' ≤ 2)%nat by (destruct p'; simpl; lia). simpl level. lia.
    + rewrite Hca. cbn [place_action]. destruct (place_subs modern Book) as [|c1 cs] eqn:Ecs; [done|]. rewrite <-Ecs in *.
      destruct (find_command (place_subs modern Book) s) as [cl|] eqn:Efc.
      * intros [= <-].
        destruct (find_command_sound modern Book s cl Efc) as [(p' & Hl & _)|Hshow]; [|by left; apply Hshow].
        destruct (leads_found modern Book s p' Hl) as (cl' & Hcl' & Hat').
        rewrite Efc in Hcl'. injection Hcl' as <-.
        right. exists p'. split; [by apply Hat'|].
        assert (Hinp : ∀ y, inp (matched cl y) = inp y) by by destruct cl. rewrite Hinp. cbn [inp with_input].
        assert (level p' ≤ 1)%nat by (inversion Hl; simpl; lia). simpl level. lia.
      * assert (Hat1 : at_place modern Book (with_input i x)) by done.
        destruct (default_at_book modern _ Hat1) as (Hd & Hat2 & Hfl2).
        cbn [subs with_input] in Hd. rewrite Hs in Hd. rewrite Hd. intros [= <-].
        right. exists (In CRun). split; [done|]. simpl. lia.
    + rewrite Hca. cbn [place_action place_subs]. destruct (files x) as [|fl rest]; [done|]. intros [= <-].
      right. exists (In c). rewrite Hk in *. split; [done|]. simpl. lia.
  - destruct (chosen x) eqn:Ech; [| |done]; by apply Hflag.
  - destruct (chosen x) eqn:Ech; [| |done]; by apply Hflag.
  - by destruct (chosen x).
  - destruct (chosen x) eqn:Ech; [| |done]; destruct (default_command (subs x)); repeat case_match; done.
Qed.
Lemma steps_end modern p x fuel :
  at_place modern p x → (2 + level p + size (inp x) ≤ fuel)%nat → steps fuel x ≠ None.
Proof.
  revert p x. induction fuel as [|fuel IH]; intros p x Hat Hle; [lia|]. rewrite steps_S.
  destruct (step x) as [r|x'] eqn:E; [done|].
  destruct (step_size modern p x x' Hat E) as [Hs|(p' & Hat' & Hlt)].
  - destruct fuel as [|fuel]; [lia|]. rewrite steps_S.
    destruct x' as [k2 s2 f2 ch2 i2 e2]. simpl in Hs. subst ch2.
    unfold step. cbn [known inp chosen with_input]. by destruct (peek k2 i2).
  - eapply IH; [done|]. lia.
Qed.
Lemma steps_mono fuel fuel' x r : steps fuel x = Some r → (fuel ≤ fuel')%nat → steps fuel' x = Some r.
Proof.
  revert fuel' x. induction fuel as [|fuel IH]; intros fuel' x H Hle; [done|].
  destruct fuel' as [|fuel']; [lia|]. rewrite steps_S in *. destruct (step x); [done|]. apply IH; [done|lia].
Qed.

Lemma start_at modern ws : at_place modern Top (start modern ws).
Proof. done. Qed.
Lemma start_view modern ws : view (inp (start modern ws)) = Raw <$> ws.
Proof. done. Qed.
(** What the program reads from its words. *)
Definition read (modern : bool) (ws : list string) : option reading := steps (4 + total ws) (start modern ws).
Lemma read_complete modern ws i a c :
  says modern Top (Raw <$> ws) i a c → length a = length (place_files c) →
  ∃ es, read modern ws = Some (Matched c (place_flags modern (In c)) es) ∧
    items es = i ∧ file_items es = zip (place_files c) a ∧ Forall (flag_elem modern c) es.
Proof.
  intros H Hlen. destruct (says_steps modern _ _ _ _ _ H (start modern ws)) as (fuel & es & Hs & Hi & Hf & Hfa);
    [done|apply wf_nil|done|done|].
  exists es. split; [|done]. simpl in Hs.
  destruct (read modern ws) as [r|] eqn:E.
  - unfold read in E. destruct (le_ge_dec fuel (4 + total ws)) as [Hle|Hle].
    + rewrite (steps_mono _ _ _ _ Hs Hle) in E. done.
    + rewrite (steps_mono _ _ _ _ E Hle) in Hs. done.
  - exfalso. revert E. unfold read. apply (steps_end modern Top); [done|]. unfold size. simpl. lia.
Qed.
Lemma read_sound modern ws c k es :
  read modern ws = Some (Matched c k es) →
  k = place_flags modern (In c) ∧ Forall (flag_elem modern c) es ∧ (file_items es).*1 = place_files c ∧
  taken modern Top (Raw <$> ws) (items es) (file_items es).*2 c.
Proof.
  intros H. destruct (steps_sound modern _ Top _ _ _ _ (start_at modern ws) (wf_nil _ _) H)
    as (Hk & _ & es1 & -> & Hfa & Hfi & Hs). by split_and!.
Qed.
Lemma read_steps modern ws fuel r : steps fuel (start modern ws) = Some r → read modern ws = Some r.
Proof.
  intros Hs. destruct (read modern ws) as [r'|] eqn:E.
  - unfold read in E. destruct (le_ge_dec fuel (4 + total ws)) as [Hle|Hle].
    + rewrite (steps_mono _ _ _ _ Hs Hle) in E. done.
    + rewrite (steps_mono _ _ _ _ E Hle) in Hs. done.
  - exfalso. revert E. unfold read. apply (steps_end modern Top); [done|]. unfold size. simpl. lia.
Qed.
Lemma read_mistaken modern ws i rest j a :
  strays modern Top (Raw <$> ws) i rest → says modern (In CRun) rest j a CRun → length a = length (place_files CRun) →
  ∃ es, read modern ws = Some (Matched CRun (place_flags modern (In CRun)) es) ∧
    items es = i ++ j ∧ file_items es = zip (place_files CRun) a ∧ Forall (flag_elem modern CRun) es.
Proof.
  intros H Hs Hlen.
  destruct (strays_steps modern _ _ _ _ H (start modern ws)) as (n & es & y & Hst & Hat & Hfl & Hwf & Hv & He & Hi & Hf & Hfa);
    [done|apply wf_nil|done|].
  destruct (says_steps modern _ _ _ _ _ Hs y Hat Hwf Hv) as (fuel & es2 & Hst2 & Hi2 & Hf2 & Hfa2).
  { unfold pending. by rewrite Hfl. }
  unfold pending in Hf2. rewrite Hfl in Hf2.
  exists (es ++ es2). split_and!.
  - apply (read_steps _ _ (S n + fuel)). rewrite Hst, Hst2. by rewrite He.
  - unfold items. rewrite omap_app. by f_equal.
  - unfold file_items in *. by rewrite omap_app, Hf, Hf2.
  - by apply list.Forall_app.
Qed.

(** * The values set *)
Global Instance flag_eq_dec : EqDecision flag. Proof. solve_decision. Defined.
(** Flags are told apart by their names and by their variables. *)
Definition apart (c : cname) (f g : flag) : Prop :=
  f_kind f = AExit ∨ g = f ∨ (f_long g ≠ f_long f ∧ f_var g ≠ f_var f).
Global Instance apart_dec c f g : Decision (apart c f g). Proof. unfold apart. apply _. Defined.
Lemma all_apart modern c f g :
  f ∈ place_flags modern (In c) → g ∈ place_flags modern (In c) → apart c f g ∧ (f_var f ∉ place_files c).
Proof.
  assert (H : Forall (λ f, Forall (apart c f) (place_flags modern (In c)) ∧ f_var f ∉ place_files c) (place_flags modern (In c))).
  { apply (bool_decide_unpack _). destruct modern, c; vm_compute; exact I. }
  rewrite Forall_forall in H. intros Hf Hg. specialize (H f Hf) as [H ?]. split; [|done].
  rewrite Forall_forall in H. by apply H.
Qed.
Lemma same_name modern c f g :
  f ∈ place_flags modern (In c) → g ∈ place_flags modern (In c) → f_kind f ≠ AExit → f_long g = f_long f → g = f.
Proof. intros Hf Hg Hk Hn. destruct (all_apart modern c f g Hf Hg) as [[?|[?|[??]]] _]; done. Qed.
Lemma other_var modern c f g :
  f ∈ place_flags modern (In c) → g ∈ place_flags modern (In c) → f_kind f ≠ AExit → g ≠ f → f_var g ≠ f_var f.
Proof. intros Hf Hg Hk Hn. destruct (all_apart modern c f g Hf Hg) as [[?|[?|[??]]] _]; done. Qed.

Lemma times_cons i n m s : times ((m, s) :: i) n = ((if decide (m = n) then 1 else 0) + times i n)%nat.
Proof. unfold times. rewrite filter_cons. simpl. by destruct (decide (m = n)). Qed.
Lemma times_in i n s : (n, s) ∈ i → (0 < times i n)%nat.
Proof.
  induction i as [|[m t] i IH]; [by intros ?%elem_of_nil|]. rewrite times_cons.
  intros [[= -> ->]|H]%elem_of_cons; [rewrite decide_True by done; lia|]. apply IH in H. lia.
Qed.
Lemma times_pos i n : (0 < times i n)%nat → ∃ s, (n, s) ∈ i.
Proof.
  induction i as [|[m t] i IH]; [unfold times; simpl; lia|]. rewrite times_cons.
  destruct (decide (m = n)) as [->|]; [intros _; exists t; by left|].
  intros H. destruct IH as [s Hs]; [lia|]. exists s. by right.
Qed.
Lemma times_unique i n s s' : (times i n ≤ 1)%nat → (n, s) ∈ i → (n, s') ∈ i → s = s'.
Proof.
  induction i as [|[m t] i IH]; [by intros _ ?%elem_of_nil|]. rewrite times_cons.
  intros Hle [E1|H1]%elem_of_cons [E2|H2]%elem_of_cons; simplify_eq.
  - done.
  - apply times_in in H2. rewrite decide_True in Hle by done. lia.
  - apply times_in in H1. rewrite decide_True in Hle by done. lia.
  - apply IH; [lia|done|done].
Qed.
Lemma times_names es n : times (items es) n = 0%nat ↔ n ∉ flag_names es.
Proof.
  induction es as [|[f s|x s] es IH].
  - split; [intros _; apply not_elem_of_nil|done].
  - change (items (EFlag f s :: es)) with ((f_long f, s) :: items es).
    change (flag_names (EFlag f s :: es)) with (f_long f :: flag_names es).
    rewrite times_cons, not_elem_of_cons, <-IH. destruct (decide (f_long f = n)); split; try lia; naive_solver.
  - done.
Qed.

(** The value a flag that does not count is set to. *)
Definition gives (o : outside) (f : flag) (s : string) : option fval :=
  match f_kind f with
  | AText => Some (VText s)
  | APort => VNum <$> parse_uint o s
  | AChoice l => if decide (s ∈ l) then Some (VText s) else None
  | ASwitch => Some (VBool (bool_decide (s = "true")))
  | AOpen => if can_append o s then Some (VText s) else None
  | ACount | AExit => None
  end.
Lemma set_flag_gives o f s v :
  f_kind f ≠ ACount → f_kind f ≠ AExit →
  set_flag o f s v = (λ y, <[f_var f := y]> v) <$> gives o f s.
Proof.
  intros H1 H2. unfold set_flag, gives. destruct (f_kind f); try done.
  - by destruct (parse_uint o s).
  - by destruct (decide _).
  - by destruct (can_append o s).
Qed.

Lemma set_flag_var o g s v v1 x : set_flag o g s v = Some v1 → f_var g ≠ x → v1 !! x = v !! x.
Proof.
  intros H Hne. unfold set_flag in H. destruct (f_kind g) as [| |l| | | |].
  - apply (inj Some) in H as <-. by rewrite lookup_insert_ne.
  - destruct (parse_uint o s); [|done]. simpl in H. apply (inj Some) in H as <-. by rewrite lookup_insert_ne.
  - case_decide; [|done]. apply (inj Some) in H as <-. by rewrite lookup_insert_ne.
  - apply (inj Some) in H as <-. by rewrite lookup_insert_ne.
  - apply (inj Some) in H as <-. by rewrite lookup_insert_ne.
  - destruct (can_append o s); [|done]. apply (inj Some) in H as <-. by rewrite lookup_insert_ne.
  - by apply (inj Some) in H as ->.
Qed.

Section values.
  Context (modern : bool) (o : outside) (c : cname).
  Notation K := (place_flags modern (In c)).

  Lemma set_flag_other f g s v v1 :
    f ∈ K → g ∈ K → f_kind f ≠ AExit → g ≠ f → set_flag o g s v = Some v1 → v1 !! f_var f = v !! f_var f.
  Proof.
    intros Hf Hg Hk Hne. pose proof (other_var modern c f g Hf Hg Hk Hne) as Hv.
    intros H. by apply (set_flag_var o g s v v1).
  Qed.

  Lemma set_values_once es seen v v' :
    Forall (flag_elem modern c) es → set_values o seen es v = Some v' →
    ∀ f, f ∈ K → f_kind f ≠ AExit → f_kind f ≠ ACount →
    (times (items es) (f_long f) ≤ 1)%nat ∧ (f_long f ∈ seen → times (items es) (f_long f) = 0%nat).
  Proof.
    revert seen v. induction es as [|[g s|x s] es IH]; intros seen v Hfa H f Hf Hk Hc.
    - unfold times. simpl. split; [lia|done].
    - apply list.Forall_cons in Hfa as [[Hg Hgk] Hfa]. simpl in H.
      destruct (bool_decide (f_long g ∈ seen) && negb (is_cumulative g)) eqn:E; [done|].
      destruct (set_flag o g s v) as [v1|] eqn:Es; [|done]. simpl in H.
      destruct (IH _ _ Hfa H f Hf Hk Hc) as [H1 H2].
      change (items (EFlag g s :: es)) with ((f_long g, s) :: items es). rewrite times_cons.
      destruct (decide (f_long g = f_long f)) as [Heq|Hne].
      + pose proof (same_name modern c f g Hf Hg Hk Heq) as ->. rewrite H2 by (by left). split; [lia|].
        intros Hs. exfalso. rewrite bool_decide_true in E by done. unfold is_cumulative in E.
        by destruct (f_kind f).
      + simpl. split; [done|]. intros Hs. apply H2. by right.
    - apply list.Forall_cons in Hfa as [_ Hfa]. simpl in H.
      destruct (set_file o x s v) as [v1|] eqn:Es; [|done]. simpl in H. by eapply IH.
  Qed.
  Lemma set_file_other f x s v v1 :
    f ∈ K → x ∈ place_files c → set_file o x s v = Some v1 → v1 !! f_var f = v !! f_var f.
  Proof.
    intros Hf Hx. pose proof (proj2 (all_apart modern c f f Hf Hf)) as Hn. unfold set_file.
    destruct (is_file o s); [|done]. intros <-%(inj Some). apply lookup_insert_ne. intros ->. done.
  Qed.

  Lemma set_values_flag es seen v v' :
    Forall (flag_elem modern c) es → (∀ x s, (x, s) ∈ file_items es → x ∈ place_files c) →
    set_values o seen es v = Some v' →
    ∀ f, f ∈ K → f_kind f ≠ AExit → f_kind f ≠ ACount →
    (times (items es) (f_long f) = 0%nat ∧ v' !! f_var f = v !! f_var f) ∨
    (∃ s y, (f_long f, s) ∈ items es ∧ gives o f s = Some y ∧ v' !! f_var f = Some y).
  Proof.
    revert seen v. induction es as [|[g s|x s] es IH]; intros seen v Hfa Hfi H f Hf Hk Hc.
    - left. split; [done|]. simpl in H. by simplify_eq.
    - pose proof (set_values_once _ _ _ _ Hfa H f Hf Hk Hc) as [Honce _].
      apply list.Forall_cons in Hfa as [[Hg Hgk] Hfa]. simpl in H.
      destruct (bool_decide (f_long g ∈ seen) && negb (is_cumulative g)) eqn:E; [done|].
      destruct (set_flag o g s v) as [v1|] eqn:Es; [|done]. simpl in H.
      change (items (EFlag g s :: es)) with ((f_long g, s) :: items es) in *. rewrite times_cons in *.
      destruct (IH _ _ Hfa Hfi H f Hf Hk Hc) as [[Ht Hv]|(s' & y & Hin & Hgv & Hv)].
      + destruct (decide (f_long g = f_long f)) as [Heq|Hne].
        * pose proof (same_name modern c f g Hf Hg Hk Heq) as ->. right.
          rewrite set_flag_gives in Es by done. apply fmap_Some in Es as (y & Hy & ->).
          exists s, y. split_and!; [by left|done|]. by rewrite Hv, lookup_insert.
        * left. split; [done|]. rewrite Hv. apply (set_flag_other f g s); [done|done|done| |done]. by intros ->.
      + right. exists s', y. split_and!; [by right|done|done].
    - apply list.Forall_cons in Hfa as [_ Hfa]. simpl in H.
      destruct (set_file o x s v) as [v1|] eqn:Es; [|done]. simpl in H.
      assert (Hx : x ∈ place_files c) by (apply (Hfi x s); by left).
      destruct (IH seen v1 Hfa) with (f := f) as [[Ht Hv]|Hr]; [intros; eapply Hfi; by right|done|done|done|done| |by right].
      left. split; [done|]. rewrite Hv. by apply (set_file_other f x s).
  Qed.
  Lemma set_values_count es seen v v' :
    Forall (flag_elem modern c) es → (∀ x s, (x, s) ∈ file_items es → x ∈ place_files c) →
    set_values o seen es v = Some v' →
    ∀ f, f ∈ K → f_kind f = ACount → num v' (f_var f) = num v (f_var f) + Z.of_nat (times (items es) (f_long f)).
  Proof.
    revert seen v. induction es as [|[g s|x s] es IH]; intros seen v Hfa Hfi H f Hf Hc.
    - simpl in H. simplify_eq. unfold times. simpl. lia.
    - apply list.Forall_cons in Hfa as [[Hg Hgk] Hfa]. simpl in H.
      destruct (bool_decide (f_long g ∈ seen) && negb (is_cumulative g)) eqn:E; [done|].
      destruct (set_flag o g s v) as [v1|] eqn:Es; [|done]. simpl in H.
      change (items (EFlag g s :: es)) with ((f_long g, s) :: items es) in *. rewrite times_cons in *.
      rewrite (IH _ _ Hfa Hfi H f Hf Hc).
      destruct (decide (f_long g = f_long f)) as [Heq|Hne].
      + pose proof (same_name modern c f g Hf Hg ltac:(by rewrite Hc) Heq) as ->.
        unfold set_flag in Es. rewrite Hc in Es. apply (inj Some) in Es as <-. unfold num. rewrite lookup_insert.
        destruct (v !! f_var f) as [[]|]; lia.
      + unfold num at 1. rewrite (set_flag_other f g s v v1); [|done|done|by rewrite Hc|by intros ->|done].
        fold (num v (f_var f)). lia.
    - apply list.Forall_cons in Hfa as [_ Hfa]. simpl in H.
      destruct (set_file o x s v) as [v1|] eqn:Es; [|done]. simpl in H.
      assert (Hx : x ∈ place_files c) by (apply (Hfi x s); by left).
      rewrite (IH seen v1 Hfa) with (f := f); [|intros; eapply Hfi; by right|done|done|done].
      unfold num at 1. rewrite (set_file_other f x s v v1) by done. done.
  Qed.
  Lemma set_values_file es seen v v' x :
    Forall (flag_elem modern c) es → x ∈ place_files c →
    set_values o seen es v = Some v' →
    (∀ s, (x, s) ∉ file_items es) ∧ v' !! x = v !! x ∨
    ∃ s, (x, s) ∈ file_items es ∧ is_file o s = true ∧ v' !! x = Some (VText s).
  Proof.
    revert seen v. induction es as [|[g s|y s] es IH]; intros seen v Hfa Hx H.
    - left. simpl in H. simplify_eq. split; [|done]. intros s. apply not_elem_of_nil.
    - apply list.Forall_cons in Hfa as [[Hg Hgk] Hfa]. simpl in H.
      destruct (bool_decide (f_long g ∈ seen) && negb (is_cumulative g)) eqn:E; [done|].
      destruct (set_flag o g s v) as [v1|] eqn:Es; [|done]. simpl in H.
      destruct (IH _ _ Hfa Hx H) as [[Hno Hv]|Hr]; [|by right]. left. split; [done|]. rewrite Hv.
      pose proof (proj2 (all_apart modern c g g Hg Hg)) as Hn.
      assert (Hne : f_var g ≠ x) by by intros <-.
      by apply (set_flag_var o g s v v1).
    - apply list.Forall_cons in Hfa as [_ Hfa]. simpl in H.
      destruct (set_file o y s v) as [v1|] eqn:Es; [|done]. simpl in H.
      unfold set_file in Es. destruct (is_file o s) eqn:Ef; [|done]. apply (inj Some) in Es as <-.
      destruct (IH _ _ Hfa Hx H) as [[Hno Hv]|(s' & Hin & ? & ?)].
      + destruct (decide (y = x)) as [->|Hne].
        * right. exists s. split_and!; [by left|done|]. by rewrite Hv, lookup_insert.
        * left. rewrite Hv, lookup_insert_ne by done. split; [|done].
          intros s' [[= ? ?]|Hin]%elem_of_cons; [done|]. by eapply Hno.
      + right. exists s'. split_and!; [by right|done|done].
  Qed.

  (** If every flag and file is acceptable then the values are set. *)
  Lemma set_values_exist es seen v :
    Forall (flag_elem modern c) es →
    (∀ f s, EFlag f s ∈ es → f_kind f ≠ ACount → is_Some (gives o f s)) →
    (∀ x s, (x, s) ∈ file_items es → is_file o s = true) →
    (∀ f, f ∈ K → f_kind f ≠ AExit → f_kind f ≠ ACount →
      (times (items es) (f_long f) ≤ 1)%nat ∧ (f_long f ∈ seen → times (items es) (f_long f) = 0%nat)) →
    is_Some (set_values o seen es v).
  Proof.
    revert seen v. induction es as [|[g s|x s] es IH]; intros seen v Hfa Hg Hfi Honce.
    - by eexists.
    - apply list.Forall_cons in Hfa as [[Hgi Hgk] Hfa].
      change (items (EFlag g s :: es)) with ((f_long g, s) :: items es) in *. simpl.
      assert (bool_decide (f_long g ∈ seen) && negb (is_cumulative g) = false) as ->.
      { destruct (is_cumulative g) eqn:Ec; [by rewrite andb_false_r|]. rewrite andb_true_r.
        apply bool_decide_false. intros Hin.
        destruct (Honce g Hgi Hgk) as [_ H]; [unfold is_cumulative in Ec; by destruct (f_kind g)|].
        specialize (H Hin). rewrite times_cons, decide_True in H by done. lia. }
      assert (is_Some (set_flag o g s v)) as [v1 ->].
      { destruct (decide (f_kind g = ACount)) as [Hc|Hc].
        - unfold set_flag. rewrite Hc. by eexists.
        - rewrite set_flag_gives by done. destruct (Hg g s) as [y ->]; [by left|done|]. by eexists. }
      simpl. apply IH; [done| |done|].
      + intros f t Hin. apply Hg. by right.
      + intros f Hf Hk Hc. destruct (Honce f Hf Hk Hc) as [H1 H2]. rewrite times_cons in *.
        split; [lia|]. intros [Heq|Hin]%elem_of_cons.
        * rewrite decide_True in H1 by done. lia.
        * specialize (H2 Hin). lia.
    - apply list.Forall_cons in Hfa as [_ Hfa]. simpl. unfold set_file at 1.
      rewrite (Hfi x s) by (by left). simpl. apply IH; [done| | |done].
      + intros f t Hin. apply Hg. by right.
      + intros y t Hin. eapply Hfi. by right.
  Qed.
End values.
