(** Proofs about the command line: which lines show the usage. *)
From Coq Require Import String Ascii.
From stdpp Require Import list gmap strings.
From Verif Require Import GoStrings GoStringsProofs ArgsModel ArgsSpec ArgsProofs ArgsValuesProofs.
Local Open Scope Z_scope.

Lemma shows_readable modern a p k b ws ws' :
  readable modern p ws ws' → shows modern a p k b ws' → shows modern a p k b ws.
Proof. intros [->|H] Hs; [done|by eapply shows_read]. Qed.
Lemma exit_flags modern p f :
  f ∈ place_flags modern p → f_kind f = AExit → (f_long f = "help" ∨ f_long f ∈ at_once) ∧ f_short f = None.
Proof.
  assert (H : Forall (λ f, f_kind f ≠ AExit ∨ ((f_long f = "help" ∨ f_long f ∈ at_once) ∧ f_short f = None)) (place_flags modern p)).
  { apply (bool_decide_unpack _). destruct modern, p as [| |[]]; vm_compute; exact I. }
  rewrite Forall_forall in H. intros Hf Hk. by destruct (H f Hf).
Qed.
Lemma parse_flag_exit modern p t i f v i' :
  wf i → (∃ pk, peeked i = t :: pk) → t ≠ TEnd →
  parse_flag (place_flags modern p) i = inr (f, v, i') → f_kind f = AExit →
  wf i' ∧ (f_long f = "help" ∨ f_long f ∈ at_once) ∧
  (view i = Name (f_long f) :: view i' ∨ view i = Name ("no-" +:+ f_long f) :: view i').
Proof.
  intros Hwf [pk Hpk] Ht H Hk. assert (Hp : peek (place_flags modern p) i = (t, i)).
  { unfold peek. by rewrite Hpk. }
  destruct (view_pop (place_flags modern p) i t pk Hpk Hwf) as (Hv & Hwf' & _).
  assert (Hsw : is_switch f = true) by (unfold is_switch; by rewrite Hk).
  assert (Hval : ∀ t inv g, flag_value (place_flags modern p) t g inv i = inr (f, v, i') →
    g = f ∧ i' = (next (place_flags modern p) i).2).
  { intros t0 inv g. unfold flag_value. destruct (is_switch g) eqn:Hg; [by intros [= -> _ <-]|].
    intros Hi. assert (g = f) as -> by (repeat case_match; by simplify_eq). congruence. }
  unfold parse_flag in H. rewrite Hp in H. destruct t as [s|n|c| |]; try done.
  - specialize (Hwf' ltac:(done)). destruct (find_long (place_flags modern p) n) as [g|] eqn:E.
    + destruct (find_long_Some _ _ _ E) as [Hin Hn]. apply Hval in H as [-> ->].
      split; [done|]. split; [by apply (exit_flags modern p f Hin Hk)|]. left. by rewrite Hv, Hn.
    + destruct (has_prefix n "no-") eqn:Hno; [|done].
      destruct (find_long (place_flags modern p) (str_drop 3 n)) as [g|] eqn:E2; [|done].
      destruct (find_long_Some _ _ _ E2) as [Hin Hn]. apply Hval in H as [-> ->].
      split; [done|]. split; [by apply (exit_flags modern p f Hin Hk)|]. right.
      rewrite Hv. simpl. by rewrite (str_drop_has_prefix n Hno), <-Hn.
  - destruct (find_short (place_flags modern p) c) as [g|] eqn:E; [|done].
    destruct (find_short_Some _ _ _ E) as (Hin & Hn & Hc). apply Hval in H as [-> ->].
    destruct (exit_flags modern p f Hin Hk) as [_ Hs]. congruence.
Qed.
Lemma parse_flag_shows modern a p k b t i f v i' :
  wf i → (∃ pk, peeked i = t :: pk) → t ≠ TEnd →
  parse_flag (place_flags modern p) i = inr (f, v, i') → f_kind f ≠ AExit →
  shows modern a p k b (view i') → shows modern a p k b (view i).
Proof.
  intros Hwf Hpk Ht H Hk Hsh. assert (Hp : peek (place_flags modern p) i = (t, i)).
  { unfold peek. destruct Hpk as [pk ->]. done. }
  unfold parse_flag in H. rewrite Hp in H. destruct t as [s|n|c| |]; try done.
  - destruct (find_long (place_flags modern p) n) as [g|] eqn:E.
    + destruct (find_long_Some _ _ _ E) as [Hin Hn].
      assert (g = f) as ->. { unfold flag_value in H. repeat case_match; by simplify_eq. }
      destruct (flag_value_sound modern p _ f false i v i' f Hwf Hpk Ht Hin Hk H)
        as (_ & Hwf' & [(Hs & -> & Hsw & Hv)|(Hs & _ & Hva & ws & Hv & Hval)]);
        rewrite Hv; simpl; rewrite <-Hn; [by eapply shows_switch|by eapply shows_valued].
    + destruct (has_prefix n "no-") eqn:Hno; [|done].
      destruct (find_long (place_flags modern p) (str_drop 3 n)) as [g|] eqn:E2; [|done].
      destruct (find_long_Some _ _ _ E2) as [Hin Hn].
      assert (g = f) as ->. { unfold flag_value in H. repeat case_match; by simplify_eq. }
      destruct (flag_value_sound modern p _ f true i v i' f Hwf Hpk Ht Hin Hk H)
        as (_ & Hwf' & [(Hs & -> & Hsw & Hv)|(Hs & ? & _)]); [|done].
      rewrite Hv. simpl. rewrite (str_drop_has_prefix n Hno), <-Hn. by eapply shows_no.
  - destruct (find_short (place_flags modern p) c) as [g|] eqn:E; [|done].
    destruct (find_short_Some _ _ _ E) as (Hin & Hn & Hc). destruct c as [c|]; [|done].
    assert (g = f) as ->. { unfold flag_value in H. repeat case_match; by simplify_eq. }
    destruct (flag_value_sound modern p _ f false i v i' f Hwf Hpk Ht Hin Hk H)
      as (_ & Hwf' & [(Hs & -> & Hsw & Hv)|(Hs & _ & Hva & ws & Hv & Hval)]); rewrite Hv; simpl.
    + rewrite Hn in Hsw. by eapply shows_switch_letter.
    + rewrite Hn in Hva. by eapply shows_valued_letter.
Qed.
Lemma find_help modern p w cl :
  find_command (place_subs modern p) w = Some cl → (∀ x, chosen (matched cl x) = ShowsUsage) → p = Top ∧ w = "help".
Proof.
  intros H Hs. assert (∃ k, list_find (λ c, w ∈ cmd_names c) (place_subs modern p) = Some (k, cl)) as (k & Hf).
  { unfold find_command in H. destruct (list_find _ _) as [[k c]|]; [|done]. simpl in H. simplify_eq. by exists k. }
  apply list_find_Some in Hf as (Hl & Hw & _). apply elem_of_list_lookup_2 in Hl.
  specialize (Hs (Context [] [] [] Nothing (Input [] [] false) [])).
  destruct p as [| |c]; simpl in Hl.
  - split; [done|]. repeat (apply elem_of_cons in Hl as [->|Hl]; [simpl in Hs; try done|]); [|by apply elem_of_nil in Hl].
    by apply elem_of_list_singleton in Hw.
  - repeat (apply elem_of_cons in Hl as [->|Hl]; [done|]). by apply elem_of_nil in Hl.
  - by apply elem_of_nil in Hl.
Qed.

Lemma place_room c : length (place_files c) = room (In c).
Proof. by destruct c. Qed.
Lemma shown_S fuel b x :
  shown (S fuel) b x =
  match step x with
  | inr x => shown fuel b x
  | inl r =>
      let '(t, i) := peek (known x) (inp x) in
      match chosen x with ShowsUsage => true | _ =>
      match t with
      | TLong _ | TShort _ =>
          match parse_flag (known x) i with
          | inl _ => false
          | inr (f, v, i') =>
              if decide (f_long f = "help") then
                shown fuel true (Context (known x) (subs x) (files x) (chosen x) i' (elements x ++ [EFlag f v]))
              else true
          end
      | TEnd => b || match r with Showed => true | _ => false end
      | _ => false
      end end
  end.
Proof. done. Qed.
(** Where a flag ends reading, it is one of kingpin's own. *)
Lemma step_flag_exit x r t i f v i' :
  step x = inl r → peek (known x) (inp x) = (t, i) → chosen x ≠ ShowsUsage →
  (∃ n, t = TLong n) ∨ (∃ c, t = TShort c) → parse_flag (known x) i = inr (f, v, i') → f_kind f = AExit.
Proof.
  intros Hst Hp Hc Ht Hf. revert Hst. unfold step. rewrite Hp. cbn [chosen with_input known subs files elements].
  destruct Ht as [[n ->]|[c ->]]; rewrite Hf; destruct (chosen x); try done; by destruct (f_kind f).
Qed.
(** The flag after a --debug without value must be known, or there is none and --help was
    given. *)
Lemma stray_shown modern x t1 i1 pk1 fuel b :
  at_place modern (In CRun) x → files x = place_files CRun → inp x = push t1 i1 → peeked i1 = t1 :: pk1 →
  shown fuel b x = true → (∀ s, t1 ≠ TArg s) →
  (t1 = TEnd ∧ b = true) ∨
  ∃ f, token_words t1 = [f] ∧ ((∃ n, t1 = TLong n) ∨ (∃ l, t1 = TShort (Some l))) ∧
    ∀ b, t1 = TShort b → ∃ g, find_short (place_flags modern (In CRun)) b = Some g.
Proof.
  intros (Hk & Hs & Hc & _) Hfl Hi Hpk Hst Hna. destruct fuel as [|fuel]; [done|].
  rewrite shown_S in Hst.
  assert (Hp : peek (known x) (inp x) = (t1, inp x)) by (rewrite Hi; by unfold peek, push).
  destruct t1 as [s|n|l| |].
  - by destruct (Hna s).
  - right. exists (Name n). split_and!; [done|left; by eexists|done].
  - destruct (find_short (place_flags modern (In CRun)) l) as [g|] eqn:E.
    + destruct l as [l|]; [|by rewrite find_short_None in E].
      right. exists (Letter l). split_and!; [done|right; by eexists|]. intros b0 [= <-]. by exists g.
    + exfalso. revert Hst. unfold step. rewrite Hp. cbn [chosen with_input subs known]. rewrite Hc. cbn [place_action].
      unfold parse_flag. rewrite Hp, Hk, E, Hs. done.
  - exfalso. revert Hst. unfold step. rewrite Hp. cbn [chosen with_input]. rewrite Hc. done.
  - left. split; [done|]. revert Hst. unfold step. rewrite Hp. cbn [chosen with_input subs]. rewrite Hc, Hs. cbn.
    rewrite Hc, Hfl. cbn. by destruct b.
Qed.

Lemma shown_sound modern : ∀ fuel p b x,
  at_place modern p x → wf (inp x) → shown fuel b x = true →
  shows modern true p (length (files x)) b (view (inp x)).
Proof.
  induction fuel as [|fuel IH]; intros p b x Hat Hwf; [done|]. rewrite shown_S.
  destruct (peek (known x) (inp x)) as [t i] eqn:Epeek.
  assert (Epk := Epeek). rewrite (proj1 Hat) in Epk.
  destruct (peek_sound modern p _ _ _ Hwf Epk) as (Hwfi & Hpk & Hr).
  assert (Hpeek2 : peek (place_flags modern p) i = (t, i)).
  { unfold peek. destruct Hpk as [pk ->]. done. }
  assert (Hrd : ∀ f v i', parse_flag (place_flags modern p) i = inr (f, v, i') → t ≠ TError →
    readable modern p (view (inp x)) (view i)).
  { intros f v i' Epf Hterr. destruct Hr as [Hr|[?|(b0 & -> & Hf)]]; [done|done|].
    exfalso. unfold parse_flag in Epf. by rewrite Hpeek2, Hf in Epf. }
  assert (Hch : chosen x ≠ ShowsUsage).
  { destruct Hat as (_ & _ & -> & _). apply action_shows. }
  destruct (step x) as [r|x'] eqn:Est.
  - (* the end *)
    assert (Hfcase : (∃ n, t = TLong n) ∨ (∃ c, t = TShort c) →
      match parse_flag (known x) i with
      | inl _ => false
      | inr (f, v, i') =>
          if decide (f_long f = "help") then
            shown fuel true (Context (known x) (subs x) (files x) (chosen x) i' (elements x ++ [EFlag f v]))
          else true
      end = true → shows modern true p (length (files x)) b (view (inp x))).
    { intros Ht E. destruct (parse_flag (known x) i) as [i'|[[f v] i']] eqn:Epf; [done|].
      assert (Hte : t ≠ TEnd ∧ t ≠ TError) by by destruct Ht as [[? ->]|[? ->]].
      pose proof (step_flag_exit x r t i f v i' Est Epeek Hch Ht Epf) as Hk.
      rewrite (proj1 Hat) in Epf.
      eapply shows_readable; [exact (Hrd f v i' Epf (proj2 Hte))|].
      destruct (parse_flag_exit modern p t i f v i' Hwfi Hpk (proj1 Hte) Epf Hk) as (Hwf' & Hn & Hv).
      destruct (decide (f_long f = "help")) as [Hh|Hh].
      - pose proof (IH p true (Context (known x) (subs x) (files x) (chosen x) i' (elements x ++ [EFlag f v])) Hat Hwf' E) as Hs.
        rewrite Hh in Hv. destruct Hv as [->| ->]; [by apply shows_help|by apply shows_no_help].
      - destruct Hn as [?|Hn]; [done|]. destruct Hv as [->| ->]; [by apply shows_now|by apply shows_no_now]. }
    intros E. assert (E' : match t with
      | TLong _ | TShort _ =>
          match parse_flag (known x) i with
          | inl _ => false
          | inr (f, v, i') =>
              if decide (f_long f = "help") then
                shown fuel true (Context (known x) (subs x) (files x) (chosen x) i' (elements x ++ [EFlag f v]))
              else true
          end
      | TEnd => b || match r with Showed => true | _ => false end
      | _ => false
      end = true) by by destruct (chosen x).
    clear E. destruct t as [s|n|l| |]; [done|by apply Hfcase; [left; eexists|]|by apply Hfcase; [right; eexists|]|done|].
    destruct Hr as [Hr|[?|(? & ? & _)]]; [|done|done]. destruct Hpk as [pk Hpk].
    eapply shows_readable; [done|]. rewrite (end_view i pk) by done.
    destruct b; [apply shows_helped|]. destruct r; try done.
    revert Est. unfold step. rewrite Epeek. destruct Hat as (Hk & Hs & Hc & Hfl).
    cbn [chosen with_input subs files known elements inp]. rewrite Hc.
    destruct p as [| |c'].
    + intros _. apply shows_end.
    + intros Est. exfalso. revert Est. rewrite Hs. simpl. by rewrite Hfl.
    + intros Est. exfalso. revert Est. rewrite Hs. simpl. rewrite Hc. simpl. by destruct (files x).
  - intros Hsteps.
    destruct (decide (t = TError)) as [->|Hterr].
    { exfalso. revert Est. unfold step. rewrite Epeek. cbn [chosen with_input]. by destruct (chosen x). }
    assert (Hflagcase : (∃ n, t = TLong n) ∨ (∃ l, t = TShort l) →
      shows modern true p (length (files x)) b (view (inp x))).
    { intros Hkind. assert (Hte : t ≠ TEnd) by by destruct Hkind as [[? ->]|[? ->]].
      assert (Hst : match parse_flag (known x) i with
        | inl i' => match default_command (subs x) with
            | Some c => inr (matched c (with_input i' x)) | None => inl Failed end
        | inr (f, v, i') => match f_kind f with AExit => inl Showed
            | _ => inr (Context (known x) (subs x) (files x) (chosen x) i' (elements x ++ [EFlag f v])) end
        end = inr x').
      { rewrite <-Est. unfold step. rewrite Epeek. cbn [chosen with_input subs files known elements inp].
        destruct (chosen x); try done; destruct Hkind as [[? ->]|[? ->]]; done. }
      clear Est. rewrite (proj1 Hat) in Hst.
      destruct (parse_flag (place_flags modern p) i) as [i'|[[f v] i']] eqn:Epf.
      - (* an error *)
        destruct p as [| |c0].
        { exfalso. revert Hst. by rewrite (proj1 (proj2 Hat)). }
        2:{ exfalso. revert Hst. by rewrite (proj1 (proj2 Hat)). }
        destruct (default_at_book modern (with_input i' x) Hat) as (Hd & Hat' & Hfl').
        cbn [subs with_input] in Hd. rewrite Hd in Hst. injection Hst as <-.
        destruct (parse_flag_error modern Book t i i' Hwfi Hpk Hte Hkind eq_refl Epf)
          as [->|(-> & t1 & i1 & Hview & Hwf1 & Hpk1 & Hna & ->)].
        + exfalso. destruct fuel as [|fuel]; [done|]. rewrite shown_S in Hsteps.
          revert Hsteps. unfold step. cbn [known inp]. rewrite (proj1 Hat), Hpeek2.
          cbn [chosen with_input subs files known elements inp].
          destruct Hkind as [[n ->]|[l ->]]; rewrite Epf; done.
        + assert (Hx1 : inp (matched run_clause (with_input (push t1 i1) x)) = push t1 i1) by done.
          destruct (peek_sound modern Book _ _ _ Hwf1 Hpk1) as (Hwf2 & [pk1 Hpk2] & Hr1).
          assert (Hrd0 : readable modern Book (view (inp x)) (view i)).
          { destruct Hr as [Hr|[?|(b0 & ? & Hf)]]; done. }
          apply (shows_readable _ _ _ _ _ _ _ Hrd0). rewrite Hview.
          destruct (stray_shown modern _ t1 i1 pk1 _ b Hat' Hfl' Hx1 Hpk2 Hsteps Hna) as [[-> ->]|(f & Htw & Hflag & Hsh)].
          { apply shows_stray_end; [done|]. destruct Hr1 as [Hr1|[?|(? & ? & _)]]; [|done|done].
            rewrite (end_view i1 pk1) in Hr1 by done. destruct Hr1 as [->|?]; [by left|by right]. }
          assert (Hrd1 : readable modern Book (view (next (place_flags modern Book) i).2) (view i1)).
          { destruct Hr1 as [?|[->|(b0 & -> & Hf)]]; [done|by destruct Hflag as [[]|[]]|].
            exfalso. destruct (Hsh (Some b0) eq_refl) as [g Hg]. by rewrite place_flags_run in Hg; rewrite Hf in Hg. }
          destruct (view_pop (place_flags modern Book) i1 t1 pk1 Hpk2 Hwf2) as (Hv1 & _ & _).
          rewrite Htw in Hv1. simpl in Hv1. set (rest1 := view (next (place_flags modern Book) i1).2) in *.
          assert (Hv2 : view (push t1 i1) = f :: f :: rest1).
          { unfold push. rewrite view_peeked, Htw. simpl. destruct i1 as [pk' wds1 b1]. simpl in *. by rewrite Hv1. }
          assert (Hwf3 : wf (push t1 i1)).
          { unfold push. destruct i1 as [pk' wds1 b1]. simpl in *. subst pk'. left. simpl.
            destruct Hwf2 as [Hw|[Hw _]]; simpl in Hw; [set_solver|].
            injection Hw as -> ->. by destruct Hflag as [[]|[]]. }
          pose proof (IH (In CRun) b _ Hat' Hwf3 Hsteps) as Hsay. rewrite Hx1, Hv2, Hfl' in Hsay.
          apply (shows_stray _ _ _ _ _ f rest1); [done| | |done].
          -- rewrite <-Hv1. destruct Hrd1 as [->|?]; [by left|by right].
          -- destruct Hflag as [[n ->]|[l ->]]; simpl in Htw; injection Htw as <-; [left|right]; by eexists.
      - (* a flag *)
        destruct (decide (f_kind f = AExit)) as [Hx|Hx]; [by rewrite Hx in Hst|].
        assert (x' = Context (known x) (subs x) (files x) (chosen x) i' (elements x ++ [EFlag f v])) as ->.
        { rewrite (proj1 Hat). destruct (f_kind f); try done; by simplify_eq. }
        destruct (parse_flag_sound modern p t i f v i' Hwfi Hpk Hte Epf Hx) as (Hin & Hwf' & _).
        specialize (Hrd f v i' eq_refl Hterr).
        pose proof (IH p b (Context (known x) (subs x) (files x) (chosen x) i' (elements x ++ [EFlag f v]))
          Hat Hwf' Hsteps) as Hs.
        eapply shows_readable; [done|]. by eapply parse_flag_shows. }
    destruct t as [s|n|l| |]; [|by apply Hflagcase; left; eexists|by apply Hflagcase; right; eexists|done|].
    2:{ exfalso. revert Est. unfold step. rewrite Epeek. repeat case_match; done. }
    clear Hflagcase Hrd.
    destruct Hr as [Hr|[?|(? & ? & _)]]; [|done|done].
    destruct Hpk as [pk Hpk].
    destruct (view_pop (place_flags modern p) i _ pk Hpk Hwfi) as (Hv & Hwf' & _).
    specialize (Hwf' ltac:(done)). simpl in Hv.
    revert Est. unfold step. rewrite Epeek. cbn [chosen with_input subs files known elements inp].
    destruct Hat as (Hk & Hs & Hc & Hfl). rewrite Hc, Hs, Hk.
    assert (Hfound : ∀ cl, find_command (place_subs modern p) s = Some cl →
      x' = matched cl (with_input (next (place_flags modern p) i).2 (with_input i x)) →
      shows modern true p (length (files x)) b (view (inp x))).
    { intros cl Efc ->. set (x2 := with_input (next (place_flags modern p) i).2 (with_input i x)) in *.
      destruct (find_command_sound modern p s cl Efc) as [(p' & Hl & _)|Hshow].
      * destruct (leads_found modern p s p' Hl) as (cl' & Hcl' & Hat').
        rewrite Efc in Hcl'. injection Hcl' as <-.
        destruct (Hat' x2) as [Hat2 Hfl2]; [done|].
        assert (Hinp : inp (matched cl x2) = (next (place_flags modern p) i).2) by by destruct cl.
        assert (Hroom : length (files (matched cl x2)) = room p').
        { destruct p' as [| |c']; [by rewrite (proj2 (proj2 (proj2 Hat2)))..|]. rewrite Hfl2. apply place_room. }
        pose proof (IH p' b _ Hat2 ltac:(by rewrite Hinp) Hsteps) as Hsay.
        rewrite Hinp, Hroom in Hsay. eapply shows_readable; [done|]. rewrite Hv. by eapply shows_command.
      * destruct (find_help modern p s cl Efc Hshow) as [-> ->].
        eapply shows_readable; [done|]. rewrite Hv. apply shows_help_command. }
    destruct p as [| |c0].
    + cbn [place_action]. destruct (place_subs modern Top) as [|c1 cs] eqn:Ecs; [done|]. rewrite <-Ecs in *.
      destruct (find_command (place_subs modern Top) s) as [cl|] eqn:Efc; [|clear; intros Hst; exfalso; revert Hst; by destruct modern].
      intros [= <-]. by eapply Hfound.
    + cbn [place_action]. destruct (place_subs modern Book) as [|c1 cs] eqn:Ecs; [done|]. rewrite <-Ecs in *.
      destruct (find_command (place_subs modern Book) s) as [cl|] eqn:Efc.
      * intros [= <-]. by eapply Hfound.
      * intros Hst. rewrite Ecs in Hst. rewrite <-Ecs in Hst.
        assert (Hat1 : at_place modern Book (with_input i x)) by done.
        destruct (default_at_book modern _ Hat1) as (Hd & Hat2 & Hfl2).
        cbn [subs with_input] in Hd. rewrite Hs in Hd. rewrite Hd in Hst. injection Hst as <-.
        pose proof (IH (In CRun) b _ Hat2 Hwfi Hsteps) as Hsay.
        rewrite Hfl2 in Hsay. eapply shows_readable; [done|]. rewrite Hv. apply shows_default; [by eapply leads_Book|].
        rewrite <-Hv. done.
    + cbn [place_action place_subs]. destruct (files x) as [|fl rest] eqn:Efl; [done|].
      intros [= <-].
      pose proof (IH (In c0) b (Context (place_flags modern (In c0)) [] rest (Becomes c0) (next (place_flags modern (In c0)) i).2
          (elements x ++ [EFile fl s])) ltac:(done) Hwf' Hsteps) as Hsay.
      eapply shows_readable; [done|]. rewrite Hv. simpl. by apply shows_arg.
Qed.

(** * A line that asks for the usage shows it *)
Lemma help_found modern p n :
  n = "help" ∨ n ∈ at_once →
  (∃ f, find_long (place_flags modern p) n = Some f ∧ is_switch f = true ∧ f_kind f = AExit ∧ f_long f = n) ∧
  find_long (place_flags modern p) ("no-" +:+ n) = None.
Proof.
  intros Hn. assert (H : Forall (λ n,
    match find_long (place_flags modern p) n with
    | Some f => is_switch f = true ∧ f_kind f = AExit ∧ f_long f = n | None => False end ∧
    find_long (place_flags modern p) ("no-" +:+ n) = None) ("help" :: at_once)).
  { unfold at_once. repeat (apply list.Forall_cons; split; [by destruct modern, p as [| |[]]|]). by apply list.Forall_nil. }
  rewrite Forall_forall in H. destruct (H n) as [H1 H2].
  { destruct Hn as [->|?]; [by left|by right]. }
  split; [|done]. destruct (find_long (place_flags modern p) n) as [f|]; [by exists f|done].
Qed.
Lemma shown_peeked fuel b x : shown fuel b (with_input (peek (known x) (inp x)).2 x) = shown fuel b x.
Proof.
  destruct fuel as [|fuel]; [done|]. rewrite !shown_S, step_peeked. destruct (step x); [|done].
  cbn [known inp chosen subs files elements with_input]. rewrite peek_peek. by destruct (peek (known x) (inp x)).
Qed.
(** A flag of kingpin's own. *)
Lemma shown_exit fuel b x t f v i' :
  chosen x ≠ ShowsUsage → peek (known x) (inp x) = (t, inp x) →
  (∃ n, t = TLong n) ∨ (∃ c, t = TShort c) →
  parse_flag (known x) (inp x) = inr (f, v, i') → f_kind f = AExit →
  shown (S fuel) b x =
    if decide (f_long f = "help") then
      shown fuel true (Context (known x) (subs x) (files x) (chosen x) i' (elements x ++ [EFlag f v]))
    else true.
Proof.
  intros Hc Hp Ht Hf Hk. rewrite shown_S.
  assert (step x = inl Showed) as ->.
  { destruct x as [k s fl ch i es]. simpl in *. unfold step. simpl. rewrite Hp. simpl.
    destruct ch; [| |done]; (destruct Ht as [[n ->]|[c1 ->]]; rewrite Hf, Hk; done). }
  rewrite Hp. destruct (chosen x); [| |done]; (destruct Ht as [[n ->]|[c1 ->]]; rewrite Hf; done).
Qed.
Lemma shown_mono fuel fuel' b x : shown fuel b x = true → (fuel ≤ fuel')%nat → shown fuel' b x = true.
Proof.
  revert fuel' b x. induction fuel as [|fuel IH]; intros fuel' b x H Hle; [done|].
  destruct fuel' as [|fuel']; [lia|]. rewrite shown_S in *. destruct (step x); [|apply IH; [done|lia]].
  destruct (peek (known x) (inp x)) as [t i]. destruct (chosen x); [| |done].
  all: destruct t; try done; destruct (parse_flag (known x) i) as [|[[f v] i']]; try done.
  all: destruct (decide (f_long f = "help")); [apply IH; [done|lia]|done].
Qed.
(** --debug without value, followed by a flag or by nothing. *)
Lemma stray_step modern x ws t1 i1 :
  at_place modern Book x → wf (inp x) → view (inp x) = Name "debug" :: ws →
  peek (place_flags modern Book) (next (place_flags modern Book) (inp x)).2 = (t1, i1) → (∀ s, t1 ≠ TArg s) →
  step x = inr (matched run_clause (with_input (push t1 i1) x)).
Proof.
  intros Hat Hwf Hview Hp1 Hna.
  destruct (valued_long modern Book "debug" None ltac:(by left)) as (g & Hg & Hsw & Hk & Hgn).
  destruct (peek_name (known x) (inp x) "debug" ws Hwf Hview) as (Hp & Hw & Hwf2).
  set (fs := place_flags modern Book) in *.
  assert (Hkn : known x = fs) by apply Hat. rewrite Hkn in *.
  assert (Hat1 : at_place modern Book (with_input (push t1 i1) x)) by done.
  destruct (default_at_book modern _ Hat1) as (Hd & Hat2 & Hfl2).
  unfold step. rewrite Hkn, Hp. cbn [chosen with_input subs known files elements].
  destruct Hat as (_ & Hsu & Hc & _). rewrite Hc. cbn [place_action].
  assert (Hpf : parse_flag fs (inp x) = inl (push t1 i1)).
  { unfold parse_flag. rewrite Hp, Hg. unfold flag_value. rewrite Hsw, Hp1.
    destruct t1 as [s| | | |]; [by destruct (Hna s)|done..]. }
  rewrite ?Hkn, Hpf. cbn [subs with_input] in Hd. rewrite Hd. by destruct x.
Qed.

Lemma shows_shown modern a : ∀ p k b ws,
  shows modern a p k b ws →
  ∀ x, at_place modern p x → wf (inp x) → view (inp x) = ws →
  (∀ c, p = In c → length (files x) = k) → ∃ fuel, shown fuel b x = true.
Proof.
  assert (Hone : ∀ p x t f v i' (k : nat) b,
    at_place modern p x → peek (known x) (inp x) = (t, inp x) →
    (∃ n, t = TLong n) ∨ (∃ c, t = TShort c) →
    parse_flag (known x) (inp x) = inr (f, v, i') → f_kind f ≠ AExit → wf i' →
    (∀ x0, at_place modern p x0 → wf (inp x0) → view (inp x0) = view i' →
      (∀ c, p = In c → length (files x0) = k) → ∃ fuel, shown fuel b x0 = true) →
    (∀ c, p = In c → length (files x) = k) → ∃ fuel, shown fuel b x = true).
  { intros p x t f v i' k b Hat Hpk Ht Hpf Hk Hwf IH Hlen.
    destruct (IH (Context (known x) (subs x) (files x) (chosen x) i' (elements x ++ [EFlag f v])))
      as (fuel & Hs); [done|done|done|done|].
    exists (S fuel). rewrite shown_S.
    erewrite step_flag; [done|by destruct Hat as (_ & _ & -> & _); apply action_shows|done|done|done|done]. }
  induction 1 as [k b|p k|k b ws|p k b n ws Hn|p k b n ws Hn|p k b ws Hs IH|p k b ws Hs IH
    |p k b ws ws' Hr _ IH|p k b n sh ws v rest Hn Hv Hs IH
    |p k b n l ws v rest Hn Hv Hs IH|p k b n sh ws Hn Hs IH|p k b n sh ws Hn Hs IH|p k b n l ws Hn Hs IH
    |w ws c k b Hs IH|p k b w p' ws Hl Hs IH|k b w ws Hl Hs IH|k b ws f rest Ha Hr Hflag Hs IH|k ws Ha Hr];
    intros x Hat Hwf Hview Hlen.
  - (* nothing *)
    exists 1%nat. rewrite shown_S. unfold step. destruct Hat as (Hk & Hsu & Hc & Hfl).
    destruct (peek (known x) (inp x)) as [t i0] eqn:E.
    pose proof (peek_nil (known x) (inp x) Hwf Hview) as Ht. rewrite E in Ht. simpl in Ht. subst t. simpl.
    rewrite Hc, Hsu. destruct modern; simpl; rewrite Hc; by destruct b.
  - (* nothing more after --help *)
    exists 1%nat. rewrite shown_S.
    assert (Hch : chosen x ≠ ShowsUsage).
    { destruct Hat as (_ & _ & -> & _). apply action_shows. }
    destruct (peek (known x) (inp x)) as [t i0] eqn:E.
    pose proof (peek_nil (known x) (inp x) Hwf Hview) as Ht. rewrite E in Ht. simpl in Ht. subst t.
    destruct (step x) as [r|x'] eqn:Est; [by destruct (chosen x)|]. exfalso. revert Est. unfold step. rewrite E.
    repeat case_match; done.
  - (* help *)
    destruct (peek_lit (known x) (inp x) "help" ws Hwf Hview) as (Hp & _).
    exists 2%nat. rewrite shown_S. unfold step. destruct Hat as (Hk & Hsu & Hc & Hfl).
    destruct (peek (known x) (inp x)) as [t i0]. simpl in Hp. subst t.
    cbn [chosen with_input subs known]. rewrite Hc, Hsu. cbn [place_action].
    assert (∃ cl c0 cs, place_subs modern Top = c0 :: cs ∧ find_command (c0 :: cs) "help" = Some cl ∧
      ∀ y, chosen (matched cl y) = ShowsUsage) as (cl & c0 & cs & Ecs & Efc & Hch).
    { destruct modern; do 3 eexists; by split_and!. }
    rewrite Ecs, Efc, shown_S. unfold step. destruct (peek _ _) as [t i1]. cbn [chosen with_input]. by rewrite Hch.
  - (* --help-long *)
    destruct (help_found modern p n (or_intror Hn)) as [(f & Hf & Hsw & Hk & Hfn) _].
    destruct (peek_name (known x) (inp x) n ws Hwf Hview) as (Hp & Hw & Hwf2).
    exists 1%nat. erewrite shown_exit; [|by destruct Hat as (_ & _ & -> & _); apply action_shows|exact Hp|by left; eexists| |exact Hk].
    + rewrite decide_False; [done|]. rewrite Hfn. intros ->. revert Hn. apply (bool_decide_unpack _). vm_compute. exact I.
    + unfold parse_flag. rewrite Hp, (proj1 Hat), Hf. by apply flag_value_switch.
  - (* --no-help-long *)
    destruct (help_found modern p n (or_intror Hn)) as [(f & Hf & Hsw & Hk & Hfn) Hno].
    destruct (peek_name (known x) (inp x) _ ws Hwf Hview) as (Hp & Hw & Hwf2).
    exists 1%nat. erewrite shown_exit; [|by destruct Hat as (_ & _ & -> & _); apply action_shows|exact Hp|by left; eexists| |exact Hk].
    + rewrite decide_False; [done|]. rewrite Hfn. intros ->. revert Hn. apply (bool_decide_unpack _). vm_compute. exact I.
    + unfold parse_flag. rewrite Hp, (proj1 Hat), Hno, has_prefix_no, str_drop_no, Hf. by apply flag_value_switch.
  - (* --help *)
    destruct (help_found modern p "help" (or_introl eq_refl)) as [(f & Hf & Hsw & Hk & Hfn) _].
    destruct (peek_name (known x) (inp x) "help" ws Hwf Hview) as (Hp & Hw & Hwf2).
    assert (Hpf : parse_flag (known x) (inp x) = inr (f, "true", (next (known x) (inp x)).2)).
    { unfold parse_flag. rewrite Hp, (proj1 Hat), Hf. by apply flag_value_switch. }
    destruct (IH (Context (known x) (subs x) (files x) (chosen x) (next (known x) (inp x)).2 (elements x ++ [EFlag f "true"])))
      as (fuel & Hst); [done|done|done|done|].
    exists (S fuel).
    erewrite shown_exit; [|by destruct Hat as (_ & _ & -> & _); apply action_shows|exact Hp|by left; eexists|exact Hpf|exact Hk].
    by rewrite decide_True.
  - (* --no-help *)
    destruct (help_found modern p "help" (or_introl eq_refl)) as [(f & Hf & Hsw & Hk & Hfn) Hno].
    destruct (peek_name (known x) (inp x) _ ws Hwf Hview) as (Hp & Hw & Hwf2).
    assert (Hpf : parse_flag (known x) (inp x) = inr (f, "false", (next (known x) (inp x)).2)).
    { unfold parse_flag. rewrite Hp, (proj1 Hat). change "no-help" with ("no-" +:+ "help").
      rewrite Hno, has_prefix_no, str_drop_no, Hf. by apply flag_value_switch. }
    destruct (IH (Context (known x) (subs x) (files x) (chosen x) (next (known x) (inp x)).2 (elements x ++ [EFlag f "false"])))
      as (fuel & Hst); [done|done|done|done|].
    exists (S fuel).
    erewrite shown_exit; [|by destruct Hat as (_ & _ & -> & _); apply action_shows|exact Hp|by left; eexists|exact Hpf|exact Hk].
    by rewrite decide_True.
  - (* a word is read *)
    subst ws. destruct (peek_reads modern p (inp x) ws' Hwf Hr) as [H1 H2].
    destruct (IH (with_input (peek (known x) (inp x)).2 x)) as (fuel & Hst).
    + done.
    + simpl. by rewrite (proj1 Hat).
    + simpl. by rewrite (proj1 Hat).
    + done.
    + exists fuel. by rewrite <-Hst, shown_peeked.
  - (* --name value *)
    destruct (valued_long modern p n sh Hn) as (f & Hf & Hsw & Hk & Hfn).
    destruct (peek_name (known x) (inp x) n ws Hwf Hview) as (Hp & Hw & Hwf2).
    rewrite (proj1 Hat) in *.
    destruct (value_found _ _ _ _ _ Hv _ Hwf2 Hw) as (Hp1 & Hp2 & Hp3). subst n.
    eapply Hone; [done|rewrite (proj1 Hat); exact Hp|by left; eexists| |done|exact Hp3| |done].
    + rewrite (proj1 Hat). unfold parse_flag. rewrite Hp, Hf. by apply flag_value_valued.
    + intros x0 ? ? Hv0 ?. apply IH; [done|done|by rewrite Hv0|done].
  - (* -c value *)
    destruct (valued_short modern p n l Hn) as (_ & f & Hf & Hsw & Hk & Hfn).
    destruct (peek_letter (known x) (inp x) l ws Hwf Hview) as (Hp & Hw & Hwf2).
    rewrite (proj1 Hat) in *.
    destruct (value_found _ _ _ _ _ Hv _ Hwf2 Hw) as (Hp1 & Hp2 & Hp3). subst n.
    eapply Hone; [done|rewrite (proj1 Hat); exact Hp|by right; eexists| |done|exact Hp3| |done].
    + rewrite (proj1 Hat). unfold parse_flag. rewrite Hp, Hf. by apply flag_value_valued.
    + intros x0 ? ? Hv0 ?. apply IH; [done|done|by rewrite Hv0|done].
  - (* --name *)
    destruct (switch_long modern p n sh Hn) as (_ & f & Hf & Hsw & Hk & Hfn).
    destruct (peek_name (known x) (inp x) n ws Hwf Hview) as (Hp & Hw & Hwf2).
    rewrite (proj1 Hat) in *. subst n.
    eapply (Hone p x _ f "true" _ k b); [done|rewrite (proj1 Hat); exact Hp|by left; eexists| |done|exact Hwf2| |done].
    + rewrite (proj1 Hat). unfold parse_flag. rewrite Hp, Hf. by apply flag_value_switch.
    + intros x0 ? ? Hv0 ?. apply IH; [done|done|by rewrite Hv0|done].
  - (* --no-name *)
    destruct (switch_long modern p n sh Hn) as (Hno & f & Hf & Hsw & Hk & Hfn).
    destruct (peek_name (known x) (inp x) _ ws Hwf Hview) as (Hp & Hw & Hwf2).
    rewrite (proj1 Hat) in *. subst n.
    eapply (Hone p x _ f "false" _ k b); [done|rewrite (proj1 Hat); exact Hp|by left; eexists| |done|exact Hwf2| |done].
    + rewrite (proj1 Hat). unfold parse_flag. rewrite Hp, Hno, has_prefix_no, str_drop_no, Hf.
      by apply flag_value_switch.
    + intros x0 ? ? Hv0 ?. apply IH; [done|done|by rewrite Hv0|done].
  - (* -c *)
    destruct (switch_short modern p n l Hn) as (_ & f & Hf & Hsw & Hk & Hfn).
    destruct (peek_letter (known x) (inp x) l ws Hwf Hview) as (Hp & Hw & Hwf2).
    rewrite (proj1 Hat) in *. subst n.
    eapply (Hone p x _ f "true" _ k b); [done|rewrite (proj1 Hat); exact Hp|by right; eexists| |done|exact Hwf2| |done].
    + rewrite (proj1 Hat). unfold parse_flag. rewrite Hp, Hf. by apply flag_value_switch.
    + intros x0 ? ? Hv0 ?. apply IH; [done|done|by rewrite Hv0|done].
  - (* an argument *)
    destruct (peek_lit (known x) (inp x) w ws Hwf Hview) as (Hp & Hw & Hwf2).
    destruct Hat as (Hk & Hsu & Hc & _). specialize (Hlen c eq_refl).
    destruct (files x) as [|fl rest] eqn:Hfl; [done|]. injection Hlen as Hlen.
    destruct (IH (Context (known x) [] rest (chosen x) (next (known x) (peek (known x) (inp x)).2).2
      (elements x ++ [EFile fl w]))) as (fuel & Hst); [done|done|done|done|].
    exists (S fuel). rewrite shown_S. unfold step.
    destruct (peek (known x) (inp x)) as [t i0]. simpl in Hp. subst t. simpl.
    rewrite Hc in Hst |- *. rewrite Hsu, Hfl. cbn [snd elements] in Hst. cbn [place_action place_subs] in *.
    exact Hst.
  - (* a command *)
    destruct (leads_found modern p w p' Hl) as (cl & Hcl & Hat').
    destruct (peek_lit (known x) (inp x) w ws Hwf Hview) as (Hp & Hw & Hwf2).
    destruct (Hat' (with_input (next (known x) (peek (known x) (inp x)).2).2 x)) as [Hat2 Hfl2]; [done|].
    assert (Hinp : ∀ y, inp (matched cl y) = inp y) by by destruct cl.
    destruct (IH (matched cl (with_input (next (known x) (peek (known x) (inp x)).2).2 x)))
      as (fuel & Hst); [done|by rewrite Hinp|by rewrite Hinp| |].
    { intros c ->. rewrite Hfl2. apply place_room. }
    exists (S fuel). rewrite shown_S. unfold step.
    destruct Hat as (Hk & Hsu & Hc & _).
    destruct (peek (known x) (inp x)) as [t i0]. simpl in Hp. subst t. cbn [snd] in *.
    cbn [chosen with_input subs known].
    rewrite Hc. pose proof (action_shows p). rewrite Hsu.
    destruct (place_subs modern p) as [|c0 cs] eqn:Ecs; [done|].
    destruct (place_action p); try done.
    all: rewrite Hcl; exact Hst.
  - (* the default *)
    destruct (peek_lit (known x) (inp x) w ws Hwf Hview) as (Hp & Hw & Hwf2).
    set (x' := with_input (peek (known x) (inp x)).2 x).
    assert (Hat2 : at_place modern Book x') by done.
    destruct (default_at_book modern x' Hat2) as (Hd & Hat3 & Hfl).
    assert (Hview' : view (peek (known x) (inp x)).2 = Lit w :: ws ∧ wf (peek (known x) (inp x)).2).
    { destruct (inp x) as [[|t pk] wds b']; [|done]. unfold view in Hview |- *.
      destruct wds as [|w' wds]; [done|]. destruct b'; [|done]. simpl in *. split; [done|].
      left. set_solver. }
    destruct (IH (matched run_clause x')) as (fuel & Hst).
    + done.
    + apply Hview'.
    + apply Hview'.
    + intros c _. by rewrite Hfl.
    + exists (S fuel). rewrite shown_S. unfold step.
      destruct Hat as (Hk & Hsu & Hc & _). subst x'.
      destruct (peek (known x) (inp x)) as [t i0]. simpl in Hp. subst t. cbn [snd] in *.
      cbn [chosen with_input subs known]. rewrite Hc. cbn [place_action]. rewrite Hsu.
      pose proof (not_leads modern w Hl) as Hnl. cbn [subs with_input] in Hd. rewrite Hsu in Hd.
      change (place_subs modern Book) with [list_clause; dot_clause; eval_clause; run_clause] in *.
      cbn iota. by rewrite Hnl, Hd.
  - (* --debug followed by a flag *)
    destruct (peek_name (known x) (inp x) "debug" ws Hwf Hview) as (Hp & Hw & Hwf2).
    set (fs := place_flags modern Book) in *.
    assert (Hkn : known x = fs) by apply Hat. rewrite Hkn in *.
    assert (∃ t1 i1, peek fs (next fs (inp x)).2 = (t1, i1) ∧ wf i1 ∧ view i1 = f :: rest ∧
      token_words t1 = [f] ∧ (∀ s, t1 ≠ TArg s)) as (t1 & i1 & Hp1 & Hwf3 & Hv1 & Htw & Hna).
    { assert (view (peek fs (next fs (inp x)).2).2 = f :: rest ∧ wf (peek fs (next fs (inp x)).2).2) as [Hv1 Hwf3].
      { destruct Hr as [->|Hr].
        - destruct Hflag as [[n ->]|[l ->]].
          + by destruct (peek_name fs _ n rest Hwf2 Hw) as (-> & _).
          + by destruct (peek_letter fs _ l rest Hwf2 Hw) as (-> & _).
        - rewrite <-Hw in Hr. by apply peek_reads. }
      destruct Hflag as [[n ->]|[l ->]].
      - destruct (peek_name fs _ n rest Hwf3 Hv1) as (Hpp & _). rewrite peek_peek in Hpp.
        exists (TLong n), (peek fs (next fs (inp x)).2).2. by split_and!.
      - destruct (peek_letter fs _ l rest Hwf3 Hv1) as (Hpp & _). rewrite peek_peek in Hpp.
        exists (TShort (Some l)), (peek fs (next fs (inp x)).2).2. by split_and!. }
    assert (Hat1 : at_place modern Book (with_input (push t1 i1) x)) by done.
    destruct (default_at_book modern _ Hat1) as (Hd & Hat2 & Hfl2).
    destruct (IH (matched run_clause (with_input (push t1 i1) x))) as (fuel & Hst).
    + done.
    + change (wf (push t1 i1)). unfold push. destruct i1 as [pk wds b0]. left. simpl in *.
      destruct Hwf3 as [Hw3|[Hw3 Hw4]]; simpl in *; [set_solver|]. subst.
      destruct Hflag as [[? ->]|[? ->]]; by destruct b0.
    + change (view (push t1 i1) = f :: f :: rest). unfold push. rewrite view_peeked, Htw. simpl. f_equal. by destruct i1.
    + intros c _. by rewrite Hfl2.
    + exists (S fuel). rewrite shown_S. by rewrite (stray_step modern x ws t1 i1 Hat Hwf Hview Hp1 Hna).
  - (* --debug at the end *)
    destruct (peek_name (known x) (inp x) "debug" ws Hwf Hview) as (Hp & Hw & Hwf2).
    set (fs := place_flags modern Book) in *.
    assert (Hkn : known x = fs) by apply Hat. rewrite Hkn in *.
    destruct (peek fs (next fs (inp x)).2) as [t1 i1] eqn:Hp1.
    assert (view i1 = [] ∧ wf i1 ∧ t1 = TEnd) as (Hv1 & Hwf3 & ->).
    { destruct Hr as [->|Hr].
      - pose proof (peek_nil fs _ Hwf2 Hw) as Ht. rewrite Hp1 in Ht. simpl in Ht. subst t1.
        destruct (peek_sound modern Book _ _ _ Hwf2 Hp1) as (Hwf3 & [pk Hpk] & _).
        split_and!; [by eapply end_view|done|done].
      - rewrite <-Hw in Hr. destruct (peek_reads modern Book _ [] Hwf2 Hr) as [H1 H2]. fold fs in H1, H2. rewrite Hp1 in H1, H2.
        simpl in H1, H2. pose proof (peek_nil fs i1 H2 H1) as Ht.
        assert (Hpp := peek_peek fs (next fs (inp x)).2). rewrite Hp1 in Hpp. simpl in Hpp. rewrite Hpp in Ht. by split_and!. }
    assert (Hat1 : at_place modern Book (with_input (push TEnd i1) x)) by done.
    destruct (default_at_book modern _ Hat1) as (Hd & Hat2 & Hfl2).
    exists 2%nat. rewrite shown_S. rewrite (stray_step modern x ws TEnd i1 Hat Hwf Hview Hp1) by done.
    rewrite shown_S. set (y := matched run_clause (with_input (push TEnd i1) x)) in *.
    assert (Ey : peek (known y) (inp y) = (TEnd, inp y)) by done. clearbody y.
    destruct (step y) as [r|x'] eqn:Est; [rewrite Ey; by destruct (chosen y)|]. exfalso. revert Est. unfold step. rewrite Ey.
    repeat case_match; done.
Qed.

(** * The fuel is enough *)
Lemma shown_enough modern n : ∀ p b x m,
  at_place modern p x → (2 + level p + size (inp x) ≤ n)%nat → shown m b x = true → shown n b x = true.
Proof.
  induction n as [|n IH]; intros p b x m Hat Hle; [lia|]. destruct m as [|m]; [done|]. rewrite !shown_S.
  destruct (step x) as [r|x'] eqn:Est.
  - pose proof (peek_size (known x) (inp x)) as H1. destruct (peek_top (known x) (inp x)) as [pk Hpk].
    destruct (peek (known x) (inp x)) as [t i]. simpl in H1, Hpk.
    assert (Hflag : t ≠ TEnd → ∀ f v i', parse_flag (known x) i = inr (f, v, i') →
      shown m true (Context (known x) (subs x) (files x) (chosen x) i' (elements x ++ [EFlag f v])) = true →
      shown n true (Context (known x) (subs x) (files x) (chosen x) i' (elements x ++ [EFlag f v])) = true).
    { intros Ht f v i' E. pose proof (parse_flag_size (known x) i t pk Hpk Ht) as Hsz. rewrite E in Hsz.
      apply (IH p); [done|]. simpl. lia. }
    destruct (chosen x); [| |done].
    all: destruct t; try done; destruct (parse_flag (known x) i) as [|[[f v] i']]; try done.
    all: destruct (decide (f_long f = "help")); [by apply Hflag|done].
  - destruct (step_size modern p x x' Hat Est) as [Hs|(p' & Hat' & Hlt)].
    + intros _. destruct n as [|n]; [lia|]. rewrite shown_S.
      destruct x' as [k2 s2 f2 ch2 i2 e2]. simpl in Hs. subst ch2.
      unfold step. cbn [known inp chosen with_input]. by destruct (peek k2 i2).
    + apply (IH p'); [done|lia].
Qed.
(** Reading ends at the flag, or the end, that shows the usage. *)
Lemma shown_showed modern fuel : ∀ p x, at_place modern p x → shown fuel false x = true → steps fuel x = Some Showed.
Proof.
  induction fuel as [|fuel IH]; intros p x Hat; [done|]. rewrite shown_S, steps_S.
  destruct (step x) as [r|x'] eqn:Est.
  - assert (Hch : chosen x ≠ ShowsUsage).
    { destruct Hat as (_ & _ & -> & _). apply action_shows. }
    destruct (peek (known x) (inp x)) as [t i] eqn:E.
    assert (Hflag : (∃ n, t = TLong n) ∨ (∃ c, t = TShort c) → ∀ f v i', parse_flag (known x) i = inr (f, v, i') → r = Showed).
    { intros Ht f v i' Hf. pose proof (step_flag_exit x r t i f v i' Est E Hch Ht Hf) as Hk.
      revert Est. unfold step. rewrite E. cbn [chosen with_input known].
      destruct Ht as [[? ->]|[? ->]]; rewrite Hf, Hk; destruct (chosen x); try done; by intros [= <-]. }
    destruct (chosen x); [| |done].
    all: destruct t; try done; try (destruct (parse_flag (known x) i) as [|[[f v] i']] eqn:Hf; [done|]; intros _;
      by rewrite (Hflag ltac:(by eauto) f v i' eq_refl)).
    all: by destruct r.
  - destruct (step_size modern p x x' Hat Est) as [Hs|(p' & Hat' & Hlt)]; [|by eapply IH].
    destruct fuel as [|fuel]; [done|]. intros _. rewrite steps_S.
    destruct x' as [k2 s2 f2 ch2 i2 e2]. simpl in Hs. subst ch2.
    unfold step. cbn [known inp chosen with_input]. by destruct (peek k2 i2).
Qed.

Lemma parse_usage modern o ws : parse modern o ws = Usage ↔ led_to_usage modern ws.
Proof.
  split.
  - unfold parse. intros H. destruct (steps _ _) as [[| |c k es]|] eqn:E; [done| | |done].
    + destruct (shown _ _ _) eqn:Es; [|done].
      apply (shown_sound modern _ Top false _ (start_at modern ws) (wf_nil _ _) Es).
    + by destruct (_ ≫= _).
  - intros H. destruct (shows_shown modern true _ _ _ _ H (start modern ws)) as (fuel & Hst); [done|apply wf_nil|done|done|].
    assert (Hsh : shown (4 + total ws) false (start modern ws) = true).
    { eapply (shown_enough modern _ Top); [done| |done]. unfold size. simpl. lia. }
    unfold parse. by rewrite (shown_showed modern _ Top _ (start_at modern ws) Hsh), Hsh.
Qed.
Lemma shows_astray modern p k b ws : shows modern false p k b ws → shows modern true p k b ws.
Proof.
  induction 1 as [k b|p k|k b ws|p k b n ws Hn|p k b n ws Hn|p k b ws Hs IH|p k b ws Hs IH
    |p k b ws ws' Hr _ IH|p k b n sh ws v rest Hn Hv Hs IH
    |p k b n l ws v rest Hn Hv Hs IH|p k b n sh ws Hn Hs IH|p k b n sh ws Hn Hs IH|p k b n l ws Hn Hs IH
    |w ws c k b Hs IH|p k b w p' ws Hl Hs IH|k b w ws Hl Hs IH|k b ws f rest Ha Hr Hflag Hs IH|k ws Ha Hr].
  - apply shows_end.
  - apply shows_helped.
  - apply shows_help_command.
  - by apply shows_now.
  - by apply shows_no_now.
  - by apply shows_help.
  - by apply shows_no_help.
  - exact (shows_read _ _ _ _ _ _ _ Hr IH).
  - exact (shows_valued _ _ _ _ _ _ _ _ _ _ Hn Hv IH).
  - exact (shows_valued_letter _ _ _ _ _ _ _ _ _ _ Hn Hv IH).
  - exact (shows_switch _ _ _ _ _ _ _ _ Hn IH).
  - exact (shows_no _ _ _ _ _ _ _ _ Hn IH).
  - exact (shows_switch_letter _ _ _ _ _ _ _ _ Hn IH).
  - by apply shows_arg.
  - exact (shows_command _ _ _ _ _ _ _ _ Hl IH).
  - exact (shows_default _ _ _ _ _ _ Hl IH).
  - done.
  - done.
Qed.
Lemma asks_led modern ws : asks_usage modern ws → led_to_usage modern ws.
Proof. apply shows_astray. Qed.
