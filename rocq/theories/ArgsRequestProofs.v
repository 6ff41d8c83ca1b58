(** Proofs about the command line: the request that is carried out. *)
From Coq Require Import String Ascii.
From stdpp Require Import list gmap strings.
From Verif Require Import GoStrings GoStringsProofs ArgsModel ArgsSpec ArgsProofs ArgsValuesProofs.
Local Open Scope Z_scope.

(** The variables before the values are set. *)
Definition base_vars (c : cname) (es : list element) : vars :=
  match c with
  | CEval => if decide ("color" ∈ flag_names es) then ∅ else {["eval.Color" := VText "auto"]}
  | _ => ∅
  end.
Lemma defaults_set modern o c es :
  set_defaults o (place_flags modern (In c)) (flag_names es) ∅ = Some (base_vars c es).
Proof.
  destruct modern, c; try reflexivity.
  all: unfold set_defaults, place_flags; simpl; by destruct (decide _).
Qed.

Lemma times_app i j n : times (i ++ j) n = (times i n + times j n)%nat.
Proof. unfold times. by rewrite filter_app, app_length. Qed.

(** Values of switches are true or false. *)
Lemma valued_in p c n sh : (∀ c', p = In c' → c' = c) → (n, sh) ∈ valued p → (n, sh) ∈ valued (In c).
Proof.
  intros Hp H. destruct p as [| |c'].
  - unfold valued. apply elem_of_app. by right.
  - unfold valued. apply elem_of_app. by right.
  - by rewrite <-(Hp c' eq_refl).
Qed.
Lemma says_values modern p ws i a c :
  says modern p ws i a c →
  ∀ n v, (n, v) ∈ i → v = "true" ∨ v = "false" ∨ ∃ sh, (n, sh) ∈ valued (In c).
Proof.
  induction 1 as [c|p ws ws' i a c Hr _ IH|p n sh ws v rest i a c Hn Hv Hs IH|p n l ws v rest i a c Hn Hv Hs IH
    |p n sh ws i a c Hn Hs IH|p n sh ws i a c Hn Hs IH|p n l ws i a c Hn Hs IH|w ws i a c Hs IH
    |p w p' ws i a c Hl Hs IH|w ws i a c Hl Hs IH]; try done.
  - by intros n v ?%elem_of_nil.
  - intros m u [[= -> ->]|H]%elem_of_cons; [|by apply IH]. right. right. exists sh.
    eapply valued_in; [|done]. by eapply says_in.
  - intros m u [[= -> ->]|H]%elem_of_cons; [|by apply IH]. right. right. exists (Some l).
    eapply valued_in; [|done]. by eapply says_in.
  - intros m u [[= -> ->]|H]%elem_of_cons; [|by apply IH]. by left.
  - intros m u [[= -> ->]|H]%elem_of_cons; [|by apply IH]. by right; left.
  - intros m u [[= -> ->]|H]%elem_of_cons; [|by apply IH]. by left.
Qed.
Lemma switch_not_valued modern c f sh :
  f ∈ place_flags modern (In c) → f_kind f = ASwitch → (f_long f, sh) ∈ valued (In c) → False.
Proof.
  intros Hf Hk Hv. destruct (valued_long modern (In c) _ _ Hv) as (g & Hg & Hsw & Hgk & Hn).
  apply find_long_Some in Hg as [Hg _].
  pose proof (same_name modern c f g Hf Hg ltac:(by rewrite Hk) Hn) as ->.
  unfold is_switch in Hsw. by rewrite Hk in Hsw.
Qed.

Lemma set_values_none modern o c x :
  Forall (λ f, f_var f ≠ x) (place_flags modern (In c)) →
  ∀ es seen v v', Forall (flag_elem modern c) es → (∀ y s, (y, s) ∈ file_items es → y ≠ x) →
  set_values o seen es v = Some v' → v' !! x = v !! x.
Proof.
  intros HK es. induction es as [|[g s|y s] es IH]; intros seen v0 v Hfa Hf H.
  - simpl in H. by apply (inj Some) in H as ->.
  - apply list.Forall_cons in Hfa as [[Hg Hgk] Hfa']. simpl in H.
    destruct (bool_decide (f_long g ∈ seen) && negb (is_cumulative g)); [done|].
    destruct (set_flag o g s v0) as [v1|] eqn:Es; [|done]. simpl in H.
    rewrite (IH _ _ _ Hfa' Hf H). apply (set_flag_var o g s); [done|]. rewrite Forall_forall in HK. by apply HK.
  - apply list.Forall_cons in Hfa as [_ Hfa']. simpl in H.
    unfold set_file in H at 1. destruct (is_file o s); [|done]. simpl in H.
    rewrite (IH _ _ _ Hfa' (λ z t Hz, Hf z t (elem_of_list_further _ _ _ Hz)) H).
    apply lookup_insert_ne, (Hf y s). by left.
Qed.

Section readings.
  Context (modern : bool) (o : outside) (c : cname) (es : list element) (v : vars).
  Notation K := (place_flags modern (In c)).
  Context (Hfa : Forall (flag_elem modern c) es) (Hfi : (file_items es).*1 = place_files c).
  Context (Hset : set_values o [] es (base_vars c es) = Some v).

  Lemma files_in x s : (x, s) ∈ file_items es → x ∈ place_files c.
  Proof. intros H. rewrite <-Hfi. apply elem_of_list_fmap. by exists (x, s). Qed.
  Lemma reading f :
    f ∈ K → f_kind f ≠ AExit → f_kind f ≠ ACount → f_default f = None →
    (times (items es) (f_long f) = 0%nat ∧ v !! f_var f = None) ∨
    (∃ s y, (f_long f, s) ∈ items es ∧ gives o f s = Some y ∧ v !! f_var f = Some y).
  Proof.
    intros Hf Hk Hc Hd.
    destruct (set_values_flag modern o c es [] _ v Hfa files_in Hset f Hf Hk Hc) as [[Ht Hv]|Hr]; [left|by right].
    split; [done|]. rewrite Hv. unfold base_vars. clear -Hf Hk Hd.
    destruct c; try apply lookup_empty. case_decide; [apply lookup_empty|].
    apply lookup_singleton_ne. intros E.
    assert (Hcol : Flag "color" (Some "c"%char) (AChoice ["auto"; "true"; "false"]) (Some "auto") "eval.Color"
      ∈ place_flags modern (In CEval)) by by left.
    destruct (all_apart modern CEval f _ Hf Hcol) as [[?|[<-|[_ Hne]]] _]; [done|done|]. by apply Hne.
  Qed.
  Lemma reading_text n sh x :
    Flag n sh AText None x ∈ K → text_is (items es) n (text v x).
  Proof.
    intros Hf. unfold text_is, text.
    destruct (reading _ Hf) as [[Ht Hv]|(s & y & Hin & Hg & Hv)]; [done..| |]; simpl in *; rewrite Hv.
    - by right.
    - left. unfold gives in Hg. simpl in Hg. by simplify_eq.
  Qed.
  Lemma reading_choice n sh l x :
    Flag n sh (AChoice l) None x ∈ K → choice_is l "" (items es) n (text v x).
  Proof.
    intros Hf. unfold choice_is, text.
    destruct (reading _ Hf) as [[Ht Hv]|(s & y & Hin & Hg & Hv)]; [done..| |]; simpl in *; rewrite Hv.
    - by right.
    - left. unfold gives in Hg. simpl in Hg. case_decide; by simplify_eq.
  Qed.
  Lemma reading_number n sh x :
    Flag n sh APort None x ∈ K → number_is o (items es) n (num v x).
  Proof.
    intros Hf. unfold number_is, num.
    destruct (reading _ Hf) as [[Ht Hv]|(s & y & Hin & Hg & Hv)]; [done..| |]; simpl in *; rewrite Hv.
    - by right.
    - left. exists s. split; [done|]. unfold gives in Hg. simpl in Hg.
      destruct (parse_uint o s); by simplify_eq/=.
  Qed.
  Lemma reading_switch n sh x ws a :
    says modern Top ws (items es) a c →
    Flag n sh ASwitch None x ∈ K → switch_is (items es) n (truth v x).
  Proof.
    intros Hs Hf. unfold switch_is, truth.
    destruct (reading _ Hf) as [[Ht Hv]|(s & y & Hin & Hg & Hv)]; [done..| |]; simpl in *; rewrite Hv.
    - by right; right.
    - unfold gives in Hg. simpl in Hg. simplify_eq.
      destruct (says_values _ _ _ _ _ _ Hs n s Hin) as [->|[->|[sh' Hva]]]; [by left|by right; left|].
      exfalso. by eapply (switch_not_valued modern c (Flag n sh ASwitch None x)).
  Qed.
  Lemma reading_count n sh x :
    Flag n sh ACount None x ∈ K → num v x = Z.of_nat (times (items es) n).
  Proof.
    intros Hf. pose proof (set_values_count modern o c es [] _ v Hfa files_in Hset _ Hf eq_refl) as H.
    simpl in H. rewrite H. enough (num (base_vars c es) x = 0) by lia.
    unfold num, base_vars. destruct c; try done. case_decide; [done|].
    destruct (decide (x = "eval.Color")) as [->|Hne]; [by rewrite lookup_singleton|].
    by rewrite lookup_singleton_ne.
  Qed.
  Lemma reading_open n sh x :
    Flag n sh AOpen None x ∈ K →
    match match v !! x with Some (VText s) => Some s | _ => None end with
    | Some f => (n, f) ∈ items es ∧ can_append o f = true
    | None => times (items es) n = 0%nat
    end.
  Proof.
    intros Hf.
    destruct (reading _ Hf) as [[Ht Hv]|(s & y & Hin & Hg & Hv)]; [done..| |]; simpl in *; rewrite Hv; [done|].
    unfold gives in Hg. simpl in Hg. destruct (can_append o s) eqn:E; by simplify_eq.
  Qed.
  Lemma reading_color :
    c = CEval → choice_is ["auto"; "true"; "false"] "auto" (items es) "color" (text v "eval.Color").
  Proof.
    intros Hc. unfold choice_is, text.
    assert (Hcol : Flag "color" (Some "c"%char) (AChoice ["auto"; "true"; "false"]) (Some "auto") "eval.Color"
      ∈ K) by (rewrite Hc; by left).
    destruct (set_values_flag modern o c es [] _ v Hfa files_in Hset _ Hcol) as [[Ht Hv]|(s & y & Hin & Hg & Hv)];
      [done..| |]; simpl in *; rewrite Hv.
    - right. split; [done|]. unfold base_vars. rewrite Hc. apply times_names in Ht.
      rewrite decide_False by done. by rewrite lookup_singleton.
    - left. unfold gives in Hg. simpl in Hg. case_decide; by simplify_eq.
  Qed.
  Lemma reading_file x :
    place_files c = [x] → ∃ s, (file_items es).*2 = [s] ∧ is_file o s = true ∧ text v x = s.
  Proof.
    intros Hx. pose proof Hfi as Hfi'. rewrite Hx in Hfi'.
    destruct (file_items es) as [|[y s] [|? ?]] eqn:E; try done. simpl in Hfi'. injection Hfi' as ->.
    exists s. split; [done|].
    destruct (set_values_file modern o c es [] (base_vars c es) v x Hfa) as [[Hno _]|(s' & Hin & Hf & Hv)];
      [rewrite Hx; by left|done|exfalso; apply (Hno s); rewrite E; by left|].
    rewrite E in Hin. apply elem_of_list_singleton in Hin as [= ->]. split; [done|].
    unfold text. by rewrite Hv.
  Qed.
  Lemma reading_no_files : place_files c = [] → (file_items es).*2 = [].
  Proof. intros Hx. rewrite Hx in Hfi. by destruct (file_items es). Qed.

  Lemma reading_none x :
    Forall (λ f, f_var f ≠ x) K → x ∉ place_files c → v !! x = base_vars c es !! x.
  Proof.
    intros HK Hx. apply (set_values_none modern o c x HK es [] (base_vars c es) v Hfa); [|done].
    intros y s H ->. by apply files_in in H.
  Qed.

  Lemma reading_connection k :
    connection_flags k ⊆ K → connection_is o (items es) (connection_of v k).
  Proof.
    intros Hsub. unfold connection_is, connection_of. cbn [host port dbname username sslmode].
    split_and!.
    - eapply reading_text, Hsub. by left.
    - eapply reading_number, Hsub. right. by left.
    - eapply reading_text, Hsub. do 2 right. by left.
    - eapply reading_text, Hsub. do 3 right. by left.
    - eapply reading_choice, Hsub. do 4 right. by left.
  Qed.
End readings.

Lemma values_fit modern o c es v ws :
  Forall (flag_elem modern c) es → (file_items es).*1 = place_files c →
  c = CRun ∨ says modern Top ws (items es) (file_items es).*2 c →
  set_values o [] es (base_vars c es) = Some v →
  fits o c (items es) (file_items es).*2 (request_of c v).
Proof.
  intros Hfa Hfi Hs Hset.
  assert (Happ : ∀ f, f ∈ app_flags → f ∈ place_flags modern (In c)).
  { intros f Hf. unfold place_flags. apply elem_of_app. by right. }
  split_and!.
  - intros n Hq Hv.
    destruct (decide (times (items es) n = 0%nat)) as [->|Hn]; [lia|].
    destruct (times_pos (items es) n) as [s Hin]; [lia|].
    assert (∃ f, EFlag f s ∈ es ∧ f_long f = n) as (f & Hf & <-).
    { unfold items in Hin. apply elem_of_list_omap in Hin as ([f s'|] & Hin & E); [|done].
      simplify_eq. by exists f. }
    rewrite Forall_forall in Hfa. specialize (Hfa _ Hf) as Hfe. simpl in Hfe. destruct Hfe as [Hfk Hk].
    rewrite <-Forall_forall in Hfa.
    destruct (set_values_once modern o c es [] _ v Hfa Hset f Hfk Hk) as [Hle _]; [|done].
    intros Hc. assert (Hmem : f_kind f ≠ ACount ∨ f_long f = "quiet" ∨ f_long f = "verbose"); [|naive_solver].
    clear -Hfk. assert (H : Forall (λ f, f_kind f ≠ ACount ∨ f_long f = "quiet" ∨ f_long f = "verbose") (place_flags modern (In c))).
    { apply (bool_decide_unpack _). destruct modern, c; vm_compute; exact I. }
    rewrite Forall_forall in H. by apply H.
  - unfold request_of. cbn [q_debug].
    apply (reading_open modern o c es v Hfa Hfi Hset "debug" None "base.Debug"). apply Happ. do 6 right. by left.
  - unfold request_of. cbn [q_verbosity].
    rewrite (reading_count modern o c es v Hfa Hfi Hset "verbose" (Some "v"%char) "parser.verbosity")
      by (apply Happ; do 8 right; by left).
    rewrite (reading_count modern o c es v Hfa Hfi Hset "quiet" (Some "q"%char) "parser.brevity")
      by (apply Happ; do 7 right; by left).
    done.
  - unfold request_of. cbn [q_command].
    destruct c; cbn [command_of]; try (destruct Hs as [?|Hs]; [done|]).
    + rewrite reading_no_files with (c := CPing) by done. constructor.
      eapply reading_connection; [done..|]. intros f Hf. unfold place_flags. apply elem_of_app. by left.
    + rewrite reading_no_files with (c := CInspect) by done. constructor.
      * eapply reading_connection; [done..|]. intros f Hf. unfold place_flags, inspect_clause.
        apply elem_of_app. left. apply elem_of_app. by left.
      * eapply reading_text; [done..|]. do 5 right. by left.
      * eapply reading_switch; [done..|]. do 6 right. by left.
      * eapply reading_switch; [done..|]. do 7 right. by left.
      * eapply reading_switch; [done..|]. do 8 right. by left.
    + destruct (reading_file modern o CList es v Hfa Hfi Hset "list.File" eq_refl) as (s & -> & Hf & ->). by constructor.
    + destruct (reading_file modern o CDot es v Hfa Hfi Hset "dot.File" eq_refl) as (s & Hfs & Hf & ->).
      rewrite Hfs in *. constructor; [done| | |].
      * eapply reading_text; [done..|]. by left.
      * eapply reading_switch; [done..|]. right. by left.
      * eapply reading_choice; [done..|]. do 2 right. by left.
    + destruct (reading_file modern o CEval es v Hfa Hfi Hset "eval.File" eq_refl) as (s & Hfs & Hf & ->).
      rewrite Hfs in *. constructor; [done| |].
      * by eapply reading_color.
      * eapply reading_text; [done..|]. right. by left.
    + destruct (reading_file modern o CRun es v Hfa Hfi Hset "run.File" eq_refl) as (s & -> & Hf & ->). by constructor.
    + rewrite reading_no_files with (c := CVersion) by done. constructor.
      destruct modern.
      * eapply reading_switch; [done..|]. by left.
      * right; right. split.
        -- apply times_names. intros (e & Hin & He)%elem_of_list_omap. destruct e as [f s|]; [|done].
           rewrite Forall_forall in Hfa. destruct (Hfa _ Hin) as [Hf _]. injection He as Hl.
           assert (Hno : Forall (λ f, f_long f ≠ "long") (place_flags false (In CVersion)))
             by (apply (bool_decide_unpack _); vm_compute; exact I).
           rewrite Forall_forall in Hno. by apply (Hno f).
        -- unfold truth. rewrite (reading_none false o CVersion es v Hfa Hfi Hset); [done| |apply not_elem_of_nil].
           apply (bool_decide_unpack _). vm_compute. exact I.
Qed.

(** Only one request fits. *)
Lemma text_is_unique i n x y :
  (times i n ≤ 1)%nat → text_is i n x → text_is i n y → x = y.
Proof.
  intros Ht [Hx|[Hx ->]] [Hy|[Hy ->]].
  - by eapply times_unique.
  - apply times_in in Hx. lia.
  - apply times_in in Hy. lia.
  - done.
Qed.
Lemma choice_is_unique l d i n x y :
  (times i n ≤ 1)%nat → choice_is l d i n x → choice_is l d i n y → x = y.
Proof.
  intros Ht [[Hx _]|[Hx ->]] [[Hy _]|[Hy ->]].
  - by eapply times_unique.
  - apply times_in in Hx. lia.
  - apply times_in in Hy. lia.
  - done.
Qed.
Lemma number_is_unique o i n x y :
  (times i n ≤ 1)%nat → number_is o i n x → number_is o i n y → x = y.
Proof.
  intros Ht [(s & Hx & E)|[Hx ->]] [(t & Hy & F)|[Hy ->]].
  - assert (s = t) as -> by by eapply times_unique. by simplify_eq.
  - apply times_in in Hx. lia.
  - apply times_in in Hy. lia.
  - done.
Qed.
Lemma switch_is_unique i n x y :
  (times i n ≤ 1)%nat → switch_is i n x → switch_is i n y → x = y.
Proof.
  intros Ht [[Hx ->]|[[Hx ->]|[Hx ->]]] [[Hy ->]|[[Hy ->]|[Hy ->]]]; try done.
  - by pose proof (times_unique _ _ _ _ Ht Hx Hy).
  - apply times_in in Hx. lia.
  - by pose proof (times_unique _ _ _ _ Ht Hx Hy).
  - apply times_in in Hy. lia.
Qed.
Lemma connection_is_unique o i x y :
  (∀ n, n ≠ "quiet" → n ≠ "verbose" → (times i n ≤ 1)%nat) →
  connection_is o i x → connection_is o i y → x = y.
Proof.
  intros Ht (H1 & H2 & H3 & H4 & H5) (G1 & G2 & G3 & G4 & G5). destruct x, y; simpl in *.
  f_equal.
  - eapply text_is_unique; [|done..]. by apply Ht.
  - eapply number_is_unique; [|done..]. by apply Ht.
  - eapply text_is_unique; [|done..]. by apply Ht.
  - eapply text_is_unique; [|done..]. by apply Ht.
  - eapply choice_is_unique; [|done..]. by apply Ht.
Qed.
Lemma command_is_unique o i a c x y :
  (∀ n, n ≠ "quiet" → n ≠ "verbose" → (times i n ≤ 1)%nat) →
  command_is o i a c x → command_is o i a c y → x = y.
Proof.
  intros Ht Hx Hy.
  destruct Hx; inversion Hy; subst; f_equal;
    first [by eapply connection_is_unique
      | eapply text_is_unique; [|done..]; by apply Ht
      | eapply choice_is_unique; [|done..]; by apply Ht
      | eapply switch_is_unique; [|done..]; by apply Ht
      | done].
Qed.
Lemma fits_unique o c i a x y : fits o c i a x → fits o c i a y → x = y.
Proof.
  intros (Ht & Hd & Hv & Hc) (_ & Hd' & Hv' & Hc'). destruct x as [cx dx vx], y as [cy dy vy]. simpl in *.
  f_equal.
  - by eapply command_is_unique.
  - destruct dx as [fx|], dy as [fy|]; [|exfalso..|done].
    + f_equal. destruct Hd as [Hd _], Hd' as [Hd' _]. eapply times_unique; [|done..]. by apply Ht.
    + destruct Hd as [Hd%times_in _]. lia.
    + destruct Hd' as [Hd'%times_in _]. lia.
  - by rewrite Hv, Hv'.
Qed.

(** A request that fits can be carried out. *)
Definition known_kinds (c : cname) (f : flag) : Prop :=
  match f_kind f with
  | APort => f_long f = "port" ∧ (c = CPing ∨ c = CInspect)
  | AChoice l =>
      (c, f_long f, l) ∈
        [(CPing, "sslmode", ["disable"; "allow"; "prefer"; "require"; "verify-full"]);
         (CInspect, "sslmode", ["disable"; "allow"; "prefer"; "require"; "verify-full"]);
         (CDot, "splines", ["curved"; "line"; "ortho"]);
         (CEval, "color", ["auto"; "true"; "false"])]
  | AOpen => f_long f = "debug"
  | _ => True
  end.
Global Instance cname_eq_dec : EqDecision cname.
Proof. solve_decision. Defined.
Global Instance known_kinds_dec c f : Decision (known_kinds c f).
Proof. unfold known_kinds. destruct (f_kind f); apply _. Defined.
Lemma all_known modern c f : f ∈ place_flags modern (In c) → known_kinds c f.
Proof.
  assert (H : Forall (known_kinds c) (place_flags modern (In c))).
  { apply (bool_decide_unpack _). destruct modern, c; vm_compute; exact I. }
  rewrite Forall_forall in H. apply H.
Qed.
Lemma choice_given l d i n x s :
  (times i n ≤ 1)%nat → choice_is l d i n x → (n, s) ∈ i → s ∈ l.
Proof.
  intros Ht [[Hx Hl]|[Hx _]] Hs.
  - by rewrite (times_unique _ _ _ _ Ht Hs Hx).
  - apply times_in in Hs. lia.
Qed.
Lemma number_given o i n x s :
  (times i n ≤ 1)%nat → number_is o i n x → (n, s) ∈ i → is_Some (parse_uint o s).
Proof.
  intros Ht [(t & Hx & E)|[Hx _]] Hs.
  - rewrite (times_unique _ _ _ _ Ht Hs Hx). by eexists.
  - apply times_in in Hs. lia.
Qed.
Lemma item_of f s es : EFlag f s ∈ es → (f_long f, s) ∈ items es.
Proof. intros H. apply elem_of_list_omap. by exists (EFlag f s). Qed.
Lemma fits_exist modern o c es a r :
  Forall (flag_elem modern c) es → file_items es = zip (place_files c) a →
  fits o c (items es) a r → is_Some (set_values o [] es (base_vars c es)).
Proof.
  intros Hfa Hfi (Ht & Hd & Hv & Hc). apply (set_values_exist modern o c); [done| | |].
  - intros f s Hin Hcount. rewrite Forall_forall in Hfa. destruct (Hfa _ Hin) as [Hf Hk].
    apply item_of in Hin. apply all_known in Hf. unfold known_kinds in Hf. unfold gives.
    destruct (f_kind f) eqn:Ek; try done.
    + destruct Hf as [Hn Hcn]. rewrite Hn in Hin. apply fmap_is_Some.
      destruct Hc as [k Hk1|k out cols checks idx Hk1| | | | |]; try (by destruct Hcn).
      * destruct Hk1 as (_ & Hp & _). eapply number_given; [|done..]; by apply Ht.
      * destruct Hk1 as (_ & Hp & _). eapply number_given; [|done..]; by apply Ht.
    + enough (s ∈ l) by (rewrite decide_True by done; by eexists).
      repeat (apply elem_of_cons in Hf as [Hf|Hf]); [..|by apply elem_of_nil in Hf];
        injection Hf as -> Hn ->; rewrite Hn in Hin; inversion Hc; subst.
      * match goal with H : connection_is _ _ _ |- _ => destruct H as (_ & _ & _ & _ & Hp) end. eapply choice_given; [|done..]; by apply Ht.
      * match goal with H : connection_is _ _ _ |- _ => destruct H as (_ & _ & _ & _ & Hp) end. eapply choice_given; [|done..]; by apply Ht.
      * eapply choice_given; [|done..]; by apply Ht.
      * eapply choice_given; [|done..]; by apply Ht.
    + rewrite Hf in Hin. destruct (q_debug r) as [g|].
      * destruct Hd as [Hd Ha]. assert (s = g) as ->.
        { eapply times_unique; [|done..]; by apply Ht. }
        rewrite Ha. by eexists.
      * apply times_in in Hin. lia.
  - intros x s Hx. rewrite Hfi in Hx. apply elem_of_zip_r in Hx.
    destruct Hc; first [by apply elem_of_nil in Hx | apply elem_of_list_singleton in Hx as ->; done].
  - intros f Hf Hk Hcount. split; [|by intros ?%elem_of_nil]. apply Ht.
    + intros Hq. assert (Hcq : Flag "quiet" (Some "q"%char) ACount None "parser.brevity" ∈ place_flags modern (In c)).
      { unfold place_flags. apply elem_of_app. right. do 7 right. by left. }
      pose proof (same_name modern c _ f Hcq Hf ltac:(done) Hq) as ->. done.
    + intros Hq. assert (Hcq : Flag "verbose" (Some "v"%char) ACount None "parser.verbosity" ∈ place_flags modern (In c)).
      { unfold place_flags. apply elem_of_app. right. do 8 right. by left. }
      pose proof (same_name modern c _ f Hcq Hf ltac:(done) Hq) as ->. done.
Qed.

Lemma fits_args o c i a r : fits o c i a r → length a = length (place_files c).
Proof. intros (_ & _ & _ & H). by destruct H. Qed.

(** A line that asks for a request has it carried out. *)
Lemma parse_complete modern o ws r :
  asks modern o ws r → ∃ c v, parse modern o ws = Runs c v ∧ request_of c v = r.
Proof.
  intros (c & i & a & Hs & Hf). pose proof (fits_args _ _ _ _ _ Hf) as Hlen.
  destruct (read_complete modern ws i a c Hs Hlen) as (es & Hr & <- & Hfi & Hfa).
  assert (Ha : (file_items es).*2 = a) by (rewrite Hfi; apply snd_zip; lia).
  assert (Hn : (file_items es).*1 = place_files c) by (rewrite Hfi; apply fst_zip; lia).
  destruct (fits_exist modern o c es a r Hfa Hfi Hf) as [v Hv].
  exists c, v. unfold read in Hr. unfold parse. rewrite Hr, defaults_set. simpl. rewrite Hv. split; [done|].
  rewrite <-Ha in Hs, Hf. eapply fits_unique; [|done]. eapply values_fit; [done..|by right|done].
Qed.
Lemma parse_mistaken modern o ws r :
  mistaken modern o ws r → ∃ v, parse modern o ws = Runs CRun v ∧ request_of CRun v = r.
Proof.
  intros (i & rest & j & a & Hst & Hs & Hf). pose proof (fits_args _ _ _ _ _ Hf) as Hlen.
  destruct (read_mistaken modern ws i rest j a Hst Hs Hlen) as (es & Hr & Hi & Hfi & Hfa).
  assert (Ha : (file_items es).*2 = a) by (rewrite Hfi; apply snd_zip; lia).
  assert (Hn : (file_items es).*1 = place_files CRun) by (rewrite Hfi; apply fst_zip; lia).
  rewrite <-Hi in Hf.
  destruct (fits_exist modern o CRun es a r Hfa Hfi Hf) as [v Hv].
  exists v. unfold read in Hr. unfold parse. rewrite Hr, defaults_set. cbn [mbind option_bind]. rewrite Hv. split; [done|].
  rewrite <-Ha in Hf. eapply fits_unique; [|done]. eapply (values_fit modern _ _ _ _ []); [done..|by left|done].
Qed.
(** What is carried out was asked for, up to the exception. *)
Lemma parse_sound modern o ws c v :
  parse modern o ws = Runs c v →
  asks modern o ws (request_of c v) ∨ c = CRun ∧ mistaken modern o ws (request_of c v).
Proof.
  unfold parse. intros H.
  destruct (steps _ _) as [[| |c' k es]|] eqn:Hr; [done|by destruct (shown _ _ _)| |done].
  destruct (read_sound modern ws c' k es Hr) as (-> & Hfa & Hfi & Hs).
  rewrite defaults_set in H. simpl in H.
  destruct (set_values o [] es (base_vars c' es)) as [v'|] eqn:Hv; [|done].
  injection H as <- <-.
  assert (Hfit : fits o c' (items es) (file_items es).*2 (request_of c' v')).
  { eapply (values_fit modern); [done..| |done]. destruct Hs as [Hs|[-> _]]; [right; exact Hs|by left]. }
  destruct Hs as [Hs|(-> & i1 & rest & i2 & Hi & Hst & Hs)].
  - left. by exists c', (items es), (file_items es).*2.
  - right. split; [done|]. rewrite Hi in Hfit. by exists i1, rest, i2, (file_items es).*2.
Qed.

(** The order of the flags makes no difference. *)
Lemma times_perm i j n : i ≡ₚ j → times i n = times j n.
Proof. intros H. unfold times. by rewrite H. Qed.
Lemma fits_perm o c i j a r : i ≡ₚ j → fits o c i a r → fits o c j a r.
Proof.
  intros Hp (Ht & Hd & Hv & Hc).
  assert (HT : ∀ n, times j n = times i n) by (intros n; by rewrite (times_perm i j n)).
  assert (HI : ∀ x, x ∈ i → x ∈ j) by (intros x; by rewrite Hp).
  assert (Htext : ∀ n x, text_is i n x → text_is j n x).
  { unfold text_is. intros n x. rewrite HT. naive_solver. }
  assert (Hchoice : ∀ l d n x, choice_is l d i n x → choice_is l d j n x).
  { unfold choice_is. intros l d n x. rewrite HT. naive_solver. }
  assert (Hnum : ∀ n x, number_is o i n x → number_is o j n x).
  { unfold number_is. intros n x. rewrite HT. naive_solver. }
  assert (Hsw : ∀ n x, switch_is i n x → switch_is j n x).
  { unfold switch_is. intros n x. rewrite HT. naive_solver. }
  assert (Hcon : ∀ x, connection_is o i x → connection_is o j x).
  { unfold connection_is. intros x (?&?&?&?&?). split_and!; auto. }
  split_and!.
  - intros n. rewrite HT. apply Ht.
  - destruct (q_debug r); [naive_solver|]. by rewrite HT.
  - by rewrite !HT.
  - destruct Hc; constructor; auto.
Qed.
