(** Proofs about the command line. *)
From Coq Require Import String Ascii.
From stdpp Require Import list gmap strings.
From Verif Require Import GoStrings GoStringsProofs ArgsModel ArgsSpec.
Local Open Scope Z_scope.

(** * What is known at each place *)
Definition place_flags (modern : bool) (p : place) : list flag :=
  match p with
  | In CPing => connection_flags "ping"
  | In CInspect => match inspect_clause with Cmd _ _ fs _ _ _ => fs end
  | In CDot => match dot_clause with Cmd _ _ fs _ _ _ => fs end
  | In CEval => match eval_clause with Cmd _ _ fs _ _ _ => fs end
  | In CVersion => match version_clause modern with Cmd _ _ fs _ _ _ => fs end
  | _ => []
  end ++ app_flags.
Definition place_subs (modern : bool) (p : place) : list cmd :=
  match p with
  | Top => app_commands modern
  | Book => match runbook_clause with Cmd _ _ _ _ cs _ => cs end
  | In _ => []
  end.
Definition place_action (p : place) : action := match p with In c => Becomes c | _ => Nothing end.
Definition place_files (c : cname) : list string :=
  match c with
  | CList => ["list.File"] | CDot => ["dot.File"] | CEval => ["eval.File"] | CRun => ["run.File"]
  | _ => []
  end.

Lemma find_long_Some fs n f : find_long fs n = Some f → f ∈ fs ∧ f_long f = n.
Proof.
  unfold find_long. destruct (list_find _ fs) as [[k g]|] eqn:E; simpl; [|done].
  intros [= <-]. apply list_find_Some in E as (E & ? & _). split; [|done]. by eapply elem_of_list_lookup_2.
Qed.
Lemma find_short_Some fs c f : find_short fs c = Some f → f ∈ fs ∧ f_short f = c ∧ c ≠ None.
Proof.
  unfold find_short. destruct (list_find _ fs) as [[k g]|] eqn:E; simpl; [|done].
  intros [= <-]. apply list_find_Some in E as (E & [??] & _). split_and!; [|done..]. by eapply elem_of_list_lookup_2.
Qed.

(** Each registered flag is in the tables, or ends the program. *)
Definition listed (modern : bool) (p : place) (f : flag) : Prop :=
  f_kind f = AExit ∧ f_short f = None ∨
  f_kind f ≠ AExit ∧ is_switch f = true ∧ (f_long f, f_short f) ∈ switches modern p ∨
  f_kind f ≠ AExit ∧ is_switch f = false ∧ (f_long f, f_short f) ∈ valued p.
Global Instance fkind_eq_dec : EqDecision fkind. Proof. solve_decision. Defined.
Global Instance token_eq_dec : EqDecision token. Proof. solve_decision. Defined.
Global Instance listed_dec modern p f : Decision (listed modern p f). Proof. unfold listed. apply _. Defined.
Lemma all_listed modern p f : f ∈ place_flags modern p → listed modern p f.
Proof.
  assert (H : Forall (listed modern p) (place_flags modern p)).
  { apply (bool_decide_unpack _). destruct modern, p as [| |[]]; vm_compute; exact I. }
  rewrite Forall_forall in H. apply H.
Qed.
(** Each flag in the tables is registered. *)
Definition found_long (modern : bool) (p : place) (sw : bool) (x : string * option ascii) : bool :=
  match find_long (place_flags modern p) x.1 with
  | Some f =>
      bool_decide (is_switch f = sw) && bool_decide (f_kind f ≠ AExit) && bool_decide (f_long f = x.1)
  | None => false
  end.
Definition found_short (modern : bool) (p : place) (sw : bool) (x : string * option ascii) : bool :=
  match x.2 with
  | None => true
  | Some c =>
      bool_decide (c ≠ "-"%char) &&
      match find_short (place_flags modern p) (Some c) with
      | Some f =>
          bool_decide (is_switch f = sw) && bool_decide (f_kind f ≠ AExit) && bool_decide (f_long f = x.1)
      | None => false
      end
  end.
Definition no_inverse (modern : bool) (p : place) (x : string * option ascii) : bool :=
  match find_long (place_flags modern p) ("no-" +:+ x.1) with None => true | Some _ => false end.
Lemma forallb_in {A} (f : A → bool) l x : forallb f l = true → x ∈ l → f x = true.
Proof. rewrite forallb_forall. intros H Hx. apply H. by apply elem_of_list_In. Qed.
Lemma valued_found modern p x :
  x ∈ valued p → found_long modern p false x = true ∧ found_short modern p false x = true.
Proof.
  intros Hx. split; revert Hx; apply forallb_in; destruct modern, p as [| |[]]; by vm_compute.
Qed.
Lemma switch_found modern p x :
  x ∈ switches modern p →
  found_long modern p true x = true ∧ found_short modern p true x = true ∧ no_inverse modern p x = true.
Proof.
  intros Hx. split_and!; revert Hx; apply forallb_in; destruct modern, p as [| |[]]; by vm_compute.
Qed.
Lemma valued_long modern p n sh :
  (n, sh) ∈ valued p →
  ∃ f, find_long (place_flags modern p) n = Some f ∧ is_switch f = false ∧ f_kind f ≠ AExit ∧ f_long f = n.
Proof.
  intros (H & _)%(valued_found modern). unfold found_long in H. simpl in H.
  destruct (find_long _ n) as [f|]; [|done]. exists f.
  rewrite !andb_true_iff, !bool_decide_eq_true in H. naive_solver.
Qed.
Lemma valued_short modern p n c :
  (n, Some c) ∈ valued p →
  c ≠ "-"%char ∧
  ∃ f, find_short (place_flags modern p) (Some c) = Some f ∧ is_switch f = false ∧ f_kind f ≠ AExit ∧ f_long f = n.
Proof.
  intros (_ & H)%(valued_found modern). unfold found_short in H. simpl in H.
  destruct (find_short _ _) as [f|]; rewrite !andb_true_iff, ?bool_decide_eq_true in H; [|naive_solver].
  split; [naive_solver|]. exists f. naive_solver.
Qed.
Lemma switch_long modern p n sh :
  (n, sh) ∈ switches modern p →
  find_long (place_flags modern p) ("no-" +:+ n) = None ∧
  ∃ f, find_long (place_flags modern p) n = Some f ∧ is_switch f = true ∧ f_kind f ≠ AExit ∧ f_long f = n.
Proof.
  intros (H & _ & H2)%switch_found. unfold found_long, no_inverse in *. cbn [fst] in *. revert H2. intros H2.
  split; [by destruct (find_long _ ("no-" +:+ n))|].
  destruct (find_long _ n) as [f|]; [|done]. exists f.
  rewrite !andb_true_iff, !bool_decide_eq_true in H. naive_solver.
Qed.
Lemma switch_short modern p n c :
  (n, Some c) ∈ switches modern p →
  c ≠ "-"%char ∧
  ∃ f, find_short (place_flags modern p) (Some c) = Some f ∧ is_switch f = true ∧ f_kind f ≠ AExit ∧ f_long f = n.
Proof.
  intros (_ & H & _)%switch_found. unfold found_short in H. simpl in H.
  destruct (find_short _ _) as [f|]; rewrite !andb_true_iff, ?bool_decide_eq_true in H; [|naive_solver].
  split; [naive_solver|]. exists f. naive_solver.
Qed.

(** * The input as a list of words *)
Definition token_words (t : token) : list word :=
  match t with
  | TArg s => [Lit s]
  | TLong n => [Name n]
  | TShort (Some c) => [Letter c]
  | TShort None => [Raw "-"]
  | TError => [Raw "@"]
  | TEnd => []
  end.
Definition view (i : input) : list word :=
  mjoin (token_words <$> peeked i) ++ ((if only i then Lit else Raw) <$> words i).
Definition wf (i : input) : Prop :=
  TEnd ∉ peeked i ∨ peeked i = [TEnd] ∧ words i = [].

Lemma plain_iff w :
  plain w ↔ match w with "" => True | String a _ => a ≠ "@"%char ∧ a ≠ "-"%char end.
Proof.
  unfold plain, begins_with. destruct w as [|a w].
  - split; [done|]. intros _. by split; intros ([] & ?).
  - split.
    + intros [H1 H2]. split; intros ->; [apply H2|apply H1]; by exists w.
    + intros [H1 H2]. by split; intros (r & [= -> _]).
Qed.

(** * Reading a token *)
Global Instance Raw_inj : Inj (=) (=) Raw. Proof. by intros ?? [=]. Qed.
Global Instance Lit_inj : Inj (=) (=) Lit. Proof. by intros ?? [=]. Qed.
Lemma peek_peek fs i : peek fs (peek fs i).2 = peek fs i.
Proof.
  unfold peek at 2 3. destruct (peeked i) as [|t p] eqn:E; simpl.
  - destruct (next fs i) as [t i']. by unfold peek, push.
  - unfold peek. by rewrite E.
Qed.
Lemma view_peeked t p ws b : view (Input (t :: p) ws b) = token_words t ++ view (Input p ws b).
Proof. unfold view. simpl. by rewrite app_assoc. Qed.

Lemma peek_reads modern p i ws :
  wf i → reads modern p (view i) ws →
  view (peek (place_flags modern p) i).2 = ws ∧ wf (peek (place_flags modern p) i).2.
Proof.
  intros Hwf H. destruct i as [[|t pk] wds b].
  2:{ (* a pushed token is not a word to be read *)
    exfalso. rewrite view_peeked in H. destruct t as [s|n|[c|]| |]; simpl in H.
    - inversion H.
    - inversion H.
    - inversion H.
    - inversion H as [|w0 ws0 [Hp _]| | | | |]; subst. apply Hp. by exists "".
    - inversion H as [|w0 ws0 [_ Hp]| | | | |]; subst. apply Hp. by exists "".
    - destruct Hwf as [Hwf|[Hwf Hw]]; simpl in *; [set_solver|].
      injection Hwf as ->. subst wds. unfold view in H. simpl in H. destruct b; inversion H. }
  destruct wds as [|w wds].
  { unfold view in H. simpl in H. inversion H. }
  destruct b; [unfold view in H; simpl in H; inversion H|].
  unfold view in H. simpl in H. change (reads modern p (Raw w :: (Raw <$> wds)) ws) in H.
  unfold peek. cbn [peeked].
  inversion H as [ws0 E1 E2|w0 ws0 Hp E1 E2|n ws0 Hn Hb E1 E2|n v ws0 Hb E1 E2|c ws0 Hc E1 E2
    |n c v ws0 Hv Hin E1 E2|n c v ws0 Hv Hin E1 E2]; subst.
  - assert (ws0 = wds) as ->.
    { match goal with E : _ = Raw <$> wds |- _ => by apply (inj (fmap Raw)) in E end. }
    unfold next. simpl. destruct wds as [|w' wds]; simpl.
    + split; [done|]. by right.
    + split; [done|]. left. set_solver.
  - apply plain_iff in Hp. unfold next. simpl. destruct w as [|a w]; simpl.
    + split; [done|]. left. set_solver.
    + destruct Hp as [Ha Hd]. rewrite !decide_False by (try done; by intros []).
      destruct (decide (a ≠ "-"%char)); [|done]. simpl. split; [done|]. left. set_solver.
  - destruct n as [|d n]; [done|]. unfold next. simpl.
    assert (Hi : index_byte "=" (String d n) = None) by by apply index_byte_None.
    simpl in Hi. rewrite Hi. simpl. split; [done|]. left. set_solver.
  - pose proof (index_byte_app "=" n v Hb) as Hi.
    pose proof (str_take_app n (String "=" v)) as Ht.
    assert (Hd : str_drop (S (String.length n)) (n +:+ String "=" v) = v).
    { clear. induction n as [|d n IH]; [by destruct v|]. rewrite app_str_cons. apply IH. }
    change ("--" +:+ n +:+ "=" +:+ v) with (String "-" (String "-" (n +:+ String "=" v))).
    destruct (n +:+ String "=" v) as [|x y] eqn:E; [by destruct n|].
    unfold next. cbn [peeked words only]. rewrite Hi, Ht, Hd. simpl. split; [done|]. left. set_solver.
  - unfold next. simpl. rewrite decide_False by done. simpl. split; [done|]. left. set_solver.
  - destruct (valued_short modern p n c Hin) as (Hc & f & Hf & Hs & _).
    unfold next. simpl. rewrite decide_False by done. destruct v as [|x v]; [done|].
    rewrite Hf, Hs. simpl. split; [done|]. left. set_solver.
  - destruct (switch_short modern p n c Hin) as (Hc & f & Hf & Hs & _).
    unfold next. simpl. rewrite decide_False by done. destruct v as [|x v]; [done|].
    rewrite Hf, Hs. simpl. split; [done|]. left. set_solver.
Qed.

Lemma wf_tail t p ws b : t ≠ TEnd → wf (Input (t :: p) ws b) → wf (Input p ws b).
Proof.
  intros Ht [H|[H _]]; simpl in H; [|congruence]. left. simpl. set_solver.
Qed.
Lemma wf_nil ws b : wf (Input [] ws b).
Proof. left. set_solver. Qed.
Lemma peek_lit fs i w ws :
  wf i → view i = Lit w :: ws →
  (peek fs i).1 = TArg w ∧ view (next fs (peek fs i).2).2 = ws ∧ wf (next fs (peek fs i).2).2.
Proof.
  intros Hwf H. destruct i as [[|t pk] wds b].
  - unfold view in H. destruct wds as [|w' wds]; [done|]. destruct b; [|done].
    simpl in H. injection H as -> <-. simpl. split_and!; [done|done|apply wf_nil].
  - rewrite view_peeked in H. destruct t as [s|n|[c|]| |]; simpl in H; try done.
    + injection H as -> <-. simpl. split_and!; [done|done|]. eapply wf_tail; [|done]; done.
    + destruct Hwf as [Hwf|[Hwf Hw]]; simpl in *; [set_solver|].
      injection Hwf as ->. subst wds. by destruct b.
Qed.
Lemma peek_name fs i n ws :
  wf i → view i = Name n :: ws →
  peek fs i = (TLong n, i) ∧ view (next fs i).2 = ws ∧ wf (next fs i).2.
Proof.
  intros Hwf H. destruct i as [[|t pk] wds b].
  - unfold view in H. destruct wds as [|w' wds]; [done|]. by destruct b.
  - rewrite view_peeked in H. destruct t as [s|n'|[c|]| |]; simpl in H; try done.
    + injection H as -> <-. simpl. split_and!; [done|done|]. eapply wf_tail; [|done]; done.
    + destruct Hwf as [Hwf|[Hwf Hw]]; simpl in *; [set_solver|].
      injection Hwf as ->. subst wds. by destruct b.
Qed.
Lemma peek_letter fs i c ws :
  wf i → view i = Letter c :: ws →
  peek fs i = (TShort (Some c), i) ∧ view (next fs i).2 = ws ∧ wf (next fs i).2.
Proof.
  intros Hwf H. destruct i as [[|t pk] wds b].
  - unfold view in H. destruct wds as [|w' wds]; [done|]. by destruct b.
  - rewrite view_peeked in H. destruct t as [s|n'|[c'|]| |]; simpl in H; try done.
    + injection H as -> <-. simpl. split_and!; [done|done|]. eapply wf_tail; [|done]; done.
    + destruct Hwf as [Hwf|[Hwf Hw]]; simpl in *; [set_solver|].
      injection Hwf as ->. subst wds. by destruct b.
Qed.
Lemma peek_nil fs i : wf i → view i = [] → (peek fs i).1 = TEnd.
Proof.
  intros Hwf H. destruct i as [[|t pk] wds b].
  - unfold view in H. by destruct wds as [|w' wds].
  - rewrite view_peeked in H. by destruct t as [s|n'|[c'|]| |].
Qed.

Lemma value_found modern p ws v rest :
  value_in modern p ws v rest → ∀ i, wf i → view i = ws →
  let fs := place_flags modern p in
  (peek fs i).1 = TArg v ∧ view (next fs (peek fs i).2).2 = rest ∧ wf (next fs (peek fs i).2).2.
Proof.
  induction 1 as [v ws|ws ws' v rest Hr _ IH]; intros i Hwf Hv.
  - by apply peek_lit.
  - subst ws. destruct (peek_reads modern p i ws' Hwf Hr) as [H1 H2].
    specialize (IH _ H2 H1). simpl in IH. by rewrite !peek_peek in IH.
Qed.

(** * One flag *)
Lemma flag_value_switch fs t f inv i :
  is_switch f = true → flag_value fs t f inv i = inr (f, if inv then "false" else "true", (next fs i).2).
Proof. intros H. unfold flag_value. by rewrite H. Qed.
Lemma flag_value_valued fs t f i v :
  is_switch f = false → (peek fs (next fs i).2).1 = TArg v →
  flag_value fs t f false i = inr (f, v, (next fs (peek fs (next fs i).2).2).2).
Proof.
  intros H Hp. unfold flag_value. rewrite H.
  destruct (peek fs (next fs i).2) as [t' i'] eqn:E. simpl in *. by subst.
Qed.

(** The parts of the elements: flags with their values and files. *)
Definition items (es : list element) : list (string * string) :=
  omap (λ e, match e with EFlag f v => Some (f_long f, v) | _ => None end) es.
Definition file_items (es : list element) : list (string * string) :=
  omap (λ e, match e with EFile x v => Some (x, v) | _ => None end) es.
Definition flag_elem (modern : bool) (c : cname) (e : element) : Prop :=
  match e with EFlag f _ => f ∈ place_flags modern (In c) ∧ f_kind f ≠ AExit | EFile _ _ => True end.
Definition at_place (modern : bool) (p : place) (x : context) : Prop :=
  known x = place_flags modern p ∧ subs x = place_subs modern p ∧ chosen x = place_action p ∧
  match p with In _ => True | _ => files x = [] end.
Definition pending (p : place) (c : cname) (x : context) : list string :=
  match p with In _ => files x | _ => place_files c end.

Lemma says_in modern p ws i a c : says modern p ws i a c → ∀ c', p = In c' → c' = c.
Proof.
  induction 1; intros c' Hp; try naive_solver.
  subst. match goal with H : leads _ _ _ |- _ => inversion H end.
Qed.
Lemma place_flags_in modern p c f :
  (∀ c', p = In c' → c' = c) → f ∈ place_flags modern p → f ∈ place_flags modern (In c).
Proof.
  intros Hp Hf. destruct p as [| |c'].
  - unfold place_flags. apply elem_of_app. by right.
  - unfold place_flags. apply elem_of_app. by right.
  - by rewrite <-(Hp c' eq_refl).
Qed.

Lemma leads_found modern p w p' :
  leads p w p' →
  ∃ c, find_command (place_subs modern p) w = Some c ∧
  ∀ x, at_place modern p x → at_place modern p' (matched c x) ∧
    match p' with In n => files (matched c x) = place_files n | _ => True end.
Proof.
  intros [].
  all: (eexists; split; [vm_compute; reflexivity|]); intros x (Hk & Hs & Hc & Hf).
  all: unfold at_place, matched; simpl; rewrite ?Hk, ?Hf; by destruct modern.
Qed.
Lemma default_at_book modern x :
  at_place modern Book x →
  default_command (subs x) = Some run_clause ∧ at_place modern (In CRun) (matched run_clause x) ∧
  files (matched run_clause x) = place_files CRun.
Proof.
  intros (Hk & Hs & Hc & Hf). rewrite Hs. split; [done|].
  unfold at_place, matched; simpl; rewrite ?Hk, ?Hf. by destruct modern.
Qed.
Lemma not_leads modern w : (∀ p, ¬ leads Book w p) → find_command (place_subs modern Book) w = None.
Proof.
  intros H. unfold find_command. destruct (list_find _ _) as [[k c]|] eqn:E; [|done]. exfalso.
  apply list_find_Some in E as (E & Hw & _). apply elem_of_list_lookup_2 in E. simpl in E.
  set_unfold. destruct_or!; subst; simpl in Hw; set_unfold; destruct_or!; subst; by eapply H; constructor.
Qed.

(** * A line that says something is read as saying it *)
Lemma step_peeked x : step (with_input (peek (known x) (inp x)).2 x) = step x.
Proof. unfold step, with_input. simpl. by rewrite peek_peek. Qed.
Lemma steps_S fuel x : steps (S fuel) x = match step x with inl r => Some r | inr x => steps fuel x end.
Proof. done. Qed.
Lemma step_flag x t f v i' :
  chosen x ≠ ShowsUsage → peek (known x) (inp x) = (t, inp x) →
  (∃ n, t = TLong n) ∨ (∃ c, t = TShort c) →
  parse_flag (known x) (inp x) = inr (f, v, i') → f_kind f ≠ AExit →
  step x = inr (Context (known x) (subs x) (files x) (chosen x) i' (elements x ++ [EFlag f v])).
Proof.
  intros Hc Hp Ht Hf Hk. destruct x as [k s fl ch i es]. simpl in *. unfold step. simpl. rewrite Hp. simpl.
  destruct ch; [| |done]; (destruct Ht as [[n ->]|[c1 ->]]; rewrite Hf; destruct (f_kind f); try done).
Qed.

Lemma action_shows p : place_action p ≠ ShowsUsage.
Proof. by destruct p. Qed.
Lemma str_drop_no n : str_drop 3 ("no-" +:+ n) = n.
Proof. apply (str_drop_app "no-"). Qed.
Lemma has_prefix_no n : has_prefix ("no-" +:+ n) "no-" = true.
Proof. by destruct n. Qed.

Lemma says_steps modern : ∀ p ws i a c,
  says modern p ws i a c →
  ∀ x, at_place modern p x → wf (inp x) → view (inp x) = ws → length a = length (pending p c x) →
  ∃ fuel es, steps fuel x = Some (Matched c (place_flags modern (In c)) (elements x ++ es)) ∧
    items es = i ∧ file_items es = zip (pending p c x) a ∧ Forall (flag_elem modern c) es.
Proof.
  assert (Hone : ∀ p x t f v i' i0 a0 c0,
    at_place modern p x → peek (known x) (inp x) = (t, inp x) →
    (∃ n, t = TLong n) ∨ (∃ c, t = TShort c) →
    parse_flag (known x) (inp x) = inr (f, v, i') → f_kind f ≠ AExit → f ∈ place_flags modern p →
    wf i' →
    (∀ c', p = In c' → c' = c0) →
    (∀ x0, at_place modern p x0 → wf (inp x0) → view (inp x0) = view i' → length a0 = length (pending p c0 x0) →
      ∃ fuel es, steps fuel x0 = Some (Matched c0 (place_flags modern (In c0)) (elements x0 ++ es)) ∧
      items es = i0 ∧ file_items es = zip (pending p c0 x0) a0 ∧ Forall (flag_elem modern c0) es) →
    length a0 = length (pending p c0 x) →
    ∃ fuel es, steps fuel x = Some (Matched c0 (place_flags modern (In c0)) (elements x ++ es)) ∧
      items es = (f_long f, v) :: i0 ∧ file_items es = zip (pending p c0 x) a0 ∧ Forall (flag_elem modern c0) es).
  { intros p x t f v i' i0 a0 c0 Hat Hpk Ht Hpf Hk Hin Hwf Hfin IH Hlen.
    destruct (IH (Context (known x) (subs x) (files x) (chosen x) i' (elements x ++ [EFlag f v])))
      as (fuel & es & Hs & Hi & Hf & Hfa); [done|done|done|by destruct p|].
    exists (S fuel), (EFlag f v :: es). rewrite steps_S.
    erewrite step_flag; [|by destruct Hat as (_ & _ & -> & _); apply action_shows|done|done|done|done].
    rewrite Hs. simpl. rewrite <-app_assoc. split_and!; [done|by rewrite <-Hi|by destruct p|].
    apply Forall_cons. split; [|done]. split; [|done]. by eapply place_flags_in. }
  induction 1 as [c|p ws ws' i a c Hr _ IH|p n sh ws v rest i a c Hn Hv Hs IH|p n l ws v rest i a c Hn Hv Hs IH
    |p n sh ws i a c Hn Hs IH|p n sh ws i a c Hn Hs IH|p n l ws i a c Hn Hs IH|w ws i a c Hs IH
    |p w p' ws i a c Hl Hs IH|w ws i a c Hl Hs IH]; intros x Hat Hwf Hview Hlen.
  - (* the end *)
    exists 1%nat, []. rewrite steps_S. unfold step. destruct Hat as (Hk & Hsu & Hc & _).
    destruct (peek (known x) (inp x)) as [t i0] eqn:E.
    pose proof (peek_nil (known x) (inp x) Hwf Hview) as Ht. rewrite E in Ht. simpl in Ht. subst t. simpl.
    rewrite Hc, Hsu. simpl in *. rewrite Hc.
    destruct (files x); [|done]. rewrite Hk, app_nil_r. by split_and!.
  - (* a word is read *)
    subst ws. destruct (peek_reads modern p (inp x) ws' Hwf Hr) as [H1 H2].
    destruct (IH (with_input (peek (known x) (inp x)).2 x)) as (fuel & es & Hst & H).
    + done.
    + simpl. by rewrite (proj1 Hat).
    + simpl. by rewrite (proj1 Hat).
    + by destruct p.
    + exists fuel, es. split; [|by destruct p]. cbn [elements with_input] in Hst. rewrite <-Hst.
      destruct fuel as [|fuel]; [done|]. by rewrite !steps_S, step_peeked.
  - (* --name value *)
    destruct (valued_long modern p n sh Hn) as (f & Hf & Hsw & Hk & Hfn).
    destruct (peek_name (known x) (inp x) n ws Hwf Hview) as (Hp & Hw & Hwf2).
    rewrite (proj1 Hat) in *.
    destruct (value_found _ _ _ _ _ Hv _ Hwf2 Hw) as (Hp1 & Hp2 & Hp3). subst n.
    eapply Hone; [done|rewrite (proj1 Hat); exact Hp|by left; eexists| |done|by apply find_long_Some in Hf as [??]
      |exact Hp3|by eapply says_in| |done].
    + rewrite (proj1 Hat). unfold parse_flag. rewrite Hp, Hf. by apply flag_value_valued.
    + intros x0 ? ? Hv0 ?. apply IH; [done|done|by rewrite Hv0|done].
  - (* -c value *)
    destruct (valued_short modern p n l Hn) as (_ & f & Hf & Hsw & Hk & Hfn).
    destruct (peek_letter (known x) (inp x) l ws Hwf Hview) as (Hp & Hw & Hwf2).
    rewrite (proj1 Hat) in *.
    destruct (value_found _ _ _ _ _ Hv _ Hwf2 Hw) as (Hp1 & Hp2 & Hp3). subst n.
    eapply Hone; [done|rewrite (proj1 Hat); exact Hp|by right; eexists| |done|by apply find_short_Some in Hf as [??]
      |exact Hp3|by eapply says_in| |done].
    + rewrite (proj1 Hat). unfold parse_flag. rewrite Hp, Hf. by apply flag_value_valued.
    + intros x0 ? ? Hv0 ?. apply IH; [done|done|by rewrite Hv0|done].
  - (* --name *)
    destruct (switch_long modern p n sh Hn) as (_ & f & Hf & Hsw & Hk & Hfn).
    destruct (peek_name (known x) (inp x) n ws Hwf Hview) as (Hp & Hw & Hwf2).
    rewrite (proj1 Hat) in *. subst n.
    eapply (Hone p x _ f "true"); [done|rewrite (proj1 Hat); exact Hp|by left; eexists| |done
      |by apply find_long_Some in Hf as [??]|exact Hwf2|by eapply says_in| |done].
    + rewrite (proj1 Hat). unfold parse_flag. rewrite Hp, Hf. by apply flag_value_switch.
    + intros x0 ? ? Hv0 ?. apply IH; [done|done|by rewrite Hv0|done].
  - (* --no-name *)
    destruct (switch_long modern p n sh Hn) as (Hno & f & Hf & Hsw & Hk & Hfn).
    destruct (peek_name (known x) (inp x) _ ws Hwf Hview) as (Hp & Hw & Hwf2).
    rewrite (proj1 Hat) in *. subst n.
    eapply (Hone p x _ f "false"); [done|rewrite (proj1 Hat); exact Hp|by left; eexists| |done
      |by apply find_long_Some in Hf as [??]|exact Hwf2|by eapply says_in| |done].
    + rewrite (proj1 Hat). unfold parse_flag. rewrite Hp, Hno, has_prefix_no, str_drop_no, Hf.
      by apply flag_value_switch.
    + intros x0 ? ? Hv0 ?. apply IH; [done|done|by rewrite Hv0|done].
  - (* -c *)
    destruct (switch_short modern p n l Hn) as (_ & f & Hf & Hsw & Hk & Hfn).
    destruct (peek_letter (known x) (inp x) l ws Hwf Hview) as (Hp & Hw & Hwf2).
    rewrite (proj1 Hat) in *. subst n.
    eapply (Hone p x _ f "true"); [done|rewrite (proj1 Hat); exact Hp|by right; eexists| |done
      |by apply find_short_Some in Hf as [??]|exact Hwf2|by eapply says_in| |done].
    + rewrite (proj1 Hat). unfold parse_flag. rewrite Hp, Hf. by apply flag_value_switch.
    + intros x0 ? ? Hv0 ?. apply IH; [done|done|by rewrite Hv0|done].
  - (* an argument *)
    destruct (peek_lit (known x) (inp x) w ws Hwf Hview) as (Hp & Hw & Hwf2).
    destruct Hat as (Hk & Hsu & Hc & _). simpl in Hlen.
    destruct (files x) as [|fl rest] eqn:Hfl; [done|]. simpl in Hlen.
    destruct (IH (Context (known x) [] rest (chosen x) (next (known x) (peek (known x) (inp x)).2).2
      (elements x ++ [EFile fl w]))) as (fuel & es & Hst & Hi & Hf & Hfa); [done|done|done|simpl; lia|].
    exists (S fuel), (EFile fl w :: es). rewrite steps_S. unfold step.
    destruct (peek (known x) (inp x)) as [t i0]. simpl in Hp. subst t. simpl.
    rewrite Hc in Hst |- *. rewrite Hsu, Hfl. cbn [snd elements] in Hst. cbn [place_action place_subs] in *.
    rewrite Hst. rewrite <-app_assoc.
    split_and!; [done|done| |].
    + simpl in Hf |- *. by rewrite Hf.
    + by apply Forall_cons.
  - (* a command *)
    destruct (leads_found modern p w p' Hl) as (cl & Hcl & Hat').
    destruct (peek_lit (known x) (inp x) w ws Hwf Hview) as (Hp & Hw & Hwf2).
    destruct (Hat' (with_input (next (known x) (peek (known x) (inp x)).2).2 x)) as [Hat2 Hfl2]; [done|].
    assert (Hinp : ∀ y, inp (matched cl y) = inp y) by by destruct cl.
    assert (Hel : ∀ y, elements (matched cl y) = elements y) by by destruct cl.
    assert (Hpend : pending p' c (matched cl (with_input (next (known x) (peek (known x) (inp x)).2).2 x)) =
      pending p c x).
    { destruct p' as [| |c']; simpl; [by inversion Hl|by inversion Hl|].
      rewrite Hfl2. assert (c' = c) as -> by by eapply says_in. by inversion Hl. }
    destruct (IH (matched cl (with_input (next (known x) (peek (known x) (inp x)).2).2 x)))
      as (fuel & es & Hst & Hi & Hf & Hfa); [done|by rewrite Hinp|by rewrite Hinp|by rewrite Hpend|].
    exists (S fuel), es. rewrite steps_S, Hel in *. unfold step.
    destruct Hat as (Hk & Hsu & Hc & _).
    destruct (peek (known x) (inp x)) as [t i0]. simpl in Hp. subst t. cbn [snd] in *.
    cbn [chosen with_input subs known].
    rewrite Hc. pose proof (action_shows p). rewrite Hsu. rewrite Hpend in Hf.
    destruct (place_subs modern p) as [|c0 cs] eqn:Ecs; [done|].
    destruct (place_action p); try done.
    all: rewrite Hcl; split_and!; [|done|done|done]; exact Hst.
  - (* the default *)
    destruct (peek_lit (known x) (inp x) w ws Hwf Hview) as (Hp & Hw & Hwf2).
    set (x' := with_input (peek (known x) (inp x)).2 x).
    assert (Hat2 : at_place modern Book x') by done.
    destruct (default_at_book modern x' Hat2) as (Hd & Hat3 & Hfl).
    assert (Hview' : view (peek (known x) (inp x)).2 = Lit w :: ws ∧ wf (peek (known x) (inp x)).2).
    { destruct (inp x) as [[|t pk] wds b]; [|done]. unfold view in Hview |- *.
      destruct wds as [|w' wds]; [done|]. destruct b; [|done]. simpl in *. split; [done|].
      left. set_solver. }
    assert (c = CRun) as -> by (symmetry; by eapply says_in).
    destruct (IH (matched run_clause x')) as (fuel & es & Hst & Hi & Hf & Hfa).
    + done.
    + apply Hview'.
    + apply Hview'.
    + unfold pending. by rewrite Hfl.
    + exists (S fuel), es. rewrite steps_S. unfold pending in Hf. rewrite Hfl in Hf. unfold step.
      destruct Hat as (Hk & Hsu & Hc & _). subst x'.
      destruct (peek (known x) (inp x)) as [t i0]. simpl in Hp. subst t. cbn [snd] in *.
      cbn [chosen with_input subs known]. rewrite Hc. cbn [place_action]. rewrite Hsu.
      pose proof (not_leads modern w Hl) as Hnl. cbn [subs with_input] in Hd. rewrite Hsu in Hd.
      change (place_subs modern Book) with [list_clause; dot_clause; eval_clause; run_clause] in *.
      cbn iota. rewrite Hnl, Hd. by split_and!.
Qed.

(** * A line that is accepted says what is done *)
Lemma find_short_None fs : find_short fs None = None.
Proof.
  unfold find_short. destruct (list_find _ fs) as [[k f]|] eqn:E; [|done].
  apply list_find_Some in E as (_ & [_ ?] & _). done.
Qed.
Lemma next_pop fs t p ws b : next fs (Input (t :: p) ws b) = (t, Input p ws b).
Proof. done. Qed.
(** A token read from the words. *)
Definition readable (modern : bool) (p : place) (ws ws' : list word) : Prop :=
  ws' = ws ∨ reads modern p ws ws'.
Lemma peek_sound modern p i t i' :
  wf i → peek (place_flags modern p) i = (t, i') →
  wf i' ∧ (∃ pk, peeked i' = t :: pk) ∧
  (readable modern p (view i) (view i') ∨ t = TError ∨
   ∃ b, t = TShort (Some b) ∧ find_short (place_flags modern p) (Some b) = None).
Proof.
  intros Hwf. destruct i as [[|t0 pk] wds b].
  2:{ unfold peek. simpl. intros [= <- <-]. split_and!; [done|by eexists|]. left. by left. }
  unfold peek. simpl peeked. cbn iota.
  destruct wds as [|w wds].
  { simpl. intros [= <- <-]. split_and!; [by right|by eexists|]. left. left. by destruct b. }
  unfold next. cbn [peeked words only].
  destruct b.
  { simpl. intros [= <- <-]. split_and!; [left; set_solver|by eexists|]. left. by left. }
  unfold view at 1. simpl ((mjoin _) ++ _).
  change (list_fmap string word Raw wds) with (Raw <$> wds).
  destruct w as [|a w].
  { simpl. intros [= <- <-]. split_and!; [left; set_solver|by eexists|]. left. right. apply reads_plain. by apply plain_iff. }
  destruct (decide (a = "@"%char)) as [->|Ha].
  { intros [= <- <-]. split_and!; [left; set_solver|by eexists|]. right. by left. }
  destruct (decide (a ≠ "-"%char)) as [Hd|Hd].
  { intros [= <- <-]. split_and!; [left; set_solver|by eexists|]. left. right. apply reads_plain. by apply plain_iff. }
  apply dec_stable in Hd as ->.
  destruct w as [|b w].
  { intros [= <- <-]. split_and!; [left; set_solver|by eexists|]. left. by left. }
  destruct (decide (b = "-"%char)) as [->|Hb].
  { destruct w as [|d w].
    { destruct wds as [|w' wds].
      - intros [= <- <-]. split_and!; [by right|by eexists|]. left. right. apply (reads_stop _ _ []).
      - intros [= <- <-]. split_and!; [left; set_solver|by eexists|]. left. right. apply (reads_stop _ _ (w' :: wds)). }
    destruct (index_byte "=" (String d w)) as [n|] eqn:E.
    - intros [= <- <-]. split_and!; [left; set_solver|by eexists|]. left. right.
      destruct (index_byte_Some _ _ _ E) as (H1 & H2 & _).
      rewrite H1 at 1. by apply (reads_eq modern p (str_take n (String d w)) (str_drop (S n) (String d w))).
    - intros [= <- <-]. split_and!; [left; set_solver|by eexists|]. left. right.
      apply (reads_name modern p (String d w)); [done|]. by apply index_byte_None. }
  destruct w as [|d w].
  { intros [= <- <-]. split_and!; [left; set_solver|by eexists|]. left. right. by apply reads_letter. }
  destruct (find_short _ (Some b)) as [f|] eqn:E.
  - destruct (find_short_Some _ _ _ E) as (Hin & Hs & _). apply all_listed in Hin as [[_ Hl]|[(_ & Hl & Hin)|(_ & Hl & Hin)]].
    + congruence.
    + rewrite Hl. intros [= <- <-]. split_and!; [left; set_solver|by eexists|]. left. right.
      rewrite Hs in Hin. by eapply reads_cluster.
    + rewrite Hl. intros [= <- <-]. split_and!; [left; set_solver|by eexists|]. left. right.
      rewrite Hs in Hin. by eapply reads_joined.
  - intros [= <- <-]. split_and!; [left; set_solver|by eexists|]. right. right. by eexists.
Qed.

(** What a line is taken to say. *)
Definition taken (modern : bool) (p : place) (ws : list word) (i : list (string * string)) (a : list string) (c : cname) : Prop :=
  says modern p ws i a c ∨
  c = CRun ∧ ∃ i1 rest i2, i = i1 ++ i2 ∧ strays modern p ws i1 rest ∧ says modern (In CRun) rest i2 a CRun.
Lemma strays_readable modern p ws ws' i rest : readable modern p ws ws' → strays modern p ws' i rest → strays modern p ws i rest.
Proof. intros [->|H] Hs; [done|]. by eapply strays_read. Qed.
Lemma strays_not_in modern p ws i rest c : strays modern p ws i rest → p ≠ In c.
Proof.
  induction 1; try done. match goal with H : leads _ _ _ |- _ => by destruct H end.
Qed.
Lemma taken_in modern c ws i a c' : taken modern (In c) ws i a c' → says modern (In c) ws i a c'.
Proof. intros [H|(_ & i1 & rest & i2 & _ & H & _)]; [done|]. by apply (strays_not_in _ _ _ _ _ c) in H. Qed.
Lemma says_readable modern p ws ws' i a c : readable modern p ws ws' → says modern p ws' i a c → says modern p ws i a c.
Proof. intros [->|H] Hs; [done|]. by eapply says_read. Qed.
Lemma taken_readable modern p ws ws' i a c : readable modern p ws ws' → taken modern p ws' i a c → taken modern p ws i a c.
Proof.
  intros Hr [H|(-> & i1 & rest & i2 & -> & H & Hs)].
  - left. by eapply says_readable.
  - right. split; [done|]. exists i1, rest, i2. split; [done|]. split; [|done]. by eapply strays_readable.
Qed.
Lemma taken_command modern p w p' ws i a c :
  leads p w p' → taken modern p' ws i a c → taken modern p (Lit w :: ws) i a c.
Proof.
  intros Hl [H|(-> & i1 & rest & i2 & -> & H & Hs)].
  - left. by eapply says_command.
  - right. split; [done|]. exists i1, rest, i2. split; [done|]. split; [|done]. by eapply strays_command.
Qed.

Lemma view_pop fs i t pk :
  peeked i = t :: pk → wf i →
  view i = token_words t ++ view (next fs i).2 ∧ (t ≠ TEnd → wf (next fs i).2) ∧ next fs i = (t, (next fs i).2).
Proof.
  destruct i as [pk0 ws b]. simpl. intros -> Hwf. rewrite next_pop. simpl.
  split_and!; [apply view_peeked| |done]. intros Ht. by eapply wf_tail.
Qed.
Lemma end_view i pk : peeked i = TEnd :: pk → wf i → view i = [].
Proof.
  destruct i as [pk0 ws b]. simpl. intros -> [H|[[= ->] H]]; simpl in *; [set_solver|]. subst. by destruct b.
Qed.

Lemma flag_value_sound modern p t f inv i v i' g :
  wf i → (∃ pk, peeked i = t :: pk) → t ≠ TEnd → f ∈ place_flags modern p → f_kind f ≠ AExit →
  flag_value (place_flags modern p) t f inv i = inr (g, v, i') →
  g = f ∧ wf i' ∧
  ((is_switch f = true ∧ v = (if inv then "false" else "true") ∧ (f_long f, f_short f) ∈ switches modern p ∧
     view i = token_words t ++ view i') ∨
   (is_switch f = false ∧ inv = false ∧ (f_long f, f_short f) ∈ valued p ∧
     ∃ ws, view i = token_words t ++ ws ∧ value_in modern p ws v (view i'))).
Proof.
  intros Hwf (pk & Hpk) Ht Hin Hk. unfold flag_value.
  destruct (view_pop (place_flags modern p) i t pk Hpk Hwf) as (Hv & Hwf1 & _). specialize (Hwf1 Ht).
  apply all_listed in Hin as [[? _]|[(_ & Hs & Hin)|(_ & Hs & Hin)]]; [done| |].
  - rewrite Hs. intros [= <- <- <-]. split_and!; [done|done|]. by left.
  - rewrite Hs. destruct inv; [done|].
    destruct (peek _ (next _ i).2) as [t1 i1] eqn:E.
    destruct (peek_sound modern p _ t1 i1 Hwf1 E) as (Hwf2 & (pk2 & Hpk2) & Hr).
    destruct t1 as [s| | | |]; try done. intros [= <- <- <-].
    destruct (view_pop (place_flags modern p) i1 _ pk2 Hpk2 Hwf2) as (Hv2 & Hwf3 & _).
    split_and!; [done|by apply Hwf3|]. right. split_and!; [done|done|done|].
    eexists. split; [exact Hv|].
    assert (Hrd : readable modern p (view (next (place_flags modern p) i).2) (view i1)).
    { destruct Hr as [Hr|[?|(? & ? & _)]]; done. }
    assert (Hval : value_in modern p (view i1) s (view (next (place_flags modern p) i1).2)).
    { rewrite Hv2. apply value_here. }
    destruct Hrd as [<-|Hrd]; [done|]. by eapply value_read.
Qed.
Lemma str_drop_has_prefix n : has_prefix n "no-" = true → n = "no-" +:+ str_drop 3 n.
Proof.
  intros (r & ->)%has_prefix_spec. by rewrite str_drop_no.
Qed.
Lemma parse_flag_sound modern p t i f v i' :
  wf i → (∃ pk, peeked i = t :: pk) → t ≠ TEnd →
  parse_flag (place_flags modern p) i = inr (f, v, i') → f_kind f ≠ AExit →
  f ∈ place_flags modern p ∧ wf i' ∧
  (∀ its rest, strays modern p (view i') its rest → strays modern p (view i) ((f_long f, v) :: its) rest) ∧
  (∀ its a c, says modern p (view i') its a c → says modern p (view i) ((f_long f, v) :: its) a c).
Proof.
  intros Hwf Hpk Ht H Hk. assert (Hp : peek (place_flags modern p) i = (t, i)).
  { unfold peek. destruct Hpk as [pk ->]. done. }
  unfold parse_flag in H. rewrite Hp in H. destruct t as [s|n|c| |]; try done.
  - destruct (find_long (place_flags modern p) n) as [g|] eqn:E.
    + destruct (find_long_Some _ _ _ E) as [Hin Hn].
      assert (g = f) as ->. { unfold flag_value in H. repeat case_match; by simplify_eq. }
      destruct (flag_value_sound modern p _ f false i v i' f Hwf Hpk Ht Hin Hk H)
        as (_ & Hwf' & [(Hs & -> & Hsw & Hv)|(Hs & _ & Hva & ws & Hv & Hval)]).
      * rewrite Hv. simpl. rewrite <-Hn. split_and!; [done|done|intros; by eapply strays_switch|intros; by eapply says_switch].
      * rewrite Hv. simpl. rewrite <-Hn. split_and!; [done|done|intros; by eapply strays_valued|intros; by eapply says_valued].
    + destruct (has_prefix n "no-") eqn:Hno; [|done].
      destruct (find_long (place_flags modern p) (str_drop 3 n)) as [g|] eqn:E2; [|done].
      destruct (find_long_Some _ _ _ E2) as [Hin Hn].
      assert (g = f) as ->. { unfold flag_value in H. repeat case_match; by simplify_eq. }
      destruct (flag_value_sound modern p _ f true i v i' f Hwf Hpk Ht Hin Hk H)
        as (_ & Hwf' & [(Hs & -> & Hsw & Hv)|(Hs & ? & _)]); [|done].
      rewrite Hv. simpl. rewrite (str_drop_has_prefix n Hno), <-Hn.
      split_and!; [done|done|intros; by eapply strays_no|intros; by eapply says_no].
  - destruct (find_short (place_flags modern p) c) as [g|] eqn:E; [|done].
    destruct (find_short_Some _ _ _ E) as (Hin & Hn & Hc). destruct c as [c|]; [|done].
    assert (g = f) as ->. { unfold flag_value in H. repeat case_match; by simplify_eq. }
    destruct (flag_value_sound modern p _ f false i v i' f Hwf Hpk Ht Hin Hk H)
      as (_ & Hwf' & [(Hs & -> & Hsw & Hv)|(Hs & _ & Hva & ws & Hv & Hval)]).
    + rewrite Hv. simpl. rewrite Hn in Hsw.
      split_and!; [done|done|intros; by eapply strays_switch_letter|intros; by eapply says_switch_letter].
    + rewrite Hv. simpl. rewrite Hn in Hva.
      split_and!; [done|done|intros; by eapply strays_valued_letter|intros; by eapply says_valued_letter].
Qed.

(** An error in a flag at a place: reading on from there fails again, unless
    --debug lost its value. *)
Lemma parse_flag_error modern p t i i' :
  wf i → (∃ pk, peeked i = t :: pk) → t ≠ TEnd → (∃ n, t = TLong n) ∨ (∃ c, t = TShort c) →
  p = Book → parse_flag (place_flags modern p) i = inl i' →
  i' = i ∨ t = TLong "debug" ∧ ∃ t1 i1, view i = Name "debug" :: view (next (place_flags modern p) i).2 ∧
    wf (next (place_flags modern p) i).2 ∧ peek (place_flags modern p) (next (place_flags modern p) i).2 = (t1, i1) ∧
    (∀ s, t1 ≠ TArg s) ∧ i' = push t1 i1.
Proof.
  intros Hwf Hpk Ht Hkind -> H. assert (Hp : peek (place_flags modern Book) i = (t, i)).
  { unfold peek. destruct Hpk as [pk ->]. done. }
  unfold parse_flag in H. rewrite Hp in H.
  assert (Hinv : ∀ f, flag_value (place_flags modern Book) t f true i = inl i' → i' = i).
  { intros f. unfold flag_value. destruct (is_switch f); [done|]. intros [= <-].
    destruct i as [pk0 ws b]. destruct Hpk as [pk Hpk]. simpl in Hpk. by subst. }
  assert (Hval : ∀ f, f ∈ place_flags modern Book → (∃ n, t = TLong n ∧ f_long f = n) ∨ (∃ c, t = TShort c ∧ f_short f = c ∧ c ≠ None) →
    flag_value (place_flags modern Book) t f false i = inl i' → t = TLong "debug" ∧ ∃ t1 i1, view i = Name "debug" :: view (next (place_flags modern Book) i).2 ∧
    wf (next (place_flags modern Book) i).2 ∧ peek (place_flags modern Book) (next (place_flags modern Book) i).2 = (t1, i1) ∧
    (∀ s, t1 ≠ TArg s) ∧ i' = push t1 i1).
  { intros f Hin Hname. unfold flag_value.
    apply all_listed in Hin as [[Hk _]|[(_ & Hs & _)|(_ & Hs & Hin)]].
    { unfold is_switch. by rewrite Hk. }
    { by rewrite Hs. }
    rewrite Hs. destruct Hpk as [pk Hpk].
    destruct (view_pop (place_flags modern Book) i t pk Hpk Hwf) as (Hv & Hwf1 & _). specialize (Hwf1 Ht).
    destruct (peek _ (next _ i).2) as [t1 i1] eqn:E. intros Herr.
    simpl in Hin. apply elem_of_list_singleton in Hin. injection Hin as Hl Hsh.
    destruct Hname as [(n & -> & Hn)|(c & -> & Hc & Hne)]; [|congruence].
    rewrite Hl in Hn. subst n. split; [done|]. exists t1, i1. destruct t1 as [s| | | |]; [done|..]; by simplify_eq. }
  destruct t as [s|n|c| |]; try (by (destruct Hkind as [[? ?]|[? ?]])).
  - destruct (find_long (place_flags modern Book) n) as [f|] eqn:E.
    + destruct (find_long_Some _ _ _ E) as [Hin Hn]. right. eapply Hval; [done| |done]. left. by eexists.
    + destruct (has_prefix n "no-"); [|by left; simplify_eq].
      destruct (find_long (place_flags modern Book) (str_drop 3 n)) as [f|]; [|by left; simplify_eq].
      left. by eapply Hinv.
  - destruct (find_short (place_flags modern Book) c) as [f|] eqn:E; [|by left; simplify_eq].
    destruct (find_short_Some _ _ _ E) as (Hin & Hn & Hc). right. eapply Hval; [done| |done]. right. by eexists.
Qed.

Lemma step_in_chosen modern c x r :
  at_place modern (In c) x → step x = inr r → at_place modern (In c) r.
Proof.
  intros (Hk & Hs & Hc & _). unfold step. destruct (peek _ _) as [t i].
  cbn [chosen with_input subs files known elements inp]. rewrite Hc. cbn [place_action].
  destruct t as [s|n|l| |].
  - rewrite Hs. simpl. destruct (files x); [done|]. by intros [= <-].
  - destruct (parse_flag _ _) as [i'|[[f v] i']].
    + simpl. rewrite Hs. done.
    + simpl. destruct (f_kind f); try done; by intros [= <-].
  - destruct (parse_flag _ _) as [i'|[[f v] i']].
    + simpl. rewrite Hs. done.
    + simpl. destruct (f_kind f); try done; by intros [= <-].
  - done.
  - simpl. rewrite Hs. simpl. rewrite Hc. simpl. by destruct (files x).
Qed.
Lemma steps_in_chosen modern c fuel x c' k es :
  at_place modern (In c) x → steps fuel x = Some (Matched c' k es) → c' = c.
Proof.
  revert x. induction fuel as [|fuel IH]; intros x Hat; [done|]. rewrite steps_S.
  destruct (step x) as [r|x'] eqn:E.
  - intros [= ->]. destruct Hat as (Hk & Hs & Hc & _). revert E. unfold step. destruct (peek _ _) as [t i].
    cbn [chosen with_input]. rewrite Hc. cbn [place_action]. destruct t as [s|n|l| |]; simpl; rewrite ?Hs; simpl.
    + by destruct (files x).
    + destruct (parse_flag _ _) as [i'|[[f v] i']]; [done|]. by destruct (f_kind f).
    + destruct (parse_flag _ _) as [i'|[[f v] i']]; [done|]. by destruct (f_kind f).
    + done.
    + rewrite Hc. simpl. destruct (files x); [|done]. by intros [= ->].
  - apply IH. by eapply step_in_chosen.
Qed.

Lemma find_command_sound modern p w cl :
  find_command (place_subs modern p) w = Some cl →
  (∃ p', leads p w p' ∧ find_command (place_subs modern p) w = Some cl) ∨
  (∀ x, chosen (matched cl x) = ShowsUsage).
Proof.
  intros H. assert (∃ k, list_find (λ c, w ∈ cmd_names c) (place_subs modern p) = Some (k, cl)) as (k & Hf).
  { unfold find_command in H. destruct (list_find _ _) as [[k c]|]; [|done]. simpl in H. simplify_eq. by exists k. }
  apply list_find_Some in Hf as (Hl & Hw & _). apply elem_of_list_lookup_2 in Hl.
  destruct p as [| |c]; simpl in Hl.
  - set_unfold. destruct_or!; subst; simpl in Hw; set_unfold; destruct_or!; subst;
      try (left; eexists; split; [constructor|done]); by right.
  - set_unfold. destruct_or!; subst; simpl in Hw; set_unfold; destruct_or!; subst;
      try (left; eexists; split; [constructor|done]).
  - set_unfold. done.
Qed.
Lemma leads_Book w modern :
  find_command (place_subs modern Book) w = None → ∀ p, ¬ leads Book w p.
Proof. intros H p Hl. inversion Hl; subst; by vm_compute in H. Qed.

(** The flag after a --debug without value must be known, or reading fails. *)
Lemma place_flags_run modern : place_flags modern (In CRun) = place_flags modern Book.
Proof. done. Qed.
Lemma stray_flag modern x t1 i1 pk1 fuel c k es' :
  at_place modern (In CRun) x → files x = place_files CRun → inp x = push t1 i1 → peeked i1 = t1 :: pk1 →
  (steps fuel x = Some (Matched c k es') ∨ steps fuel x = Some Showed) → (∀ s, t1 ≠ TArg s) →
  ∃ f, token_words t1 = [f] ∧ ((∃ n, t1 = TLong n) ∨ (∃ l, t1 = TShort (Some l))) ∧
    ∀ b, t1 = TShort b → ∃ g, find_short (place_flags modern (In CRun)) b = Some g.
Proof.
  intros (Hk & Hs & Hc & _) Hfl Hi Hpk Hst Hna. destruct fuel as [|fuel]; [by destruct Hst|].
  rewrite steps_S in Hst.
  assert (Hp : peek (known x) (inp x) = (t1, inp x)) by (rewrite Hi; by unfold peek, push).
  destruct t1 as [s|n|l| |].
  - by destruct (Hna s).
  - exists (Name n). split_and!; [done|left; by eexists|done].
  - destruct (find_short (place_flags modern (In CRun)) l) as [g|] eqn:E.
    + destruct l as [l|]; [|by rewrite find_short_None in E].
      exists (Letter l). split_and!; [done|right; by eexists|]. intros b [= <-]. by exists g.
    + exfalso. revert Hst. unfold step. rewrite Hp. cbn [chosen with_input subs known]. rewrite Hc. cbn [place_action].
      unfold parse_flag. rewrite Hp, Hk, E, Hs. cbn. by intros [?|?].
  - exfalso. revert Hst. unfold step. rewrite Hp. cbn [chosen with_input]. rewrite Hc. cbn. by intros [?|?].
  - exfalso. revert Hst. unfold step. rewrite Hp. cbn [chosen with_input subs]. rewrite Hc, Hs. cbn.
    rewrite Hc, Hfl. cbn. by intros [?|?].
Qed.

Lemma steps_sound modern : ∀ fuel p x c k es',
  at_place modern p x → wf (inp x) → steps fuel x = Some (Matched c k es') →
  k = place_flags modern (In c) ∧ (∀ c', p = In c' → c' = c) ∧
  (∃ es, es' = elements x ++ es ∧ Forall (flag_elem modern c) es ∧ (file_items es).*1 = pending p c x ∧
   taken modern p (view (inp x)) (items es) (file_items es).*2 c).
Proof.
  induction fuel as [|fuel IH]; intros p x c k es' Hat Hwf; [done|]. rewrite steps_S.
  destruct (peek (known x) (inp x)) as [t i] eqn:Epeek.
  assert (Epk := Epeek). rewrite (proj1 Hat) in Epk.
  destruct (peek_sound modern p _ _ _ Hwf Epk) as (Hwfi & Hpk & Hr).
  assert (Hpeek2 : peek (place_flags modern p) i = (t, i)).
  { unfold peek. destruct Hpk as [pk ->]. done. }
  destruct (step x) as [r|x'] eqn:Est.
  - (* the end *)
    intros [= ->]. revert Est. unfold step. rewrite Epeek.
    destruct Hat as (Hk & Hs & Hc & Hfl). cbn [chosen with_input subs files known elements inp]. rewrite Hc.
    pose proof (action_shows p) as Hsh.
    destruct t as [s|n|l| |].
    + intros E. exfalso. revert E. rewrite Hs. destruct (place_action p); try done.
      all: destruct (place_subs modern p); [by destruct (files x)|].
      all: repeat case_match; done.
    + intros E. exfalso. revert E. destruct (place_action p); try done; repeat case_match; done.
    + intros E. exfalso. revert E. destruct (place_action p); try done; repeat case_match; done.
    + intros E. exfalso. revert E. by destruct (place_action p).
    + destruct p as [| |c'].
      * intros E. exfalso. revert E. rewrite Hs. simpl. rewrite Hc. done.
      * intros E. exfalso. revert E. rewrite Hs. simpl. rewrite Hfl. done.
      * rewrite Hs. simpl. rewrite Hc. simpl. destruct (files x) as [|f0 fr] eqn:Hf; [|done].
        intros [= <- <- <-]. split; [done|]. split; [by intros c0 [= ->]|].
        exists []. rewrite app_nil_r. split_and!; [done|by apply Forall_nil|done|].
        destruct Hr as [Hr|[?|(? & ? & _)]]; [|done|done].
        left. eapply says_readable; [done|]. destruct Hpk as [pk Hpk].
        rewrite (end_view i pk) by done. apply says_end.
  - intros Hsteps.
    destruct (decide (t = TError)) as [->|Hterr].
    { exfalso. revert Est. unfold step. rewrite Epeek. cbn [chosen with_input]. by destruct (chosen x). }
    assert (Hflagcase : (∃ n, t = TLong n) ∨ (∃ l, t = TShort l) →
      k = place_flags modern (In c) ∧ (∀ c', p = In c' → c' = c) ∧
      (∃ es, es' = elements x ++ es ∧ Forall (flag_elem modern c) es ∧ (file_items es).*1 = pending p c x ∧
       taken modern p (view (inp x)) (items es) (file_items es).*2 c)).
    { intros Hkind. assert (Hte : t ≠ TEnd) by by destruct Hkind as [[? ->]|[? ->]].
      assert (Hst : match parse_flag (known x) i with
        | inl i' => match default_command (subs x) with
            | Some c => inr (matched c (with_input i' x)) | None => inl Failed end
        | inr (f, v, i') => match f_kind f with AExit => inl Showed
            | _ => inr (Context (known x) (subs x) (files x) (chosen x) i' (elements x ++ [EFlag f v])) end
        end = inr x').
      { rewrite <-Est. unfold step. rewrite Epeek. cbn [chosen with_input subs files known elements inp].
        destruct Hat as (_ & _ & Hc & _). rewrite Hc. pose proof (action_shows p).
        destruct (place_action p); try done; destruct Hkind as [[? ->]|[? ->]]; done. }
      clear Est. rewrite (proj1 Hat) in Hst.
      destruct (parse_flag (place_flags modern p) i) as [i'|[[f v] i']] eqn:Epf.
      - (* an error *)
        destruct p as [| |c0].
        { exfalso. revert Hst. by rewrite (proj1 (proj2 Hat)). }
        2:{ exfalso. revert Hst. by rewrite (proj1 (proj2 Hat)). }
        destruct (default_at_book modern (with_input i' x) Hat) as (Hd & Hat' & Hfl').
        cbn [subs with_input] in Hd. rewrite Hd in Hst. injection Hst as <-.
        destruct (parse_flag_error modern Book t i i' Hwfi Hpk Hte Hkind eq_refl Epf)
          as [->|(-> & t1 & i1 & Hview & Hwf1 & Hpk1 & Hna & ->)].
        + (* the same error again *)
          exfalso. destruct fuel as [|fuel]; [done|]. rewrite steps_S in Hsteps.
          revert Hsteps. unfold step. cbn [known inp]. rewrite (proj1 Hat), Hpeek2.
          cbn [chosen with_input subs files known elements inp].
          destruct Hkind as [[n ->]|[l ->]]; rewrite Epf; done.
        + assert (Hx1 : inp (matched run_clause (with_input (push t1 i1) x)) = push t1 i1) by done.
          destruct (peek_sound modern Book _ _ _ Hwf1 Hpk1) as (Hwf2 & [pk1 Hpk2] & Hr1).
          destruct (stray_flag modern _ t1 i1 pk1 _ _ _ _ Hat' Hfl' Hx1 Hpk2 (or_introl Hsteps) Hna) as (f & Htw & Hflag & Hsh).
          assert (Hrd1 : readable modern Book (view (next (place_flags modern Book) i).2) (view i1)).
          { destruct Hr1 as [?|[->|(b & -> & Hf)]]; [done|by destruct Hflag as [[]|[]]|].
            exfalso. destruct (Hsh (Some b) eq_refl) as [g Hg]. by rewrite place_flags_run in Hg; rewrite Hf in Hg. }
          destruct (view_pop (place_flags modern Book) i1 t1 pk1 Hpk2 Hwf2) as (Hv1 & _ & _).
          rewrite Htw in Hv1. simpl in Hv1. set (rest1 := view (next (place_flags modern Book) i1).2) in *.
          assert (Hv2 : view (push t1 i1) = f :: f :: rest1).
          { unfold push. rewrite view_peeked, Htw. simpl. destruct i1 as [pk' wds1 b1]. simpl in *. by rewrite Hv1. }
          assert (Hwf3 : wf (push t1 i1)).
          { unfold push. destruct i1 as [pk' wds1 b1]. simpl in *. subst pk'. left. simpl.
            destruct Hwf2 as [Hw|[Hw _]]; simpl in Hw; [set_solver|].
            injection Hw as -> ->. by destruct Hflag as [[]|[]]. }
          destruct (IH (In CRun) _ c k es' Hat' Hwf3 Hsteps) as (Hkk & Hfin & es & He & Hfa & Hfi & Hsay).
          specialize (Hfin CRun eq_refl). subst c. apply taken_in in Hsay. rewrite Hx1, Hv2 in Hsay.
          split; [done|]. split; [done|]. exists es. split_and!; [done|done| |].
          * rewrite Hfi. unfold pending. by rewrite Hfl'.
          * right. split; [done|]. exists [], (f :: f :: rest1), (items es). split; [done|]. split; [|done].
            apply (strays_readable _ _ _ (view i)).
            { destruct Hr as [Hr|[?|(b & ? & Hf)]]; done. }
            rewrite Hview. apply strays_here.
            -- rewrite <-Hv1. destruct Hrd1 as [->|?]; [by left|by right].
            -- destruct Hflag as [[n ->]|[l ->]]; simpl in Htw; injection Htw as <-; [left|right]; by eexists.
      - (* a flag *)
        destruct (decide (f_kind f = AExit)) as [Hx|Hx]; [by rewrite Hx in Hst|].
        assert (x' = Context (known x) (subs x) (files x) (chosen x) i' (elements x ++ [EFlag f v])) as ->.
        { rewrite (proj1 Hat). destruct (f_kind f); try done; by simplify_eq. }
        destruct (parse_flag_sound modern p t i f v i' Hwfi Hpk Hte Epf Hx) as (Hin & Hwf' & Hlost & Hsay).
        assert (Hrd : readable modern p (view (inp x)) (view i)).
        { destruct Hr as [Hr|[?|(b & -> & Hf)]]; [done|done|].
          exfalso. unfold parse_flag in Epf. by rewrite Hpeek2, Hf in Epf. }
        destruct (IH p (Context (known x) (subs x) (files x) (chosen x) i' (elements x ++ [EFlag f v]))
          c k es' Hat Hwf' Hsteps) as (Hk & Hfin & es & He & Hfa & Hfi & Hs).
        split; [done|]. split; [done|]. exists (EFlag f v :: es). split_and!.
        + rewrite He. simpl. by rewrite <-app_assoc.
        + apply Forall_cons. split; [|done]. split; [|done]. by eapply place_flags_in.
        + by destruct p.
        + eapply taken_readable; [done|]. simpl. destruct Hs as [Hs|(-> & j1 & rest & j2 & Hj & Hs & Hss)].
          * left. by apply Hsay.
          * right. split; [done|]. exists ((f_long f, v) :: j1), rest, j2. split; [simpl; by f_equal|].
            split; [|done]. by apply Hlost. }
    destruct t as [s|n|l| |]; [|by apply Hflagcase; left; eexists|by apply Hflagcase; right; eexists|done|].
    2:{ exfalso. revert Est. unfold step. rewrite Epeek. repeat case_match; done. }
    clear Hflagcase.
    destruct Hr as [Hr|[?|(? & ? & _)]]; [|done|done].
    destruct Hpk as [pk Hpk].
    destruct (view_pop (place_flags modern p) i _ pk Hpk Hwfi) as (Hv & Hwf' & _).
    specialize (Hwf' ltac:(done)). simpl in Hv.
    revert Est. unfold step. rewrite Epeek. cbn [chosen with_input subs files known elements inp].
    destruct Hat as (Hk & Hs & Hc & Hfl). rewrite Hc, Hs, Hk.
    destruct p as [| |c0].
    + cbn [place_action]. destruct (place_subs modern Top) as [|c1 cs] eqn:Ecs; [done|]. rewrite <-Ecs in *.
      destruct (find_command (place_subs modern Top) s) as [cl|] eqn:Efc; [|clear -Hsteps; intros Hst; exfalso; revert Hst; by destruct modern].
      intros [= <-]. set (x2 := with_input (next (place_flags modern Top) i).2 (with_input i x)) in *.
      destruct (find_command_sound modern Top s cl Efc) as [(p' & Hl & _)|Hshow].
      * destruct (leads_found modern Top s p' Hl) as (cl' & Hcl' & Hat').
        rewrite Efc in Hcl'. injection Hcl' as <-.
        destruct (Hat' x2) as [Hat2 Hfl2]; [done|].
        assert (Hinp : inp (matched cl x2) = (next (place_flags modern Top) i).2) by by destruct cl.
        assert (Hel : elements (matched cl x2) = elements x) by by destruct cl.
        destruct (IH p' _ c k es' Hat2) as (Hkk & Hfin & es & He & Hfa & Hfi & Hsay);
          [by rewrite Hinp|done|].
        -- rewrite Hel in He. rewrite Hinp in Hsay. split; [done|]. split; [done|]. exists es.
           split_and!; [done|done| |].
           ++ rewrite Hfi. unfold pending. destruct p' as [| |c'].
              ** done.
              ** done.
              ** rewrite Hfl2. by rewrite (Hfin c' eq_refl).
           ++ eapply taken_readable; [done|]. rewrite Hv. by eapply taken_command.
      * exfalso. destruct fuel as [|fuel]; [done|]. rewrite steps_S in Hsteps. revert Hsteps.
        pose proof (Hshow x2) as Hs2. destruct (matched cl x2) as [k2 s2 f2 ch2 i2 e2]. simpl in Hs2. subst ch2.
        unfold step. cbn [known inp chosen with_input]. by destruct (peek k2 i2).
    + cbn [place_action]. destruct (place_subs modern Book) as [|c1 cs] eqn:Ecs; [done|]. rewrite <-Ecs in *.
      destruct (find_command (place_subs modern Book) s) as [cl|] eqn:Efc.
      * intros [= <-]. set (x2 := with_input (next (place_flags modern Book) i).2 (with_input i x)) in *.
        destruct (find_command_sound modern Book s cl Efc) as [(p' & Hl & _)|Hshow].
        -- destruct (leads_found modern Book s p' Hl) as (cl' & Hcl' & Hat').
           rewrite Efc in Hcl'. injection Hcl' as <-.
           destruct (Hat' x2) as [Hat2 Hfl2]; [done|].
           assert (Hinp : inp (matched cl x2) = (next (place_flags modern Book) i).2) by by destruct cl.
           assert (Hel : elements (matched cl x2) = elements x) by by destruct cl.
           destruct (IH p' _ c k es' Hat2) as (Hkk & Hfin & es & He & Hfa & Hfi & Hsay);
             [by rewrite Hinp|done|].
           ++ rewrite Hel in He. rewrite Hinp in Hsay. split; [done|]. split; [done|]. exists es.
              split_and!; [done|done| |].
              ** rewrite Hfi. unfold pending. destruct p' as [| |c'].
                 --- done.
                 --- done.
                 --- rewrite Hfl2. by rewrite (Hfin c' eq_refl).
              ** eapply taken_readable; [done|]. rewrite Hv. by eapply taken_command.
        -- exfalso. destruct fuel as [|fuel]; [done|]. rewrite steps_S in Hsteps. revert Hsteps.
           pose proof (Hshow x2) as Hs2. destruct (matched cl x2) as [k2 s2 f2 ch2 i2 e2]. simpl in Hs2. subst ch2.
           unfold step. cbn [known inp chosen with_input]. by destruct (peek k2 i2).
      * intros Hst. rewrite Ecs in Hst. rewrite <-Ecs in Hst.
        assert (Hat1 : at_place modern Book (with_input i x)) by done.
        destruct (default_at_book modern _ Hat1) as (Hd & Hat2 & Hfl2).
        cbn [subs with_input] in Hd. rewrite Hs in Hd. rewrite Hd in Hst. injection Hst as <-.
        destruct (IH (In CRun) _ c k es' Hat2) as (Hkk & Hfin & es & He & Hfa & Hfi & Hsay);
          [done|done|]. apply taken_in in Hsay.
        -- split; [done|]. split; [done|]. exists es. split_and!; [done|done| |].
           ++ rewrite Hfi. unfold pending. rewrite Hfl2. by rewrite (Hfin _ eq_refl).
           ++ left. eapply says_readable; [done|]. rewrite Hv. apply says_default; [by eapply leads_Book|].
              rewrite <-Hv. done.
    + cbn [place_action place_subs]. destruct (files x) as [|fl rest] eqn:Efl; [done|].
      intros [= <-].
      destruct (IH (In c0) (Context (place_flags modern (In c0)) [] rest (Becomes c0)
        (next (place_flags modern (In c0)) i).2 (elements x ++ [EFile fl s])) c k es')
        as (Hkk & Hfin & es & He & Hfa & Hfi & Hsay);
        [done|done|exact Hsteps|]. apply taken_in in Hsay.
      * split; [done|]. split; [done|]. exists (EFile fl s :: es). split_and!.
        -- rewrite He. simpl. by rewrite <-app_assoc.
        -- by apply Forall_cons.
        -- change ((file_items (EFile fl s :: es)).*1) with (fl :: (file_items es).*1). rewrite Hfi.
           unfold pending. by rewrite Efl.
        -- left. eapply says_readable; [done|]. rewrite Hv. simpl.
           rewrite (Hfin c0 eq_refl) in *. by apply says_arg.
Qed.

(** * The exception is carried out as described *)
Definition strayed (modern : bool) (x : context) (i : list (string * string)) (rest : list word) : Prop :=
  ∃ n es y, (∀ fuel, steps (S n + fuel) x = steps fuel y) ∧ at_place modern (In CRun) y ∧
    files y = place_files CRun ∧ wf (inp y) ∧ view (inp y) = rest ∧ elements y = elements x ++ es ∧
    items es = i ∧ file_items es = [] ∧ Forall (flag_elem modern CRun) es.
Lemma strays_steps modern : ∀ p ws i rest,
  strays modern p ws i rest →
  ∀ x, at_place modern p x → wf (inp x) → view (inp x) = ws → strayed modern x i rest.
Proof.
  assert (Hone : ∀ p x t f v i' i0 rest,
    at_place modern p x → (∀ c, p ≠ In c) → peek (known x) (inp x) = (t, inp x) →
    (∃ n, t = TLong n) ∨ (∃ c, t = TShort c) →
    parse_flag (known x) (inp x) = inr (f, v, i') → f_kind f ≠ AExit → f ∈ place_flags modern p →
    wf i' →
    (∀ x0, at_place modern p x0 → wf (inp x0) → view (inp x0) = view i' → strayed modern x0 i0 rest) →
    strayed modern x ((f_long f, v) :: i0) rest).
  { intros p x t f v i' i0 rest Hat Hp Hpk Ht Hpf Hk Hin Hwf IH.
    destruct (IH (Context (known x) (subs x) (files x) (chosen x) i' (elements x ++ [EFlag f v])))
      as (n & es & y & Hs & Haty & Hfl & Hwfy & Hv & He & Hi & Hf & Hfa); [done|done|done|].
    exists (S n), (EFlag f v :: es), y. split_and!; try done.
    - intros fuel. change (S (S n) + fuel)%nat with (S (S n + fuel)). rewrite steps_S.
      erewrite step_flag; [|by destruct Hat as (_ & _ & -> & _); apply action_shows|done|done|done|done]. apply Hs.
    - rewrite He. simpl. by rewrite <-app_assoc.
    - simpl. by rewrite <-Hi.
    - apply Forall_cons. split; [|done]. split; [|done]. eapply place_flags_in; [|done]. intros c' ->. by destruct (Hp c'). }
  induction 1 as [ws f rest Hr Hflag|p ws ws' i rest Hr _ IH|p n sh ws v ws' i rest Hn Hv Hs IH
    |p n l ws v ws' i rest Hn Hv Hs IH|p n sh ws i rest Hn Hs IH|p n sh ws i rest Hn Hs IH
    |p n l ws i rest Hn Hs IH|p w p' ws i rest Hl Hs IH]; intros x Hat Hwf Hview.
  - (* --debug without value *)
    destruct (valued_long modern Book "debug" None ltac:(by left)) as (g & Hg & Hsw & Hk & Hgn).
    destruct (peek_name (known x) (inp x) "debug" ws Hwf Hview) as (Hp & Hw & Hwf2).
    set (fs := place_flags modern Book) in *.
    assert (Hkn : known x = fs) by apply Hat. rewrite Hkn in *.
    assert (∃ t1 i1, peek fs (next fs (inp x)).2 = (t1, i1) ∧ wf i1 ∧ view i1 = f :: rest ∧
      token_words t1 = [f] ∧ (∀ s, t1 ≠ TArg s) ∧ t1 ≠ TEnd) as (t1 & i1 & Hp1 & Hwf3 & Hv1 & Htw & Hna & Hne).
    { assert (view (peek fs (next fs (inp x)).2).2 = f :: rest ∧ wf (peek fs (next fs (inp x)).2).2) as [Hv1 Hwf3].
      { destruct Hr as [->|Hr].
        - destruct Hflag as [[n ->]|[l ->]].
          + by destruct (peek_name fs _ n rest Hwf2 Hw) as (-> & _).
          + by destruct (peek_letter fs _ l rest Hwf2 Hw) as (-> & _).
        - rewrite <-Hw in Hr. by apply peek_reads. }
      destruct Hflag as [[n ->]|[l ->]].
      - destruct (peek_name fs _ n rest Hwf3 Hv1) as (Hpp & _). rewrite peek_peek in Hpp.
        exists (TLong n), (peek fs (next fs (inp x)).2).2. by split_and!.
      - destruct (peek_letter fs _ l rest Hwf3 Hv1) as (Hpp & _). rewrite peek_peek in Hpp.
        exists (TShort (Some l)), (peek fs (next fs (inp x)).2).2. by split_and!. }
    assert (Hat1 : at_place modern Book (with_input (push t1 i1) x)) by done.
    destruct (default_at_book modern _ Hat1) as (Hd & Hat2 & Hfl2).
    exists 0%nat, [], (matched run_clause (with_input (push t1 i1) x)).
    split_and!; try done.
    + intros fuel. simpl. change (steps (S fuel) x = steps fuel (matched run_clause (with_input (push t1 i1) x))).
      rewrite steps_S. unfold step. rewrite Hkn, Hp. cbn [chosen with_input subs known files elements].
      destruct Hat as (_ & Hsu & Hc & _). rewrite Hc. cbn [place_action].
      assert (Hpf : parse_flag fs (inp x) = inl (push t1 i1)).
      { unfold parse_flag. rewrite Hp, Hg. unfold flag_value. rewrite Hsw, Hp1.
        destruct t1 as [s| | | |]; [by destruct (Hna s)|done..]. }
      rewrite ?Hkn, Hpf. cbn [subs with_input] in Hd. rewrite Hd. by destruct x.
    + unfold push. destruct i1 as [pk wds b]. left. simpl in *.
      destruct Hwf3 as [Hw3|[Hw3 Hw4]]; simpl in *; [set_solver|]. subst. by destruct b.
    + change (view (push t1 i1) = f :: f :: rest). unfold push. rewrite view_peeked, Htw. simpl. f_equal. by destruct i1.
    + by rewrite app_nil_r.
  - (* a word is read *)
    subst ws. destruct (peek_reads modern p (inp x) ws' Hwf Hr) as [H1 H2].
    destruct (IH (with_input (peek (known x) (inp x)).2 x)) as (n & es & y & Hst & H).
    + done.
    + simpl. by rewrite (proj1 Hat).
    + simpl. by rewrite (proj1 Hat).
    + exists n, es, y. split; [|done]. intros fuel. rewrite <-Hst. simpl. by rewrite step_peeked.
  - (* --name value *)
    destruct (valued_long modern p n sh Hn) as (f & Hf & Hsw & Hk & Hfn).
    destruct (peek_name (known x) (inp x) n ws Hwf Hview) as (Hp & Hw & Hwf2).
    rewrite (proj1 Hat) in *.
    destruct (value_found _ _ _ _ _ Hv _ Hwf2 Hw) as (Hp1 & Hp2 & Hp3). subst n.
    eapply (Hone p); [done|intros c; by eapply strays_not_in|rewrite (proj1 Hat); exact Hp|by left; eexists| |done
      |by apply find_long_Some in Hf as [??]|exact Hp3|].
    + rewrite (proj1 Hat). unfold parse_flag. rewrite Hp, Hf. by apply flag_value_valued.
    + intros x0 ? ? Hv0. apply IH; [done|done|by rewrite Hv0].
  - (* -c value *)
    destruct (valued_short modern p n l Hn) as (_ & f & Hf & Hsw & Hk & Hfn).
    destruct (peek_letter (known x) (inp x) l ws Hwf Hview) as (Hp & Hw & Hwf2).
    rewrite (proj1 Hat) in *.
    destruct (value_found _ _ _ _ _ Hv _ Hwf2 Hw) as (Hp1 & Hp2 & Hp3). subst n.
    eapply (Hone p); [done|intros c; by eapply strays_not_in|rewrite (proj1 Hat); exact Hp|by right; eexists| |done
      |by apply find_short_Some in Hf as [??]|exact Hp3|].
    + rewrite (proj1 Hat). unfold parse_flag. rewrite Hp, Hf. by apply flag_value_valued.
    + intros x0 ? ? Hv0. apply IH; [done|done|by rewrite Hv0].
  - (* --name *)
    destruct (switch_long modern p n sh Hn) as (_ & f & Hf & Hsw & Hk & Hfn).
    destruct (peek_name (known x) (inp x) n ws Hwf Hview) as (Hp & Hw & Hwf2).
    rewrite (proj1 Hat) in *. subst n.
    eapply (Hone p x _ f "true"); [done|intros c; by eapply strays_not_in|rewrite (proj1 Hat); exact Hp|by left; eexists| |done
      |by apply find_long_Some in Hf as [??]|exact Hwf2|].
    + rewrite (proj1 Hat). unfold parse_flag. rewrite Hp, Hf. by apply flag_value_switch.
    + intros x0 ? ? Hv0. apply IH; [done|done|by rewrite Hv0].
  - (* --no-name *)
    destruct (switch_long modern p n sh Hn) as (Hno & f & Hf & Hsw & Hk & Hfn).
    destruct (peek_name (known x) (inp x) _ ws Hwf Hview) as (Hp & Hw & Hwf2).
    rewrite (proj1 Hat) in *. subst n.
    eapply (Hone p x _ f "false"); [done|intros c; by eapply strays_not_in|rewrite (proj1 Hat); exact Hp|by left; eexists| |done
      |by apply find_long_Some in Hf as [??]|exact Hwf2|].
    + rewrite (proj1 Hat). unfold parse_flag. rewrite Hp, Hno, has_prefix_no, str_drop_no, Hf.
      by apply flag_value_switch.
    + intros x0 ? ? Hv0. apply IH; [done|done|by rewrite Hv0].
  - (* -c *)
    destruct (switch_short modern p n l Hn) as (_ & f & Hf & Hsw & Hk & Hfn).
    destruct (peek_letter (known x) (inp x) l ws Hwf Hview) as (Hp & Hw & Hwf2).
    rewrite (proj1 Hat) in *. subst n.
    eapply (Hone p x _ f "true"); [done|intros c; by eapply strays_not_in|rewrite (proj1 Hat); exact Hp|by right; eexists| |done
      |by apply find_short_Some in Hf as [??]|exact Hwf2|].
    + rewrite (proj1 Hat). unfold parse_flag. rewrite Hp, Hf. by apply flag_value_switch.
    + intros x0 ? ? Hv0. apply IH; [done|done|by rewrite Hv0].
  - (* a command *)
    destruct (leads_found modern p w p' Hl) as (cl & Hcl & Hat').
    destruct (peek_lit (known x) (inp x) w ws Hwf Hview) as (Hp & Hw & Hwf2).
    destruct (Hat' (with_input (next (known x) (peek (known x) (inp x)).2).2 x)) as [Hat2 Hfl2]; [done|].
    assert (Hinp : ∀ y, inp (matched cl y) = inp y) by by destruct cl.
    assert (Hel : ∀ y, elements (matched cl y) = elements y) by by destruct cl.
    destruct (IH (matched cl (with_input (next (known x) (peek (known x) (inp x)).2).2 x)))
      as (n & es & y & Hst & Haty & Hfl & Hwfy & Hv & He & Hrest); [done|by rewrite Hinp|by rewrite Hinp|].
    exists (S n), es, y. rewrite Hel in He. split_and!; try done; [|naive_solver..].
    intros fuel. change (S (S n) + fuel)%nat with (S (S n + fuel)). rewrite steps_S, <-Hst. unfold step.
    destruct Hat as (Hk & Hsu & Hc & _).
    destruct (peek (known x) (inp x)) as [t i0]. simpl in Hp. subst t. cbn [snd] in *.
    cbn [chosen with_input subs known].
    rewrite Hc. pose proof (action_shows p). rewrite Hsu.
    destruct (place_subs modern p) as [|c0 cs] eqn:Ecs; [done|].
    destruct (place_action p); try done.
    all: rewrite Hcl; done.
Qed.
