From Coq Require Import String Ascii.
From stdpp Require Import gmap list strings numbers sorting.
From Verif Require Import GoBase GoBaseProofs GoStrings GoStringsProofs GoUtf8 GoUtf8Proofs ParserModel CliModel CliSpec.
Local Open Scope Z_scope.

(** * Logging *)

Lemma enabled_spec v l : enabled (threshold v) l = true ↔ shows v l.
Proof.
  unfold enabled, threshold. rewrite bool_decide_eq_true.
  split.
  - intros H. destruct l; [apply shows_debug|apply shows_info|apply shows_warn|apply shows_error];
      repeat case_bool_decide; cbn in H; lia.
  - intros H. destruct H; repeat case_bool_decide; cbn; lia.
Qed.
Lemma enabled_debug l : enabled Debug l = true.
Proof. by destruct l. Qed.
Lemma stdout_of_spec v t out : stdout_of (threshold v) t = out ↔ seen v t out.
Proof.
  split.
  - intros <-. induction t as [|[l m|s] t IH]; [apply seen_nil|..]; unfold stdout_of; cbn [omap list_omap].
    + destruct (enabled (threshold v) l) eqn:E.
      * apply enabled_spec in E. by apply seen_line.
      * apply seen_hidden; [|done]. intros H%enabled_spec. congruence.
    + by apply seen_text.
  - induction 1 as [|l m t out Hs _ <-|l m t out Hs _ <-|s t out _ <-]; [done|..]; unfold stdout_of; cbn [omap list_omap].
    + apply enabled_spec in Hs. by rewrite Hs.
    + destruct (enabled (threshold v) l) eqn:E; [|done]. by apply enabled_spec in E.
    + done.
Qed.
Lemma debug_log_of_spec t out : debug_log_of t = out ↔ logged t out.
Proof.
  split.
  - intros <-. induction t as [|[l m|s] t IH]; [apply logged_nil|..]; unfold debug_log_of; cbn [omap list_omap].
    + rewrite enabled_debug. by constructor.
    + by constructor.
  - induction 1 as [|l m t out _ <-|s t out _ <-]; [done|..]; unfold debug_log_of; cbn [omap list_omap]; [|done].
    by rewrite enabled_debug.
Qed.
Lemma shows_mono v v' l : v ≤ v' → shows v l → shows v' l.
Proof. intros Hv H. destruct H; constructor; lia. Qed.
Lemma seen_mono v v' t out out' : v ≤ v' → seen v t out → seen v' t out' → out `sublist_of` out'.
Proof.
  intros Hv H. revert out'. induction H as [|l m t out Hs H IH|l m t out Hs H IH|s t out H IH]; intros out' H'; inversion H'; subst.
  - constructor.
  - constructor. by apply IH.
  - exfalso. by eapply (shows_mono v) in Hs.
  - constructor. by apply IH.
  - by apply IH.
  - constructor. by apply IH.
Qed.
Lemma seen_app v t t' out : seen v (t ++ t') out ↔ ∃ o o', out = o ++ o' ∧ seen v t o ∧ seen v t' o'.
Proof.
  split.
  - revert out. induction t as [|e t IH]; intros out H.
    { exists [], out. split_and!; [done|constructor|done]. }
    cbn in H. inversion H; subst; (destruct (IH _ ltac:(eassumption)) as (o & o' & -> & Ha & Hb)).
    + exists (Line l m :: o), o'. split_and!; [done|by constructor|done].
    + exists o, o'. split_and!; [done|by constructor|done].
    + exists (Text s :: o), o'. split_and!; [done|by constructor|done].
  - intros (o & o' & -> & H1 & H2). induction H1; cbn; try done; by constructor.
Qed.

(** * runbook list *)

Lemma blanks_length n : String.length (blanks n) = n.
Proof. induction n; cbn; by f_equal. Qed.
Lemma blanks_blank n : blank (blanks n).
Proof.
  induction n as [|n IH]; intros c H; cbn in H; [by apply has_byte_nil in H|].
  apply has_byte_cons in H as [->|H]; [done|by apply IH].
Qed.
Lemma blanks_add n k : blanks n +:+ blanks k = blanks (n + k).
Proof. induction n as [|n IH]; cbn; [done|]. by rewrite app_str_cons, IH. Qed.
(** A blank never completes a character. *)
Lemma blank_not_cont : is_cont (byte_of " ") = false.
Proof. done. Qed.
Local Opaque is_cont val2 val3 val4 ok2 ok3 ok4.
Lemma app_str_nil_l x : "" +:+ x = x.
Proof. done. Qed.
Local Ltac flat := rewrite ?app_str_cons, ?app_str_nil_l; cbn [blanks].
Local Ltac flat_in H := rewrite ?app_str_cons, ?app_str_nil_l in H; cbn [blanks] in H.
Lemma runes_of_blanks s n : runes_of (s +:+ blanks n) = runes_of s ++ replicate n 32.
Proof.
  assert (∀ s, runes_of (s +:+ blanks 0) = runes_of s ++ replicate 0 32) as H0.
  { intros s'. cbn [blanks replicate]. by rewrite app_str_nil_r, app_nil_r. }
  remember (String.length s) as k eqn:Hk. revert s Hk. induction (lt_wf k) as [k _ IH]. intros s ->.
  assert (∀ s', (String.length s' < String.length s)%nat → runes_of (s' +:+ blanks n) = runes_of s' ++ replicate n 32) as IH'
    by (intros s' Hs'; by eapply IH). clear IH.
  assert (∀ m, runes_of (blanks m) = replicate m 32) as Hb.
  { intros m. induction m as [|m IH]; [done|]. cbn [blanks]. change (runes_of (String " " (blanks m))) with (32 :: runes_of (blanks m)).
    cbn. by rewrite IH. }
  destruct (decide (n = 0%nat)) as [->|Hn0]; [apply H0|].
  destruct s as [|a s1]; [apply Hb|]. rewrite app_str_cons.
  assert (runes_of (s1 +:+ blanks n) = runes_of s1 ++ replicate n 32) as H1 by (apply IH'; cbn; lia).
  destruct (decide (byte_of a < 0x80)) as [E1|E1].
  { cbn [runes_of]. rewrite !bool_decide_true by done. cbn. by rewrite H1. }
  destruct (decide (0xC0 ≤ byte_of a < 0xE0)) as [E2|E2].
  { cbn [runes_of]. rewrite !(bool_decide_false (byte_of a < 0x80)), !bool_decide_true by done.
    destruct s1 as [|b s2].
    - destruct n as [|n]; [done|]. flat. rewrite blank_not_cont. cbn [andb]. pose proof (Hb (S n)) as Hb'. cbn [blanks] in Hb'. by rewrite Hb'.
    - rewrite app_str_cons. assert (runes_of (s2 +:+ blanks n) = runes_of s2 ++ replicate n 32) as H2 by (apply IH'; cbn; lia).
      destruct (is_cont (byte_of b) && ok2 (val2 (byte_of a) (byte_of b))); [by rewrite H2|]. rewrite <-app_str_cons. by rewrite H1. }
  destruct (decide (0xE0 ≤ byte_of a < 0xF0)) as [E3|E3].
  { cbn [runes_of]. rewrite !(bool_decide_false (byte_of a < 0x80)), !(bool_decide_false (0xC0 ≤ byte_of a < 0xE0)), !bool_decide_true by done.
    destruct s1 as [|b [|c s3]].
    - destruct n as [|[|n]]; [done..|]. flat. rewrite blank_not_cont. cbn [andb]. pose proof (Hb (S (S n))) as Hb'. cbn [blanks] in Hb'. by rewrite Hb'.
    - destruct n as [|n]; [done|]. flat. rewrite blank_not_cont, andb_false_r. cbn [andb].
      flat_in H1. by rewrite H1.
    - rewrite !app_str_cons. assert (runes_of (s3 +:+ blanks n) = runes_of s3 ++ replicate n 32) as H3 by (apply IH'; cbn; lia).
      destruct (_ && _); [by rewrite H3|]. rewrite !app_str_cons in H1. by rewrite H1. }
  destruct (decide (0xF0 ≤ byte_of a < 0xF8)) as [E4|E4].
  { cbn [runes_of]. rewrite !(bool_decide_false (byte_of a < 0x80)), !(bool_decide_false (0xC0 ≤ byte_of a < 0xE0)),
      !(bool_decide_false (0xE0 ≤ byte_of a < 0xF0)), !bool_decide_true by done.
    destruct s1 as [|b [|c [|d s4]]].
    - destruct n as [|[|[|n]]]; [done..|]. flat. rewrite blank_not_cont. cbn [andb]. pose proof (Hb (S (S (S n)))) as Hb'. cbn [blanks] in Hb'. by rewrite Hb'.
    - destruct n as [|[|n]]; [done| |].
      + flat; flat_in H1. by rewrite H1.
      + flat. rewrite blank_not_cont, andb_false_r. cbn [andb]. flat_in H1. by rewrite H1.
    - destruct n as [|n]; [done|]. flat. rewrite blank_not_cont, andb_false_r. cbn [andb].
      flat_in H1. by rewrite H1.
    - rewrite !app_str_cons. assert (runes_of (s4 +:+ blanks n) = runes_of s4 ++ replicate n 32) as H4 by (apply IH'; cbn; lia).
      destruct (_ && _); [by rewrite H4|]. rewrite !app_str_cons in H1. by rewrite H1. }
  cbn [runes_of]. rewrite !(bool_decide_false (byte_of a < 0x80)), !(bool_decide_false (0xC0 ≤ byte_of a < 0xE0)),
      !(bool_decide_false (0xE0 ≤ byte_of a < 0xF0)), !(bool_decide_false (0xF0 ≤ byte_of a < 0xF8)) by done. by rewrite H1.
Qed.
Lemma runes_of_length s : (length (runes_of s) ≤ String.length s)%nat.
Proof.
  remember (String.length s) as k eqn:Hk. revert s Hk. induction (lt_wf k) as [k _ IH]. intros s ->.
  assert (∀ s', (String.length s' < String.length s)%nat → (length (runes_of s') ≤ String.length s')%nat) as IH'
    by (intros s' Hs'; by eapply IH). clear IH.
  destruct s as [|a s1]; [done|].
  assert (length (runes_of s1) ≤ String.length s1)%nat as H1 by (apply IH'; cbn; lia).
  cbn [runes_of]. repeat case_bool_decide; cbn [length String.length]; [lia|..].
  - destruct s1 as [|b s2]; [done|]. assert (length (runes_of s2) ≤ String.length s2)%nat as Hx by (apply IH'; cbn; lia).
    destruct (_ && _); cbn [length String.length] in *; lia.
  - destruct s1 as [|b [|c s3]]; cbn [length String.length] in *; [lia..|].
    assert (length (runes_of s3) ≤ String.length s3)%nat as Hx by (apply IH'; cbn; lia).
    destruct (_ && _); cbn [length String.length] in *; lia.
  - destruct s1 as [|b [|c [|d s4]]]; cbn [length String.length] in *; [lia..|].
    assert (length (runes_of s4) ≤ String.length s4)%nat as Hx by (apply IH'; cbn; lia).
    destruct (_ && _); cbn [length String.length] in *; lia.
  - lia.
Qed.
Lemma longest_fold l n :
  (n ≤ foldl (λ longest s, if bool_decide (longest < String.length s)%nat then String.length s else longest) n l)%nat ∧
  (∀ s, s ∈ l → String.length s ≤ foldl (λ longest s, if bool_decide (longest < String.length s)%nat then String.length s else longest) n l)%nat ∧
  (foldl (λ longest s, if bool_decide (longest < String.length s)%nat then String.length s else longest) n l = n ∨
   ∃ s, s ∈ l ∧ foldl (λ longest s, if bool_decide (longest < String.length s)%nat then String.length s else longest) n l = String.length s).
Proof.
  revert n. induction l as [|x l IH]; intros n; cbn [foldl].
  { split; [done|]. split; [by intros s []%elem_of_nil|by left]. }
  set (n' := if bool_decide (n < String.length x)%nat then String.length x else n).
  destruct (IH n') as (H1 & H2 & H3).
  assert (n ≤ n' ∧ String.length x ≤ n')%nat as [Hn Hx] by (unfold n'; case_bool_decide; lia).
  split; [lia|]. split.
  - intros s [->|Hs]%elem_of_cons; [lia|by apply H2].
  - destruct H3 as [H3|(s & Hs & H3)].
    + rewrite H3. unfold n'. case_bool_decide; [right; exists x; split; [left|done]|by left].
    + right. exists s. split; [by right|done].
Qed.
Lemma longest_perm l l' : l ≡ₚ l' → longest_of l = longest_of l'.
Proof.
  intros Hp. unfold longest_of. destruct (longest_fold l 0) as (_ & H2 & H3). destruct (longest_fold l' 0) as (_ & H2' & H3').
  apply Nat.le_antisymm.
  - destruct H3 as [->|(s & Hs & ->)]; [lia|]. apply H2'. by rewrite <-Hp.
  - destruct H3' as [->|(s & Hs & ->)]; [lia|]. apply H2. by rewrite Hp.
Qed.
Lemma list_output_perm tasks o o' : o ≡ₚ o' → list_output tasks o = list_output tasks o'.
Proof. intros H. unfold list_output. by rewrite (longest_perm o o' H), (sort_strings_perm_eq o o' H). Qed.
Lemma list_output_spec tasks order :
  range_of tasks order → (∀ id, id ∈ dom tasks → Z.of_nat (String.length id) ≤ 1000000) →
  ∃ ids lines col, list_output tasks order = "Tasks & Targets:" +:+ newline +:+ String.concat "" lines ∧
    Forall2 (list_line tasks col) ids lines ∧ StronglySorted str_le ids ∧ NoDup ids ∧ (∀ id, id ∈ ids ↔ id ∈ dom tasks).
Proof.
  intros Ho Hmax. eexists (sort_strings order), _, (longest_of order + 4)%nat. split; [done|].
  assert (∀ id, id ∈ sort_strings order ↔ id ∈ dom tasks) as Hin.
  { intros id. rewrite elem_of_sort_strings. by apply range_of_elem. }
  destruct (longest_fold order 0) as (_ & H2 & H3). fold (longest_of order) in H2, H3.
  split_and!.
  - apply Forall2_fmap_r, Forall_Forall2_diag, Forall_forall. intros id Hid.
    pose proof (proj1 (Hin id) Hid) as [target Ht]%elem_of_dom. rewrite elem_of_sort_strings in Hid.
    specialize (H2 id Hid). pose proof (runes_of_length id) as Hr.
    exists target, (blanks (longest_of order - rune_count id + 2)).
    split; [done|]. unfold pad_right. rewrite bool_decide_false.
    2:{ destruct H3 as [->|(s & Hs & ->)]; [lia|]. specialize (Hmax s). rewrite <-range_of_elem in Hmax by done.
        specialize (Hmax Hs). lia. }
    rewrite Ht. cbn [default]. split.
    { rewrite <-(blanks_add _ 2). change (blanks 2) with "  ". by rewrite !app_str_assoc. }
    split; [apply blanks_blank|]. split; [rewrite blanks_length; lia|].
    change ("  " +:+ id +:+ blanks (longest_of order - rune_count id + 2))
      with (String " " (String " " (id +:+ blanks (longest_of order - rune_count id + 2)))).
    change (runes_of (String " " (String " " ?x))) with (32 :: 32 :: runes_of x).
    rewrite runes_of_blanks. cbn [length]. rewrite app_length, replicate_length. unfold rune_count. lia.
  - apply Sorted_StronglySorted; [apply _|]. apply sort_strings_sorted.
  - rewrite sort_strings_perm. by eapply range_of_NoDup.
  - exact Hin.
Qed.

(** * Output files *)

Lemma str_length_app a b : String.length (a +:+ b) = (String.length a + String.length b)%nat.
Proof. induction a as [|c a IH]; [done|]. rewrite app_str_cons. cbn. by rewrite IH. Qed.
Lemma ext_spec s : extension s (str_take (String.length s - String.length (ext s)) s) (ext s).
Proof.
  assert ((∃ stem, s = stem +:+ ext s) ∧ ((∃ x, ext s = String "." x ∧ ¬ has_byte "." x ∧ ¬ has_byte "/" x) ∨
    (ext s = "" ∧ ∀ a b, s = a +:+ String "." b → has_byte "/" b))) as [[stem Hs] H].
  { induction s as [|c s [[stem Hs] IH]].
    - split; [by exists ""|]. right. split; [done|]. by intros [|a] b.
    - cbn [ext]. destruct (decide (ext s = "")) as [E|E].
      + rewrite E in Hs. destruct IH as [(x & Hx & _)|[_ IH]]; [congruence|].
        destruct (bool_decide (c = ".")%char && negb (contains_byte "/" s)) eqn:B.
        * apply andb_true_iff in B as [->%bool_decide_eq_true B]. split; [by exists ""|]. left. exists s. split; [done|].
          assert (¬ has_byte "/" s) as Hn by (intros H%contains_byte_spec; by rewrite H in B). split; [|done].
          intros (a & b & ->). apply Hn. specialize (IH a b eq_refl). rewrite has_byte_app, has_byte_cons. by right; right.
        * split; [exists (String c s); by rewrite app_str_nil_r|]. right. split; [done|]. intros [|a0 a] b Hab.
          -- cbn in Hab. injection Hab as -> ->. rewrite bool_decide_true in B by done. cbn in B.
             apply negb_false_iff, contains_byte_spec in B. done.
          -- injection Hab as -> ->. by eapply IH.
      + split; [exists (String c stem); by rewrite app_str_cons, <-Hs|].
        destruct IH as [IH|[? _]]; [by left|done]. }
  split; [|done]. clear H.
  assert (String.length s - String.length (ext s) = String.length stem)%nat as ->.
  { rewrite Hs at 1. rewrite str_length_app. lia. }
  rewrite Hs at 2. by rewrite str_take_app.
Qed.

Lemma last_sep_unique (c : ascii) a x a' x' :
  a +:+ String c x = a' +:+ String c x' → ¬ has_byte c x → ¬ has_byte c x' → a = a' ∧ x = x'.
Proof.
  intros E Hx Hx'. revert a' E. induction a as [|d a IH]; intros [|d' a'] E; rewrite ?app_str_cons, ?app_str_nil_l in E.
  - by injection E.
  - injection E as -> ->. destruct Hx. rewrite has_byte_app, has_byte_cons. by right; left.
  - injection E as -> <-. destruct Hx'. rewrite has_byte_app, has_byte_cons. by right; left.
  - injection E as -> E. by destruct (IH a' E) as [-> ->].
Qed.
Lemma extension_unique f s e s' e' : extension f s e → extension f s' e' → s = s' ∧ e = e'.
Proof.
  intros [E [(x & -> & H1 & H2)|[-> H]]] [E' [(x' & -> & H1' & H2')|[-> H']]].
  - rewrite E in E'. by destruct (last_sep_unique _ _ _ _ _ E' H1 H1') as [-> ->].
  - by destruct (H2 (H' _ _ E)).
  - by destruct (H2' (H _ _ E')).
  - rewrite app_str_nil_r in E, E'. by subst.
Qed.
Lemma dot_output_auto file : ∃ stem e, extension file stem e ∧ dot_output file "" true = stem +:+ ".dot".
Proof. eexists _, _. split; [apply ext_spec|done]. Qed.
Lemma dot_output_same file : dot_output file "" true = file ↔ ∃ stem, file = stem +:+ ".dot".
Proof.
  destruct (dot_output_auto file) as (stem & e & He & ->). split.
  - intros <-. by exists stem.
  - intros [s ->]. destruct (extension_unique _ _ _ s ".dot" He) as [-> _]; [|done].
    split; [done|]. left. exists "dot". split; [done|].
    split; intros H; rewrite !has_byte_cons in H; destruct H as [?|[?|[?|H]]]; try done; by apply has_byte_nil in H.
Qed.
Lemma slash_prefix dir base stem e :
  dir +:+ String "/" base = stem +:+ e → ¬ has_byte "/" e → ∃ y, stem = dir +:+ String "/" y ∧ base = y +:+ e.
Proof.
  intros E He. revert stem E. induction dir as [|c dir IH]; intros [|d stem] E; rewrite ?app_str_cons, ?app_str_nil_l in E.
  - subst e. destruct He. rewrite has_byte_cons. by left.
  - injection E as <- ->. by exists stem.
  - subst e. destruct He. rewrite has_byte_cons, has_byte_app, has_byte_cons. by right; right; left.
  - injection E as <- E. destruct (IH stem E) as (y & -> & ->). exists y. by rewrite app_str_cons.
Qed.
Lemma dot_output_dir dir base : ¬ has_byte "/" base →
  ∃ base', ¬ has_byte "/" base' ∧ dot_output (dir +:+ String "/" base) "" true = dir +:+ String "/" base'.
Proof.
  intros Hb. destruct (dot_output_auto (dir +:+ String "/" base)) as (stem & e & [E He] & ->).
  assert (¬ has_byte "/" e) as Hn. { destruct He as [(x & -> & _ & H)|[-> _]]; [|apply has_byte_nil]. rewrite has_byte_cons. by intros [?|?]. }
  destruct (slash_prefix _ _ _ _ E Hn) as (y & -> & ->). exists (y +:+ ".dot"). split.
  - rewrite has_byte_app. intros [H|H]; [apply Hb; rewrite has_byte_app; by left|].
    rewrite !has_byte_cons in H; destruct H as [?|[?|[?|[?|H]]]]; try done; by apply has_byte_nil in H.
  - by rewrite <-!app_str_assoc, app_str_cons.
Qed.

(** What was written where. *)
Lemma create_spec d out w w' : create d out w = Some w' →
  (out = "-" ∧ w' = w) ∨ (out ≠ "-" ∧ w' = World (<[out := ""]> (w_files w)) (w_stdout w)).
Proof. unfold create. destruct (decide (out = "-")); [naive_solver|]. destruct (may_open d out); naive_solver. Qed.
Lemma write_frame d out s w p : p ≠ out → w_files (write d out s w).1 !! p = w_files w !! p.
Proof.
  intros Hp. unfold write. destruct (put d out s) as [a ok]. cbn. destruct (decide (out = "-")); [done|]. cbn.
  by rewrite lookup_insert_ne.
Qed.
Lemma create_frame d out w w' p : create d out w = Some w' → p ≠ out → w_files w' !! p = w_files w !! p.
Proof. intros [[_ ->]|[_ ->]]%create_spec Hp; [done|]. cbn. by rewrite lookup_insert_ne. Qed.
Lemma create_write d out s w w1 : create d out w = Some w1 → contains w out ((put d out s).1) (write d out s w1).1.
Proof.
  intros H. unfold write. destruct (put d out s) as [a ok]. cbn. destruct (create_spec _ _ _ _ H) as [[-> ->]|[Hn ->]].
  - by left.
  - rewrite decide_False by done. right. cbn. rewrite lookup_insert, insert_insert. cbn. by rewrite app_str_nil_l.
Qed.

(** * runbook dot *)

Lemma omap_bind {A B C} (f : B → option C) (g : A → list B) l : omap f (l ≫= g) = l ≫= λ a, omap f (g a).
Proof. induction l as [|a l IH]; [done|]. rewrite !bind_cons, omap_app. by rewrite IH. Qed.
Lemma omap_none {A B} (f : A → option B) l : (∀ a, a ∈ l → f a = None) → omap f l = [].
Proof. induction l as [|a l IH]; intros H; [done|]. cbn. rewrite H by left. apply IH. intros b Hb. apply H. by right. Qed.
Lemma bind_nil_all {A B} (f : A → list B) l : (∀ a, a ∈ l → f a = []) → l ≫= f = [].
Proof. induction l as [|a l IH]; intros H; [done|]. rewrite bind_cons, H by left. apply IH. intros b Hb. apply H. by right. Qed.
Definition dot_head (splines : string) (o1 : list string) : list call :=
  [AddAttr "runbook" "newrank" "true"] ++
  (if decide (splines ≠ "") then [AddAttr "runbook" "splines" splines] else []) ++
  (o1 ≫= λ target, [AddSubGraph "runbook" ("cluster_" +:+ target); AddAttr ("cluster_" +:+ target) "label" target]).
Definition dot_task (b : book) (dst : string) : list call :=
  match bk_tasks b !! dst with
  | Some t => AddNode ("cluster_" +:+ b_target t) dst :: ((λ src, AddEdge src dst) <$> b_after t)
  | None => []
  end.
Lemma dot_calls_parts b splines o1 o2 : dot_calls b splines o1 o2 = dot_head splines o1 ++ (o2 ≫= dot_task b).
Proof. unfold dot_calls, dot_head. by rewrite <-!(assoc_L (++)). Qed.
Lemma elem_of_dot_head c splines o1 : c ∈ dot_head splines o1 ↔
  c = AddAttr "runbook" "newrank" "true" ∨ (splines ≠ "" ∧ c = AddAttr "runbook" "splines" splines) ∨
  ∃ t, t ∈ o1 ∧ (c = AddSubGraph "runbook" ("cluster_" +:+ t) ∨ c = AddAttr ("cluster_" +:+ t) "label" t).
Proof.
  unfold dot_head. rewrite !elem_of_app, elem_of_list_singleton, elem_of_list_bind.
  destruct (decide (splines ≠ "")) as [H|H]; rewrite ?elem_of_list_singleton, ?elem_of_nil; setoid_rewrite elem_of_cons;
    setoid_rewrite elem_of_list_singleton; naive_solver.
Qed.
Lemma elem_of_dot_task c b o2 : c ∈ (o2 ≫= dot_task b) ↔
  ∃ dst t, dst ∈ o2 ∧ bk_tasks b !! dst = Some t ∧
    (c = AddNode ("cluster_" +:+ b_target t) dst ∨ ∃ src, src ∈ b_after t ∧ c = AddEdge src dst).
Proof.
  rewrite elem_of_list_bind. unfold dot_task. split.
  - intros (dst & Hc & Hd). destruct (bk_tasks b !! dst) as [t|] eqn:E; [|by apply elem_of_nil in Hc].
    exists dst, t. split_and!; [done..|]. apply elem_of_cons in Hc as [->|Hc]; [by left|right].
    apply elem_of_list_fmap in Hc as (src & -> & Hs). by exists src.
  - intros (dst & t & Hd & E & Hc). exists dst. split; [|done]. rewrite E. apply elem_of_cons.
    destruct Hc as [->|(src & Hs & ->)]; [by left|right]. apply elem_of_list_fmap. by exists src.
Qed.
Lemma nodes_calls b splines o1 o2 : range_of (bk_tasks b) o2 →
  (nodes (dot_calls b splines o1 o2)).*2 = o2 ∧
  (∀ g n, (g, n) ∈ nodes (dot_calls b splines o1 o2) ↔ ∃ v, bk_tasks b !! n = Some v ∧ g = "cluster_" +:+ b_target v).
Proof.
  intros Ho. assert (∀ n, n ∈ o2 → ∃ v, bk_tasks b !! n = Some v) as Hv.
  { intros n Hn. rewrite (range_of_elem _ _ _ Ho) in Hn. by apply elem_of_dom in Hn. }
  split.
  - rewrite dot_calls_parts. unfold nodes. rewrite omap_app, omap_none.
    2:{ intros c Hc. apply elem_of_dot_head in Hc as [->|[[_ ->]|(t & _ & [->| ->])]]; done. }
    rewrite app_nil_l, omap_bind. clear Ho. induction o2 as [|n o2 IH]; [done|].
    rewrite bind_cons, fmap_app, IH by (intros m Hm; apply Hv; by right).
    destruct (Hv n ltac:(by left)) as [v E]. unfold dot_task. rewrite E. cbn [omap list_omap]. rewrite omap_none; [done|].
    intros c Hc. by apply elem_of_list_fmap in Hc as (src & -> & _).
  - intros g n. unfold nodes. rewrite elem_of_list_omap. rewrite dot_calls_parts. split.
    + intros (c & Hc & Hn). destruct c as [| |g' n'|]; [done|done| |done]. injection Hn as -> ->.
      apply elem_of_app in Hc as [Hc|Hc].
      * apply elem_of_dot_head in Hc as [?|[[_ ?]|(t & _ & [?| ?])]]; done.
      * apply elem_of_dot_task in Hc as (dst & t & _ & E & [[= -> ->]|(src & _ & ?)]); [|done]. by exists t.
    + intros (v & E & ->). exists (AddNode ("cluster_" +:+ b_target v) n). split; [|done].
      apply elem_of_app. right. apply elem_of_dot_task. exists n, v. split_and!; [|done|by left].
      rewrite (range_of_elem _ _ _ Ho). by apply elem_of_dom.
Qed.
Lemma sources_calls b splines o1 o2 dst : range_of (bk_tasks b) o2 →
  sources_of dst (dot_calls b splines o1 o2) = match bk_tasks b !! dst with Some v => b_after v | None => [] end.
Proof.
  intros Ho. rewrite dot_calls_parts. unfold sources_of. rewrite omap_app, omap_none.
  2:{ intros c Hc. apply elem_of_dot_head in Hc as [->|[[_ ->]|(t & _ & [->| ->])]]; done. }
  rewrite app_nil_l, omap_bind.
  assert (∀ x, x ≠ dst → omap (λ c, match c with AddEdge s d => if decide (d = dst) then Some s else None | _ => None end) (dot_task b x) = []) as Hne.
  { intros x Hx. apply omap_none. intros c Hc. unfold dot_task in Hc. destruct (bk_tasks b !! x) as [v|]; [|by apply elem_of_nil in Hc].
    apply elem_of_cons in Hc as [->|Hc]; [done|]. apply elem_of_list_fmap in Hc as (src & -> & _). by rewrite decide_False. }
  pose proof (range_of_NoDup _ _ Ho) as Hnd. destruct (bk_tasks b !! dst) as [v|] eqn:E.
  - assert (dst ∈ o2) as Hin. { rewrite (range_of_elem _ _ _ Ho). by apply elem_of_dom. }
    apply elem_of_list_split in Hin as (l1 & l2 & ->).
    assert (dst ∉ l1 ∧ dst ∉ l2) as [H1 H2].
    { apply NoDup_app in Hnd as (_ & Hd & Hnd). apply NoDup_cons in Hnd as [H2 _]. split; [|done]. intros H. by eapply Hd; [done|left]. }
    rewrite bind_app, bind_cons, !bind_nil_all.
    2:{ intros a Ha. apply Hne. by intros ->. } 2:{ intros a Ha. apply Hne. by intros ->. }
    rewrite app_nil_l, app_nil_r. unfold dot_task. rewrite E. cbn [omap list_omap]. generalize (b_after v). clear.
    intros l. induction l as [|s l IH]; [done|]. rewrite fmap_cons. cbn [omap list_omap]. rewrite decide_True by done. by f_equal.
  - apply bind_nil_all. intros x Hx. apply Hne. intros ->. rewrite (range_of_elem _ _ _ Ho) in Hx. by apply not_elem_of_dom in E.
Qed.
Lemma dot_calls_perm b splines o1 o2 o1' o2' : o1 ≡ₚ o1' → o2 ≡ₚ o2' → dot_calls b splines o1 o2 ≡ₚ dot_calls b splines o1' o2'.
Proof. intros H1 H2. rewrite !dot_calls_parts. unfold dot_head. by rewrite H1, H2. Qed.
