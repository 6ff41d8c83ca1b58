(** Which program an exec task runs, names being shortened on the way: C144. *)
From Coq Require Import String Ascii.
From stdpp Require Import gmap list strings.
From Verif Require Import GoBase GoStrings GoStringsProofs ShModel ShSpec ShProofs ShLookModel ShLookSpec ShLookProps ShCleanModel.
From Verif Require Import PathModel PathSpec PathProofs PathProps.

Lemma walks_dir fs p c cs q : walks fs p (c :: cs) q → fs p = Some Dir.
Proof. inversion 1; subst; done. Qed.
Lemma walks_split fs p l q : walks fs p l q → ∀ a b, l = a ++ b → ∃ m, walks fs p a m ∧ walks fs m b q.
Proof.
  induction 1 as [p|p c l q Hc Hd Hw IH|l q Hd Hw IH|p x l q Hd Hw IH|p c l n q Hc Hd Hn Hk Hw IH
    |p c l t us q Hc Hd Hn Ht Hb Hw IH|p c l t us q Hc Hd Hn Ht Hb Hw IH]; intros [|y a] b E; simpl in E;
    try (subst; eexists; split; [apply walks_end|]; by econstructor).
  - done.
  - injection E as <- ->. destruct (IH a b eq_refl) as (m & ? & ?). exists m. split; [|done]. by apply walks_stay.
  - injection E as <- ->. destruct (IH a b eq_refl) as (m & ? & ?). exists m. split; [|done]. by apply walks_root.
  - injection E as <- ->. destruct (IH a b eq_refl) as (m & ? & ?). exists m. split; [|done]. by apply walks_up.
  - injection E as <- ->. destruct (IH a b eq_refl) as (m & ? & ?). exists m. split; [|done]. by eapply walks_in.
  - injection E as <- ->. destruct (IH (us ++ a) b ltac:(by rewrite app_assoc)) as (m & ? & ?). exists m. split; [|done].
    by eapply walks_link_root.
  - injection E as <- ->. destruct (IH (us ++ a) b ltac:(by rewrite app_assoc)) as (m & ? & ?). exists m. split; [|done].
    by eapply walks_link.
Qed.
(** Doubled slashes and dots before the last name make no difference. *)
Lemma walks_unfilter fs name q : plain name → ∀ l p, walks fs p (filter keep (l ++ [name])) q → walks fs p (l ++ [name]) q.
Proof.
  intros Hp. induction l as [|c l IH]; intros p; simpl.
  - by rewrite filter_cons_True by by apply plain_keep.
  - destruct (decide (keep c)) as [Hk|Hk].
    + rewrite filter_cons_True by done. intros H.
      destruct (walks_split _ _ _ _ H [c] _ eq_refl) as (m & H1 & H2). apply (walks_app _ _ [c] m); [done|auto].
    + rewrite filter_cons_False by done. intros H%IH. apply walks_stay; [by apply dec_stable|..|done].
      destruct l; simpl in H; by eapply walks_dir.
Qed.
Lemma means_absolute fs cwd s q : begins_with "/" s → means fs cwd s q ↔ walks fs [] (pieces s) q.
Proof.
  intros H. split.
  - by intros (cs & ->%parts_pieces & [[_ ?]|[? _]]).
  - intros Hw. exists (pieces s). split; [apply pieces_parts|]. by left.
Qed.
(** Two names of one file, for every process. *)
Definition same_file (fs : system) (f g : string) : Prop := ∀ cwd q, means fs cwd f q ↔ means fs cwd g q.
Lemma joined_absolute d name : begins_with "/" d → begins_with "/" (join_clean d name).
Proof. intros H. unfold join_clean. rewrite clean_absolute by by apply (absolute_join d name). by eexists. Qed.
Lemma join_same fs d name : fs [] = Some Dir → begins_with "/" d → never_up d → plain name → ¬ has_byte "/" name →
  same_file fs (join_clean d name) (d +:+ "/" +:+ name).
Proof.
  intros Hr Hd Hu Hp Hs cwd q. pose proof (absolute_join d name Hd) as Ha. unfold join in Ha.
  rewrite (means_absolute _ _ _ _ Ha), (means_absolute _ _ _ _ (joined_absolute d name Hd)).
  assert (Hname : pieces name = [name]).
  { apply pieces_spec; [done|]. apply list.Forall_singleton. done. }
  assert (E : pieces (d +:+ "/" +:+ name) = pieces d ++ [name]).
  { change (d +:+ "/" +:+ name) with (d +:+ String "/" name). by rewrite pieces_app, Hname. }
  assert (Hn : ".." ∉ pieces d ++ [name]).
  { intros [H|H]%elem_of_app; [by apply never_up_pieces in Hu|]. apply elem_of_list_singleton in H. by destruct Hp as (_ & _ & []). }
  unfold join_clean. rewrite clean_absolute, E, up_filter, app_nil_r, reverse_involutive by done.
  assert (Hsl : Forall slashless (filter keep (pieces d ++ [name]))).
  { apply list.Forall_forall. intros x [_ [Hx| ->%elem_of_list_singleton]%elem_of_app]%elem_of_list_filter; [|done].
    pose proof (pieces_slashless d) as Hf. rewrite list.Forall_forall in Hf. by apply Hf. }
  rewrite pieces_root by done.
  assert (Hne : filter keep (pieces d ++ [name]) ≠ []).
  { intros H. assert (name ∈ filter keep (pieces d ++ [name])) as Hx; [|rewrite H in Hx; by apply elem_of_nil in Hx].
    apply elem_of_list_filter. split; [by apply plain_keep|]. apply elem_of_app. right. by apply elem_of_list_singleton. }
  destruct (filter keep (pieces d ++ [name])) as [|k ks] eqn:Ek; [done|]. rewrite <-Ek. split.
  - intros H. apply walks_unfilter; [done|]. destruct (walks_split _ _ _ _ H [""] _ eq_refl) as (m & H1 & H2).
    inversion H1 as [|? ? ? ? _ _ H3| | |? ? ? ? ? Hc|? ? ? ? ? ? Hc|? ? ? ? ? ? Hc]; subst; try (by destruct Hc as [? _]).
    apply walks_nil in H3 as ->. done.
  - intros H. apply walks_stay; [by left|done|]. by apply (walks_filter fs [] _ q H []).
Qed.

(** What may be executed depends on the file, not on how it is called. *)
Definition by_file (fs : system) (executable : string → bool) : Prop :=
  ∀ f g, begins_with "/" f → begins_with "/" g → same_file fs f g → executable f = executable g.
(** The two files are one, or there is none. *)
Definition one_file (fs : system) (x y : option string) : Prop :=
  match x, y with
  | Some f, Some g => same_file fs f g ∧ begins_with "/" f ∧ begins_with "/" g
  | None, None => True
  | _, _ => False
  end.
Lemma search_same fs m name dirs : fs [] = Some Dir → by_file fs (m_executable m) →
  Forall (λ d, begins_with "/" d ∧ never_up d) dirs → plain name → ¬ has_byte "/" name →
  one_file fs (search_clean m name dirs) (search m name dirs).
Proof.
  intros Hr Hex Hd Hp Hs. induction Hd as [|d dirs [Ha Hu] _ IH]; [done|]. simpl.
  assert (Hne : d ≠ "") by (intros ->; by destruct Ha). rewrite decide_False by done.
  pose proof (absolute_join d name Ha) as H1. pose proof (joined_absolute d name Ha) as H2.
  pose proof (join_same fs d name Hr Ha Hu Hp Hs) as Hj.
  rewrite !at_dir_absolute by done. rewrite (Hex _ _ H2 H1 Hj). by destruct (m_executable m (join d name)).
Qed.
(** C144: Go shortens the names it makes of the directories in PATH.  If these are absolute
    and no ".." is in them, this makes no difference: the file is the same. *)
Theorem program_found_shortened m fs base name dirs :
  fs [] = Some Dir → by_file fs (m_executable m) →
  lists_dirs (m_path m) dirs → Forall (λ d, begins_with "/" d ∧ never_up d) dirs →
  (has_byte "/" name ∨ (plain name ∧ ¬ has_byte "/" name)) →
  (has_byte "/" name → program_file_clean m base name = program_file m base name) ∧
  (¬ has_byte "/" name →
    (∀ f, first_in (m_executable m) name dirs f → ∃ g, program_file_clean m base name = Some g ∧ same_file fs g f) ∧
    (∀ g, program_file_clean m base name = Some g → ∃ f, first_in (m_executable m) name dirs f ∧ same_file fs g f)).
Proof.
  intros Hr Hex Hl Hd Hname. split.
  - intros Hs%contains_byte_spec. unfold program_file_clean, program_file, command_path_clean, command_path.
    unfold look_path_clean, look_path. by rewrite Hs.
  - intros Hs. destruct Hname as [?|[Hp _]]; [done|].
    pose proof (search_same fs m name dirs Hr Hex Hd Hp Hs) as Hone.
    assert (Hda : Forall (begins_with "/") dirs) by (eapply list.Forall_impl; [exact Hd|]; by intros ? []).
    pose proof (search_spec m name dirs Hda) as Hspec.
    assert (Hcb : contains_byte "/" name = false).
    { destruct (contains_byte "/" name) eqn:E; [|done]. by apply contains_byte_spec in E. }
    assert (Hpf : program_file_clean m base name = search_clean m name dirs).
    { unfold program_file_clean, command_path_clean, look_path_clean. rewrite decide_False by (intros ->; done).
      rewrite decide_False by (by destruct Hp). rewrite Hcb, (split_list_spec _ _ Hl).
      destruct (search_clean m name dirs) as [g|] eqn:Eg; [|done]. destruct (search m name dirs) as [f|] eqn:Ef; [|done].
      destruct Hone as (Hsame & Hg & Hf). destruct (first_in_found _ _ _ _ (proj1 (Hspec f) eq_refl) Hda) as [Hexf _].
      destruct g as [|c g]; [by destruct Hg|]. rewrite at_dir_absolute by done. by rewrite (Hex _ _ Hg Hf Hsame), Hexf. }
    rewrite Hpf. split.
    + intros f Hf%Hspec. rewrite Hf in Hone. destruct (search_clean m name dirs) as [g|]; [|done]. exists g.
      split; [done|]. apply Hone.
    + intros g Hg. rewrite Hg in Hone. destruct (search m name dirs) as [f|] eqn:Ef; [|done]. exists f.
      split; [by apply Hspec|]. apply Hone.
Qed.
Print Assumptions program_found_shortened.

(** A file system without links: which file a name means can be computed. *)
Fixpoint resolve (fs : system) (p cs : list string) : option (list string) :=
  match cs with
  | [] => Some p
  | c :: cs =>
      match fs p with
      | Some Dir =>
          if decide (c = "" ∨ c = ".") then resolve fs p cs
          else if decide (c = "..") then resolve fs (removelast p) cs
          else match fs (p ++ [c]) with
               | Some Dir | Some File => resolve fs (p ++ [c]) cs
               | _ => None
               end
      | _ => None
      end
  end.
Lemma resolve_spec fs cs : no_links fs → ∀ p q, walks fs p cs q ↔ resolve fs p cs = Some q.
Proof.
  intros Hn. split.
  - induction 1 as [p|p c l q Hc Hd Hw IH|l q Hd Hw IH|p x l q Hd Hw IH|p c l n q Hc Hd Hx Hk Hw IH
      |p c l t us q Hc Hd Hx Ht Hb Hw IH|p c l t us q Hc Hd Hx Ht Hb Hw IH]; simpl.
    + done.
    + by rewrite Hd, decide_True.
    + by rewrite Hd.
    + rewrite Hd. simpl. by rewrite removelast_last.
    + rewrite Hd, decide_False by (by apply plain_keep). rewrite decide_False by (by destruct Hc as (_ & _ & ?)).
      rewrite Hx. destruct n as [| |t]; [done..|]. by destruct (Hk t).
    + by apply Hn in Hx.
    + by apply Hn in Hx.
  - revert p. induction cs as [|c cs IH]; intros p; simpl; [intros [= ->]; apply walks_end|].
    destruct (fs p) as [[| |]|] eqn:Hp; [|done..]. case_decide as H1; [intros H; apply walks_stay; auto|].
    case_decide as H2.
    + subst c. destruct (exists_last_or p) as [->|(k & y & ->)]; [intros H; apply walks_root; auto|].
      rewrite removelast_last. intros H. apply walks_up; auto.
    + assert (Hpl : plain c) by (split_and!; [by intros ->; apply H1; left|by intros ->; apply H1; right|done]).
      destruct (fs (p ++ [c])) as [[| |]|] eqn:Hc; [..|done|done]; intros Hw; eapply walks_in; eauto; done.
Qed.
Definition can_run (fs : system) (f : string) : bool :=
  match resolve fs [] (pieces f) with Some q => match fs q with Some File => true | _ => false end | None => false end.
Lemma can_run_by_file fs : no_links fs → by_file fs (can_run fs).
Proof.
  intros Hn f g Hf Hg Hs. unfold can_run. assert (resolve fs [] (pieces f) = resolve fs [] (pieces g)) as ->; [|done].
  apply option_eq. intros q. rewrite <-!resolve_spec by done. specialize (Hs [] q). by rewrite !means_absolute in Hs.
Qed.
(** /b/x is there; PATH is written carelessly. *)
Definition ex_plain_system : system := λ p,
  if decide (p ∈ [[]; ["a"]; ["b"]]) then Some Dir else if decide (p = ["b"; "x"]) then Some File else None.
Definition ex_shortened : machine := Machine "/a" "/a//.:/.//b/" (can_run ex_plain_system).
Example program_found_shortened_example :
  ex_plain_system [] = Some Dir ∧ by_file ex_plain_system (m_executable ex_shortened) ∧
  lists_dirs (m_path ex_shortened) ["/a//."; "/.//b/"] ∧ Forall (λ d, begins_with "/" d ∧ never_up d) ["/a//."; "/.//b/"] ∧
  plain "x" ∧ ¬ has_byte "/" "x" ∧
  program_file_clean ex_shortened "/a" "x" = Some "/b/x" ∧ program_file ex_shortened "/a" "x" = Some "/.//b//x".
Proof.
  assert (Hno : ∀ c s, contains_byte c s = false → ¬ has_byte c s).
  { intros c s H H'. apply contains_byte_spec in H'. congruence. }
  split_and!; [done| | | |by (unfold plain; split_and!)|by apply Hno|by vm_compute|by vm_compute].
  - apply can_run_by_file. intros p t. unfold ex_plain_system. by repeat case_decide.
  - split_and!; [done| |done]. repeat (apply list.Forall_cons; split); [..|by apply list.Forall_nil]; by apply Hno.
  - repeat (apply list.Forall_cons; split); [split; [by eexists|]|split; [by eexists|]|by apply list.Forall_nil];
      intros cs ->%parts_pieces; apply (bool_decide_unpack _); by vm_compute.
Qed.

(** C144, false: with ".." behind a link in PATH another file is run. *)
Definition ex_linked_system : system := λ p,
  if decide (p ∈ [[]; ["a"]; ["b"]; ["b"; "c"]]) then Some Dir
  else if decide (p = ["a"; "l"]) then Some (Link "/b/c")
  else if decide (p ∈ [["a"; "x"]; ["b"; "x"]]) then Some File else None.
Theorem shortened_path_refuted : ∃ m fs base name dirs f g,
  fs [] = Some Dir ∧ lists_dirs (m_path m) dirs ∧ Forall (begins_with "/") dirs ∧ plain name ∧ ¬ has_byte "/" name ∧
  (∀ h, m_executable m h = true → ∃ q, means fs [] h q ∧ fs q = Some File) ∧
  first_in (m_executable m) name dirs f ∧ program_file_clean m base name = Some g ∧ ¬ same_file fs g f.
Proof.
  assert (Hno : ∀ c s, contains_byte c s = false → ¬ has_byte c s).
  { intros c s H H'. apply contains_byte_spec in H'. congruence. }
  assert (Hplain : plain "a" ∧ plain "b" ∧ plain "c" ∧ plain "l" ∧ plain "x") by by (unfold plain; split_and!).
  destruct Hplain as (Pa & Pb & Pc & Pl & Px).
  assert (Hf : means ex_linked_system [] "/a/l/../x" ["b"; "x"]).
  { rewrite means_absolute by by eexists. change (pieces "/a/l/../x") with [""; "a"; "l"; ".."; "x"].
    apply walks_stay; [by left|done|]. eapply (walks_in _ [] "a"); [done..|].
    eapply (walks_link_root _ ["a"] "l" _ "/b/c" [""; "b"; "c"]); [done|done|done| |by eexists|].
    { split_and!; [done|done|]. repeat (apply list.Forall_cons; split); [..|by apply list.Forall_nil]; by apply Hno. }
    simpl. apply walks_stay; [by left|done|]. eapply (walks_in _ [] "b"); [done..|]. eapply (walks_in _ ["b"] "c"); [done..|].
    apply (walks_up _ ["b"] "c"); [done|]. eapply (walks_in _ ["b"] "x"); [done..|]. apply walks_end. }
  exists (Machine "/a" "/a/l/.." (λ f, bool_decide (f ∈ ["/a/x"; "/a/l/../x"]))), ex_linked_system, "/a", "x", ["/a/l/.."],
    "/a/l/../x", "/a/x".
  split_and!; [done| | |done|by apply Hno| | |by vm_compute|].
  - split_and!; [done| |done]. apply list.Forall_singleton. by apply Hno.
  - apply list.Forall_singleton. by eexists.
  - simpl. intros h Hh%bool_decide_eq_true. apply elem_of_cons in Hh as [->|Hh].
    + exists ["a"; "x"]. split; [|done]. rewrite means_absolute by by eexists. change (pieces "/a/x") with [""; "a"; "x"].
      apply walks_stay; [by left|done|]. eapply (walks_in _ [] "a"); [done..|]. eapply (walks_in _ ["a"] "x"); [done..|]. apply walks_end.
    + apply elem_of_list_singleton in Hh as ->. by exists ["b"; "x"].
  - exists [], "/a/l/..", []. split_and!; [done|by intros ? ?%elem_of_nil|by vm_compute|done].
  - intros Hs. apply (Hs [] ["b"; "x"]) in Hf. rewrite means_absolute in Hf by by eexists.
    change (pieces "/a/x") with [""; "a"; "x"] in Hf.
    inversion Hf as [|? ? ? ? _ _ H1| | |? ? ? ? ? Hc|? ? ? ? ? ? Hc|? ? ? ? ? ? Hc]; subst; try (by destruct Hc as [? _]).
    inversion H1 as [|? ? ? ? Hc| | |? ? ? ? ? _ _ _ _ H2|? ? ? ? ? ? _ _ E|? ? ? ? ? ? _ _ E]; subst; [by destruct Hc| |done|done].
    inversion H2 as [|? ? ? ? Hc| | |? ? ? ? ? _ _ _ _ H3|? ? ? ? ? ? _ _ E|? ? ? ? ? ? _ _ E]; subst; [by destruct Hc| |done|done].
    by inversion H3.
Qed.
Print Assumptions shortened_path_refuted.
