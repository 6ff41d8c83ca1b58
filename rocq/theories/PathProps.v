(** Commands start in the directory the runbook is in: C146. *)
From Coq Require Import String Ascii.
From stdpp Require Import gmap list strings.
From Verif Require Import GoBase GoStrings GoStringsProofs PathModel PathSpec PathProofs.
From Verif Require Import ParserModel ParserSpec SchedModel SchedSpec RunnerModel RunnerSpec EffectsModel EffectsSpec EffectsProofs EffectsProps ShRunProps.
From Verif Require EffectsExamples.
Local Open Scope Z_scope.

Lemma never_up_pieces s : never_up s → ".." ∉ pieces s.
Proof. intros H. apply H, pieces_parts. Qed.
Lemma names_straight cs : Forall slashless cs → straight ("/" +:+ String.concat "/" (reverse (foldl up [] cs))).
Proof.
  intros H. exists (reverse (foldl up [] cs)). split; [done|]. split; apply list.Forall_reverse.
  - apply list.Forall_forall. intros x [Hx|[_ ?]]%up_within; [by apply elem_of_nil in Hx|done].
  - apply up_slashless; [by apply list.Forall_nil|done].
Qed.
Lemma walks_nil fs p q : walks fs p [] q → q = p.
Proof. by inversion 1. Qed.
(** The name of a directory by itself. *)
Lemma means_root fs cwd cs q : fs [] = Some Dir → Forall slashless cs → walks fs [] cs q →
  means fs cwd ("/" +:+ String.concat "/" cs) q.
Proof.
  intros Hr Hs Hw. eexists. split; [apply pieces_parts|]. left. split; [by eexists|]. rewrite pieces_root by done.
  apply walks_stay; [by left|done|]. destruct cs as [|c cs]; [|done]. assert (q = []) as -> by by apply walks_nil in Hw.
  apply walks_stay; [by left|done|]. apply walks_end.
Qed.

(** C146, the part that is true: without links, or if no name leads up, the directory of
    the commands is the one in which the runbook was found.
    Missing: with links on the way up it can be another one ([base_directory_refuted]). *)
Theorem base_directory_partial fs wd cwd file d :
  fs [] = Some Dir → begins_with "/" wd → means fs [] wd cwd → lies_in fs cwd file d →
  (no_links fs ∨ (never_up wd ∧ never_up file)) →
  ∃ b, basedir (Some wd) file = Some b ∧ straight b ∧ ∀ cwd', means fs cwd' b d.
Proof.
  intros Hroot Hwd (ws & Hws & Hwalk) (pre & last & -> & Hl & Hp & (cs & Hcs & Hpre)) Hcase.
  apply parts_pieces in Hws as ->. apply parts_pieces in Hcs as ->.
  destruct Hwalk as [[_ Hwalk]|[[] _]]; [|done].
  rewrite basedir_names by done. set (l := _ ++ pieces pre).
  assert (Hls : Forall slashless l).
  { apply list.Forall_app. split; [|apply pieces_slashless]. destruct (has_prefix pre "/"); [by apply list.Forall_nil|apply pieces_slashless]. }
  eexists. split; [done|]. split; [by apply names_straight|]. intros cwd'.
  apply means_root; [done|apply list.Forall_reverse, up_slashless; [by apply list.Forall_nil|done]|].
  assert (Hw : walks fs [] l d).
  { unfold l. destruct (slash_or pre) as [[-> H]|[-> H]]; destruct Hpre as [[? ?]|[? ?]]; try done. by eapply walks_app. }
  destruct Hcase as [Hn|[Hn1 Hn2]].
  - destruct (walks_names fs [] l d Hn Hw) as [Hh E].
    { split; [by eexists|]. intros p1 c p2 E. by destruct p1. }
    change (reverse []) with (@nil string) in E. rewrite <-E, reverse_involutive. apply (held_walks fs d Hn []); [done|].
    apply list.Forall_forall. intros x Hx. apply elem_of_reverse in Hx. rewrite E in Hx.
    apply up_within in Hx as [Hx|[_ ?]]; [by apply elem_of_nil in Hx|done].
  - assert (Hu : ".." ∉ l).
    { intros [H|H]%elem_of_app.
      - destruct (has_prefix pre "/"); [by apply elem_of_nil in H|]. by apply never_up_pieces in Hn1.
      - apply never_up_pieces in Hn2. apply Hn2. destruct Hp as [->|[r ->]]; [by apply elem_of_list_singleton in H|].
        rewrite <-app_str_assoc. change (r +:+ "/" +:+ last) with (r +:+ String "/" last). rewrite pieces_app.
        change (r +:+ "/") with (r +:+ String "/" "") in H. rewrite pieces_app in H.
        apply elem_of_app in H as [H|H]; [apply elem_of_app; by left|]. by apply elem_of_list_singleton in H. }
    rewrite up_filter, app_nil_r, reverse_involutive by done. by apply (walks_filter fs [] l d Hw []).
Qed.
Print Assumptions base_directory_partial.

(** /a/l is a link to /b/c; the runbook is in /b. *)
Definition ex_system : system := λ p,
  if decide (p ∈ [[]; ["a"]; ["a"; "d"]; ["b"]; ["b"; "c"]]) then Some Dir
  else if decide (p = ["a"; "l"]) then Some (Link "/b/c")
  else if decide (p = ["b"; "book.jsonnet"]) then Some File else None.
Local Ltac parted := split_and!; [done|done|repeat (apply list.Forall_cons; split); [..|by apply list.Forall_nil];
  intros H; apply contains_byte_spec in H; done].
(** Here no name leads up; the link on the way is the same link in the result. *)
Example base_directory_example :
  ex_system [] = Some Dir ∧ begins_with "/" "/a" ∧ means ex_system [] "/a" ["a"] ∧
  lies_in ex_system ["a"] "d/.././/l/x.jsonnet" ["b"; "c"] ∧
  basedir (Some "/a") "d/.././/l/x.jsonnet" = Some "/a/l" ∧
  lies_in ex_system ["a"] ".//l/x.jsonnet" ["b"; "c"] ∧ never_up "/a" ∧ never_up ".//l/x.jsonnet".
Proof.
  assert (Hplain : plain "a" ∧ plain "b" ∧ plain "c" ∧ plain "d" ∧ plain "l") by by (unfold plain; split_and!).
  destruct Hplain as (Pa & Pb & Pc & Pd & Pl).
  assert (Hl : walks ex_system ["a"] ["."; ""; "l"; ""] ["b"; "c"]).
  { apply walks_stay; [by right|done|]. apply walks_stay; [by left|done|].
    eapply (walks_link_root _ ["a"] "l" [""] "/b/c" [""; "b"; "c"]); [done|done|done|parted|by eexists|]. simpl.
    apply walks_stay; [by left|done|]. eapply (walks_in _ [] "b"); [done..|]. eapply (walks_in _ ["b"] "c"); [done..|].
    apply walks_stay; [by left|done|]. apply walks_end. }
  split_and!.
  - done.
  - by eexists.
  - exists [""; "a"]. split; [parted|]. left. split; [by eexists|]. apply walks_stay; [by left|done|].
    eapply (walks_in _ [] "a"); [done..|]. apply walks_end.
  - exists "d/.././/l/", "x.jsonnet". split_and!; [done|intros H; apply contains_byte_spec in H; done|right; by exists "d/.././/l"|].
    exists ["d"; ".."; "."; ""; "l"; ""]. split; [parted|]. right. split; [by intros [r Hr]|].
    eapply (walks_in _ ["a"] "d"); [done..|]. apply (walks_up _ ["a"] "d"); [done|]. done.
  - by vm_compute.
  - exists ".//l/", "x.jsonnet". split_and!; [done|intros H; apply contains_byte_spec in H; done|right; by exists ".//l"|].
    exists ["."; ""; "l"; ""]. split; [parted|]. right. split; [by intros [r Hr]|done].
  - intros cs ->%parts_pieces. apply (bool_decide_unpack _). by vm_compute.
  - intros cs ->%parts_pieces. apply (bool_decide_unpack _). by vm_compute.
Qed.
(** C146, false: the way up from a link. *)
Theorem base_directory_refuted : ∃ fs wd cwd file d,
  fs [] = Some Dir ∧ begins_with "/" wd ∧ means fs [] wd cwd ∧ lies_in fs cwd file d ∧
  ∃ b, basedir (Some wd) file = Some b ∧ ∀ cwd', ¬ means fs cwd' b d.
Proof.
  exists ex_system, "/a", ["a"], "l/../book.jsonnet", ["b"].
  assert (Hplain : plain "a" ∧ plain "b" ∧ plain "c" ∧ plain "d" ∧ plain "l") by by (unfold plain; split_and!).
  destruct Hplain as (Pa & Pb & Pc & Pd & Pl). split_and!.
  - done.
  - by eexists.
  - apply base_directory_example.
  - exists "l/../", "book.jsonnet". split_and!; [done|intros H; apply contains_byte_spec in H; done|right; by exists "l/.."|].
    exists ["l"; ".."; ""]. split; [parted|]. right. split; [by intros [r Hr]|].
    eapply (walks_link_root _ ["a"] "l" [".."; ""] "/b/c" [""; "b"; "c"]); [done|done|done|parted|by eexists|]. simpl.
    apply walks_stay; [by left|done|]. eapply (walks_in _ [] "b"); [done..|]. eapply (walks_in _ ["b"] "c"); [done..|].
    apply (walks_up _ ["b"] "c"); [done|]. apply walks_stay; [by left|done|]. apply walks_end.
  - exists "/a". split; [by vm_compute|]. intros cwd' (cs & ->%parts_pieces & [[_ H]|[[] _]]); [|by eexists].
    change (pieces "/a") with [""; "a"] in H. inversion H as [|? ? ? ? _ _ H1| | |? ? ? ? ? Hc _ _ _ _|? ? ? ? ? ? Hc|? ? ? ? ? ? Hc]; subst;
      try (by destruct Hc as [? _]).
    inversion H1 as [|? ? ? ? Hc| | |? ? ? ? ? _ _ _ _ H2|? ? ? ? ? ? _ _ E|? ? ? ? ? ? _ _ E]; subst; [by destruct Hc| |done|done].
    by inversion H2.
Qed.
Print Assumptions base_directory_refuted.

Lemma before_slash file : ∃ pre last, file = pre +:+ last ∧ ¬ has_byte "/" last ∧ (pre = "" ∨ ∃ r, pre = r +:+ "/").
Proof.
  induction file as [|c file (pre & last & -> & Hl & Hp)].
  - exists "", "". split_and!; [done|apply has_byte_nil|by left].
  - destruct Hp as [->|[r ->]].
    + change ("" +:+ last) with last. destruct (decide (c = "/"%char)) as [->|Hc].
      * exists "/", last. split_and!; [done..|]. right. by exists "".
      * exists "", (String c last). split_and!; [done| |by left]. rewrite has_byte_cons. by intros [|].
    + exists (String c (r +:+ "/")), last. split_and!; [done..|]. right. by exists (String c r).
Qed.
(** C146: wherever pgutil is started and however the file is written, the directory is a
    straight absolute name; only a relative name in a directory that cannot be found is refused. *)
Theorem base_directory_straight wd file :
  (∀ x, wd = Some x → begins_with "/" x) →
  (∀ b, basedir wd file = Some b → straight b) ∧
  (basedir wd file = None ↔ wd = None ∧ ¬ begins_with "/" file).
Proof.
  intros Hwd. destruct (before_slash file) as (pre & last & -> & Hl & Hp).
  assert (Hsame : begins_with "/" (pre +:+ last) ↔ begins_with "/" pre).
  { destruct Hp as [->|[r ->]].
    - split; [|by intros [x Hx]]. intros [x Hx]. exfalso. apply Hl. exists "", x. done.
    - split; [|intros [x Hx]; rewrite Hx; exists (x +:+ last); by rewrite <-app_str_assoc].
      destruct r as [|c r]; intros [x Hx]; [by exists ""|]. rewrite !app_str_cons in Hx. injection Hx as -> _.
      by exists (r +:+ "/"). }
  destruct wd as [x|].
  - rewrite basedir_names by (try done; by apply Hwd). split; [|split; [done|by intros [? _]]]. intros b [= <-].
    apply names_straight, list.Forall_app. split; [|apply pieces_slashless].
    destruct (has_prefix pre "/"); [by apply list.Forall_nil|apply pieces_slashless].
  - destruct (slash_or pre) as [[E H]|[E H]].
    + assert (Hb : basedir None (pre +:+ last) = basedir (Some "/") (pre +:+ last)).
      { unfold basedir, dir, abs. rewrite upto_slash_spec by done.
        assert (has_prefix (clean pre) "/" = true) as ->; [|done]. rewrite clean_absolute by done. apply has_prefix_spec. by eexists. }
      rewrite Hb, basedir_names by (try done; by exists ""). rewrite E. split; [|split; [done|intros [_ Hn]; exfalso; by apply Hn, Hsame]].
      intros b [= <-]. apply names_straight, pieces_slashless.
    + unfold basedir, dir, abs. rewrite upto_slash_spec by done.
      destruct (slash_or (clean pre)) as [[_ Hc]|[-> _]]; [by apply clean_relative_name in Hc|].
      split; [done|]. split; [|done]. intros _. split; [done|]. by rewrite Hsame.
Qed.
Print Assumptions base_directory_straight.
Example base_directory_straight_example :
  basedir (Some "/home/me") "../you//./books/../run.jsonnet" = Some "/home/you" ∧
  basedir (Some "/") "../../run.jsonnet" = Some "/" ∧ basedir (Some "/w") "run.jsonnet" = Some "/w" ∧
  basedir None "/srv/a/run.jsonnet" = Some "/srv/a" ∧ basedir None "a/run.jsonnet" = None.
Proof. split_and!; by vm_compute. Qed.

(** C146: so every command of every run is started beside the runbook. *)
Theorem commands_beside b h st tr q t args dir environ fs wd cwd file d :
  good_book b → ok_host b h → executes (run_book b h) st tr →
  Does q t (Runs args dir environ) ∈ effects b h tr →
  basedir (Some wd) file = Some (h_basedir h) →
  fs [] = Some Dir → begins_with "/" wd → means fs [] wd cwd → lies_in fs cwd file d →
  (no_links fs ∨ (never_up wd ∧ never_up file)) →
  straight dir ∧ ∀ cwd', means fs cwd' dir d.
Proof.
  intros Hg Hh He Hin Hb Hr Hwd Hcwd Hl Hc.
  destruct (run_commands b h st tr q t args dir environ Hg Hh He Hin) as (k & n & te & e & name & rest & _ & _ & _ & _ & _ & -> & _).
  destruct (base_directory_partial fs wd cwd file d Hr Hwd Hcwd Hl Hc) as (x & Hx & H1 & H2).
  assert (x = h_basedir h) as <- by congruence. done.
Qed.
Print Assumptions commands_beside.
Example commands_beside_example :
  (good_book EffectsExamples.ex_book ∧ ok_host EffectsExamples.ex_book EffectsExamples.ex_host ∧
   (∃ st, executes (run_book EffectsExamples.ex_book EffectsExamples.ex_host) st EffectsExamples.ex_trace) ∧
   ∃ q, Does q "one" (Runs ["ls"; "-l"] "/b" ["HOME=/r"; "A=1"]) ∈
     effects EffectsExamples.ex_book EffectsExamples.ex_host EffectsExamples.ex_trace) ∧
  basedir (Some "/a") "/b/book.jsonnet" = Some (h_basedir EffectsExamples.ex_host) ∧
  ex_system [] = Some Dir ∧ begins_with "/" "/a" ∧ means ex_system [] "/a" ["a"] ∧
  lies_in ex_system ["a"] "/b/book.jsonnet" ["b"] ∧ never_up "/a" ∧ never_up "/b/book.jsonnet".
Proof.
  split; [destruct run_commands_example as (H1 & H2 & H3 & H4 & _); by split_and!|].
  destruct base_directory_example as (E1 & E2 & E3 & _). split_and!; [by vm_compute|done|done|done| | |].
  - exists "/b/", "book.jsonnet". split_and!; [done|intros H; apply contains_byte_spec in H; done|right; by exists "/b"|].
    exists [""; "b"; ""]. split; [parted|]. left. split; [by eexists|]. apply walks_stay; [by left|done|].
    eapply (walks_in _ [] "b"); [by (unfold plain; split_and!)|done..|]. apply walks_stay; [by left|done|]. apply walks_end.
  - intros cs ->%parts_pieces. apply (bool_decide_unpack _). by vm_compute.
  - intros cs ->%parts_pieces. apply (bool_decide_unpack _). by vm_compute.
Qed.
