(** The properties of the command line. *)
From Coq Require Import String Ascii.
From stdpp Require Import gmap list strings numbers sorting.
From Verif Require Import GoBase GoBaseProofs GoStrings GoStringsProofs GoUtf8 GoUtf8Proofs ShModel DemoModel ParserModel ParserSpec CliModel CliSpec CliProofs.
Local Open Scope Z_scope.

(** C55 *)
Theorem verbosity_levels version verbose quiet debug t :
  let verbosity := 1 + Z.of_nat verbose - Z.of_nat quiet in
  (** what happens, beginning with the messages about pgutil itself *)
  ∃ intro, Forall (λ e, ∃ m, e = Log Info m) intro ∧ intro ≠ [] ∧
    (** shown: the messages of the verbosity and everything printed, in order *)
    seen verbosity (intro ++ t) (run_command version verbose quiet debug t).1 ∧
    (** the debug log: all messages, whatever the verbosity *)
    (∀ name, debug = Some name → ∃ l, (run_command version verbose quiet debug t).2 = Some l ∧ logged (intro ++ t) l) ∧
    (debug = None → (run_command version verbose quiet debug t).2 = None) ∧
    (** more -v or less -q never hides anything *)
    (∀ verbose' quiet', (verbose + quiet' ≤ verbose' + quiet)%nat →
      (run_command version verbose quiet debug t).1 `sublist_of` (run_command version verbose' quiet' debug t).1).
Proof.
  cbv zeta.
  exists ((match debug with Some name => [Log Info ("logging to: " +:+ name)] | None => [] end) ++ [Log Info ("pgutil version=" +:+ version)]).
  assert (∀ v q, seen (1 + Z.of_nat v - Z.of_nat q)
    (((match debug with Some name => [Log Info ("logging to: " +:+ name)] | None => [] end) ++ [Log Info ("pgutil version=" +:+ version)]) ++ t)
    (run_command version v q debug t).1) as Hseen.
  { intros v q. apply stdout_of_spec. rewrite <-(assoc_L (++)). done. }
  split. { destruct debug; repeat constructor; by eexists. }
  split. { by destruct debug. }
  split; [apply Hseen|]. split; [|split].
  - intros name ->. eexists. split; [done|]. by apply debug_log_of_spec.
  - by intros ->.
  - intros verbose' quiet' H. eapply seen_mono; [|apply Hseen..]. lia.
Qed.
Print Assumptions verbosity_levels.
Example verbosity_example :
  run_command "1" 1 0 None [Log Warn "w"; Print "x"; Log Debug "d"] =
    ([Line Info "pgutil version=1"; Line Warn "w"; Text "x"], None) ∧
  run_command "1" 0 7 (Some "log") [Log Warn "w"; Print "x"; Log Error "e"] =
    ([Text "x"; Line Error "e"],
     Some [(Info, "logging to: log"); (Info, "pgutil version=1"); (Warn, "w"); (Error, "e")]).
Proof. done. Qed.

(** C69.  Missing: the same with -v, which is false. *)
Theorem clean_output_partial version verbose quiet debug t :
  (verbose ≤ quiet)%nat → (∀ l m, Log l m ∈ t → l = Info ∨ l = Debug) →
  (run_command version verbose quiet debug t).1 = omap (λ e, match e with Print s => Some (Text s) | Log _ _ => None end) t.
Proof.
  intros Hv Ht. destruct (verbosity_levels version verbose quiet debug t) as (intro & Hi & _ & Hs & _).
  apply seen_app in Hs as (o & o' & -> & H1 & H2).
  assert (¬ shows (1 + Z.of_nat verbose - Z.of_nat quiet) Info) as Hni by (intros H; inversion H; lia).
  assert (¬ shows (1 + Z.of_nat verbose - Z.of_nat quiet) Debug) as Hnd by (intros H; inversion H; lia).
  assert (o = []) as ->.
  { clear -Hi H1 Hni. induction H1; [done|..]; apply Forall_cons in Hi as [[m' E] Hi].
    - injection E as -> ->. done.
    - by apply IHseen.
    - done. }
  cbn. clear -H2 Ht Hni Hnd. induction H2 as [|l m t out Hs H2 IH|l m t out Hs H2 IH|s t out H2 IH]; [done|..]; cbn [omap list_omap].
  - destruct (Ht l m) as [-> | ->]; [by left|done|done].
  - apply IH. intros l' m' Hm. apply (Ht l' m'). by right.
  - f_equal. apply IH. intros l' m' Hm. apply (Ht l' m'). by right.
Qed.
Print Assumptions clean_output_partial.
(** With one -v more than -q, a message comes before the output of every command. *)
Theorem clean_output_refuted version verbose quiet debug t :
  (quiet < verbose)%nat → ∃ m out, (run_command version verbose quiet debug t).1 = Line Info m :: out.
Proof.
  intros Hv. destruct (verbosity_levels version verbose quiet debug t) as (intro & Hi & Hne & Hs & _).
  apply seen_app in Hs as (o & o' & -> & H1 & H2). destruct H1; [done|..]; apply Forall_cons in Hi as [[m' E] Hi].
  - injection E as -> ->. by exists m', (out ++ o').
  - injection E as -> ->. destruct H. constructor. lia.
  - done.
Qed.
Print Assumptions clean_output_refuted.
Example clean_output_example :
  (run_command "1" 0 0 None [Log Info "parsing"; Print "{}"]).1 = [Text "{}"] ∧
  (run_command "1" 1 0 None [Log Info "parsing"; Print "{}"]).1 = [Line Info "pgutil version=1"; Line Info "parsing"; Text "{}"].
Proof. done. Qed.

(** C56.  The bound is fmt's: wider fields are refused. *)
Theorem list_tasks tasks order order' :
  range_of tasks order → range_of tasks order' →
  list_output tasks order = list_output tasks order' ∧
  ((∀ id, id ∈ dom tasks → Z.of_nat (String.length id) ≤ 1000000) →
    ∃ ids lines col, list_output tasks order = "Tasks & Targets:" +:+ newline +:+ String.concat "" lines ∧
      Forall2 (list_line tasks col) ids lines ∧
      StronglySorted str_le ids ∧ NoDup ids ∧ (∀ id, id ∈ ids ↔ id ∈ dom tasks)).
Proof.
  intros H1 H2. split; [apply list_output_perm; by rewrite H1, H2|]. by apply list_output_spec.
Qed.
Print Assumptions list_tasks.
(** With a name of more than a million bytes nothing is aligned any more. *)
Theorem list_width_refuted tasks order id target : range_of tasks order → tasks !! id = Some target →
  1000000 < Z.of_nat (String.length id) → ∃ a b, list_output tasks order = a +:+ "%!(BADWIDTH)" +:+ id +:+ b.
Proof.
  intros Ho Hid Hlen. unfold list_output.
  assert (id ∈ order) as Hin. { rewrite (range_of_elem _ _ _ Ho). by apply elem_of_dom. }
  pose proof Hin as Hin'. rewrite <-elem_of_sort_strings in Hin'. apply elem_of_list_split in Hin' as (l1 & l2 & ->).
  destruct (longest_fold order 0) as (_ & H2 & _). fold (longest_of order) in H2. specialize (H2 id Hin).
  rewrite fmap_app, fmap_cons.
  assert (∀ x y : list string, String.concat "" (x ++ y) = String.concat "" x +:+ String.concat "" y) as Hc.
  { intros x y. induction x as [|s x IH]; [done|]. by rewrite <-app_comm_cons, !concat_cons, IH, app_str_assoc. }
  rewrite Hc, concat_cons. unfold pad_right at 2. rewrite bool_decide_true by lia. rewrite Hid.
  match goal with |- ∃ a b, "Tasks & Targets:" +:+ newline +:+ ?x +:+ (_ +:+ _ +:+ ?t) +:+ ?y = _ =>
    exists ("Tasks & Targets:" +:+ newline +:+ x +:+ "  "), (t +:+ y); generalize x, y end.
  intros x y. by rewrite <-!app_str_assoc.
Qed.
Print Assumptions list_width_refuted.
Definition list_example_tasks : gmap string string := {[ "bravo" := "db"; "b" := "db"; "über" := "sh" ]}.
Example list_tasks_example :
  range_of list_example_tasks ["über"; "b"; "bravo"] ∧
  list_output list_example_tasks ["über"; "b"; "bravo"] =
    "Tasks & Targets:" +:+ newline +:+ "  b      db" +:+ newline +:+ "  bravo  db" +:+ newline +:+ "  über   sh" +:+ newline.
Proof. unfold range_of. split; [apply (bool_decide_unpack _)|]; by vm_compute. Qed.

(** C57.  Missing: that the input is never the output, and that a failure leaves an
    existing output alone; both false. *)
Theorem output_files_partial :
  (** dot -O: the name *)
  (∀ file, ∃ stem e, extension file stem e ∧ dot_output file "" true = stem +:+ ".dot") ∧
  (∀ dir base, ¬ has_byte "/" base →
    ∃ base', ¬ has_byte "/" base' ∧ dot_output (dir +:+ String "/" base) "" true = dir +:+ String "/" base') ∧
  (∀ file, dot_output file "" true = file ↔ ∃ stem, file = stem +:+ ".dot") ∧
  (** a given name is used; without one and without -O it is standard output *)
  (∀ file output auto, output ≠ "" → dot_output file output auto = output) ∧
  (∀ file, dot_output file "" false = "-") ∧
  (** no other file changes *)
  (∀ A d file output auto (load : _ → option A) show w p, p ≠ dot_output file output auto →
    w_files (dot_command d file output auto load show w).1 !! p = w_files w !! p) ∧
  (∀ A d output color tty (load : _ → option A) show w p, p ≠ output →
    w_files (eval_command d output color tty load show w).1 !! p = w_files w !! p) ∧
  (∀ A d output (db : option A) show w p, p ≠ output →
    w_files (inspect_command d output db show w).1 !! p = w_files w !! p) ∧
  (** the output is complete if nothing fails and the runbook is not the output *)
  (∀ A d file output auto (load : _ → option A) show w b, good_disk d →
    (∀ p s, load (<[p := s]> (w_files w)) = load (w_files w) ∨ p ≠ dot_output file output auto) →
    load (w_files w) = Some b →
    (dot_command d file output auto load show w).2 = true ∧
    contains w (dot_output file output auto) (show b) (dot_command d file output auto load show w).1) ∧
  (∀ A d output color tty (load : _ → option A) show w b, good_disk d →
    (∀ s, load (<[output := s]> (w_files w)) = load (w_files w)) → load (w_files w) = Some b →
    (eval_command d output color tty load show w).2 = true) ∧
  (∀ A d output (b : A) show w, good_disk d → (inspect_command d output (Some b) show w).2 = true) ∧
  (** inspect leaves everything alone unless there is something to write *)
  (∀ A d output (db : option A) show w, db = None → inspect_command d output db show w = (w, false)).
Proof.
  split; [apply dot_output_auto|]. split; [apply dot_output_dir|]. split; [apply dot_output_same|].
  split. { intros file output auto Ho. unfold dot_output. by rewrite decide_True. }
  split; [done|].
  split; [|split; [|split; [|split; [|split; [|split]]]]].
  - intros A d file output auto load show w p Hp. unfold dot_command.
    destruct (create d _ w) as [w1|] eqn:Hc; [|done].
    destruct (load (w_files w1)) as [b|]; cbn [fst]; [rewrite write_frame by done|]; by eapply create_frame.
  - intros A d output color tty load show w p Hp. unfold eval_command.
    destruct (decide (output ≠ "")) as [Ho|Ho].
    + destruct (create d _ w) as [w1|] eqn:Hc; [|done].
      destruct (load (w_files w1)) as [b|]; cbn [fst]; [rewrite write_frame by done|]; by eapply create_frame.
    + change (create d "-" w) with (Some w). cbv iota beta. destruct (load (w_files w)) as [b|]; [|done]. unfold write. by destruct (put d "-" _).
  - intros A d output db show w p Hp. unfold inspect_command. destruct db as [db|]; [|done].
    destruct (decide (output = "")) as [Ho|Ho].
    + change (create d "-" w) with (Some w). cbv iota beta. unfold write. by destruct (put d "-" _).
    + destruct (create d _ w) as [w1|] eqn:Hc; [|done]. rewrite write_frame by done. by eapply create_frame.
  - intros A d file output auto load show w b [Ho Hp] Hl Hb. unfold dot_command.
    destruct (create d (dot_output file output auto) w) as [w1|] eqn:Hc.
    2:{ unfold create in Hc. rewrite Ho in Hc. by destruct (decide _). }
    assert (load (w_files w1) = Some b) as ->.
    { destruct (create_spec _ _ _ _ Hc) as [[_ ->]|[_ ->]]; [done|]. cbn. destruct (Hl (dot_output file output auto) "") as [-> | ?]; done. }
    split; [done|]. pose proof (create_write _ _ (show b) _ _ Hc) as H. by rewrite Hp in H.
  - intros A d output color tty load show w b [Ho Hp] Hl Hb. unfold eval_command.
    destruct (create d (if decide (output ≠ "") then output else "-") w) as [w1|] eqn:Hc.
    2:{ unfold create in Hc. rewrite Ho in Hc. by destruct (decide (_ = "-")). }
    assert (load (w_files w1) = Some b) as ->.
    { destruct (create_spec _ _ _ _ Hc) as [[_ ->]|[Hn ->]]; [done|]. cbn.
      destruct (decide (output ≠ "")); [|done]. by rewrite Hl. }
    unfold write. by rewrite Hp.
  - intros A d output b show w [Ho Hp]. unfold inspect_command.
    destruct (create d (if decide (output = "") then "-" else output) w) as [w1|] eqn:Hc.
    2:{ unfold create in Hc. rewrite Ho in Hc. by destruct (decide (_ = "-")). }
    unfold write. by rewrite Hp.
  - by intros A d output db show w ->.
Qed.
Print Assumptions output_files_partial.
Definition good : disk := Disk (λ _, true) (λ _ s, (s, true)).
Example good_is_good : good_disk good ∧ ok_disk good.
Proof. split; [done|]. intros p s a ok [= <- <-]. split; [done|]. exists "". by rewrite app_str_nil_r. Qed.
(** A runbook called *.dot is emptied before it is read; a file given as output is
    emptied although the runbook cannot be read. *)
Theorem output_files_refuted A (load : gmap string string → option A) show stem w :
  (load (<[stem +:+ ".dot" := ""]> (w_files w)) = None →
    (dot_command good (stem +:+ ".dot") "" true load show w).2 = false ∧
    w_files (dot_command good (stem +:+ ".dot") "" true load show w).1 !! (stem +:+ ".dot") = Some "") ∧
  (∀ file output, output ≠ "" → output ≠ "-" → load (<[output := ""]> (w_files w)) = None →
    w_files (dot_command good file output false load show w).1 !! output = Some "") ∧
  (∀ output color tty show, output ≠ "" → output ≠ "-" → load (<[output := ""]> (w_files w)) = None →
    w_files (eval_command good output color tty load show w).1 !! output = Some "").
Proof.
  split; [|split].
  - intros Hl. assert (dot_output (stem +:+ ".dot") "" true = stem +:+ ".dot") as E by (apply dot_output_same; by eexists).
    unfold dot_command. rewrite E. unfold create. rewrite decide_False by by destruct stem as [|? []]. cbn [good may_open].
    cbn [w_files]. rewrite Hl. cbn. by rewrite lookup_insert.
  - intros file output H1 H2 Hl. unfold dot_command, dot_output, create. destruct (decide (output ≠ "")) as [_|?]; [|done].
    destruct (decide (output = "-")) as [?|_]; [done|].
    cbn [good may_open w_files]. rewrite Hl. cbn. by rewrite lookup_insert.
  - intros output color tty show' H1 H2 Hl. unfold eval_command, create. destruct (decide (output ≠ "")) as [_|?]; [|done].
    destruct (decide (output = "-")) as [?|_]; [done|].
    cbn [good may_open w_files]. rewrite Hl. cbn. by rewrite lookup_insert.
Qed.
Print Assumptions output_files_refuted.
Example output_names_example :
  dot_output "a.b/book.jsonnet" "" true = "a.b/book.dot" ∧ dot_output "a.b/book" "" true = "a.b/book.dot" ∧
  dot_output "x/.hidden" "" true = "x/.dot" ∧ dot_output "g.dot" "" true = "g.dot" ∧ dot_output "g.json" "o" true = "o".
Proof. by vm_compute. Qed.

(** C70.  Missing: the same for dot, which is false. *)
Theorem write_errors_partial :
  (∀ A d output color tty (load : _ → option A) show w, ok_disk d →
    (eval_command d output color tty load show w).2 = true → ∃ b w0 c,
      contains w (if decide (output ≠ "") then output else "-") (show c b) (eval_command d output color tty load show w).1 ∧
      load w0 = Some b ∧ (w0 = w_files w ∨ w0 = <[output := ""]> (w_files w)) ∧
      (color = "true" → c = true) ∧ (color = "false" → c = false) ∧
      (color = "auto" → c = tty (if decide (output ≠ "") then output else "-"))) ∧
  (∀ A d output (db : option A) show w, ok_disk d → (inspect_command d output db show w).2 = true → ∃ b,
    db = Some b ∧ contains w (if decide (output = "") then "-" else output) (show b) (inspect_command d output db show w).1) ∧
  (** dot: at least a runbook that cannot be read and a file that cannot be opened *)
  (∀ A d file output auto (load : _ → option A) show w,
    (dot_command d file output auto load show w).2 = true →
    let out := dot_output file output auto in
    (out = "-" ∨ may_open d out = true) ∧
    ∃ b w0, load w0 = Some b ∧ (w0 = w_files w ∨ w0 = <[out := ""]> (w_files w))).
Proof.
  split; [|split].
  - intros A d output color tty load show w Hd. unfold eval_command.
    destruct (create d _ w) as [w1|] eqn:Hc; [|done]. destruct (load (w_files w1)) as [b|] eqn:Hl; [|done].
    intros Hok. eexists b, (w_files w1), (eval_color color (tty (if decide (output ≠ "") then output else "-"))).
    split; [|split; [done|split; [|split_and!; by intros ->]]].
    2:{ destruct (create_spec _ _ _ _ Hc) as [[_ ->]|[Hn ->]]; [by left|right]. cbn.
        by destruct (decide (output ≠ "")). }
    pose proof (create_write _ _ (show (eval_color color (tty (if decide (output ≠ "") then output else "-"))) b) _ _ Hc) as H.
    destruct (put d _ _) as [a ok] eqn:Hp. destruct (Hd _ _ _ _ Hp) as [Ha _]. cbn [fst] in H. rewrite Ha in H at 1; [exact H|].
    unfold write in Hok. rewrite Hp in Hok. exact Hok.
  - intros A d output db show w Hd. unfold inspect_command. destruct db as [b|]; [|done].
    destruct (create d _ w) as [w1|] eqn:Hc; [|done]. intros Hok. exists b. split; [done|].
    pose proof (create_write _ _ (show b) _ _ Hc) as H.
    destruct (put d _ _) as [a ok] eqn:Hp. destruct (Hd _ _ _ _ Hp) as [Ha _]. cbn [fst] in H. rewrite Ha in H at 1; [exact H|].
    unfold write in Hok. rewrite Hp in Hok. exact Hok.
  - intros A d file output auto load show w. unfold dot_command. cbv zeta.
    destruct (create d _ w) as [w1|] eqn:Hc; [|done]. destruct (load (w_files w1)) as [b|] eqn:Hl; [|done]. intros _. split.
    + unfold create in Hc. destruct (decide _); [by left|right]. by destruct (may_open d _).
    + exists b, (w_files w1). split; [done|]. destruct (create_spec _ _ _ _ Hc) as [[_ ->]|[_ ->]]; [by left|by right].
Qed.
Print Assumptions write_errors_partial.
Definition full : disk := Disk (λ _, true) (λ _ _, ("", false)).
(** Whatever the runbook and however full the disk: runbook dot reports success. *)
Theorem write_errors_refuted A file output auto (load : gmap string string → option A) show w b :
  ok_disk full ∧ ((∀ p s, load (<[p := s]> (w_files w)) = Some b) → load (w_files w) = Some b →
    (dot_command full file output auto load show w).2 = true ∧
    contains w (dot_output file output auto) "" (dot_command full file output auto load show w).1).
Proof.
  split.
  - intros p s a ok [= <- <-]. split; [done|]. by exists s.
  - intros Hl Hw. unfold dot_command. destruct (create full (dot_output file output auto) w) as [w1|] eqn:Hc.
    2:{ unfold create in Hc. cbn in Hc. by destruct (decide _). }
    assert (load (w_files w1) = Some b) as ->.
    { destruct (create_spec _ _ _ _ Hc) as [[_ ->]|[_ ->]]; [done|]. apply Hl. }
    split; [done|]. apply (create_write full _ (show b) _ _ Hc).
Qed.
Print Assumptions write_errors_refuted.
Example write_errors_example :
  (eval_command full "o" "auto" (λ _, false) (λ _, Some "{}") (λ _ x, x) (World ∅ "")).2 = false ∧
  (eval_command good "" "auto" (λ _, false) (λ _, Some "{}") (λ _ x, x) (World ∅ "")) = (World ∅ "{}", true).
Proof. done. Qed.

(** C71 *)
Theorem dot_graph b splines o1 o2 :
  range_of (bk_targets b) o1 → range_of (bk_tasks b) o2 →
  let calls := dot_calls b splines o1 o2 in
  (** a cluster for every target *)
  (∀ p g, AddSubGraph p g ∈ calls ↔ p = "runbook" ∧ ∃ q, q ∈ dom (bk_targets b) ∧ g = "cluster_" +:+ q) ∧
  (** what it is called, and how the graph is drawn *)
  (∀ g k v, AddAttr g k v ∈ calls ↔ (g, k, v) = ("runbook", "newrank", "true") ∨
    (splines ≠ "" ∧ (g, k, v) = ("runbook", "splines", splines)) ∨
    ∃ q, q ∈ dom (bk_targets b) ∧ (g, k, v) = ("cluster_" +:+ q, "label", q)) ∧
  (** every task is a node, once, in the cluster of its target *)
  NoDup (nodes calls).*2 ∧
  (∀ g n, (g, n) ∈ nodes calls ↔ ∃ v, bk_tasks b !! n = Some v ∧ g = "cluster_" +:+ b_target v) ∧
  (** the edges into a task come from what it runs after *)
  (∀ n v, bk_tasks b !! n = Some v → sources_of n calls = b_after v) ∧
  (∀ n, bk_tasks b !! n = None → sources_of n calls = []) ∧
  (** no task comes before its cluster *)
  (good_book b → ∀ l1 g n l2, calls = l1 ++ AddNode g n :: l2 → AddSubGraph "runbook" g ∈ l1) ∧
  (** the order of the maps only changes the order of the calls *)
  (∀ o1' o2', range_of (bk_targets b) o1' → range_of (bk_tasks b) o2' → dot_calls b splines o1' o2' ≡ₚ calls).
Proof.
  intros H1 H2 calls. destruct (nodes_calls b splines o1 o2 H2) as [Hn1 Hn2].
  split; [|split; [|split; [|split; [|split; [|split; [|split]]]]]].
  - intros p g. unfold calls. rewrite dot_calls_parts, elem_of_app, elem_of_dot_head, elem_of_dot_task.
    setoid_rewrite (range_of_elem _ _ _ H1). naive_solver.
  - intros g k v. unfold calls. rewrite dot_calls_parts, elem_of_app, elem_of_dot_head, elem_of_dot_task.
    setoid_rewrite (range_of_elem _ _ _ H1). naive_solver.
  - unfold calls. rewrite Hn1. by eapply range_of_NoDup.
  - exact Hn2.
  - intros n v E. unfold calls. rewrite sources_calls by done. by rewrite E.
  - intros n E. unfold calls. rewrite sources_calls by done. by rewrite E.
  - intros Hg l1 g n l2 E. unfold calls in E. rewrite dot_calls_parts in E.
    assert (∃ v, bk_tasks b !! n = Some v ∧ g = "cluster_" +:+ b_target v) as (v & Hv & ->).
    { apply Hn2. unfold nodes. apply elem_of_list_omap. exists (AddNode g n). split; [|done]. rewrite dot_calls_parts, E.
      apply elem_of_app. right. by left. }
    destruct Hg as [_ Hg]. destruct (Hg _ _ Hv) as (_ & t & Ht & _).
    assert (AddSubGraph "runbook" ("cluster_" +:+ b_target v) ∈ dot_head splines o1) as Hin.
    { apply elem_of_dot_head. right. right. exists (b_target v). split; [|by left]. rewrite (range_of_elem _ _ _ H1). by apply elem_of_dom. }
    assert (AddNode ("cluster_" +:+ b_target v) n ∉ dot_head splines o1) as Hout.
    { rewrite elem_of_dot_head. naive_solver. }
    destruct (app_eq_inv _ _ _ _ E) as [(k & Hd & Hk)|(k & -> & Hk)].
    + rewrite Hd in Hin, Hout. destruct k as [|c k].
      * by rewrite app_nil_r in Hin.
      * injection Hk as <- _. destruct Hout. apply elem_of_app. right. by left.
    + apply elem_of_app. by left.
  - intros o1' o2' H1' H2'. apply dot_calls_perm; [by rewrite H1', H1|by rewrite H2', H2].
Qed.
Print Assumptions dot_graph.
Definition dot_example_book : book :=
  Book {[ "d" := DemoTgt "" ]}
    {[ "a" := BookTask [] "d" "" (DemoConfig Rev); "b" := BookTask ["a"; "zz"] "d" "" (DemoConfig Echo) ]}.
(** Names in after that are no tasks become edges all the same. *)
Example dot_graph_example :
  range_of (bk_targets dot_example_book) ["d"] ∧ range_of (bk_tasks dot_example_book) ["b"; "a"] ∧
  dot_calls dot_example_book "" ["d"] ["b"; "a"] =
    [AddAttr "runbook" "newrank" "true"; AddSubGraph "runbook" "cluster_d"; AddAttr "cluster_d" "label" "d";
     AddNode "cluster_d" "b"; AddEdge "a" "b"; AddEdge "zz" "b"; AddNode "cluster_d" "a"].
Proof. unfold range_of. split_and!; [apply (bool_decide_unpack _); by vm_compute..|by vm_compute]. Qed.
