(** The process as a whole: C123-C131. *)
From Coq Require Import String Ascii.
From stdpp Require Import gmap list strings numbers sorting.
From Verif Require Import GoBase GoStrings GoStringsProofs GoUtf8 ParserModel JsonModel JsonSpec.
From Verif Require Import CliModel CliSpec CliProofs CliProps.
From Verif Require Import HclModel HclSpec HclProps.
From Verif Require Import ArgsModel ArgsSpec ArgsProofs ArgsValuesProofs ArgsRequestProofs ArgsUsageProofs.
From Verif Require Import ProgModel ProgSpec ProgLineProofs ProgProofs.
From Verif Require PgModel PgSpec PgProps DdlModel SysModel SysSpec SysServer SysExamples SysProps JsonProps HclText.
Local Open Scope Z_scope.

(** C123: only the file given with --debug and the output of the command are changed,
    unless a runbook is run.  A line that is refused or shows the usage changes no file
    that is there; it may leave an empty one whose name is in the line. *)
Theorem only_named_files s modern ws w :
  let x := program s modern ws w in
  (∀ r, x_ran x = Some r → ¬ is_run (q_command r) →
    (∀ p, w_files (x_world x) !! p = w_files w !! p ∨ q_debug r = Some p ∨ writes_to (q_command r) p) ∧
    ∃ more, w_stdout (x_world x) = w_stdout w +:+ more) ∧
  (x_ran x = None →
    (∀ p, w_files (x_world x) !! p = w_files w !! p ∨
      (w_files w !! p = None ∧ w_files (x_world x) !! p = Some "" ∧ in_line ws p)) ∧
    ∃ more, w_stdout (x_world x) = w_stdout w +:+ more).
Proof.
  intros x. split.
  - intros r Hr Hn. destruct (program_ran s modern ws w r Hr) as (files & w2 & e & Hf & _ & Hc & _ & Hw & Hs & _).
    set (w1 := say s r (first_messages s r ++ _) _) in Hc.
    pose proof (command_only s r w1 Hn) as Ho. rewrite Hc in Ho. simpl in Ho. split.
    + intros p. unfold x. rewrite Hw. destruct (decide (q_debug r = Some p)) as [|Hd]; [by right; left|].
      rewrite (say_files s r _ w2 p Hd). destruct (proj1 Ho p) as [->|[E Hp]].
      2:{ right. right. subst p. by apply outlet_written. }
      unfold w1. rewrite (say_files s r _ _ p Hd). simpl. destruct (Hf p) as [|(_ & _ & _ & ?)]; by auto.
    + eapply extends_trans; [|exact Hs]. eapply extends_trans; [|apply say_more].
      eapply extends_trans; [|apply Ho]. apply (say_more s r _ (World files (w_stdout w))).
  - unfold x. destruct (program_comes s modern ws w) as [es files Hin Ho Hp|es files Hin Ho Hp|es files c v Hin Ho Hp Hd]; intros Hr.
    + split; [|apply (write_more _ _ _ (World files (w_stdout w)))]. simpl. rewrite complain_files. simpl. intros p.
      destruct (Ho p) as [|(H1 & H2 & y & Hy & Hk)]; [by left|]. right. split_and!; [done..|].
      rewrite list.Forall_forall in Hin. specialize (Hin _ Hy). unfold element_in in Hin. apply Hin.
      unfold is_switch. by rewrite Hk.
    + split; [|by eexists]. simpl. intros p.
      destruct (Ho p) as [|(H1 & H2 & y & Hy & Hk)]; [by left|]. right. split_and!; [done..|].
      rewrite list.Forall_forall in Hin. specialize (Hin _ Hy). unfold element_in in Hin. apply Hin.
      unfold is_switch. by rewrite Hk.
    + unfold finish in Hr. by destruct (carry_out _ _ _) as [[w' [| |]] ls].
Qed.
Print Assumptions only_named_files.

(** C124: the debug log is appended to, never replaced; and it gets every message,
    whatever the verbosity. *)
Theorem debug_log_kept s modern ws w r f :
  let x := program s modern ws w in
  x_ran x = Some r → q_debug r = Some f → ¬ is_run (q_command r) → ¬ writes_to (q_command r) f →
  ∃ more, w_files (x_world x) !! f = Some (default "" (w_files w !! f) +:+ more) ∧
    ((∀ t, put (s_disk s) f t = (t, true)) → lines_of s f (messages s r) more).
Proof.
  intros x Hr Hf Hn Hw. destruct (program_ran s modern ws w r Hr) as (files & w2 & e & Hfs & _ & Hc & _ & Hx & _).
  set (l1 := first_messages s r ++ _) in Hc. set (w0 := World files (w_stdout w)) in Hc.
  destruct (say_debug s r f l1 w0 Hf) as (t1 & (k1 & -> & A1) & E1 & S1).
  assert (E2 : w_files w2 !! f = w_files (say s r l1 w0) !! f).
  { pose proof (command_only s r (say s r l1 w0) Hn) as Ho. rewrite Hc in Ho. by eapply only_named. }
  destruct (say_debug s r f (s_chatter s (q_command r)).2 w2 Hf) as (t2 & (k2 & -> & A2) & E3 & S3).
  assert (E0 : default "" (w_files w0 !! f) = default "" (w_files w !! f)).
  { simpl. destruct (Hfs f) as [->|(-> & -> & _)]; done. }
  assert (Hs : is_Some (w_files (say s r (s_chatter s (q_command r)).2 w2) !! f)).
  { apply S3. right. rewrite E2. apply S1. left. unfold l1, first_messages. destruct (q_debug r); done. }
  exists (String.concat "" (k1 ++ k2)). split.
  - unfold x. rewrite Hx. destruct Hs as [y Hy]. rewrite Hy in *. simpl in E3. f_equal. rewrite E3, E2, E1, E0.
    rewrite <-app_str_assoc. f_equal. clear. induction k1 as [|a k1 IH]; [done|]. rewrite <-app_comm_cons, !concat_cons_str, <-IH.
    by rewrite app_str_assoc.
  - intros Hd. exists (k1 ++ k2). split; [done|].
    replace (messages s r) with (l1 ++ (s_chatter s (q_command r)).2).
    2:{ unfold l1, messages, first_messages. by rewrite <-!app_assoc. }
    assert (∀ ms ks, Forall2 (λ m line, ∃ w, line = (put (s_disk s) f (s_line s f w m.1 m.2)).1) ms ks →
      Forall2 (λ m line, ∃ w, line = s_line s f w m.1 m.2) ms ks) as Hconv.
    { intros ms ks H. eapply Forall2_impl; [exact H|]. intros m line [w' ->]. exists w'. by rewrite Hd. }
    apply Forall2_app; by apply Hconv.
Qed.
Print Assumptions debug_log_kept.

(** C125: what a line asks for (or is mistaken to ask for, C120), given the files there
    are, is what is done; and what is done was asked for, once the file for --debug is
    there. *)
Theorem process_does_what_is_asked s modern ws w :
  let x := program s modern ws w in
  (∀ r, asks modern (outside_of s (w_files w)) ws r ∨ mistaken modern (outside_of s (w_files w)) ws r →
    x_ran x = Some r) ∧
  (∀ r, x_ran x = Some r →
    let o := outside_of s (match q_debug r with Some f => opened f (w_files w) | None => w_files w end) in
    asks modern o ws r ∨ is_run (q_command r) ∧ mistaken modern o ws r) ∧
  (** the status *)
  (x_ran x = None →
    x_status x = 0 ∧ led_to_usage modern ws ∨
    x_status x = 1 ∧ ¬ led_to_usage modern ws ∧
    ∀ r, ¬ asks modern (outside_of s (w_files w)) ws r ∧ ¬ mistaken modern (outside_of s (w_files w)) ws r) ∧
  (∀ r, x_ran x = Some r → x_status x = 0 ∨ x_status x = 1 ∨ x_status x = 2) ∧
  (∀ r, x_ran x = Some r → x_status x = 2 → match q_command r with Ping _ | Version _ | BookEval _ _ _ => False | _ => True end).
Proof.
  intros x. assert (Hcomplete : ∀ r, asks modern (outside_of s (w_files w)) ws r ∨
    mistaken modern (outside_of s (w_files w)) ws r → x_ran x = Some r).
  { intros r Ha. assert (∃ c v, parse modern (outside_of s (w_files w)) ws = Runs c v ∧ request_of c v = r) as (c & v & Hp & <-).
    { destruct Ha as [Ha|Ha]; [by apply parse_complete|]. destruct (parse_mistaken _ _ _ _ Ha) as (v & ? & ?). by exists CRun, v. }
    unfold x.
    destruct (program_comes s modern ws w) as [es files Hin Ho Hp'|es files Hin Ho Hu|es files c' v' Hin Ho Hp' Hd].
    - congruence.
    - by rewrite Hu in Hp.
    - eapply parse_fewer in Hp; [|by eapply opened_by_fewer]. rewrite Hp' in Hp by by intros ?. injection Hp as <- <-.
      unfold finish. by destruct (carry_out _ _ _) as [[w' [| |]] ls]. }
  split; [done|]. split_and!.
  - intros r Hr o. destruct (program_ran s modern ws w r Hr) as (files & w2 & e & Hf & (c & v & -> & Hp) & _).
    set (g := match q_debug (request_of c v) with Some f => opened f (w_files w) | None => w_files w end).
    assert (Hg : fewer files g).
    { intros p Hp'. unfold g. destruct (Hf p) as [E|(E1 & E2 & _ & Hd)]; [rewrite E in Hp'|].
      - destruct (q_debug _) as [f|]; [|done]. unfold opened. destruct (w_files w !! f) eqn:Ef; [done|].
        destruct (decide (p = f)) as [->|]; [by rewrite lookup_insert|]. by rewrite lookup_insert_ne.
      - rewrite Hd. unfold opened. rewrite E1, lookup_insert. by eexists. }
    destruct (parse_sound modern (outside_of s g) ws c v (Hp g Hg)) as [|[-> ?]]; [by left|right]. split; [by eexists|done].
  - intros Hr. unfold x in *. destruct (program_comes s modern ws w) as [es files Hin Ho Hp|es files Hin Ho Hp|es files c v Hin Ho Hp Hd].
    + right. assert (Hu := parse_usage modern (outside_of s (w_files w)) ws). rewrite Hp in Hu.
      split_and!; [done|by intros H; assert (Refused = Usage) by by apply Hu|]. intros r. split; intros Ha; by assert (Hx := Hcomplete r ltac:(by auto)).
    + left. split; [done|]. by apply (parse_usage modern (outside_of s (w_files w)) ws).
    + unfold finish in Hr. by destruct (carry_out _ _ _) as [[w' [| |]] ls].
  - intros r Hr. destruct (program_ran s modern ws w r Hr) as (files & w2 & e & _ & _ & _ & Hs & _).
    unfold x. rewrite Hs. destruct e; auto.
  - intros r Hr. destruct (program_ran s modern ws w r Hr) as (files & w2 & e & _ & _ & Hc & Hs & _).
    unfold x. rewrite Hs. intros He. assert (e = Crashes) as -> by by destruct e.
    set (w1 := say _ _ _ _) in Hc. unfold command_run in Hc. destruct (q_command r) as [c| | | |file color out| |]; try done.
    + destruct (connected_cases s r c (ping s r) w1) as [(cfg & E & _)|[E _]]; rewrite E in Hc; [|done].
      unfold ping, PgModel.server_version, PgModel.single in Hc. by destruct (s_version s cfg).
    + unfold eval_book in Hc. destruct (eval_command _ _ _ _ _ _ _) as [w' []]; done.
Qed.
Print Assumptions process_does_what_is_asked.

(** C126: inspect.  If it succeeds, the file describes the database it was connected to,
    and is read again as that description. *)
Theorem inspect_end_to_end s modern ws w r c out cols checks idx :
  let x := program s modern ws w in
  x_ran x = Some r → q_command r = Inspect c out cols checks idx → out ≠ "" → out ≠ "-" → q_debug r ≠ Some out →
  ok_disk (s_disk s) → x_status x = 0 →
  ∃ env cfg db d, s_env s = Some env ∧ x_links x = [Opens cfg; Closes cfg] ∧ asked_for c env cfg ∧
    database_kept db d ∧
    (** the content of the catalogues *)
    (∀ sy, SysSpec.sane sy → PgSpec.ok_sorter (s_sorter s) → SysSpec.served sy (s_server s cfg) →
      SysSpec.database_of (s_floats s) sy db) ∧
    (** the order of the columns *)
    (∀ ct, cols = true → PgSpec.ok_sorter (s_sorter s) → PgSpec.serves ct (s_server s cfg) →
      Forall (λ t, StronglySorted str_le (DdlModel.co_name <$> DdlModel.tb_columns t.1)) (PgModel.db_tables db)) ∧
    (** the content of the file *)
    (∀ n good finite, ok_lib (s_hcl s) n good finite →
      Forall (λ q, Forall in_range [PgModel.sq_start q; PgModel.sq_minimum q; PgModel.sq_maximum q; PgModel.sq_increment q; PgModel.sq_cache q]) (PgModel.db_sequences db) →
      (∀ t p f y, (t, p) ∈ PgModel.db_tables db → p !! f = Some (DdlModel.VFloat y) → finite y) →
      every_text good d → every_text (λ t, n t = t) d →
      parse_file (s_hcl s) (w_files (x_world x)) out = Some d).
Proof.
  intros x Hr Hq H1 H2 Hd Hok Hst. destruct (program_ran s modern ws w r Hr) as (files & w2 & e & _ & _ & Hc & Hs & Hx & _).
  unfold x in *. rewrite Hs in Hst. assert (e = Done) as -> by by destruct e.
  set (w1 := say s r (first_messages s r ++ _) _) in Hc. unfold command_run in Hc. rewrite Hq in Hc.
  destruct (connected_cases s r c (inspect s out (PgModel.InspectOptions checks cols idx)) w1) as [(cfg & E & Hcfg & _)|[E _]];
    rewrite E in Hc; [|done].
  injection Hc as Hi Hl. unfold inspect in Hi.
  destruct (PgModel.inspect (s_sorter s) (s_floats s) (PgModel.InspectOptions checks cols idx) (s_server s cfg)) as [db| | |] eqn:Hdb; try done.
  destruct (inspect_command _ _ _ _ w1) as [w' ok] eqn:Hcmd. injection Hi as -> Hok'. assert (ok = true) as -> by by destruct ok.
  destruct (configured_asked s c cfg Hcfg) as (env & Henv & Hask).
  exists env, cfg, db, (file_of db). split_and!; [done|done|done|apply file_of_kept| | |].
  - intros sy Hsane Hsort Hserved. by eapply SysProps.inspected_partial.
  - intros ct Hcols Hsort Hserves.
    by destruct (PgProps.sort_partial (s_sorter s) (s_floats s) (PgModel.InspectOptions checks cols idx) ct (s_server s cfg) db
      Hsort Hserves Hdb) as [Hsorted _]; apply Hsorted.
  - intros n good finite Hlib Hseq Hfl Hg Hn.
    pose proof (inspected_file (s_hcl s) n good finite _ _ _ _ db (file_of db) (s_disk s) out w1 w2 Hlib Hdb (file_of_kept db)
      Hseq Hfl Hg Hn ltac:(intros t a Ha; by apply Hok in Ha as [-> _]) H1 H2 Hcmd) as Hp.
    unfold parse_file in *. rewrite Hx. by rewrite (say_files s r _ w2 out Hd).
Qed.
Print Assumptions inspect_end_to_end.

(** C127: if it fails, for whatever reason but the disk, the file is as it was. *)
Theorem inspect_failure_keeps_file s modern ws w r c out cols checks idx :
  let x := program s modern ws w in
  x_ran x = Some r → q_command r = Inspect c out cols checks idx → out ≠ "" → q_debug r ≠ Some out →
  (∀ t, (put (s_disk s) out t).2 = true) → x_status x ≠ 0 →
  w_files (x_world x) !! out = w_files w !! out.
Proof.
  intros x Hr Hq Hne Hd Hput Hst. destruct (program_ran s modern ws w r Hr) as (files & w2 & e & Hf & _ & Hc & Hs & Hx & _).
  unfold x in *. rewrite Hx, (say_files s r _ w2 out Hd). rewrite Hs in Hst.
  assert (H0 : files !! out = w_files w !! out).
  { destruct (Hf out) as [|(_ & _ & _ & ?)]; done. }
  set (w1 := say s r (first_messages s r ++ _) _) in Hc. assert (H1 : w_files w1 !! out = w_files w !! out).
  { unfold w1. by rewrite (say_files s r _ _ out Hd). }
  rewrite <-H1. f_equal. f_equal. unfold command_run in Hc. rewrite Hq in Hc.
  destruct (connected_cases s r c (inspect s out (PgModel.InspectOptions checks cols idx)) w1) as [(cfg & E & _)|[E _]];
    rewrite E in Hc; [|by injection Hc as <- _].
  injection Hc as Hi _. unfold inspect in Hi.
  destruct (PgModel.inspect _ _ _ _) as [db| | |]; [|by injection Hi as <- _..].
  unfold inspect_command in Hi. destruct (create _ _ w1) as [w'|] eqn:Hcr; [|by injection Hi as <- _].
  rewrite decide_False in Hi by done.
  specialize (Hput (db_text (s_hcl s) (file_of db))). unfold write in Hi. destruct (put _ out _) as [a ok]. simpl in Hput. subst ok.
  injection Hi as _ <-. done.
Qed.
Print Assumptions inspect_failure_keeps_file.

(** C128: ping succeeds exactly if a server with the options of the line (or, for what
    is not given, of the environment) is reached and tells its version; and by default
    nothing but the version is printed. *)
Theorem ping_end_to_end s modern ws w r c :
  let x := program s modern ws w in
  x_ran x = Some r → q_command r = Ping c →
  (x_status x = 0 → ∃ env cfg v, s_env s = Some env ∧ asked_for c env cfg ∧ x_links x = [Opens cfg; Closes cfg] ∧
    s_reachable s cfg = true ∧ s_version s cfg = PgModel.Row v) ∧
  (∀ env, s_env s = Some env → sslmode c = "" ∨ (∃ h l, PgSpec.allowed h (sslmode c) l) →
    (∀ cfg, asked_for c env cfg → s_reachable s cfg = true ∧ ∃ v, s_version s cfg = PgModel.Row v) → x_status x = 0) ∧
  (x_status x = 0 → q_verbosity r ≤ 1 →
    Forall (λ m, m.1 = Info ∨ m.1 = Debug) ((s_chatter s (Ping c)).1 ++ (s_chatter s (Ping c)).2) →
    (∀ t, put (s_disk s) "-" t = (t, true)) →
    ∃ cfg v, s_version s cfg = PgModel.Row v ∧ x_links x = [Opens cfg; Closes cfg] ∧
      w_stdout (x_world x) = w_stdout w +:+ v +:+ newline).
Proof.
  intros x Hr Hq. destruct (program_ran s modern ws w r Hr) as (files & w2 & e & _ & _ & Hc & Hs & _ & _ & Hx).
  unfold x in *. rewrite Hs. set (w1 := say s r (first_messages s r ++ _) _) in Hc.
  unfold command_run in Hc. rewrite Hq in Hc.
  destruct (connected_cases s r c (ping s r) w1) as [(cfg & E & Hcfg & Hreach)|[E Hno]]; rewrite E in Hc.
  - injection Hc as Hp Hl. unfold ping, PgModel.server_version, PgModel.single in Hp.
    destruct (s_version s cfg) as [| |v] eqn:Hv.
    1,2: injection Hp as <- <-; split; [done|]; split; [|done]; intros env' Henv' _ Hall;
      destruct (configured_asked s c cfg Hcfg) as (env & Henv & Hask); assert (env' = env) as -> by congruence;
      destruct (Hall cfg Hask) as [_ [v Hv']]; congruence.
    injection Hp as Hw <-. split; [|split; [done|]].
    + intros _. destruct (configured_asked s c cfg Hcfg) as (env & Henv & Hask). by exists env, cfg, v.
    + intros _ Hverb Hch Hput. exists cfg, v. split; [done|]. split; [done|].
      rewrite Hx by done. rewrite <-Hq in Hch. apply list.Forall_app in Hch as [C1 C2]. rewrite (say_quiet s r _ Hverb C2 w2).
      rewrite <-Hw. unfold write. rewrite Hput. simpl. unfold w1. rewrite (say_quiet s r); [done|done|].
      apply list.Forall_app. split; [|done]. unfold first_messages. apply list.Forall_app. split.
      * destruct (q_debug r); [|by apply list.Forall_nil]. apply list.Forall_singleton. by left.
      * apply list.Forall_singleton. by left.
  - injection Hc as <- <- Hl. split; [done|]. split; [|done]. intros env Henv Hm Hall. exfalso.
    destruct (configurable s c env Henv Hm) as [cfg Hcfg].
    destruct (configured_asked s c cfg Hcfg) as (env' & Henv' & Hask). assert (env' = env) as -> by congruence.
    destruct (Hall cfg Hask) as [Hre _]. by rewrite (Hno cfg Hcfg) in Hre.
Qed.
Print Assumptions ping_end_to_end.

(** What the command reads is not the file it logs to or writes to. *)
Definition reads (s : setting) (r : request) (w : world) (file : string) (v : json) : Prop :=
  ∀ files, (∀ p, q_debug r ≠ Some p → ¬ writes_to (q_command r) p → files !! p = w_files w !! p) →
    s_jsonnet s file files = Some v.
(** C129: runbook list succeeds exactly if the runbook is valid, connects to nothing, and by
    default prints the tasks of the runbook, each once and sorted, and nothing else. *)
Theorem list_end_to_end s modern ws w r file v :
  let x := program s modern ws w in
  (∀ n A (m : gmap string A), range_of m (s_order s n A m)) →
  x_ran x = Some r → q_command r = BookList file → reads s r w file v → document_given_once v →
  (x_status x = 0 ↔ ∃ b, document_says v b) ∧ x_links x = [] ∧
  (∀ b, document_says v b → (∀ id, id ∈ dom (bk_tasks b) → Z.of_nat (String.length id) ≤ 1000000) → q_verbosity r ≤ 1 →
    Forall (λ m, m.1 = Info ∨ m.1 = Debug) ((s_chatter s (BookList file)).1 ++ (s_chatter s (BookList file)).2) →
    (∀ t, put (s_disk s) "-" t = (t, true)) →
    ∃ ids lines col,
      w_stdout (x_world x) = w_stdout w +:+ "Tasks & Targets:" +:+ newline +:+ String.concat "" lines ∧
      Forall2 (list_line (b_target <$> bk_tasks b) col) ids lines ∧
      StronglySorted str_le ids ∧ NoDup ids ∧ ∀ id, id ∈ ids ↔ id ∈ dom (bk_tasks b)).
Proof.
  intros x Hord Hr Hq Hread Hv. destruct (program_ran s modern ws w r Hr) as (files & w2 & e & Hf & _ & Hc & Hs & _ & _ & Hx).
  unfold x in *. rewrite Hs. set (w1 := say s r (first_messages s r ++ _) _) in Hc.
  assert (Hj : s_jsonnet s file (w_files w1) = Some v).
  { apply Hread. intros p Hp _. unfold w1. rewrite (say_files s r _ _ p Hp). simpl.
    destruct (Hf p) as [|(_ & _ & _ & ?)]; done. }
  pose proof (λ b, book_exact s file (w_files w1) v b Hj Hv Hord) as Hb.
  unfold command_run in Hc. rewrite Hq in Hc. injection Hc as Hl Hlinks. unfold list_book in Hl.
  destruct (book_in s file (w_files w1)) as [b| |] eqn:Hbook.
  2,3: injection Hl as <- <-; split; [|split; [done|]]; [split; [done|]; intros [b' Hb'%Hb]; done|intros b' Hb'%Hb; done].
  injection Hl as Hw <-. split; [|split; [done|]].
  - split; [|done]. intros _. exists b. by apply Hb.
  - intros b' Hb' Hlen Hverb Hch Hput. apply Hb in Hb' as [= <-].
    destruct (list_tasks (book_list b) (s_order s 2 _ (book_list b)) (s_order s 2 _ (book_list b))) as [_ Hlist]; [apply Hord..|].
    assert (Hdom : dom (book_list b) = dom (bk_tasks b)) by (unfold book_list; by rewrite dom_fmap_L).
    rewrite Hdom in Hlist. destruct (Hlist Hlen) as (ids & lines & col & Hout & Hrest).
    exists ids, lines, col. split; [|exact Hrest].
    rewrite Hx by done. rewrite <-Hq in Hch. apply list.Forall_app in Hch as [C1 C2]. rewrite (say_quiet s r _ Hverb C2 w2).
    rewrite <-Hw. unfold write. rewrite Hput. simpl. rewrite Hout. unfold w1. rewrite (say_quiet s r); [done|done|].
    apply list.Forall_app. split; [|done]. unfold first_messages. apply list.Forall_app. split.
    * destruct (q_debug r); [|by apply list.Forall_nil]. apply list.Forall_singleton. by left.
    * apply list.Forall_singleton. by left.
Qed.
Print Assumptions list_end_to_end.

(** C130: connections.  There is at most one, it is closed again, it is that of the
    command that was asked for, and what the line says comes before the environment. *)
Theorem own_connection_closed s modern ws w :
  let x := program s modern ws w in
  x_links x = [] ∨ ∃ r c cfg env, x_ran x = Some r ∧ connects (q_command r) c ∧ x_links x = [Opens cfg; Closes cfg] ∧
    s_env s = Some env ∧ s_reachable s cfg = true ∧ asked_for c env cfg.
Proof.
  intros x. destruct (x_ran x) as [r|] eqn:Hr.
  2:{ left. unfold x in *. destruct (program_comes s modern ws w) as [| |es files c v Hin Ho Hp Hd]; [done|done|].
      unfold finish in Hr. by destruct (carry_out _ _ _) as [[w' [| |]] ls]. }
  destruct (program_ran s modern ws w r Hr) as (files & w2 & e & _ & _ & Hc & _). fold x in Hc. set (w1 := say _ _ _ _) in Hc.
  assert (Hcon : ∀ c rest, connects (q_command r) c → command_run s r w1 = connected s r c rest w1 →
    x_links x = [] ∨ ∃ r' c cfg env, Some r = Some r' ∧ connects (q_command r') c ∧ x_links x = [Opens cfg; Closes cfg] ∧
    s_env s = Some env ∧ s_reachable s cfg = true ∧ asked_for c env cfg).
  { intros c rest Hq E. rewrite E in Hc. destruct (connected_cases s r c rest w1) as [(cfg & E' & Hcfg & Hreach)|[E' _]]; rewrite E' in Hc.
    - right. injection Hc as _ Hl. destruct (configured_asked s c cfg Hcfg) as (env & Henv & Hask). by exists r, c, cfg, env.
    - left. by injection Hc as _ _ <-. }
  unfold command_run in Hc, Hcon. destruct (q_command r) as [c|c out cols checks idx|file|file out auto sp|file color out|file|verbose] eqn:Hq;
    try (left; by injection Hc as _ <-).
  - eapply Hcon; [constructor|done].
  - eapply Hcon; [constructor|done].
Qed.
Print Assumptions own_connection_closed.

(** C131: runbook dot succeeds exactly if the output can be opened and the runbook is
    valid; then the output is the graph of the tasks of the runbook, and their order. *)
Theorem dot_end_to_end s modern ws w r file out auto splines v p :
  let x := program s modern ws w in
  (∀ n A (m : gmap string A), range_of m (s_order s n A m)) →
  x_ran x = Some r → q_command r = BookDot file out auto splines → writes_to (q_command r) p → q_debug r ≠ Some p →
  reads s r w file v → document_given_once v → may_open (s_disk s) p = true → (∀ t, put (s_disk s) p t = (t, true)) →
  (x_status x = 0 ↔ ∃ b, document_says v b) ∧
  ∀ b, document_says v b → ∃ calls, w_files (x_world x) !! p = Some (s_graph s calls) ∧
    (∀ g n, (g, n) ∈ nodes calls ↔ ∃ t, bk_tasks b !! n = Some t ∧ g = "cluster_" +:+ b_target t) ∧ NoDup (nodes calls).*2 ∧
    (∀ n t, bk_tasks b !! n = Some t → sources_of n calls = b_after t).
Proof.
  intros x Hord Hr Hq Hp Hd Hread Hv Hopen Hput.
  destruct (program_ran s modern ws w r Hr) as (files & w2 & e & Hf & _ & Hc & Hs & Hx & _).
  unfold x in *. rewrite Hs, Hx, (say_files s r _ w2 p Hd). clear Hx Hs.
  set (w1 := say s r (first_messages s r ++ _) _) in Hc.
  destruct (written_outlet _ _ Hp) as [Hout Hdash]. rewrite Hq in Hout. simpl in Hout.
  unfold command_run in Hc. rewrite Hq in Hc. injection Hc as Hl _. unfold dot_book in Hl. rewrite <-Hout in Hl.
  unfold create in Hl. rewrite decide_False, Hopen in Hl by done.
  set (w3 := World (<[p := ""]> (w_files w1)) (w_stdout w1)) in Hl.
  assert (Hj : s_jsonnet s file (w_files w3) = Some v).
  { apply Hread. intros p' Hd' Hp'. unfold w3. simpl. rewrite lookup_insert_ne by (intros <-; by apply Hp').
    unfold w1. rewrite (say_files s r _ _ p' Hd'). simpl.
    destruct (Hf p') as [|(_ & _ & _ & ?)]; done. }
  pose proof (λ b, book_exact s file (w_files w3) v b Hj Hv Hord) as Hb.
  destruct (book_in s file (w_files w3)) as [b| |] eqn:Hbook.
  2,3: injection Hl as <- <-; split; [|intros b' Hb'%Hb; done]; split; [done|]; intros [b' Hb'%Hb]; done.
  injection Hl as Hw <-. split.
  - split; [|done]. intros _. exists b. by apply Hb.
  - intros b' Hb'. apply Hb in Hb' as [= <-]. eexists. split.
    + rewrite <-Hw. unfold write. rewrite Hput, decide_False by done. simpl. rewrite lookup_insert. unfold w3. simpl.
      rewrite lookup_insert. simpl. done.
    + destruct (dot_graph b splines (s_order s 2 _ (bk_targets b)) (s_order s 3 _ (bk_tasks b))) as (_ & _ & G1 & G2 & G3 & _);
        [apply Hord..|]. done.
Qed.
Print Assumptions dot_end_to_end.

(** C132: runbook eval writes what Jsonnet makes of the file, formatted, to the output;
    whether it is a valid runbook does not matter.  In colour if asked to. *)
Theorem eval_end_to_end s modern ws w r file color out v :
  let x := program s modern ws w in
  x_ran x = Some r → q_command r = BookEval file color out → out ≠ "" → out ≠ "-" → q_debug r ≠ Some out →
  reads s r w file v → may_open (s_disk s) out = true → (∀ t, put (s_disk s) out t = (t, true)) →
  x_status x = 0 ∧ x_links x = [] ∧
  ∃ c, w_files (x_world x) !! out = Some (s_pretty s c v) ∧
    (color = "true" → c = true) ∧ (color = "false" → c = false) ∧ (color = "auto" → c = s_tty s out).
Proof.
  intros x Hr Hq H1 H2 Hd Hread Hopen Hput.
  destruct (program_ran s modern ws w r Hr) as (files & w2 & e & Hf & _ & Hc & Hs & Hx & _).
  unfold x in *. rewrite Hs, Hx, (say_files s r _ w2 out Hd). clear Hx Hs.
  set (w1 := say s r (first_messages s r ++ _) _) in Hc.
  unfold command_run in Hc. rewrite Hq in Hc. injection Hc as Hl Hlinks. unfold eval_book, eval_command in Hl.
  rewrite decide_True in Hl by done. unfold create in Hl. rewrite decide_False, Hopen in Hl by done.
  set (w3 := World (<[out := ""]> (w_files w1)) (w_stdout w1)) in Hl.
  assert (Hj : s_jsonnet s file (w_files w3) = Some v).
  { apply Hread. intros p' Hd' Hp'. unfold w3. simpl. rewrite lookup_insert_ne.
    2:{ intros <-. apply Hp'. rewrite Hq. by constructor. }
    unfold w1. rewrite (say_files s r _ _ p' Hd'). simpl.
    destruct (Hf p') as [|(_ & _ & _ & ?)]; done. }
  rewrite Hj in Hl. unfold write in Hl. rewrite Hput, decide_False in Hl by done. simpl in Hl. injection Hl as <- <-.
  split; [done|]. split; [done|]. eexists. simpl. rewrite !lookup_insert. split; [done|]. simpl.
  unfold eval_color. split_and!; by intros ->.
Qed.
Print Assumptions eval_end_to_end.

(** C133: version always succeeds, changes no file (but the debug log), connects to nothing and,
    by default, prints one line. *)
Theorem version_end_to_end s modern ws w r verbose :
  let x := program s modern ws w in
  x_ran x = Some r → q_command r = Version verbose →
  x_status x = 0 ∧ x_links x = [] ∧
  (q_verbosity r ≤ 1 →
    Forall (λ m, m.1 = Info ∨ m.1 = Debug) ((s_chatter s (Version verbose)).1 ++ (s_chatter s (Version verbose)).2) →
    (∀ t, put (s_disk s) "-" t = (t, true)) →
    ∃ more, w_stdout (x_world x) = w_stdout w +:+ "pgutil " +:+ s_build s +:+ newline +:+ more ∧ (verbose = false → more = "")).
Proof.
  intros x Hr Hq. destruct (program_ran s modern ws w r Hr) as (files & w2 & e & _ & _ & Hc & Hs & _ & _ & Hx).
  unfold x in *. rewrite Hs. set (w1 := say s r (first_messages s r ++ _) _) in Hc.
  unfold command_run in Hc. rewrite Hq in Hc. injection Hc as Hw <- Hl. split; [done|]. split; [done|].
  intros Hverb Hch Hput. rewrite Hx by done. rewrite <-Hq in Hch. apply list.Forall_app in Hch as [C1 C2].
  rewrite (say_quiet s r _ Hverb C2 w2), <-Hw. unfold write. rewrite Hput. simpl. unfold w1. rewrite (say_quiet s r); [|done|].
  - unfold version_text. eexists. split; [done|]. intros ->. by destruct (s_modules s).
  - apply list.Forall_app. split; [|done]. unfold first_messages. apply list.Forall_app. split.
    + destruct (q_debug r); [|by apply list.Forall_nil]. apply list.Forall_singleton. by left.
    + apply list.Forall_singleton. by left.
Qed.
Print Assumptions version_end_to_end.

(** * Examples *)

Definition ex_order (n : nat) (A : Type) (m : gmap string A) : list string := base.elements (dom m).
Definition ex_setting : setting := Setting "1.2.3" None port_number (λ _, true) good
  (λ _ _ _ m, m +:+ newline) (λ _, ([(Debug, "connecting")], [(Info, "done")]))
  (Some PgProps.env_example) (λ c, bool_decide (PgModel.c_host c ≠ "down")) (λ _, PgModel.Row "PostgreSQL 12.1")
  (λ _, SysServer.server_from SysExamples.usual "public" "UTC") (@PgSpec.insertion_sort) SysProps.no_floats HclText.plain_lib
  (λ f files, if decide (files !! f = Some "book") then Some JsonProps.ex_json else None)
  ex_order (λ l, "graph") (λ _ _, "json") (λ _, false) (λ _ w, (w, Done))
  (λ _, "unexpected") (λ _, "usage") (λ _, "failed").
Definition ex_world : world := World (<["book.jsonnet" := "book"]> (<["log" := "old; "]> ∅)) "".
Definition runs (ws : list string) : process := program ex_setting true ws ex_world.

Example only_named_files_example :
  let x := runs ["inspect"; "--debug=log"; "-o"; "db.hcl"; "--host=up"] in
  (∃ r, x_ran x = Some r ∧ ¬ is_run (q_command r) ∧ q_debug r = Some "log" ∧ writes_to (q_command r) "db.hcl") ∧
  w_files (x_world x) !! "db.hcl" ≠ w_files ex_world !! "db.hcl" ∧ w_files (x_world x) !! "log" ≠ w_files ex_world !! "log" ∧
  x_ran (runs ["ping"; "--port=abc"]) = None.
Proof.
  cbv zeta. split_and!; [|vm_compute; by intros [=]|vm_compute; by intros [=]|by vm_compute].
  eexists. split; [vm_compute; reflexivity|]. split; [by intros [f Hf]|]. split; [done|]. by constructor.
Qed.
(** A refused line may nevertheless create a file. *)
Theorem refused_line_refuted : ∃ s modern ws w p,
  x_ran (program s modern ws w) = None ∧ x_status (program s modern ws w) = 1 ∧
  w_files w !! p = None ∧ w_files (x_world (program s modern ws w)) !! p = Some "".
Proof.
  exists ex_setting, true, ["ping"; "--debug=ping.log"; "--port=abc"], ex_world, "ping.log". split_and!; by vm_compute.
Qed.
Print Assumptions refused_line_refuted.
(** And so may one that asks for the usage, or that has a word too many. *)
Theorem usage_creates_refuted : ∃ s modern w p,
  w_files w !! p = None ∧
  (let x := program s modern ["help"; "--debug=" +:+ p] w in
   x_ran x = None ∧ x_status x = 0 ∧ w_files (x_world x) !! p = Some "") ∧
  (let x := program s modern ["--debug=" +:+ p; "version"; "now"] w in
   x_ran x = None ∧ x_status x = 1 ∧ w_files (x_world x) !! p = Some "").
Proof. exists ex_setting, true, ex_world, "help.log". cbv zeta. split_and!; by vm_compute. Qed.
Print Assumptions usage_creates_refuted.

Example debug_log_kept_example :
  let x := runs ["ping"; "--debug=log"; "-qqq"; "--host=up"] in
  (∃ r, x_ran x = Some r ∧ ¬ is_run (q_command r) ∧ ¬ writes_to (q_command r) "log" ∧ q_debug r = Some "log") ∧
  w_files (x_world x) !! "log" = Some ("old; logging to: log" +:+ newline +:+ "pgutil version=1.2.3" +:+ newline +:+
    "connecting" +:+ newline +:+ "done" +:+ newline).
Proof.
  cbv zeta. split; [|by vm_compute]. eexists. split; [vm_compute; reflexivity|]. split; [by intros [f Hf]|].
  split; [|done]. intros H. inversion H.
Qed.
(** A log that is also the output is lost. *)
Theorem debug_log_refuted : ∃ s modern ws w r f,
  x_ran (program s modern ws w) = Some r ∧ q_debug r = Some f ∧ x_status (program s modern ws w) = 0 ∧
  ∀ more, w_files (x_world (program s modern ws w)) !! f ≠ Some (default "" (w_files w !! f) +:+ more).
Proof.
  exists ex_setting, true, ["inspect"; "--debug=log"; "-o"; "log"; "--host=up"], ex_world. do 2 eexists.
  split; [vm_compute; reflexivity|]. split; [reflexivity|]. split; [by vm_compute|].
  intros more H.
  assert (E : String.get 0 (default "" (w_files (x_world (program ex_setting true ["inspect"; "--debug=log"; "-o"; "log"; "--host=up"] ex_world)) !! "log")) ≠ Some "o"%char) by (vm_compute; by intros [=]).
  apply E. rewrite H. reflexivity.
Qed.
Print Assumptions debug_log_refuted.

Example process_does_what_is_asked_example : ∃ r,
  asks true (outside_of ex_setting (w_files ex_world)) ["runbook"; "list"; "book.jsonnet"; "-v"] r ∧
  x_ran (runs ["runbook"; "list"; "book.jsonnet"; "-v"]) = Some r ∧ q_command r = BookList "book.jsonnet".
Proof.
  exists (Request (BookList "book.jsonnet") None 2).
  assert (x_ran (runs ["runbook"; "list"; "book.jsonnet"; "-v"]) = Some (Request (BookList "book.jsonnet") None 2)) as H by by vm_compute.
  split; [|done].
  apply (proj1 (proj2 (process_does_what_is_asked ex_setting true ["runbook"; "list"; "book.jsonnet"; "-v"] ex_world))) in H as [H|[[f Hf] _]]; done.
Qed.
(** The order of the words may matter, since --debug creates its file. *)
Theorem word_order_refuted : ∃ s w a b c d, 
  is_Some (x_ran (program s true [a; b; c; d] w)) ∧ x_ran (program s true [a; b; d; c] w) = None.
Proof.
  exists ex_setting, ex_world, "runbook", "list", "--debug=new", "new". split; [|by vm_compute]. vm_compute. by eexists.
Qed.
Print Assumptions word_order_refuted.

Example inspect_end_to_end_example :
  let x := runs ["inspect"; "-o"; "db.hcl"; "--host=up"] in
  (∃ r c, x_ran x = Some r ∧ q_command r = Inspect c "db.hcl" false false false ∧ q_debug r ≠ Some "db.hcl") ∧ x_status x = 0 ∧
  ok_disk (s_disk ex_setting) ∧ SysSpec.sane SysExamples.usual ∧ (∀ cfg, SysSpec.served SysExamples.usual (s_server ex_setting cfg)) ∧
  is_Some (parse_file HclText.plain_lib (w_files (x_world x)) "db.hcl").
Proof.
  cbv zeta. split_and!.
  - do 2 eexists. split; [vm_compute; reflexivity|]. split; [reflexivity|done].
  - by vm_compute.
  - by apply good_is_good.
  - apply SysExamples.all_sane.
  - intros cfg. apply SysServer.server_from_served, SysExamples.all_sane.
  - vm_compute. by eexists.
Qed.
Example inspect_failure_keeps_file_example :
  let x := program ex_setting true ["inspect"; "-o"; "log"; "--host=down"] ex_world in
  (∃ r c, x_ran x = Some r ∧ q_command r = Inspect c "log" false false false ∧ q_debug r ≠ Some "log") ∧ x_status x = 1 ∧
  w_files (x_world x) !! "log" = Some "old; ".
Proof.
  cbv zeta. split_and!; [|by vm_compute..]. do 2 eexists. split; [vm_compute; reflexivity|]. split; [reflexivity|done].
Qed.
Example ping_end_to_end_example :
  x_status (runs ["ping"; "--host=up"]) = 0 ∧ x_status (runs ["ping"; "--host=down"]) = 1 ∧
  w_stdout (x_world (runs ["ping"; "--host=up"])) = "PostgreSQL 12.1" +:+ newline ∧
  (∃ r c, x_ran (runs ["ping"; "--host=up"]) = Some r ∧ q_command r = Ping c ∧ q_verbosity r ≤ 1 ∧
    s_env ex_setting = Some PgProps.env_example ∧ sslmode c = "" ∧
    ∀ cfg, asked_for c PgProps.env_example cfg → s_reachable ex_setting cfg = true ∧ ∃ v, s_version ex_setting cfg = PgModel.Row v).
Proof.
  split_and!; [by vm_compute..|]. do 2 eexists. split; [vm_compute; reflexivity|]. split; [reflexivity|]. split; [simpl; lia|].
  split; [done|]. split; [done|]. intros cfg (Hh & _). simpl in *. rewrite Hh by done. split; [done|]. by eexists.
Qed.
Lemma ex_reads r : q_debug r = None → ¬ writes_to (q_command r) "book.jsonnet" → reads ex_setting r ex_world "book.jsonnet" JsonProps.ex_json.
Proof.
  intros Hd Hw files Hf. simpl. rewrite decide_True; [done|]. rewrite Hf; [by vm_compute|by rewrite Hd|done].
Qed.
Lemma ex_ordered n A (m : gmap string A) : range_of m (s_order ex_setting n A m).
Proof. unfold range_of. reflexivity. Qed.
Example list_end_to_end_example :
  let x := runs ["runbook"; "list"; "book.jsonnet"] in
  (∃ r, x_ran x = Some r ∧ q_command r = BookList "book.jsonnet" ∧ reads ex_setting r ex_world "book.jsonnet" JsonProps.ex_json) ∧
  x_status x = 0 ∧ w_stdout (x_world x) = "Tasks & Targets:" +:+ newline +:+ "  one  sh" +:+ newline +:+ "  two  db" +:+ newline.
Proof.
  cbv zeta. split_and!; [|by vm_compute..]. eexists. split; [vm_compute; reflexivity|]. split; [done|].
  apply ex_reads; [done|]. intros H. inversion H.
Qed.
Example own_connection_closed_example : ∃ cfg,
  x_links (runs ["ping"; "--host=up"; "--sslmode=require"]) = [Opens cfg; Closes cfg] ∧ PgModel.c_host cfg = "up".
Proof. eexists. split; [vm_compute; reflexivity|done]. Qed.
Example dot_end_to_end_example :
  let x := runs ["runbook"; "dot"; "-O"; "book.jsonnet"] in
  (∃ r, x_ran x = Some r ∧ q_command r = BookDot "book.jsonnet" "" true "" ∧ writes_to (q_command r) "book.dot" ∧
    reads ex_setting r ex_world "book.jsonnet" JsonProps.ex_json) ∧
  x_status x = 0 ∧ w_files (x_world x) !! "book.dot" = Some "graph".
Proof.
  cbv zeta. split_and!; [|by vm_compute..]. eexists. split; [vm_compute; reflexivity|].
  assert (extension "book.jsonnet" "book" ".jsonnet") as He.
  { pose proof (ext_spec "book.jsonnet") as H. vm_compute in H. exact H. }
  split; [done|]. split; [by apply (writes_auto _ _ "book" ".jsonnet")|].
  apply ex_reads; [done|]. intros [Hp _]%written_outlet. vm_compute in Hp. done.
Qed.
Example eval_end_to_end_example :
  let x := runs ["runbook"; "eval"; "-o"; "book.json"; "book.jsonnet"] in
  (∃ r, x_ran x = Some r ∧ q_command r = BookEval "book.jsonnet" "auto" "book.json" ∧
    reads ex_setting r ex_world "book.jsonnet" JsonProps.ex_json) ∧
  x_status x = 0 ∧ w_files (x_world x) !! "book.json" = Some "json".
Proof.
  cbv zeta. split_and!; [|by vm_compute..]. eexists. split; [vm_compute; reflexivity|]. split; [done|].
  apply ex_reads; [done|]. intros [Hp _]%written_outlet. vm_compute in Hp. done.
Qed.
Example version_end_to_end_example :
  w_stdout (x_world (runs ["version"])) = "pgutil 1.2.3" +:+ newline ∧
  ∃ r, x_ran (runs ["version"]) = Some r ∧ q_command r = Version false.
Proof. split; [by vm_compute|]. eexists. split; [vm_compute; reflexivity|done]. Qed.
