(** Proofs about the process as a whole. *)
From Coq Require Import String Ascii.
From stdpp Require Import gmap list strings numbers.
From Verif Require Import GoBase GoStrings GoStringsProofs ParserModel CliModel CliSpec CliProofs HclModel ArgsModel ArgsSpec ArgsProofs
  ArgsValuesProofs ArgsRequestProofs ArgsUsageProofs ProgModel ProgSpec ProgLineProofs.
From Verif Require PgModel PgSpec PgProps JsonModel JsonProofs JsonParserProofs JsonSpec JsonParserModel.
Local Open Scope Z_scope.

(** * The flags *)
Definition fewer (f g : gmap string string) : Prop := ∀ p, is_Some (f !! p) → is_Some (g !! p).
Definition opened_by (es : list element) (f g : gmap string string) : Prop :=
  ∀ p, g !! p = f !! p ∨ (f !! p = None ∧ g !! p = Some "" ∧ ∃ x, EFlag x p ∈ es ∧ f_kind x = AOpen).
Lemma opened_by_fewer es f g : opened_by es f g → fewer f g.
Proof. intros H p Hp. destruct (H p) as [->|(E & _)]; [done|]. rewrite E in Hp. by destruct Hp. Qed.
Lemma set_flag_files s f g x y v : set_flag (outside_of s f) x y v = set_flag (outside_of s g) x y v.
Proof. done. Qed.
Lemma set_defaults_files s f g k given v : set_defaults (outside_of s f) k given v = set_defaults (outside_of s g) k given v.
Proof. done. Qed.

Lemma set_all_opened s es : ∀ seen v files files' r, set_all s seen es v files = (files', r) → opened_by es files files'.
Proof.
  assert (Hmono : ∀ e es f g, opened_by es f g → opened_by (e :: es) f g).
  { intros e es0 f g H p. destruct (H p) as [?|(H1 & H2 & x & H3 & H4)]; [by left|]. right.
    split_and!; [done..|]. exists x. split; [by right|done]. }
  induction es as [|[f x|var x] es IH]; intros seen v files files' r; simpl.
  - intros [= <- _]. by left.
  - destruct (_ && _); [intros [= <- _]; by left|].
    destruct (set_flag _ _ _ _) as [v1|]; [|intros [= <- _]; by left]. intros H. apply IH in H.
    destruct (f_kind f) eqn:Hk; try by apply Hmono.
    intros p. unfold opened in H. destruct (files !! x) as [y|] eqn:Hx; [by apply Hmono|].
    destruct (decide (p = x)) as [->|Hp].
    + right. split; [done|]. specialize (H x). rewrite lookup_insert in H.
      split; [destruct H as [->|(? & _)]; done|]. exists f. split; [by left|done].
    + destruct (H p) as [E|(E & E' & g & Hg & Hgk)]; rewrite lookup_insert_ne in E by done; [by left|].
      right. split_and!; [done..|]. exists g. split; [by right|done].
  - destruct (set_file _ _ _ _) as [v1|]; [|intros [= <- _]; by left]. intros H. apply Hmono. by eapply IH.
Qed.
Lemma set_file_fewer s f g var x v v' : fewer f g →
  set_file (outside_of s f) var x v = Some v' → set_file (outside_of s g) var x v = Some v'.
Proof.
  intros H. unfold set_file. simpl. case_bool_decide as E; [|done].
  rewrite bool_decide_true by by apply H. done.
Qed.
Lemma set_all_values s es : ∀ seen v files files' v',
  set_all s seen es v files = (files', Some v') → ∀ g, fewer files' g → set_values (outside_of s g) seen es v = Some v'.
Proof.
  induction es as [|[f x|var x] es IH]; intros seen v files files' v' H g Hg; simpl in *.
  - by injection H as <- <-.
  - destruct (_ && _); [done|]. rewrite (set_flag_files s g files).
    destruct (set_flag (outside_of s files) f x v) as [v1|]; [|done]. simpl. by eapply IH.
  - destruct (set_file _ _ _ _) as [v1|] eqn:E; [|done].
    rewrite (set_file_fewer s files g var x v v1); [simpl; by eapply IH| |done].
    intros p Hp. by eapply Hg, opened_by_fewer, Hp; eapply set_all_opened.
Qed.
Lemma values_set_all s es : ∀ seen v g files v', fewer g files →
  set_values (outside_of s g) seen es v = Some v' → ∃ files', set_all s seen es v files = (files', Some v').
Proof.
  induction es as [|[f x|var x] es IH]; intros seen v g files v' Hf H; simpl in *.
  - injection H as <-. by eexists.
  - destruct (_ && _); [done|]. rewrite (set_flag_files s g files) in H.
    destruct (set_flag (outside_of s files) f x v) as [v1|]; [|done]. simpl in H. eapply IH; [|done].
    intros p Hp. destruct (f_kind f); try by apply Hf. unfold opened. destruct (files !! x) eqn:Ex; [by apply Hf|].
    destruct (decide (p = x)) as [->|]; [rewrite lookup_insert; by eexists|]. rewrite lookup_insert_ne by done. by apply Hf.
  - destruct (set_file (outside_of s g) var x v) as [v1|] eqn:E; [|done]. simpl in H.
    rewrite (set_file_fewer s g files var x v v1) by done. by eapply IH.
Qed.

(** * What comes of a line *)
Definition finish (s : setting) (r : request) (res : world * ended * list link) : process :=
  let '(w, e, ls) := res in
  match e with
  | Done => Process 0 (Some r) w ls
  | Fails => Process 1 (Some r) (complain s (s_error s (q_command r)) w) ls
  | Crashes => Process 2 (Some r) w ls
  end.
Inductive comes (s : setting) (modern : bool) (ws : list string) (w : world) : process → Prop :=
| comes_refused es files :
    Forall (element_in ws) es → opened_by es (w_files w) files →
    parse modern (outside_of s (w_files w)) ws = Refused →
    comes s modern ws w (Process 1 None (complain s (s_complaint s ws) (World files (w_stdout w))) [])
| comes_usage es files :
    Forall (element_in ws) es → opened_by es (w_files w) files →
    (∀ o, parse modern o ws = Usage) →
    comes s modern ws w (Process 0 None (World files (w_stdout w +:+ s_usage s ws)) [])
| comes_ran es files c v :
    Forall (element_in ws) es → opened_by es (w_files w) files →
    (∀ g, fewer files g → parse modern (outside_of s g) ws = Runs c v) →
    (∀ f x, EFlag f x ∈ es → f_kind f = AOpen → q_debug (request_of c v) = Some x) →
    comes s modern ws w (finish s (request_of c v) (carry_out s (request_of c v) (World files (w_stdout w)))).
Lemma open_is_debug modern c f : f ∈ place_flags modern (In c) → f_kind f = AOpen → f_long f = "debug".
Proof.
  assert (H : Forall (λ f, f_kind f ≠ AOpen ∨ f_long f = "debug") (place_flags modern (In c))).
  { apply (bool_decide_unpack _). destruct modern, c; vm_compute; exact I. }
  rewrite list.Forall_forall in H. intros Hf Hk. by destruct (H f Hf).
Qed.
Lemma program_comes s modern ws w : comes s modern ws w (program s modern ws w).
Proof.
  assert (Hsp : opened_by (gathered (4 + total ws) (start modern ws)) (w_files w) (spilled s modern ws (w_files w))).
  { unfold spilled. destruct (set_all _ _ _ _ _) as [files r] eqn:E. by eapply set_all_opened. }
  unfold program. destruct (steps _ _) as [[| |c k es]|] eqn:Hr.
  - eapply comes_refused; [apply (given_in modern)|apply Hsp|]. unfold parse. by rewrite Hr.
  - cbv zeta. cbn [w_files w_stdout]. destruct (shown _ _ _) eqn:Hsh.
    + eapply comes_usage; [apply (given_in modern)|apply Hsp|]. intros o. unfold parse. by rewrite Hr, Hsh.
    + eapply comes_refused; [apply (given_in modern)|apply Hsp|]. unfold parse. by rewrite Hr, Hsh.
  - pose proof (read_in modern ws c k es Hr) as Hin.
    destruct (set_defaults _ k (flag_names es) ∅) as [v|] eqn:Hd.
    2:{ replace (complain s (s_complaint s ws) w) with (complain s (s_complaint s ws) (World (w_files w) (w_stdout w))) by by destruct w.
      eapply (comes_refused s modern ws w []); [by apply list.Forall_nil|by left|]. unfold parse. rewrite Hr, Hd. done. }
    destruct (set_all s [] es v (w_files w)) as [files [v'|]] eqn:Hs.
    + change (comes s modern ws w (finish s (request_of c v') (carry_out s (request_of c v') (World files (w_stdout w))))).
      assert (Hp : ∀ g, fewer files g → set_values (outside_of s g) [] es v = Some v').
      { intros g Hg. by eapply set_all_values. }
      eapply (comes_ran s modern ws w es); [done|by eapply set_all_opened| |].
      * intros g Hg. unfold parse. rewrite Hr. rewrite (set_defaults_files s g (w_files w)), Hd. simpl. by rewrite (Hp g Hg).
      * destruct (read_sound modern ws c k es Hr) as (-> & Hfa & Hfi & Hsay).
        intros f x Hf Hk. specialize (Hp files ltac:(by intros ?)).
        assert (Hv : v = base_vars c es).
        { rewrite defaults_set in Hd. by injection Hd. }
        assert (Hsay' : c = CRun ∨ says modern Top (Raw <$> ws) (items es) (file_items es).*2 c).
        { destruct Hsay as [Hsay|[? _]]; [by right|by left]. }
        subst v. destruct (values_fit modern _ c es v' _ Hfa Hfi Hsay' Hp) as (Ht & Hdb & _).
        rewrite list.Forall_forall in Hfa. destruct (Hfa _ Hf) as [Hfp _].
        assert (Hx : ("debug", x) ∈ items es).
        { rewrite <-(open_is_debug modern c f Hfp Hk). by apply item_of. }
        destruct (q_debug (request_of c v')) as [y|].
        -- destruct Hdb as [Hdb _]. f_equal. eapply times_unique; [by apply (Ht "debug")|done|done].
        -- apply times_in in Hx. lia.
    + eapply (comes_refused s modern ws w es); [done|by eapply set_all_opened|]. unfold parse. rewrite Hr, Hd. simpl.
      destruct (set_values _ [] es v) as [v'|] eqn:Hv; [|done].
      destruct (values_set_all s es [] v (w_files w) (w_files w) v') as [files' Hs']; [by intros ?|done|]. congruence.
  - eapply comes_refused; [apply (given_in modern)|apply Hsp|]. unfold parse. by rewrite Hr.
Qed.

(** * Worlds *)
Lemma write_stdout_files d t w : w_files (write d "-" t w).1 = w_files w.
Proof. unfold write. destruct (put d "-" t). by rewrite decide_True by done. Qed.
Lemma write_stdout_more d t w : ∃ a, w_stdout (write d "-" t w).1 = w_stdout w +:+ a ∧ a = (put d "-" t).1.
Proof. unfold write. destruct (put d "-" t) as [a ok]. rewrite decide_True by done. by exists a. Qed.
Lemma complain_files s t w : w_files (complain s t w) = w_files w.
Proof. apply write_stdout_files. Qed.

Lemma log_files s r w m p : q_debug r ≠ Some p → w_files (log s r w m) !! p = w_files w !! p.
Proof.
  intros Hp. unfold log.
  set (w1 := if enabled _ _ then _ else _). assert (Hw1 : w_files w1 = w_files w).
  { unfold w1. destruct (enabled _ _); [apply write_stdout_files|done]. }
  destruct (q_debug r) as [f|]; [|by rewrite Hw1]. destruct (enabled Debug m.1); [|by rewrite Hw1].
  simpl. rewrite lookup_insert_ne by congruence. by rewrite Hw1.
Qed.
Lemma say_files s r l w p : q_debug r ≠ Some p → w_files (say s r l w) !! p = w_files w !! p.
Proof.
  intros Hp. unfold say. revert w. induction l as [|m l IH]; intros w; [done|]. simpl. rewrite IH. by apply log_files.
Qed.
Lemma all_enabled l : enabled Debug l = true.
Proof. by destruct l. Qed.
Lemma concat_cons_str x l : String.concat "" (x :: l) = x +:+ String.concat "" l.
Proof. destruct l; [by rewrite app_str_nil_r|done]. Qed.
(** The debug log. *)
Definition arrives (s : setting) (f : string) (ms : list (CliModel.level * string)) (text : string) : Prop :=
  ∃ lines, text = String.concat "" lines ∧
    Forall2 (λ m line, ∃ w, line = (put (s_disk s) f (s_line s f w m.1 m.2)).1) ms lines.
Lemma say_debug s r f l : ∀ w, q_debug r = Some f →
  ∃ text, arrives s f l text ∧ default "" (w_files (say s r l w) !! f) = default "" (w_files w !! f) +:+ text ∧
    (l ≠ [] ∨ is_Some (w_files w !! f) → is_Some (w_files (say s r l w) !! f)).
Proof.
  unfold say. induction l as [|m l IH]; intros w Hf; simpl.
  - exists "". split; [exists []; split; [done|by constructor]|]. split; [by rewrite app_str_nil_r|]. by intros [].
  - set (w2 := log s r w m). assert (∃ line, (∃ w0, line = (put (s_disk s) f (s_line s f w0 m.1 m.2)).1) ∧
      w_files w2 !! f = Some (default "" (w_files w !! f) +:+ line)) as (line & Hline & H2).
    { unfold w2, log. rewrite Hf, all_enabled.
      set (w1 := if enabled _ _ then _ else _). assert (Hw1 : w_files w1 = w_files w).
      { unfold w1. destruct (enabled _ _); [apply write_stdout_files|done]. }
      eexists. split; [by exists w1|]. simpl. by rewrite lookup_insert, Hw1. }
    destruct (IH w2 Hf) as (text & (lines & -> & Hl) & E & Hs).
    exists (line +:+ String.concat "" lines). split_and!.
    + exists (line :: lines). split; [by rewrite concat_cons_str|]. by constructor.
    + rewrite E, H2. simpl. by rewrite app_str_assoc.
    + intros _. apply Hs. right. by eexists.
Qed.

(** Standard output only grows. *)
Definition extends (a b : string) : Prop := ∃ c, b = a +:+ c.
Lemma extends_refl a : extends a a.
Proof. exists "". by rewrite app_str_nil_r. Qed.
Lemma extends_trans a b c : extends a b → extends b c → extends a c.
Proof. intros [x ->] [y ->]. exists (x +:+ y). by rewrite app_str_assoc. Qed.
Lemma write_more d out t w : extends (w_stdout w) (w_stdout (write d out t w).1).
Proof. unfold write. destruct (put d out t) as [a ok]. case_decide; simpl; [by exists a|apply extends_refl]. Qed.
Lemma create_more d out w w' : create d out w = Some w' → w_stdout w' = w_stdout w.
Proof. unfold create. case_decide; [by intros [= <-]|]. destruct (may_open d out); [by intros [= <-]|done]. Qed.
Lemma log_more s r w m : extends (w_stdout w) (w_stdout (log s r w m)).
Proof.
  unfold log. set (w1 := if enabled _ _ then _ else _).
  assert (H : extends (w_stdout w) (w_stdout w1)).
  { unfold w1. destruct (enabled _ _); [apply write_more|apply extends_refl]. }
  destruct (q_debug r); [|done]. by destruct (enabled Debug m.1).
Qed.
Lemma say_more s r l : ∀ w, extends (w_stdout w) (w_stdout (say s r l w)).
Proof.
  unfold say. induction l as [|m l IH]; intros w; [apply extends_refl|]. simpl.
  eapply extends_trans; [apply log_more|apply IH].
Qed.

(** * Commands *)
Lemma dot_output_named file out auto splines :
  dot_output file out auto ≠ "-" → writes_to (BookDot file out auto splines) (dot_output file out auto).
Proof.
  intros H. destruct (decide (out = "")) as [->|Ho].
  - destruct auto; [|done]. destruct (dot_output_auto file) as (stem & e & He & ->). by eapply writes_auto.
  - assert (E : dot_output file out auto = out) by (unfold dot_output; by rewrite decide_True).
    rewrite E in *. by constructor.
Qed.
Lemma create_none_files d out w : out = "-" → create d out w = Some w.
Proof. intros ->. done. Qed.
(** [w'] differs from [w] in nothing but [out], and standard output. *)
Definition only (out : string) (w w' : world) : Prop :=
  (∀ p, w_files w' !! p = w_files w !! p ∨ (out = p ∧ p ≠ "-")) ∧ extends (w_stdout w) (w_stdout w').
Lemma only_refl out w : only out w w.
Proof. split; [by left|apply extends_refl]. Qed.
Lemma create_only d out w w' : create d out w = Some w' → only out w w'.
Proof.
  intros H. split.
  - intros p. destruct (decide (p = out)) as [->|Hp]; [|left; by eapply create_frame].
    destruct (decide (out = "-")) as [->|]; [|by right]. injection H as <-. by left.
  - rewrite (create_more _ _ _ _ H). apply extends_refl.
Qed.
Lemma write_only d out t w : only out w (write d out t w).1.
Proof.
  split; [|apply write_more]. intros p. destruct (decide (p = out)) as [->|Hp]; [|left; by apply write_frame].
  destruct (decide (out = "-")) as [->|]; [|by right]. left. by rewrite write_stdout_files.
Qed.
Lemma only_trans out w w1 w2 : only out w w1 → only out w1 w2 → only out w w2.
Proof.
  intros [H1 H2] [H3 H4]. split; [|by eapply extends_trans]. intros p.
  destruct (H3 p) as [->|]; [apply H1|by right].
Qed.
Lemma inspect_only s out o cfg w :
  only (if decide (out = "") then "-" else out) w (inspect s out o cfg w).1.
Proof.
  unfold inspect. destruct (PgModel.inspect _ _ _ _); try apply only_refl.
  unfold inspect_command. destruct (create _ _ w) as [w1|] eqn:Hc; [|apply only_refl].
  pose proof (write_only (s_disk s) (if decide (out = "") then "-" else out) (db_text (s_hcl s) (file_of a)) w1) as H.
  destruct (write _ _ _ w1) as [w2 ok]. simpl in *. eapply only_trans; [by eapply create_only|done].
Qed.
Lemma connected_cases s r c rest w :
  (∃ cfg, connected s r c rest w = (rest cfg w, [Opens cfg; Closes cfg]) ∧
    PgModel.configure (options_of c) (s_env s) = Some cfg ∧ s_reachable s cfg = true) ∨
  (connected s r c rest w = (w, Fails, []) ∧
    ∀ cfg, PgModel.configure (options_of c) (s_env s) = Some cfg → s_reachable s cfg = false).
Proof.
  unfold connected. destruct (PgModel.configure _ _) as [cfg|]; [|by right].
  simpl. destruct (s_reachable s cfg) eqn:Hr; simpl; [left; by exists cfg|]. right. split; [done|]. by intros ? [= <-].
Qed.
Lemma configured_asked s c cfg : PgModel.configure (options_of c) (s_env s) = Some cfg →
  ∃ env, s_env s = Some env ∧ asked_for c env cfg.
Proof.
  intros Hcfg. destruct (s_env s) as [env|]; [|done]. exists env. split; [done|].
  destruct (PgProps.options_precedence _ _ _ Hcfg) as (A1 & A2 & A3 & A4 & A5 & A6 & A7 & A8 & A9 & A10).
  destruct (PgProps.ssl_mode (options_of c) env) as (B1 & _ & _ & _ & _ & B6).
  unfold asked_for. split_and!; try done; [by apply A8|..].
  - intros Hm. apply B1; [|done]. by left.
  - intros Hm Hp. apply B1; [|done]. right. split_and!; [done|by right|done].
  - intros Hm Hp. destruct (B6 Hm eq_refl Hp) as (c' & Hc' & Ht). congruence.
Qed.
Lemma configurable s c env : s_env s = Some env → sslmode c = "" ∨ (∃ h l, PgSpec.allowed h (sslmode c) l) →
  ∃ cfg, PgModel.configure (options_of c) (s_env s) = Some cfg.
Proof.
  intros -> Hm. destruct (PgProps.ssl_mode (options_of c) env) as (_ & _ & _ & _ & B5 & B6).
  destruct (decide (sslmode c = "")) as [Hs|Hs].
  - destruct (decide (PgModel.c_password env = "")) as [Hp|Hp].
    + destruct (B6 Hs eq_refl Hp) as (cfg & H & _). by exists cfg.
    + apply (B5 "verify-full" "" [PgSpec.ValidFor ""]); [|constructor]. right. split_and!; [done|by right|done].
  - destruct Hm as [|(h & l & Ha)]; [done|]. apply (B5 (sslmode c) h l); [|exact Ha]. by left.
Qed.
(** Where a command prints. *)
Definition outlet (c : command) : string :=
  match c with
  | Inspect _ out _ _ _ => if decide (out = "") then "-" else out
  | BookDot file out auto _ => dot_output file out auto
  | BookEval _ _ out => if decide (out ≠ "") then out else "-"
  | _ => "-"
  end.
Lemma outlet_written c : outlet c ≠ "-" → writes_to c (outlet c).
Proof.
  destruct c; simpl; intros H; try done.
  - case_decide; [done|]. by constructor.
  - by apply dot_output_named.
  - case_decide; [|done]. by constructor.
Qed.
Lemma written_outlet c p : writes_to c p → p = outlet c ∧ p ≠ "-".
Proof.
  intros [c' out a b d H1 H2|file color out H1 H2|file out auto sp H1 H2|file sp stem e H]; simpl.
  - by rewrite decide_False.
  - by rewrite decide_True.
  - unfold dot_output. by rewrite decide_True.
  - destruct (dot_output_auto file) as (stem' & e' & H' & ->).
    destruct (extension_unique _ _ _ _ _ H H') as [-> ->]. split; [done|].
    destruct stem' as [|a [|b x]]; [done|..]; rewrite ?app_str_cons; by intros [= ?].
Qed.
Lemma command_only s r w : ¬ is_run (q_command r) → only (outlet (q_command r)) w (command_run s r w).1.1.
Proof.
  intros Hr. unfold command_run. destruct (q_command r) as [c|c out cols checks idx|file|file out auto sp|file color out|file|verbose] eqn:E; simpl.
  - destruct (connected_cases s r c (ping s r) w) as [(cfg & -> & _)|[-> _]]; simpl; [|apply only_refl].
    unfold ping. destruct (PgModel.server_version _); try apply only_refl. apply write_only.
  - destruct (connected_cases s r c (inspect s out (PgModel.InspectOptions checks cols idx)) w) as [(cfg & -> & _)|[-> _]]; simpl; [|apply only_refl].
    apply inspect_only.
  - unfold list_book. destruct (book_in _ _ _); try apply only_refl. apply write_only.
  - unfold dot_book. destruct (create _ _ w) as [w1|] eqn:Hc; [|apply only_refl]. apply create_only in Hc.
    destruct (book_in _ _ _); [|done..]. simpl. eapply only_trans; [done|]. apply write_only.
  - unfold eval_book, eval_command. destruct (create _ _ w) as [w1|] eqn:Hc; [|apply only_refl]. apply create_only in Hc.
    destruct (s_jsonnet _ _ _) as [v|]; [|done].
    pose proof (write_only (s_disk s) (if decide (out ≠ "") then out else "-")
      (s_pretty s (eval_color color (s_tty s (if decide (out ≠ "") then out else "-"))) v) w1) as H.
    destruct (write _ _ _ w1) as [w2 ok]. simpl in *. by eapply only_trans.
  - by destruct Hr; eexists.
  - apply write_only.
Qed.

(** * The course of a request *)
Definition first_messages (s : setting) (r : request) : list (CliModel.level * string) :=
  match q_debug r with Some f => [(Info, "logging to: " +:+ f)] | None => [] end ++ [(Info, "pgutil version=" +:+ s_build s)].
Definition code (e : ended) : Z := match e with Done => 0 | Fails => 1 | Crashes => 2 end.
Lemma program_ran s modern ws w r : x_ran (program s modern ws w) = Some r →
  ∃ files w2 e,
    (∀ p, files !! p = w_files w !! p ∨ (w_files w !! p = None ∧ files !! p = Some "" ∧ in_line ws p ∧
       q_debug r = Some p)) ∧
    (∃ c v, r = request_of c v ∧ ∀ g, fewer files g → parse modern (outside_of s g) ws = Runs c v) ∧
    command_run s r (say s r (first_messages s r ++ (s_chatter s (q_command r)).1) (World files (w_stdout w))) =
      (w2, e, x_links (program s modern ws w)) ∧
    x_status (program s modern ws w) = code e ∧
    w_files (x_world (program s modern ws w)) = w_files (say s r (s_chatter s (q_command r)).2 w2) ∧
    (extends (w_stdout (say s r (s_chatter s (q_command r)).2 w2)) (w_stdout (x_world (program s modern ws w)))) ∧
    (e ≠ Fails → x_world (program s modern ws w) = say s r (s_chatter s (q_command r)).2 w2).
Proof.
  destruct (program_comes s modern ws w) as [|H|es files c v Hin Ho Hp Hd]; [done|done|].
  intros Hr. assert (r = request_of c v) as ->.
  { unfold finish in Hr. destruct (carry_out _ _ _) as [[w' [| |]] ls]; by injection Hr. }
  unfold finish, carry_out in *. clear Hr.
  fold (first_messages s (request_of c v)) in *. destruct (s_chatter _ _) as [before after]. simpl.
  destruct (command_run _ _ _) as [[w2 e] ls] eqn:Hc.
  exists files, w2, e. split_and!.
  - intros p. destruct (Ho p) as [?|(H1 & H2 & x & Hx & Hk)]; [by left|]. right. split_and!; [done..| |].
    + rewrite list.Forall_forall in Hin. specialize (Hin _ Hx). unfold element_in in Hin.
      apply Hin. unfold is_switch. by rewrite Hk.
    + by eapply Hd.
  - by exists c, v.
  - by destruct e.
  - by destruct e.
  - destruct e; simpl; [done| |done]. by rewrite complain_files.
  - destruct e; simpl; [apply extends_refl| |apply extends_refl]. apply write_more.
  - by destruct e.
Qed.
Lemma set_values_fewer s f g es : fewer f g → ∀ seen v v',
  set_values (outside_of s f) seen es v = Some v' → set_values (outside_of s g) seen es v = Some v'.
Proof.
  intros Hf. induction es as [|[fl x|var x] es IH]; intros seen v v' H; simpl in *; [done|..].
  - destruct (_ && _); [done|]. rewrite (set_flag_files s g f).
    destruct (set_flag (outside_of s f) fl x v) as [v1|]; [|done]. simpl in *. by apply IH.
  - destruct (set_file (outside_of s f) var x v) as [v1|] eqn:E; [|done]. simpl in H.
    rewrite (set_file_fewer s f g var x v v1) by done. simpl. by apply IH.
Qed.
Lemma parse_fewer s modern ws f g c v : fewer f g →
  parse modern (outside_of s f) ws = Runs c v → parse modern (outside_of s g) ws = Runs c v.
Proof.
  intros Hf. unfold parse. destruct (steps _ _) as [[| |c' k es]|]; [done|by destruct (shown _ _ _)| |done].
  rewrite (set_defaults_files s g f). destruct (set_defaults _ k _ _) as [v0|]; simpl; [|done].
  destruct (set_values (outside_of s f) [] es v0) as [v1|] eqn:E; [|done].
  by rewrite (set_values_fewer s f g es Hf _ _ _ E).
Qed.
Lemma only_named p out w w' c : only out w w' → out = outlet c → ¬ writes_to c p → w_files w' !! p = w_files w !! p.
Proof.
  intros [H _] -> Hp. destruct (H p) as [|[E Hn]]; [done|]. destruct Hp. subst p. by apply outlet_written.
Qed.

(** Without the verbosity for it, nothing is logged to standard output. *)
Lemma say_quiet s r l : q_verbosity r ≤ 1 → Forall (λ m, m.1 = Info ∨ m.1 = Debug) l → ∀ w,
  w_stdout (say s r l w) = w_stdout w.
Proof.
  intros Hv. unfold say. induction 1 as [|m l Hm Hl IH]; intros w; [done|]. simpl. rewrite IH.
  unfold log. assert (enabled (threshold (q_verbosity r)) m.1 = false) as ->.
  { unfold threshold. rewrite bool_decide_false by lia. rewrite bool_decide_false by lia.
    destruct (bool_decide (q_verbosity r = 1)), Hm as [-> | ->]; done. }
  destruct (q_debug r); [|done]. by destruct (enabled Debug m.1).
Qed.

(** * Runbooks *)
Import JsonModel JsonSpec JsonProofs JsonParserModel JsonParserProofs.
Lemma range_order {T} (dec : json → option (option T)) v n m o : given_once v → n ∈ all_settings → (∀ l, gives v n (JObj l) → NoDup l.*1) →
  feed (into_map dec) ∅ (vals v n) = Some m → range_of m o → order_of v n o.
Proof.
  intros Hg Hn Hnd Hf Ho. split.
  - intros l Hl. rewrite Ho. symmetry. apply (map_range dec v n); [done..|]. split.
    + intros l' Hl'. pose proof (gives_fun _ _ _ _ Hg Hn Hl Hl') as [= ->]. done.
    + intros H. by destruct (H l).
  - intros H. assert (range_of m []) as Hm.
    { apply (map_range dec v n); [done..|]. split; [|done]. intros l Hl. by destruct (H l). }
    unfold range_of in *. rewrite <-Hm in Ho. by apply Permutation_nil_r in Ho.
Qed.
Lemma book_exact s file files v b : s_jsonnet s file files = Some v → document_given_once v →
  (∀ n A (m : gmap string A), range_of m (s_order s n A m)) → book_in s file files = Ok b ↔ document_says v b.
Proof.
  intros Hj Hv Ho. unfold book_in. rewrite Hj. pose proof Hv as [Hg Hd].
  assert (∀ l, gives v "Targets" (JObj l) → NoDup l.*1) as N1 by (intros l Hl; by apply (Hd (JObj l)); [left|]).
  assert (∀ l, gives v "Tasks" (JObj l) → NoDup l.*1) as N2 by (intros l Hl; by apply (Hd (JObj l)); [right|]).
  destruct (decode_runbook v) as [d|] eqn:Hdec.
  - apply parse_json_exact; [done|..]; apply decode_runbook_spec in Hdec as (_ & H1 & H2).
    + eapply range_order; [done|in_settings|exact N1|exact H1|apply Ho].
    + eapply range_order; [done|in_settings|exact N2|exact H2|apply Ho].
  - split; [done|]. intros Hs. exfalso.
    assert (∀ T (f : json → T → Prop) n m, setting (reads_map f) v n ∅ m → n ∈ all_settings → ∃ o, order_of v n o) as He.
    { intros T f n m Hset Hn. destruct Hset as [(y & Hy & _ & l & -> & _)|[Hnull _]].
      - exists l.*1. split; [|intros H; by destruct (H l)]. intros l' Hl'. by pose proof (gives_fun _ _ _ _ Hg Hn Hy Hl') as [= ->].
      - exists []. split; [|done]. intros l Hl. by apply Hnull in Hl. }
    pose proof Hs as (_ & H1 & H2). destruct (He _ _ _ _ H1 ltac:(in_settings)) as [o1 Ho1].
    destruct (He _ _ _ _ H2 ltac:(in_settings)) as [o2 Ho2].
    apply (parse_json_exact v o1 o2 b) in Hs; [|done..]. unfold parse_json in Hs. by rewrite Hdec in Hs.
Qed.
