(** A line with words "@FILE" and what comes of it: C147. *)
From Coq Require Import String Ascii.
From stdpp Require Import gmap list strings.
From Verif Require Import GoBase GoStrings GoStringsProofs ArgsModel ArgsProofs ArgsValuesProofs ArgsUsageProofs ArgsFileModel ArgsFileSpec ArgsFileProps.

(** * kingpin's parser, as one that reads the line through Next and Push only.
    The definitions repeat those of [ArgsModel] (internal/cli/cli.go:32); [run_steps] shows
    that they are the same. *)
Fixpoint then_do {A B} (p : parser A) (f : A → parser B) : parser B :=
  match p with
  | Done a => f a
  | Ask known k => Ask known (λ t, then_do (k t) f)
  | Back t p => Back t (then_do p f)
  end.
(** kingpin, ParseContext.Peek (internal/cli/cli.go:32): [ArgsModel.peek]. *)
Definition peek_p (known : list flag) : parser token := Ask known (λ t, Back t (Done t)).
(** kingpin, flagGroup.parse from Next on (internal/cli/cli.go:32): [ArgsModel.flag_value]. *)
Definition flag_value_p (known : list flag) (t : token) (f : flag) (invert : bool) : parser (option (flag * string)) :=
  Ask known (λ _,
    if is_switch f then Done (Some (f, if invert then "false" else "true"))
    else if invert then Back t (Done None)
    else then_do (peek_p known) (λ t, match t with
      | TArg s => Ask known (λ _, Done (Some (f, s)))
      | _ => Back t (Done None)
      end)).
(** kingpin, flagGroup.parse (internal/cli/cli.go:32): [ArgsModel.parse_flag]. *)
Definition parse_flag_p (known : list flag) : parser (option (flag * string)) :=
  then_do (peek_p known) (λ t, match t with
    | TLong n =>
        match find_long known n with
        | Some f => flag_value_p known t f false
        | None =>
            if has_prefix n "no-" then
              match find_long known (str_drop 3 n) with
              | Some f => flag_value_p known t f true
              | None => Done None
              end
            else Done None
        end
    | TShort c =>
        match find_short known c with
        | Some f => flag_value_p known t f false
        | None => Done None
        end
    | _ => Done None
    end).
(** kingpin, one pass of parse (internal/cli/cli.go:32): [ArgsModel.step]. *)
Definition step_p (x : context) : parser (reading + context) :=
  then_do (peek_p (known x)) (λ t,
  match chosen x with ShowsUsage => Done (inl Showed) | _ =>
  match t with
  | TLong _ | TShort _ =>
      then_do (parse_flag_p (known x)) (λ o, match o with
      | None => Done (match default_command (subs x) with Some c => inr (matched c x) | None => inl Failed end)
      | Some (f, v) => Done (match f_kind f with
          | AExit => inl Showed
          | _ => inr (Context (known x) (subs x) (files x) (chosen x) (inp x) (elements x ++ [EFlag f v]))
          end)
      end)
  | TArg w =>
      match subs x with
      | [] =>
          match files x with
          | [] => Done (inl Failed)
          | a :: rest =>
              Ask (known x) (λ _, Done (inr (Context (known x) [] rest (chosen x) (inp x) (elements x ++ [EFile a w]))))
          end
      | cs =>
          match find_command cs w with
          | Some c => Ask (known x) (λ _, Done (inr (matched c x)))
          | None => Done (match default_command cs with Some c => inr (matched c x) | None => inl Failed end)
          end
      end
  | TError => Done (inl Failed)
  | TEnd => Done (
      let x := match default_command (subs x) with Some c => matched c x | None => x end in
      match chosen x, files x with
      | Becomes c, [] => inl (Matched c (known x) (elements x))
      | Becomes _, _ :: _ => inl Failed
      | _, _ => inl Showed
      end)
  end end).
(** kingpin, the loop of parse (internal/cli/cli.go:32): [ArgsModel.steps]. *)
Fixpoint steps_p (fuel : nat) (x : context) : parser (option reading) :=
  match fuel with
  | O => Done None
  | S fuel => then_do (step_p x) (λ r, match r with inl r => Done (Some r) | inr x => steps_p fuel x end)
  end.
(** kingpin, whether the usage is shown (internal/cli/cli.go:32): [ArgsModel.shown]. *)
Fixpoint shown_p (fuel : nat) (helped : bool) (x : context) : parser bool :=
  match fuel with
  | O => Done false
  | S fuel =>
      then_do (peek_p (known x)) (λ t,
      match chosen x with ShowsUsage => Done true | _ =>
      match t with
      | TLong _ | TShort _ =>
          then_do (parse_flag_p (known x)) (λ o, match o with
          | None => match default_command (subs x) with Some c => shown_p fuel helped (matched c x) | None => Done false end
          | Some (f, v) =>
              let y := Context (known x) (subs x) (files x) (chosen x) (inp x) (elements x ++ [EFlag f v]) in
              match f_kind f with
              | AExit => if decide (f_long f = "help") then shown_p fuel true y else Done true
              | _ => shown_p fuel helped y
              end
          end)
      | TArg w =>
          match subs x with
          | [] =>
              match files x with
              | [] => Done false
              | a :: rest =>
                  Ask (known x) (λ _, shown_p fuel helped
                    (Context (known x) [] rest (chosen x) (inp x) (elements x ++ [EFile a w])))
              end
          | cs =>
              match find_command cs w with
              | Some c => Ask (known x) (λ _, shown_p fuel helped (matched c x))
              | None => match default_command cs with Some c => shown_p fuel helped (matched c x) | None => Done false end
              end
          end
      | TError => Done false
      | TEnd => Done (helped ||
          let x := match default_command (subs x) with Some c => matched c x | None => x end in
          match chosen x with Becomes _ => false | _ => true end)
      end end)
  end.

(** They are the same. *)
Fixpoint run {A} (p : parser A) (i : input) : A * input :=
  match p with
  | Done a => (a, i)
  | Ask known k => run (k (next known i).1) (next known i).2
  | Back t p => run p (push t i)
  end.
Lemma run_result {A} (p : parser A) : ∀ i, result p i = (run p i).1.
Proof. induction p as [a|known k IH|t p IH]; intros i; simpl; auto. Qed.
Lemma run_then {A B} (p : parser A) (f : A → parser B) : ∀ i, run (then_do p f) i = run (f (run p i).1) (run p i).2.
Proof. induction p as [a|known k IH|t p IH]; intros i; simpl; auto. Qed.
Lemma run_peek known i : run (peek_p known) i = peek known i.
Proof. unfold peek_p, peek. destruct i as [[|t p] ws o]; simpl; [|done]. by destruct (next known _). Qed.
Lemma run_flag_value known t f invert i : flag_value known t f invert i =
  match run (flag_value_p known t f invert) i with
  | (None, j) => inl j
  | (Some (f, s), j) => inr (f, s, j)
  end.
Proof.
  unfold flag_value, flag_value_p. cbn [run]. destruct (is_switch f); [done|]. destruct invert; [done|].
  rewrite run_then, run_peek. destruct (peek known (next known i).2) as [t' j]. by destruct t'.
Qed.
Lemma run_parse_flag known i : parse_flag known i =
  match run (parse_flag_p known) i with
  | (None, j) => inl j
  | (Some (f, s), j) => inr (f, s, j)
  end.
Proof.
  unfold parse_flag, parse_flag_p. rewrite run_then, run_peek. destruct (peek known i) as [t j]. simpl.
  destruct t as [s|n|c| |]; try done.
  - destruct (find_long known n) as [f|]; [apply run_flag_value|]. destruct (has_prefix n "no-"); [|done].
    destruct (find_long known _) as [f|]; [apply run_flag_value|done].
  - destruct (find_short known c) as [f|]; [apply run_flag_value|done].
Qed.
Lemma matched_with c i x : matched c (with_input i x) = with_input i (matched c x).
Proof. by destruct c. Qed.
Lemma run_step x i : step (with_input i x) =
  match run (step_p x) i with
  | (inl r, _) => inl r
  | (inr y, j) => inr (with_input j y)
  end.
Proof.
  unfold step, step_p. rewrite run_then, run_peek. cbn [known inp with_input].
  destruct (peek (known x) i) as [t j]. cbn [chosen with_input subs files elements known inp fst snd].
  destruct (chosen x) eqn:Hc; [| |done].
  all: destruct t as [w|n|sc| |]; try done.
  all: try (destruct (subs x) as [|c0 cs] eqn:Hsubs;
    [destruct (files x); [done|]; cbn [run]; by rewrite ?Hc, ?Hsubs|];
    destruct (find_command (c0 :: cs) w); [cbn [run]; by rewrite <-matched_with|];
    destruct (default_command (c0 :: cs)); [cbn [run]; by rewrite <-matched_with|done]).
  all: try (rewrite run_then, run_parse_flag; destruct (run (parse_flag_p (known x)) j) as [[[f v]|] j']; cbn [fst snd run];
    [by destruct (f_kind f)|]; destruct (default_command (subs x)); by rewrite ?matched_with).
  all: cbn [run]; destruct (default_command (subs x)) as [dc|];
    [change (with_input j (with_input i x)) with (with_input j x); rewrite matched_with; cbn [with_input chosen files known elements];
     destruct (chosen (matched dc x)); try done; by destruct (files (matched dc x))
    |cbn [with_input chosen files known elements]; rewrite ?Hc; try done; by destruct (files x)].
Qed.
Lemma run_steps fuel : ∀ x i, steps fuel (with_input i x) = result (steps_p fuel x) i.
Proof.
  induction fuel as [|fuel IH]; intros x i; [done|]. cbn [steps steps_p]. rewrite run_result, run_then, run_step.
  destruct (run (step_p x) i) as [[r|y] j]; cbn [fst snd]; [done|]. by rewrite IH, run_result.
Qed.
Lemma run_shown fuel : ∀ b x i, shown fuel b (with_input i x) = (run (shown_p fuel b x) i).1.
Proof.
  induction fuel as [|fuel IH]; intros b x i; [done|]. rewrite shown_S. cbn [shown_p]. rewrite run_then, run_peek.
  unfold step. cbn [known inp with_input]. destruct (peek (known x) i) as [t j] eqn:Ep.
  cbn [chosen with_input subs files elements known inp fst snd].
  destruct (chosen x) eqn:Hc; [| |done].
  all: destruct t as [w|n|sc| |]; try done.
  all: try (destruct (subs x) as [|c0 cs] eqn:Hsubs;
    [destruct (files x); [done|]; cbn [run]; by rewrite <-IH|];
    destruct (find_command (c0 :: cs) w); [cbn [run]; by rewrite <-IH, <-matched_with|];
    destruct (default_command (c0 :: cs)); [by rewrite <-IH, <-matched_with|done]).
  all: try (rewrite run_then, run_parse_flag; destruct (run (parse_flag_p (known x)) j) as [[[f v]|] j']; cbn [fst snd run];
    [destruct (f_kind f); [..|destruct (decide (f_long f = "help")); [|done]]; by rewrite <-IH
    |destruct (default_command (subs x)); [by rewrite <-IH, <-matched_with|done]]).
  all: cbn [run fst]; destruct (default_command (subs x)) as [dc|];
    [change (with_input j (with_input i x)) with (with_input j x); rewrite matched_with; cbn [with_input chosen files known elements];
     destruct (chosen (matched dc x)); try done; by destruct (files (matched dc x))
    |cbn [with_input chosen files known elements]; rewrite ?Hc; try done; by destruct (files x)].
Qed.

(** What kingpin reads from the line as typed. *)
Definition line_read (files : string → option string) (modern : bool) (ws : list string) (r : reading) : Prop :=
  ∃ fuel, results files (steps_p fuel (start modern [])) (Input [] ws false) (Some r).
Lemma line_read_expanded files modern ws ws' r : expands files ws ws' → Forall (λ w, ¬ dash_behind w) ws' →
  line_read files modern ws r ↔ read modern ws' = Some r.
Proof.
  intros He Hd. unfold line_read, read.
  assert (Hsame : ∀ fuel, results files (steps_p fuel (start modern [])) (Input [] ws false) (Some r) ↔ steps fuel (start modern ws') = Some r).
  { intros fuel. rewrite (at_file_partial _ _ _ _ ws' _ He Hd). by rewrite <-run_steps. }
  split.
  - intros [fuel H%Hsame]. destruct (steps (4 + total ws') (start modern ws')) as [r'|] eqn:E.
    + destruct (le_ge_dec fuel (4 + total ws')) as [Hle|Hle].
      * rewrite (steps_mono _ _ _ _ H Hle) in E. done.
      * rewrite (steps_mono _ _ _ _ E Hle) in H. done.
    + exfalso. revert E. apply (steps_end modern ArgsSpec.Top); [done|]. unfold size. simpl. lia.
  - intros H. exists (4 + total ws'). by apply Hsame.
Qed.
(** Whether kingpin shows the usage for the line as typed. *)
Definition line_shows (files : string → option string) (modern : bool) (ws : list string) : Prop :=
  ∃ fuel, results files (shown_p fuel false (start modern [])) (Input [] ws false) true.
Lemma line_shows_expanded files modern ws ws' : expands files ws ws' → Forall (λ w, ¬ dash_behind w) ws' →
  line_shows files modern ws ↔ shown (4 + total ws') false (start modern ws') = true.
Proof.
  intros He Hd. unfold line_shows.
  assert (Hsame : ∀ fuel, results files (shown_p fuel false (start modern [])) (Input [] ws false) true ↔ shown fuel false (start modern ws') = true).
  { intros fuel. rewrite (at_file_partial _ _ _ _ ws' _ He Hd).
    change (start modern ws') with (with_input (Input [] ws' false) (start modern [])). by rewrite run_shown, run_result. }
  split.
  - intros [fuel H%Hsame]. apply (shown_enough modern _ ArgsSpec.Top _ _ fuel); [done| |done]. unfold size. simpl. lia.
  - intros H. exists (4 + total ws'). by apply Hsame.
Qed.
(** What becomes of the line as typed ([ArgsModel.parse]). *)
Definition line_comes (files : string → option string) (modern : bool) (o : outside) (ws : list string) (out : outcome) : Prop :=
  match out with
  | Runs c v => ∃ k es, line_read files modern ws (Matched c k es) ∧ (set_defaults o k (flag_names es) ∅ ≫= set_values o [] es) = Some v
  | Usage => line_read files modern ws Showed ∧ line_shows files modern ws
  | Refused =>
      line_read files modern ws Failed ∨
      (line_read files modern ws Showed ∧ ¬ line_shows files modern ws) ∨
      ∃ c k es, line_read files modern ws (Matched c k es) ∧ (set_defaults o k (flag_names es) ∅ ≫= set_values o [] es) = None
  end.
(** C147: the line is carried out, refused or answered with the usage as is the line with the
    words of the files in their place, and nothing else becomes of it.
    Missing: lines with words like -v- ([at_file_refuted]). *)
Theorem at_file_line_partial files modern o ws ws' out :
  expands files ws ws' → Forall (λ w, ¬ dash_behind w) ws' →
  line_comes files modern o ws out ↔ parse modern o ws' = out.
Proof.
  intros He Hd. pose proof (λ r, line_read_expanded files modern ws ws' r He Hd) as Hr.
  pose proof (line_shows_expanded files modern ws ws' He Hd) as Hs. unfold parse.
  fold (read modern ws').
  assert (is_Some (read modern ws')) as [r0 E].
  { destruct (read modern ws') as [r0|] eqn:E; [by eexists|]. exfalso. revert E. apply (steps_end modern ArgsSpec.Top); [done|]. unfold size. simpl. lia. }
  rewrite E. revert Hs. generalize (shown (4 + total ws') false (start modern ws')). intros sh Hs. destruct out as [| |c v]; cbn [line_comes].
  - split.
    + intros [H%Hr|[[H%Hr Hn]|(c & k & es & H%Hr & Hv)]]; rewrite E in H; injection H as ->; [done| |by rewrite Hv].
      destruct sh; [|done]. destruct Hn. by apply Hs.
    + destruct r0 as [| |c k es]; intros H.
      * left. by apply Hr.
      * right. left. split; [by apply Hr|]. rewrite Hs. by destruct sh.
      * right. right. exists c, k, es. split; [by apply Hr|]. by destruct (_ ≫= _).
  - split.
    + intros [H%Hr H2%Hs]. rewrite E in H. injection H as ->. by rewrite H2.
    + destruct r0 as [| |c k es]; intros H; [done| |by destruct (_ ≫= _)].
      split; [by apply Hr|]. apply Hs. by destruct sh.
  - split.
    + intros (k & es & H%Hr & Hv). rewrite E in H. injection H as ->. by rewrite Hv.
    + destruct r0 as [| |c' k es]; intros H; [done|by destruct sh|].
      destruct (set_defaults o k (flag_names es) ∅ ≫= set_values o [] es) as [v'|] eqn:Ev; [|done]. injection H as -> ->.
      exists k, es. by split; [apply Hr|].
Qed.
Print Assumptions at_file_line_partial.
(** C147: pgutil @FILE never ends if FILE begins with its own name. *)
Theorem at_file_hangs files modern name text us ws r :
  name ≠ "" → files name = Some text → words_in text (("@" +:+ name) :: us) → ¬ line_read files modern (("@" +:+ name) :: ws) r.
Proof.
  intros Hn Hf Hw [[|fuel] H]; [by inversion H|]. cbn [steps_p step_p then_do peek_p] in H.
  by apply (at_file_itself _ files name text us ws _ _ _ Hn Hf Hw) in H.
Qed.
Print Assumptions at_file_hangs.

(** * Examples *)
Example at_file_line_example :
  (expands ex_files ["ping"; "@opts"] ["ping"; "--host=up"; "-v"] ∧ Forall (λ w, ¬ dash_behind w) ["ping"; "--host=up"; "-v"]) ∧
  ∃ v, parse true (Outside port_number (λ _, true) (λ _, true)) ["ping"; "--host=up"; "-v"] = Runs CPing v.
Proof.
  split; [split|vm_compute; by eexists].
  - apply expands_word; [done|by intros [x Hx]|].
    apply (expands_file _ "opts" _ _ _ _ ltac:(done) eq_refl ex_opts). apply expands_word; [done|by intros [x Hx]|].
    apply (expands_file _ "more" _ _ _ _ ltac:(done) eq_refl ex_more). apply expands_word; [done|by intros [x Hx]|]. apply expands_end.
  - destruct at_file_example as (_ & H & _).
    by apply (list.Forall_app _ ["ping"; "--host=up"; "-v"] ["--"; "@x"]) in H as [H _].
Qed.
Example at_file_hangs_example : "self" ≠ "" ∧ ex_files "self" = Some ("@self" +:+ nl) ∧ words_in ("@self" +:+ nl) (("@" +:+ "self") :: []).
Proof. split; [done|]. apply at_file_itself_example. Qed.
