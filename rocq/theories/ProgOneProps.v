(** How many files a line that runs nothing can create: C123. *)
From Coq Require Import String Ascii.
From stdpp Require Import gmap list strings numbers.
From Verif Require Import GoBase GoStrings GoStringsProofs ParserModel CliModel ArgsModel ArgsSpec ArgsProofs ProgModel ProgSpec ProgLineProofs ProgProofs ProgProps.
Local Open Scope Z_scope.

(** The only flag that opens a file is --debug. *)
Definition sole (f : flag) : Prop := f_kind f = AOpen → f_long f = "debug".
Global Instance sole_dec f : Decision (sole f).
Proof.
  unfold sole. destruct (decide (f_long f = "debug")) as [E|E]; [by left|].
  destruct (f_kind f) eqn:K; try (left; done). right. intros H. by apply E, H.
Defined.
Inductive sole_cmd : cmd → Prop :=
| sole_cmd_intro ns d fs fl cs a : Forall sole fs → Forall sole_cmd cs → sole_cmd (Cmd ns d fs fl cs a).
Definition sole_element (e : element) : Prop := match e with EFlag f _ => sole f | _ => True end.
Definition sole_context (x : context) : Prop :=
  Forall sole (known x) ∧ Forall sole_cmd (subs x) ∧ Forall sole_element (elements x).

Lemma find_sole fs n f : Forall sole fs → find_long fs n = Some f → sole f.
Proof.
  unfold find_long. destruct (list_find _ fs) as [[i g]|] eqn:E; [|done]. simpl. intros H [= <-].
  apply list_find_Some in E as (E & _). eapply list.Forall_lookup_1; done.
Qed.
Lemma find_short_sole fs n f : Forall sole fs → find_short fs n = Some f → sole f.
Proof.
  unfold find_short. destruct (list_find _ fs) as [[i g]|] eqn:E; [|done]. simpl. intros H [= <-].
  apply list_find_Some in E as (E & _). eapply list.Forall_lookup_1; done.
Qed.
Lemma find_command_sole cs w c : Forall sole_cmd cs → find_command cs w = Some c → sole_cmd c.
Proof.
  unfold find_command. destruct (list_find _ cs) as [[i g]|] eqn:E; [|done]. simpl. intros H [= <-].
  apply list_find_Some in E as (E & _). eapply list.Forall_lookup_1; done.
Qed.
Lemma default_command_sole cs c : Forall sole_cmd cs → default_command cs = Some c → sole_cmd c.
Proof.
  unfold default_command. destruct (list_find _ cs) as [[i g]|] eqn:E; [|done]. simpl. intros H [= <-].
  apply list_find_Some in E as (E & _). eapply list.Forall_lookup_1; done.
Qed.
Lemma flag_value_same fs t f inv i g v i' : flag_value fs t f inv i = inr (g, v, i') → g = f.
Proof.
  unfold flag_value. destruct (is_switch f); [by intros [= <- _ _]|]. destruct inv; [done|].
  destruct (peek _ _) as [[] ?]; try done. by intros [= <- _ _].
Qed.
Lemma parse_flag_sole fs i f v i' : Forall sole fs → parse_flag fs i = inr (f, v, i') → sole f.
Proof.
  intros H. unfold parse_flag. destruct (peek fs i) as [[s|n|c| |] j]; try done.
  - destruct (find_long fs n) as [g|] eqn:E.
    { intros ->%flag_value_same. by eapply find_sole. }
    destruct (has_prefix n "no-"); [|done]. destruct (find_long fs (str_drop 3 n)) as [g|] eqn:E'; [|discriminate].
    intros ->%flag_value_same. by eapply find_sole.
  - destruct (find_short fs c) as [g|] eqn:E; [|done]. intros ->%flag_value_same. by eapply find_short_sole.
Qed.
Lemma matched_sole c x : sole_cmd c → sole_context x → sole_context (matched c x).
Proof.
  intros [ns d fs fl cs a Hf Hc] (H1 & H2 & H3). split_and!; simpl; [|done|done]. apply list.Forall_app. by split.
Qed.
Lemma more_sole x es f v : Forall sole_element (elements x) → sole f → es = elements x ++ [EFlag f v] → Forall sole_element es.
Proof.
  intros H Hf ->. apply list.Forall_app. split; [done|]. apply list.Forall_cons. split; [done|]. by apply list.Forall_nil.
Qed.
Lemma step_sole x : sole_context x →
  match step x with inl (Matched _ _ es) => Forall sole_element es | inl _ => True | inr x' => sole_context x' end.
Proof.
  intros (H1 & H2 & H3). unfold step. destruct (peek (known x) (inp x)) as [t i].
  assert (Hx : ∀ j, sole_context (with_input j x)) by (intros j; by split_and!).
  destruct (chosen (with_input i x)) eqn:Hc; [| |done].
  all: destruct t as [w|n|c0| |]; [| | |done|].
  all: cbn [known subs files chosen inp elements with_input] in *.
  all: try (destruct (parse_flag (known x) i) as [i'|[[f v] i']] eqn:Ef;
    [destruct (default_command (subs x)) as [cl|] eqn:Ed; [|done]; apply matched_sole; [by eapply default_command_sole|apply Hx]|];
    pose proof (parse_flag_sole _ _ _ _ _ H1 Ef) as Hs; destruct (f_kind f); try done;
    (split_and!; [done..|]); by eapply more_sole).
  all: try (destruct (subs x) as [|c1 cs] eqn:Es;
    [destruct (files x); [done|]; (split_and!; [done|cbn; by rewrite ?Es|]); apply list.Forall_app; (split; [done|]);
       apply list.Forall_cons; (split; [done|]); by apply list.Forall_nil|];
    destruct (find_command (c1 :: cs) w) eqn:Ec;
      [apply matched_sole; [by eapply find_command_sole|]; by (split_and!; cbn; rewrite ?Es)|];
    destruct (default_command (c1 :: cs)) eqn:Ed; [|done]; apply matched_sole; [by eapply default_command_sole|]; by (split_and!; cbn; rewrite ?Es)).
  all: destruct (default_command (subs x)) as [cl|] eqn:Ed;
    [pose proof (matched_sole cl (with_input i x) (default_command_sole _ _ H2 Ed) (conj H1 (conj H2 H3))) as (_ & _ & Hm);
     fold (with_input i x); destruct (chosen (matched cl (with_input i x))), (files (matched cl (with_input i x))); done|].
  all: cbn [known subs files chosen inp elements with_input]; destruct (chosen x), (files x); done.
Qed.
Lemma steps_sole fuel : ∀ x c k es, sole_context x → steps fuel x = Some (Matched c k es) → Forall sole_element es.
Proof.
  induction fuel as [|fuel IH]; intros x c k es Hx; [done|]. rewrite steps_S.
  pose proof (step_sole x Hx) as H. destruct (step x) as [r|x']; [by intros [= ->]|by apply IH].
Qed.
Lemma gathered_sole fuel : ∀ x, sole_context x → Forall sole_element (gathered fuel x).
Proof.
  induction fuel as [|fuel IH]; intros x Hx; [apply Hx|]. cbn [gathered].
  pose proof (step_sole x Hx) as H. destruct (step x) as [r|x']; [clear H|by apply IH].
  destruct Hx as (H1 & H2 & H3). destruct (peek (known x) (inp x)) as [t i].
  assert (Hflag : Forall sole_element match parse_flag (known x) i with
    | inr (f, v, i') =>
        gathered fuel (Context (known x) (subs x) (files x) (chosen x) i' (elements x ++ [EFlag f v]))
    | inl _ => elements x end).
  { destruct (parse_flag (known x) i) as [i'|[[f v] i']] eqn:Ef; [done|]. apply IH. split_and!; [done..|].
    cbn [elements]. eapply more_sole; [done|by eapply parse_flag_sole|done]. }
  destruct t; try done. destruct (chosen x); try done. by apply IH.
Qed.
Lemma start_sole modern ws : sole_context (start modern ws).
Proof.
  assert (Hd : ∀ fs, bool_decide (Forall sole fs) = true → Forall sole fs) by (intros fs; apply bool_decide_eq_true_1).
  split_and!; [by apply Hd|..]; [|by apply list.Forall_nil]. cbn [subs start].
  destruct modern; repeat (apply list.Forall_cons; split); try by apply list.Forall_nil.
  all: constructor; [by apply Hd|]; repeat (apply list.Forall_cons; split); try by apply list.Forall_nil.
  all: constructor; [by apply Hd|]; by apply list.Forall_nil.
Qed.

(** A second --debug is an error before its file is opened. *)
Definition one_change (f g : gmap string string) : Prop := ∀ p q, g !! p ≠ f !! p → g !! q ≠ f !! q → p = q.
Lemma set_all_none s es : ∀ seen v files, Forall sole_element es → "debug" ∈ seen → (set_all s seen es v files).1 = files.
Proof.
  induction es as [|[f x|var x] es IH]; intros seen v files Hes Hin; [done|..]; apply list.Forall_cons in Hes as [Hf Hes]; simpl.
  - destruct (_ && _) eqn:Hb; [done|]. destruct (set_flag _ _ _ _) as [v1|]; [|done]. rewrite IH; [|done|by right].
    destruct (f_kind f) eqn:Hk; try done. exfalso. rewrite (Hf Hk) in Hb. unfold is_cumulative in Hb.
    rewrite Hk, bool_decide_true in Hb by done. done.
  - destruct (set_file _ _ _ _); [|done]. by apply IH.
Qed.
Lemma set_all_one s es : ∀ seen v files, Forall sole_element es → one_change files (set_all s seen es v files).1.
Proof.
  assert (Hrefl : ∀ f, one_change f f) by (intros f p q []; done).
  induction es as [|[f x|var x] es IH]; intros seen v files Hes; simpl; [apply Hrefl|..];
    apply list.Forall_cons in Hes as [Hf Hes].
  - destruct (_ && _) eqn:Hb; [apply Hrefl|]. destruct (set_flag _ _ _ _) as [v1|]; [|apply Hrefl].
    destruct (f_kind f) eqn:Hk; try by apply IH. rewrite (Hf Hk), set_all_none by (done || by left).
    unfold opened. destruct (files !! x) eqn:Ex; [apply Hrefl|]. intros p q Hp Hq.
    destruct (decide (p = x)) as [->|Hpx]; [|by rewrite lookup_insert_ne in Hp].
    destruct (decide (q = x)) as [->|Hqx]; [done|by rewrite lookup_insert_ne in Hq].
  - destruct (set_file _ _ _ _); [|apply Hrefl]. by apply IH.
Qed.

(** C123: a line that is refused or shows the usage creates one file at most. *)
Theorem one_file_created s modern ws w p q :
  let x := program s modern ws w in
  x_ran x = None → w_files (x_world x) !! p ≠ w_files w !! p → w_files (x_world x) !! q ≠ w_files w !! q → p = q.
Proof.
  intros x Hr. unfold x in *. clear x. revert Hr.
  assert (Hsp : one_change (w_files w) (spilled s modern ws (w_files w))).
  { apply set_all_one, gathered_sole, start_sole. }
  unfold program. destruct (steps _ _) as [[| |c k es]|] eqn:Hst.
  - intros _. simpl. rewrite complain_files. apply Hsp.
  - cbv zeta. cbn [w_files w_stdout]. destruct (shown _ _ _); intros _; simpl; rewrite ?complain_files; apply Hsp.
  - pose proof (steps_sole _ _ _ _ _ (start_sole modern ws) Hst) as Hes.
    destruct (set_defaults _ k (flag_names es) ∅) as [v|]; [|intros _; simpl; rewrite complain_files; done].
    pose proof (set_all_one s es [] v (w_files w) Hes) as Hone.
    destruct (set_all s [] es v (w_files w)) as [files [v'|]].
    + intros Hr. exfalso. revert Hr. change (x_ran (finish s (request_of c v') (carry_out s (request_of c v') (World files (w_stdout w)))) = None → False).
      unfold finish. by destruct (carry_out _ _ _) as [[w' [| |]] ls].
    + intros _. simpl. rewrite complain_files. apply Hone.
  - intros _. simpl. rewrite complain_files. apply Hsp.
Qed.
Print Assumptions one_file_created.
(** Two files are named here; the first is created. *)
Example one_file_created_example :
  let x := runs ["--debug=a.log"; "version"; "--debug=b.log"] in
  x_ran x = None ∧ w_files (x_world x) !! "a.log" ≠ w_files ex_world !! "a.log" ∧
  w_files (x_world x) !! "b.log" = w_files ex_world !! "b.log".
Proof. cbv zeta. split_and!; by vm_compute. Qed.
