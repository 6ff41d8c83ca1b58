(** The properties of the command line: what a line of words asks for. *)
From Coq Require Import String Ascii.
From stdpp Require Import list gmap strings.
From Verif Require Import GoStrings GoStringsProofs GoUtf8 ArgsModel ArgsSpec ArgsProofs ArgsValuesProofs
  ArgsRequestProofs ArgsPortProofs ArgsUsageProofs.
Local Open Scope Z_scope.

(** C119: a line that asks for a request has exactly that request carried out, and
    the process ends with what came of it. *)
Theorem line_carried_out modern o complaint run ws r :
  asks modern o ws r →
  main modern o complaint run ws =
    match run r with
    | None => Ending 0 (Some r) []
    | Some err => Ending 1 (Some r) [(Stdout, err)]
    end.
Proof.
  intros H. destruct (parse_complete modern o ws r H) as (c & v & Hp & <-).
  unfold main. rewrite Hp. by destruct (run (request_of c v)).
Qed.
Print Assumptions line_carried_out.
(** Of two lines with the same flags in some order, the same arguments and the same
    command, one is carried out exactly as the other. *)
Theorem flag_order_irrelevant modern o complaint run ws ws' i i' a c r :
  says modern Top (Raw <$> ws) i a c → says modern Top (Raw <$> ws') i' a c → i ≡ₚ i' → fits o c i a r →
  main modern o complaint run ws = main modern o complaint run ws' ∧
  e_ran (main modern o complaint run ws) = Some r.
Proof.
  intros Hs Hs' Hp Hf.
  rewrite (line_carried_out modern o complaint run ws r) by (by exists c, i, a).
  rewrite (line_carried_out modern o complaint run ws' r)
    by (exists c, i', a; split; [done|by eapply fits_perm]).
  split; [done|]. by destruct (run r).
Qed.
Print Assumptions flag_order_irrelevant.
(** A line asks for one thing only. *)
Theorem line_one_meaning modern o ws r r' : asks modern o ws r → asks modern o ws r' → r = r'.
Proof.
  intros H H'. destruct (parse_complete modern o ws r H) as (c & v & Hp & <-).
  destruct (parse_complete modern o ws r' H') as (c' & v' & Hp' & <-).
  rewrite Hp in Hp'. by injection Hp' as <- <-.
Qed.
Print Assumptions line_one_meaning.

(** C120 (partial): what is carried out is exactly what the line asks for, or, if it
    goes astray at a --debug without value, the runbook it is mistaken to ask for.  The
    full statement, without the exception, is refuted below. *)
Theorem nothing_unasked_partial modern o complaint run ws r :
  e_ran (main modern o complaint run ws) = Some r ↔ asks modern o ws r ∨ mistaken modern o ws r.
Proof.
  unfold main. split.
  - intros H. destruct (parse modern o ws) as [| |c v] eqn:Hp; [done|done|].
    assert (r = request_of c v) as -> by (destruct (run _); simpl in H; by simplify_eq).
    destruct (parse_sound modern o ws c v Hp) as [Ha|[-> Hw]]; [by left|by right].
  - intros [H|H].
    + destruct (parse_complete modern o ws r H) as (c & v & -> & <-). by destruct (run _).
    + destruct (parse_mistaken modern o ws r H) as (v & -> & <-). by destruct (run _).
Qed.
Print Assumptions nothing_unasked_partial.
(** The exception only runs runbooks, and such a line asks for nothing else. *)
Theorem mistake_runs modern o ws r :
  mistaken modern o ws r →
  (∃ f, q_command r = BookRun f ∧ is_file o f = true) ∧ ∀ r', asks modern o ws r' → r' = r.
Proof.
  intros H. split.
  - destruct H as (i & rest & j & a & _ & _ & _ & _ & _ & Hc). inversion Hc; subst. by eexists.
  - intros r' Ha. destruct (parse_mistaken modern o ws r H) as (v & Hp & <-).
    destruct (parse_complete modern o ws r' Ha) as (c & v' & Hp' & <-).
    rewrite Hp in Hp'. by injection Hp' as <- <-.
Qed.
Print Assumptions mistake_runs.
(** A runbook is run although --debug has no value: --debug is ignored and the word after it counts
    twice. *)
Definition all_well : outside := Outside port_number (λ _, true) (λ _, true).
Definition lost_line : list string := ["runbook"; "--debug"; "-v"; "deploy.jsonnet"].
Lemma lost_ran complaint run : e_ran (main true all_well complaint run lost_line) =
  Some (Request (BookRun "deploy.jsonnet") None 3).
Proof.
  unfold main. assert (∃ c v, parse true all_well lost_line = Runs c v ∧
    request_of c v = Request (BookRun "deploy.jsonnet") None 3) as (c & v & -> & ->).
  { eexists CRun, _. split; vm_compute; reflexivity. }
  by destruct (run _).
Qed.
Lemma lost_says rest i a c : ¬ says true Book (Raw "--debug" :: Raw "-v" :: rest) i a c.
Proof.
  assert (Hv : ∀ ws, reads true Book (Raw "-v" :: rest) ws → ws = Letter "v" :: rest).
  { intros ws H. inversion H as [|w ? Hp|n ? Hn He Heq|n v ? He Heq| |n l v ? Hne Hin|n l v ? Hne Hin]; subst; try done.
    - exfalso. destruct Hp as [Hp _]. apply Hp. by exists "v". }
  assert (Hd : ∀ ws, reads true Book (Raw "--debug" :: Raw "-v" :: rest) ws → ws = Name "debug" :: Raw "-v" :: rest).
  { intros ws H. inversion H as [|w ? Hp|n ? Hn He Heq|n v ? He Heq| |n l v ? Hne Hin|n l v ? Hne Hin]; subst; try done.
    - exfalso. destruct Hp as [Hp _]. apply Hp. by exists "-debug".
    - exfalso.
      assert (Hh : has_byte "="%char "debug") by (rewrite <-Heq; by eexists n, v).
      apply index_byte_None in Hh; [done|]. done.
    - exfalso. by apply elem_of_list_singleton in Hin.
    - exfalso. repeat (apply elem_of_cons in Hin as [Hin|Hin]; [done|]). by apply elem_of_nil in Hin. }
  intros H. inversion H as [|p ws ws' i' a' c' Hr Hs| | | | | | | |]; subst. apply Hd in Hr as ->. clear H.
  assert (Hnv : ∀ v r, ¬ value_in true Book (Raw "-v" :: rest) v r).
  { intros v r H. inversion H as [|? ws' ? ? Hr Hval]; subst. apply Hv in Hr as ->.
    inversion Hval as [|? ? ? ? Hr]; subst. inversion Hr. }
  remember (Name "debug" :: Raw "-v" :: rest) as ws0 eqn:E. remember Book as p0 eqn:Ep.
  destruct Hs as [|? ? ? ? ? ? Hr|? n sh ? v ? ? ? ? Hin Hval| |? n sh ? ? ? ? Hin|? n sh ? ? ? ? Hin| | | |]; subst; try done.
  - inversion Hr.
  - injection E as -> ->. by eapply Hnv.
  - injection E as -> ->. repeat (apply elem_of_cons in Hin as [Hin|Hin]; [done|]). by apply elem_of_nil in Hin.
Qed.
Theorem nothing_unasked_refuted :
  ∃ o ws r, (∀ complaint run, e_ran (main true o complaint run ws) = Some r) ∧ ∀ r', ¬ asks true o ws r'.
Proof.
  exists all_well, lost_line, (Request (BookRun "deploy.jsonnet") None 3). split; [apply lost_ran|].
  intros r' (c & i & a & Hs & _).
  inversion Hs as [|p ws ws' ? ? ? Hr Hs1| | | | | | | |]; subst. clear Hs.
  assert (ws' = Lit "runbook" :: (Raw <$> ["--debug"; "-v"; "deploy.jsonnet"])) as ->.
  { inversion Hr; subst; done. }
  remember (Lit "runbook" :: _) as ws0 eqn:E. remember Top as p0 eqn:Ep.
  destruct Hs1 as [|? ? ? ? ? ? Hr'| | | | | |? ? ? ? ? Hs|? ? ? ? ? ? ? Hl Hs|]; subst; try done.
  - inversion Hr'.
  - injection E as -> ->. inversion Hl; subst. by eapply lost_says.
Qed.
Print Assumptions nothing_unasked_refuted.
Example mistake_example : mistaken true all_well lost_line (Request (BookRun "deploy.jsonnet") None 3).
Proof.
  unfold lost_line. change "-v" with (String "-" (String "v" "")).
  exists [], [Letter "v"; Letter "v"; Raw "deploy.jsonnet"], [("verbose", "true"); ("verbose", "true")], ["deploy.jsonnet"].
  split_and!.
  - eapply strays_read; [by apply reads_plain, plain_iff|]. eapply strays_command; [constructor|].
    eapply strays_read; [by apply (reads_name _ _ "debug"); [|apply index_byte_None]|].
    apply strays_here; [|right; by eexists]. right. by apply reads_letter.
  - do 2 (eapply says_switch_letter; [by apply elem_of_list_lookup_2 with (i := 1%nat)|]).
    eapply says_read; [by apply reads_plain, plain_iff|]. apply says_arg. apply says_end.
  - split_and!; [|done|done|by constructor]. intros n _ Hn. unfold times. simpl.
    rewrite !filter_cons_False by (simpl; congruence). simpl. lia.
Qed.

(** C121 (partial): the exit status is 0 only if what the line asks for went well
    (or what it is mistaken to ask for, C120), and otherwise it is 1 and exactly one
    message is printed, which is the error of the command if there is one.  The
    message goes to standard output; that it went to standard error is refuted. *)
Theorem exit_status_partial modern o complaint run ws :
  (e_status (main modern o complaint run ws) = 0 ∧ e_says (main modern o complaint run ws) = [] ∧
   match e_ran (main modern o complaint run ws) with
   | Some r => run r = None ∧ (asks modern o ws r ∨ mistaken modern o ws r)
   | None => led_to_usage modern ws
   end) ∨
  (e_status (main modern o complaint run ws) = 1 ∧
   match e_ran (main modern o complaint run ws) with
   | Some r => ∃ err, run r = Some err ∧ e_says (main modern o complaint run ws) = [(Stdout, err)]
   | None => (∀ r, ¬ asks modern o ws r ∧ ¬ mistaken modern o ws r) ∧ ¬ led_to_usage modern ws ∧
       e_says (main modern o complaint run ws) = [(Stdout, complaint)]
   end).
Proof.
  unfold main. destruct (parse modern o ws) as [| |c v] eqn:Hp; simpl.
  - right. assert (Hu := parse_usage modern o ws). rewrite Hp in Hu.
    split_and!; [done| |by intros H; assert (Refused = Usage) by by apply Hu|done]. intros r. split; intros Hr.
    + destruct (parse_complete modern o ws r Hr) as (c & v & Hp' & _). congruence.
    + destruct (parse_mistaken modern o ws r Hr) as (v & Hp' & _). congruence.
  - left. split_and!; [done|done|]. by eapply parse_usage.
  - destruct (run (request_of c v)) as [err|] eqn:Er; simpl.
    + right. split; [done|]. by exists err.
    + left. split; [done|]. split; [done|]. split; [done|].
      destruct (parse_sound modern o ws c v Hp) as [Ha|[_ Hw]]; [by left|by right].
Qed.
Print Assumptions exit_status_partial.
(** The usage is shown, and nothing is run, by exactly the lines that ask for it or are
    mistaken to; among them those that ask for it. *)
Theorem usage_exact modern o complaint run ws :
  (e_ran (main modern o complaint run ws) = None ∧ e_status (main modern o complaint run ws) = 0 ↔
    led_to_usage modern ws) ∧
  (asks_usage modern ws → led_to_usage modern ws).
Proof.
  split; [|apply asks_led]. rewrite <-(parse_usage modern o ws). unfold main. destruct (parse modern o ws) as [| |c v]; simpl.
  - split; [by intros [_ ?]|done].
  - done.
  - split; [by destruct (run _); intros [? _]|done].
Qed.
Print Assumptions usage_exact.
Example usage_asked modern :
  asks_usage modern ["runbook"; "--debug=x"; "run"; "book"; "--no-help"] ∧ asks_usage modern ["-vq"] ∧
  ¬ led_to_usage modern ["runbook"; "run"; "a"; "b"; "--help"] ∧
  ¬ led_to_usage modern ["--help"; "bogus"] ∧ led_to_usage modern ["--help-long"; "bogus"] ∧
  led_to_usage modern ["--help"; "runbook"; "--debug"].
Proof.
  assert (Hout : ∀ ws, parse modern (Outside (λ _, None) (λ _, true) (λ _, true)) ws ≠ Usage → ¬ led_to_usage modern ws).
  { intros ws Hp H. by apply Hp, parse_usage. }
  assert (Hin : ∀ ws, parse modern (Outside (λ _, None) (λ _, true) (λ _, true)) ws = Usage → led_to_usage modern ws).
  { intros ws Hp. by eapply parse_usage. }
  unfold asks_usage. split_and!.
  - simpl. eapply shows_read; [by apply reads_plain, plain_iff|]. eapply shows_command; [constructor|].
    eapply shows_read; [by apply (reads_eq modern _ "debug" "x"), index_byte_None|].
    eapply (shows_valued _ _ _ _ _ "debug" None); [by apply (bool_decide_unpack _)|by apply value_here|].
    eapply shows_read; [by apply reads_plain, plain_iff|]. eapply shows_command; [constructor|].
    eapply shows_read; [by apply reads_plain, plain_iff|]. apply shows_arg.
    eapply shows_read; [by apply (reads_name modern _ "no-help"); [|apply index_byte_None]|]. apply shows_no_help, shows_helped.
  - simpl. assert (H : ∀ n l, (n, Some l) ∈ [("quiet", Some "q"%char); ("verbose", Some "v"%char)] →
      (n, Some l) ∈ switches modern Top) by by destruct modern.
    eapply shows_read; [apply (reads_cluster modern Top "verbose" "v"%char "q"); [done|]|].
    { apply H. by apply (bool_decide_unpack _). }
    eapply shows_switch_letter; [apply (H "verbose"); by apply (bool_decide_unpack _)|].
    eapply shows_read; [by apply reads_letter|].
    eapply shows_switch_letter; [apply (H "quiet"); by apply (bool_decide_unpack _)|]. apply shows_end.
  - apply Hout. by destruct modern.
  - apply Hout. by destruct modern.
  - apply Hin. by destruct modern.
  - apply Hin. by destruct modern.
Qed.
(** A line with --help in it may be refused, even if --help is its first word. *)
Theorem help_enough_refuted modern o complaint run :
  ¬ ∀ ws, e_status (main modern o complaint run ("--help" :: ws)) = 0.
Proof.
  intros H. specialize (H ["bogus"]). unfold main in H.
  assert (parse modern o ["--help"; "bogus"] = Refused) as E by by destruct modern.
  by rewrite E in H.
Qed.
Print Assumptions help_enough_refuted.
Theorem errors_to_stderr_refuted modern o complaint :
  ¬ ∀ run ws, e_status (main modern o complaint run ws) = 1 → ∃ m, (Stderr, m) ∈ e_says (main modern o complaint run ws).
Proof.
  intros H. destruct (H (λ _, None) ["plng"]) as [m Hm].
  - by destruct modern.
  - destruct modern; apply elem_of_list_singleton in Hm; done.
Qed.
Print Assumptions errors_to_stderr_refuted.

(** C122: the port that is used is the number that was written: decimal, or with the
    prefixes of Go's literals in base 2, 8 or 16, and with their underscores; and a number above 65535, or
    something that is no number, is refused. *)
Theorem port_as_written modern o complaint run ws i s :
  parse_uint o = port_number → says modern Top (Raw <$> ws) i [] CPing → ("port", s) ∈ i →
  match e_ran (main modern o complaint run ws) with
  | Some r => ∃ c, q_command r = Ping c ∧ number_text s (port c) ∧ 0 ≤ port c ≤ 65535
  | None => True
  end ∧
  ((∀ n, number_text s n → 65535 < n) → e_ran (main modern o complaint run ws) = None ∧
    e_status (main modern o complaint run ws) = 1).
Proof.
  intros Ho Hs Hin.
  destruct (read_complete modern ws i [] CPing Hs eq_refl) as (es & Hr & Hi & Hfi & Hfa). subst i.
  assert (Hmain : match e_ran (main modern o complaint run ws) with
    | Some r => ∃ c, q_command r = Ping c ∧ number_text s (port c) ∧ 0 ≤ port c ≤ 65535
    | None => e_status (main modern o complaint run ws) = 1
    end).
  { unfold main, parse. unfold read in Hr. rewrite Hr, defaults_set. cbn [mbind option_bind].
    destruct (set_values o [] es (base_vars CPing es)) as [v|] eqn:Hv; [|done].
    assert (Hc : connection_is o (items es) (connection_of v "ping") ∧ (times (items es) "port" ≤ 1)%nat).
    { assert (Hf : fits o CPing (items es) (file_items es).*2 (request_of CPing v)).
      { apply (values_fit modern o CPing es v (Raw <$> ws)); [done| | |done].
        - by rewrite Hfi.
        - right. by rewrite Hfi. }
      destruct Hf as (Ht & _ & _ & Hc). split; [by inversion Hc|by apply Ht]. }
    assert (Hport : number_text s (port (connection_of v "ping")) ∧ 0 ≤ port (connection_of v "ping") ≤ 65535).
    { destruct Hc as [(_ & [(s' & Hin' & Hn)|[Ht _]] & _) Honce].
      - assert (s' = s) as -> by by eapply times_unique. rewrite Ho in Hn.
        split; [by apply port_number_spec|by eapply port_range].
      - apply times_in in Hin. lia. }
    destruct (run (request_of CPing v)); simpl; by eexists. }
  split.
  - by destruct (e_ran _).
  - intros Hbig. destruct (e_ran _) as [r|]; [|done].
    destruct Hmain as (c & _ & Hn & Hle). specialize (Hbig _ Hn). lia.
Qed.
Print Assumptions port_as_written.
(** The numbers exactly. *)
Theorem port_numbers s n : port_number s = Some n ↔ number_text s n ∧ n ≤ 65535.
Proof. apply port_number_spec. Qed.
Print Assumptions port_numbers.
(** A decimal number with a leading zero is not read as such. *)
Theorem leading_zero_refuted :
  ∃ s n m, numeral 10 s n ∧ port_number s = Some m ∧ m ≠ n.
Proof.
  exists "010", 10, 8. split_and!; [|done|done].
  apply (numeral_more 10 "01" 1 "0" 0); [|by left|done].
  apply (numeral_more 10 "0" 0 "1" 1); [|by left|done].
  apply numeral_one; [by left|done].
Qed.
Print Assumptions leading_zero_refuted.

(** Examples. *)
Lemma reads_flag modern p n ws : n ≠ "" → index_byte "="%char n = None → reads modern p (Raw ("--" +:+ n) :: ws) (Name n :: ws).
Proof. intros H He. apply reads_name; [done|by apply index_byte_None]. Qed.
Example asks_example :
  asks true all_well ["-vv"; "ping"; "-hdb.example.com"; "--port=5433"; "-U"; "ann"]
    (Request (Ping (Connection "db.example.com" 5433 "" "ann" "")) None 3).
Proof.
  exists CPing, [("verbose", "true"); ("verbose", "true"); ("host", "db.example.com"); ("port", "5433"); ("username", "ann")], [].
  split.
  - eapply says_read; [by apply (reads_cluster _ _ "verbose" "v"); [|right; left]|].
    eapply says_switch_letter; [right; by left|].
    eapply says_read; [by apply (reads_letter _ _ "v")|].
    eapply says_switch_letter; [right; by left|].
    eapply says_read; [apply reads_plain; split; intros [? ?]; done|].
    eapply says_command; [apply leads_ping|].
    eapply says_read; [by apply (reads_joined _ _ "host" "h"); [|left]|].
    eapply says_valued_letter; [by left|by apply value_here|].
    eapply says_read; [apply (reads_eq _ _ "port" "5433"); by apply index_byte_None|].
    eapply says_valued; [right; by left|by apply value_here|].
    eapply says_read; [by apply (reads_letter _ _ "U")|].
    eapply says_valued_letter; [do 3 right; by left| |by apply says_end].
    eapply value_read; [apply reads_plain; split; intros [? ?]; done|by apply value_here].
  - split_and!.
    + intros n Hq Hv. unfold times. simpl. repeat (rewrite filter_cons; simpl; case_decide; simplify_eq); simpl; lia.
    + done.
    + done.
    + constructor. split_and!.
      * left. do 2 right. by left.
      * left. exists "5433". split; [do 3 right; by left|done].
      * right. done.
      * left. do 4 right. by left.
      * right. done.
Qed.
(** The repository's own cases (internal/cli/cli_internal_test.go:12-60) and some
    more. *)
Example main_example :
  let ran ws := e_ran (main true all_well "bad" (λ _, None) ws) in
  ran ["ping"; "--host"; "ssh.example.com"; "--port"; "2222"; "--dbname"; "pgutil"; "--username"; "jsansen"] =
    Some (Request (Ping (Connection "ssh.example.com" 2222 "pgutil" "jsansen" "")) None 1) ∧
  ran ["runbook"; "book.jsonnet"] = Some (Request (BookRun "book.jsonnet") None 1) ∧
  ran ["runbook"; "ls"; "book.jsonnet"; "-q"] = Some (Request (BookList "book.jsonnet") None 0) ∧
  ran ["runbook"; "eval"; "book.jsonnet"; "--debug=log"] =
    Some (Request (BookEval "book.jsonnet" "auto" "") (Some "log") 1) ∧
  ran ["runbook"; "--"; "--strange--"] = Some (Request (BookRun "--strange--") None 1) ∧
  (* refused: an unknown flag, a second --host, a bad port, a lone "-" as value *)
  main true all_well "bad" (λ _, None) ["ping"; "--hots"; "x"] = Ending 1 None [(Stdout, "bad")] ∧
  main true all_well "bad" (λ _, None) ["ping"; "-hx"; "-hy"] = Ending 1 None [(Stdout, "bad")] ∧
  main true all_well "bad" (λ _, None) ["ping"; "-p65536"] = Ending 1 None [(Stdout, "bad")] ∧
  main true all_well "bad" (λ _, None) ["runbook"; "dot"; "-o"; "-"; "b"] = Ending 1 None [(Stdout, "bad")] ∧
  (* the usage *)
  main true all_well "bad" (λ _, None) [] = Ending 0 None [] ∧
  main true all_well "bad" (λ _, None) ["ping"; "--help"] = Ending 0 None [].
Proof. cbv zeta. split_and!; vm_compute; reflexivity. Qed.
Example port_example : port_number "5432" = Some 5432 ∧ port_number "0x1538" = Some 5432 ∧ port_number "65536" = None ∧
  port_number "0x_15_38" = Some 5432 ∧ port_number "5__432" = None.
Proof. done. Qed.
