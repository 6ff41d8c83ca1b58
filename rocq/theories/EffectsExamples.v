(** A runbook and a run of it, for the examples of EffectsProps. *)
From Coq Require Import String Ascii.
From stdpp Require Import gmap list strings numbers relations.
From Verif Require Import PgModel PgSpec GoBase GoStrings GoUtf8 ShModel ShSpec DemoModel DemoSpec JsonModel ParserModel
  ParserSpec ParserProofs JsonParserModel JsonSpec JsonProofs JsonParserProofs DagModel SchedModel SchedSpec RunnerModel
  RunnerSpec RunnerInvA RunnerInvB RunnerInvT RunnerProofs RunnerLive RunnerExamples ParserProps JsonProps
  EffectsModel EffectsSpec EffectsProofs.
Local Open Scope Z_scope.

(** ** A runbook for the examples *)
Definition ex_doc : json := JObj
  [("targets", JObj
     [("db", JObj [("class", JStr "pg"); ("config", JObj [("host", JStr "h"); ("sslmode", JStr "require"); ("connect_retries", JNum "0")])]);
      ("sh", JObj [("class", JStr "sh"); ("config", JObj [("env", JObj [("allow", JArr [JStr "HOME"]); ("set", JObj [("A", JStr "1")])])])]);
      ("demo", JObj [("class", JStr "demo"); ("config", JObj [("string", JStr "abc")])])]);
   ("tasks", JObj
     [("one", JObj [("target", JStr "sh"); ("config", JObj [("args", JArr [JStr "ls"; JStr "-l"])])]);
      ("two", JObj [("after", JArr [JStr "one"]); ("target", JStr "db/exec"); ("message", JStr "hi"); ("config", JObj [("sql", JStr "select 1")])]);
      ("d1", JObj [("target", JStr "demo/echo")]);
      ("d2", JObj [("after", JArr [JStr "d1"]); ("target", JStr "demo/rev")]);
      ("d3", JObj [("after", JArr [JStr "d2"; JStr "two"]); ("target", JStr "demo/echo")])])].
Definition ex_book : book :=
  match parse_json ex_doc ["sh"; "db"; "demo"] ["one"; "two"; "d1"; "d2"; "d3"] with Ok b => b | _ => Book ∅ ∅ end.
Definition ex_libpq : config := Config "" 5432 "u" "" "" None false None.
Definition ex_host : host := Host ["HOME=/r"; "X=1"] (Some ex_libpq)
  (λ _ _, true) (λ _, None) "/b" (λ q, if decide (q = "sh") then ["A"] else []) (λ _, []).
Definition ex_trace : list event :=
  [EvStart "db"; EvStart "demo"; EvStart "sh"; EvHandle "demo" "d1"; EvHandled "demo" "d1" None;
   EvHandle "demo" "d2"; EvHandled "demo" "d2" None; EvHandle "sh" "one"; EvHandled "sh" "one" None;
   EvHandle "db" "two"; EvHandled "db" "two" None; EvHandle "demo" "d3"; EvHandled "demo" "d3" None;
   EvStop "db"; EvStop "demo"; EvStop "sh"; EvReturn None].
Definition ex_secure : config := Config "h" 5432 "u" "" "" (Some (Tls "" true)) false None.
Definition line (s : string) : string := s +:+ String (of_byte 10) "".
Example ex_runs : ∃ st, executes (run_book ex_book ex_host) st ex_trace ∧ stuck (run_book ex_book ex_host) st.
Proof. apply (ends_sound _ ["db"; "demo"; "sh"]); [apply range_of_check; by vm_compute|by vm_compute]. Qed.
Example ex_effects : effects ex_book ex_host ex_trace =
  [Dials "db" ex_secure 0; Does "demo" "d1" (Prints (line "abc"));
   Does "sh" "one" (Runs ["ls"; "-l"] "/b" ["HOME=/r"; "A=1"]);
   Does "db" "two" (Says "hi"); Does "db" "two" (Sends "select 1");
   Does "demo" "d3" (Prints (line "cba")); Closes "db"].
Proof. by vm_compute. Qed.

Lemma all_entries {A} (m : gmap string A) (f : string → A → bool) :
  forallb (λ e, f e.1 e.2) (map_to_list m) = true → ∀ k x, m !! k = Some x → f k x = true.
Proof.
  rewrite forallb_forall. intros H k x Hk%elem_of_map_to_list. apply (H (k, x)). by apply elem_of_list_In.
Qed.
Ltac once_doc := split; [once_tac|]; intros m l Hm ->;
  assert (∀ x, (given_once x ∧ ∀ c, c ∈ vals x "Config" → given_once c ∧ ∀ e, e ∈ vals c "Env" → given_once e) → entry_given_once x) as Hent by
  (intros x [H1 H2]; split; [done|]; intros c Hc; apply gives_vals_setting in Hc; [|apply (bool_decide_unpack _); by vm_compute];
    destruct (H2 c Hc) as [H3 H4]; split; [done|]; intros e He; apply H4; apply gives_vals_setting in He; [done|];
    apply (bool_decide_unpack _); by vm_compute);
  assert (∀ x xs (P : json → Prop), P x → (∀ y, y ∈ xs → P y) → ∀ y, y ∈ x :: xs → P y) as Hcons
    by (intros x xs P H1 H2 y [->|Hy]%elem_of_cons; [done|by apply H2]);
  assert (∀ P : json → Prop, ∀ y, y ∈ @nil json → P y) as Hnil by (by intros P y ?%elem_of_nil);
  destruct Hm as [Hm|Hm]; vals_tac Hm; injection Hm as <-; (split; [apply (bool_decide_unpack _); by vm_compute|]);
    intros k x Hx; apply elem_of_list_In in Hx; cbn in Hx; destruct_or?; try done;
    injection Hx as <- <-; apply Hent; (split; [once_tac|]);
    match goal with |- ∀ c, c ∈ ?l → _ => let l' := eval vm_compute in l in change l with l' end;
    first [apply Hnil|apply Hcons; try apply Hnil; (split; [once_tac|]);
      match goal with |- ∀ c, c ∈ ?l → _ => let l' := eval vm_compute in l in change l with l' end;
      repeat apply Hcons; first [once_tac|apply Hnil]].
Ltac order_doc := split; [intros l Hl; vals_tac Hl; injection Hl as <-; apply (bool_decide_unpack _); by vm_compute|];
  intros H; edestruct H; apply gives_vals_setting; try (apply (bool_decide_unpack _); by vm_compute);
  apply elem_of_list_In; vm_compute; by left.
Lemma ex_parsed : parse_json ex_doc ["sh"; "db"; "demo"] ["one"; "two"; "d1"; "d2"; "d3"] = Ok ex_book.
Proof. unfold ex_book. assert (∃ b, parse_json ex_doc ["sh"; "db"; "demo"] ["one"; "two"; "d1"; "d2"; "d3"] = Ok b) as [b ->]; [|done].
  assert (match parse_json ex_doc ["sh"; "db"; "demo"] ["one"; "two"; "d1"; "d2"; "d3"] with Ok _ => True | _ => False end) as H by (by vm_compute).
  destruct (parse_json _ _ _) as [b| |]; [by exists b|done..].
Qed.
Lemma ex_good_book : good_book ex_book.
Proof.
  apply (json_well_formed ex_doc ["sh"; "db"; "demo"] ["one"; "two"; "d1"; "d2"; "d3"]);
    [once_doc|order_doc|order_doc|apply ex_parsed].
Qed.
Lemma ex_ok_host : ok_host ex_book ex_host.
Proof.
  split.
  - intros q n e Hq. pose proof (all_entries (bk_targets ex_book) (λ q x, match x with ShTarget _ e =>
      bool_decide (h_order_target ex_host q ≡ₚ elements (dom (e_set e))) | _ => true end) ltac:(by vm_compute) _ _ Hq) as H.
    by apply bool_decide_eq_true in H.
  - intros t k args e Hk Hc. pose proof (all_entries (bk_tasks ex_book) (λ t k, match b_config k with ShExec _ e =>
      bool_decide (h_order_task ex_host t ≡ₚ elements (dom (e_set e))) | _ => true end) ltac:(by vm_compute) _ _ Hk) as H.
    simpl in H. rewrite Hc in H. by apply bool_decide_eq_true in H.
Qed.
Lemma ex_short : short_sleeps ex_book.
Proof.
  intros t k n Hk Hc. pose proof (all_entries (bk_tasks ex_book) (λ t k, match b_config k with DemoConfig (DemoModel.Sleep _) => false | _ => true end)
    ltac:(by vm_compute) _ _ Hk) as H. simpl in H. by rewrite Hc in H.
Qed.
Lemma ex_well : all_well ex_book ex_host.
Proof.
  split; [done|]. split; [|split; [done|]].
  - intros q s Hq. pose proof (all_entries (bk_targets ex_book) (λ q x, match x with PgTarget s =>
      bool_decide (0 ≤ pgs_retries s) && bool_decide (pgs_sslmode s = "require") | _ => true end) ltac:(by vm_compute) _ _ Hq) as H.
    simpl in H. apply andb_true_iff in H as [H1%bool_decide_eq_true H2%bool_decide_eq_true].
    split; [done|]. split; [done|]. right. rewrite H2. exists "", [AnyCertificate]. constructor.
  - intros t k Hk Hc. pose proof (all_entries (bk_tasks ex_book) (λ t k, match b_config k with DemoConfig Fail => false | _ => true end)
      ltac:(by vm_compute) _ _ Hk) as H. simpl in H. by rewrite Hc in H.
Qed.
Lemma ex_tries : tries_to_connect ex_book.
Proof. intros q s Hq. by apply ex_well in Hq as []. Qed.
Definition ex_book_rank (t : string) : nat :=
  if decide (t = "d3") then 2 else if decide (t = "d2" ∨ t = "two") then 1 else 0.
Lemma ex_book_ordered : well_ordered (order_of_book ex_book).
Proof.
  apply (well_ordered_rank _ ex_book_rank). intros t m (v & Hv & Hm).
  pose proof (all_entries (order_of_book ex_book) (λ t v, forallb (λ m, bool_decide (m ∈ dom (order_of_book ex_book)) &&
    bool_decide (ex_book_rank m < ex_book_rank t)%nat) (t_after v)) ltac:(by vm_compute) _ _ Hv) as H.
  cbv beta in H. rewrite forallb_forall in H. apply elem_of_list_In in Hm.
  apply H, andb_true_iff in Hm as [?%bool_decide_eq_true ?%bool_decide_eq_true]. done.
Qed.
