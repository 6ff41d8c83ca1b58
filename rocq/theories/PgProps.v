(** The properties of internal/pg. *)
From Coq Require Import String Ascii.
From stdpp Require Import gmap list list_numbers strings numbers sorting.
From Verif Require Import GoBase GoBaseProofs GoStrings GoStringsProofs GoUtf8 DdlModel DdlSpec DdlProofs MachineModel ParseModel.
From Verif Require Import ParseGrammar ParseSpec ParseEquiv ParseCheck ParseCheckEquiv ParseFacts ParseCharset PgModel PgSpec PgProofs.
Local Open Scope Z_scope.

(** C48.  [tries] stands for what pgx does with the configuration. *)
Theorem ssl_mode o e :
  (** the attempts are exactly those the mode allows *)
  (∀ m c, mode_in_force o e m → configure o (Some e) = Some c →
    allowed (c_host c) m (channel_of <$> tries c)) ∧
  (∀ m c, mode_in_force o e m → configure o (Some e) = Some c → m = "require" ∨ m = "verify-full" →
    Plain ∉ (channel_of <$> tries c)) ∧
  (∀ m c, mode_in_force o e m → configure o (Some e) = Some c → m = "verify-full" →
    ∀ ch, ch ∈ (channel_of <$> tries c) → ch = ValidFor (c_host c)) ∧
  (** an unknown mode is an error, whatever the environment; a known one is not *)
  (∀ m, mode_in_force o e m → (∀ h l, ¬ allowed h m l) → configure o (Some e) = None) ∧
  (∀ m h l, mode_in_force o e m → allowed h m l → ∃ c, configure o (Some e) = Some c) ∧
  (** no mode and no password: the environment decides *)
  (o_sslmode o = "" → o_password o = "" → c_password e = "" →
    ∃ c, configure o (Some e) = Some c ∧ tries c = tries e).
Proof.
  assert (∀ m c, mode_in_force o e m → configure o (Some e) = Some c →
    allowed (c_host c) m (channel_of <$> tries c)) as H1.
  { intros m c Hm Hc. rewrite (configure_mode _ _ _ Hm) in Hc.
    pose proof (apply_ssl_mode_spec (Config (first_of_string (o_host o) (c_host e)) (first_of_uint16 (o_port o) (c_port e))
        (first_of_string (o_username o) (c_user e)) (first_of_string (o_password o) (c_password e))
        (first_of_string (o_database o) (c_database e)) (c_tls e) (c_use_fallback e) (c_fallback_tls e)) m) as H.
    rewrite Hc in H. apply H. }
  split; [done|]. split.
  { intros m c Hm Hc H. specialize (H1 m c Hm Hc). revert H1. generalize (channel_of <$> tries c). intros l H1.
    destruct H as [-> | ->]; inversion H1; by intros [?|[]%elem_of_nil]%elem_of_cons. }
  split.
  { intros m c Hm Hc -> ch. specialize (H1 _ c Hm Hc). revert H1. generalize (channel_of <$> tries c). intros l H1.
    inversion H1. by intros [->|[]%elem_of_nil]%elem_of_cons. }
  split.
  { intros m Hm Hn. destruct (configure o (Some e)) as [c|]; [|done]. by destruct (Hn _ _ (H1 m c Hm eq_refl)). }
  split.
  { intros m h l Hm Ha. rewrite (configure_mode _ _ _ Hm).
    match goal with |- context [apply_ssl_mode ?c m] => destruct (apply_ssl_mode_known c m h l Ha) as [c' ->] end. by exists c'. }
  intros Hs Hp He. destruct (configure_none o e Hs Hp He) as (c & Hc & E1 & E2 & E3). exists c. split; [done|].
  unfold tries. by rewrite E1, E2, E3.
Qed.
Print Assumptions ssl_mode.
Definition env_example : config :=
  Config "localhost" 5432 "me" "" "db" (Some (Tls "" true)) true None.
Example ssl_mode_example :
  mode_in_force (Options "db.example.org" 0 "" "" "secret" "" 0) env_example "verify-full" ∧
  mode_in_force (Options "" 0 "require" "" "" "" 0) env_example "require" ∧
  mode_in_force (Options "" 0 "REQUIRE" "" "" "" 0) env_example "REQUIRE" ∧ (∀ h l, ¬ allowed h "REQUIRE" l) ∧
  configure (Options "db.example.org" 0 "" "" "secret" "" 0) (Some env_example) =
    Some (Config "db.example.org" 5432 "me" "secret" "db" (Some (Tls "db.example.org" false)) false None).
Proof.
  split; [right; split_and!; [done|by left|done]|]. split; [left; done|]. split; [left; done|].
  split; [|done]. intros h l H. inversion H.
Qed.

(** C49 *)
Theorem options_precedence o e c : configure o (Some e) = Some c →
  (o_host o ≠ "" → c_host c = o_host o) ∧ (o_host o = "" → c_host c = c_host e) ∧
  (o_port o ≠ 0 → c_port c = o_port o) ∧ (o_port o = 0 → c_port c = c_port e) ∧
  (o_username o ≠ "" → c_user c = o_username o) ∧ (o_username o = "" → c_user c = c_user e) ∧
  (o_password o ≠ "" → c_password c = o_password o) ∧ (o_password o = "" → c_password c = c_password e) ∧
  (o_database o ≠ "" → c_database c = o_database o) ∧ (o_database o = "" → c_database c = c_database e).
Proof.
  intros (-> & -> & -> & -> & ->)%configure_fields.
  pose proof (first_of_string_spec (o_host o) (c_host e)). pose proof (first_of_uint16_spec (o_port o) (c_port e)).
  pose proof (first_of_string_spec (o_username o) (c_user e)).
  pose proof (first_of_string_spec (o_password o) (c_password e)).
  pose proof (first_of_string_spec (o_database o) (c_database e)). tauto.
Qed.
Print Assumptions options_precedence.
Example options_precedence_example :
  configure (Options "" 6543 "prefer" "you" "" "" 0) (Some env_example) =
    Some (Config "localhost" 6543 "you" "" "db" (Some (Tls "" true)) true None).
Proof. done. Qed.

(** C50.  What New does; missing: everything it should do, see below. *)
Theorem connect_partial ok limit :
  (** all attempts are made; the last one decides *)
  attempts (connect ok limit).1 = seqZ 0 (limit + 1) ∧
  (0 ≤ limit → (connect ok limit).2 = if ok limit then Connected limit else NotConnected limit) ∧
  (limit < 0 → connect ok limit = ([], NoConnection)) ∧
  (** there is a wait after every failure but the last, and nowhere else *)
  ∃ w, (∀ i, 0 ≤ i < limit → ok i = false → wait_after ok i (w i)) ∧
    (connect ok limit).1 =
      mjoin ((λ i, Attempt i :: if ok i || bool_decide (i = limit) then [] else [Sleep (w i)]) <$> seqZ 0 (limit + 1)).
Proof.
  destruct (connect_spec ok limit) as (w & Hw & ->). cbn [fst snd]. split; [apply attempts_blocks|].
  split; [intros ?; by rewrite decide_False by lia|]. split.
  - intros ?. rewrite decide_True by done. by rewrite seqZ_nil by lia.
  - by exists w.
Qed.
Print Assumptions connect_partial.
(** With at least one retry: a success is forgotten; a second connection is opened
    although the first succeeded; a negative count gives neither connection nor
    error; and the waits do not grow: the fourth is no wait at all. *)
Theorem connect_refuted :
  (∀ limit, 0 < limit → ∃ ok i, 0 ≤ i < limit ∧ ok i = true ∧ (connect ok limit).2 = NotConnected limit) ∧
  (∀ limit, 0 < limit → ∃ ok, ok 0 = true ∧ (connect ok limit).2 = Connected limit ∧ 1 ∈ attempts (connect ok limit).1) ∧
  (∀ ok limit, limit < 0 → (connect ok limit).2 = NoConnection) ∧
  waits (connect (λ _, false) 9).1 = [100; 200; 300; 0; 100; 600; 700; 400; 500].
Proof.
  split; [|split; [|split]].
  - intros limit Hl. exists (λ i, bool_decide (i < limit)), 0. split; [lia|]. split; [by apply bool_decide_true|].
    destruct (connect_partial (λ i, bool_decide (i < limit)) limit) as (_ & H & _). rewrite H by lia.
    by rewrite bool_decide_false by lia.
  - intros limit Hl. exists (λ _, true). split; [done|].
    destruct (connect_partial (λ _, true) limit) as (H1 & H2 & _). rewrite H2 by lia. split; [done|]. rewrite H1.
    apply elem_of_seqZ. lia.
  - intros ok limit Hl. destruct (connect_partial ok limit) as (_ & _ & H & _). by rewrite H by lia.
  - by vm_compute.
Qed.
Print Assumptions connect_refuted.

(** C51.  Missing: the case that fetching fails half way (see below). *)
Theorem listing_partial :
  lists schema_entry list_schemas ∧ lists table_entry list_tables ∧ lists column_entry list_columns ∧
  lists function_entry list_functions ∧ lists check_entry list_checks ∧
  lists foreign_key_entry list_foreign_keys ∧
  (∀ schema, lists (index_entry schema) (list_indexes schema)) ∧
  (∀ schema, lists (trigger_entry schema) (list_triggers schema)) ∧
  (∀ old details, lists sequence_entry (λ a, list_sequences (Row true) a old details)) ∧
  (∀ new details, lists (old_sequence_entry details) (λ a, list_sequences (Row false) new a details)).
Proof.
  split; [apply list_schemas_ok|]. split; [apply list_tables_ok|]. split; [apply list_columns_ok|].
  split; [apply list_functions_ok|]. split; [apply list_checks_ok|]. split; [apply list_foreign_keys_ok|].
  split; [apply list_indexes_ok|]. split; [apply list_triggers_ok|]. split; intros ? details.
  - apply new_sequences_ok.
  - apply (old_sequences_details details).
Qed.
Print Assumptions listing_partial.
(** A failure while fetching goes unnoticed, wherever it happens: the entries up to
    there are returned as if they were all. *)
Theorem listing_refuted (first rest : list table_row) :
  ∃ a l, answers (first ++ rest) a ∧ list_tables a = Got l ∧ Forall2 table_entry first l.
Proof.
  assert (∀ r t, table_of r = Parsed t ↔ table_entry r t) as Hc.
  { intros r [n s o c cs cks fks]. unfold table_of, table_entry. cbn. split.
    - intros [= <- <- <- <- <- <- <-]. split_and!; try apply text_nullable; done.
    - intros (? & ? & ? & ? & ? & ? & ?). texts. by subst. }
  destruct (collect_cut table_of table_entry Hc (λ _, ltac:(done)) first) as (l & H1 & H2).
  { apply Forall_forall. intros r _. destruct (table_of r) as [t| |] eqn:E; [|done|done]. exists t. by apply Hc. }
  eexists _, l. split; [|done]. eapply answers_cut; [done|]. by apply delivers_all.
Qed.
Print Assumptions listing_refuted.
Definition fk_rows : list named_def :=
  [NamedDef "a_fk" "FOREIGN KEY (a) REFERENCES t(b)";
   NamedDef "c_fk" "FOREIGN KEY (c, d) REFERENCES u(e, f) ON DELETE CASCADE"].
Example listing_example :
  arrives fk_rows (Rows (Some <$> fk_rows) false) ∧
  answers fk_rows (Rows (Some <$> fk_rows) false) ∧ whole (Rows (Some <$> fk_rows) false) ∧
  list_foreign_keys (Rows (Some <$> fk_rows) false) =
    Got [ForeignKey "a_fk" "t" ["a"] ["b"] "" "" "" false false;
         ForeignKey "c_fk" "u" ["c"; "d"] ["e"; "f"] "" "CASCADE" "" false false] ∧
  list_foreign_keys (Rows [Some (NamedDef "a_fk" "FOREIGN KEY (a) REFERENCES t(b)"); None] false) = Failed.
Proof.
  split; [done|]. split; [constructor; by apply delivers_all|]. split; [done|]. split; by vm_compute.
Qed.

(** C53 *)
Theorem search_path_split s t :
  ∃ p, list_parameters (Row s) (Row t) = Got p ∧ String.concat "," (pa_search_path p) = s ∧
    Forall (λ x, ¬ has_byte "," x) (pa_search_path p) ∧ pa_timezone p = t.
Proof.
  exists (Settings (split_byte "," s) t). split; [done|]. cbn. split; [apply split_byte_join|].
  split; [apply split_byte_none|done].
Qed.
Print Assumptions search_path_split.
(** The entries are not names of schemas: blanks and quotes remain. *)
Example search_path_example :
  list_parameters (Row (String dquote "$user" +:+ String dquote ", public")) (Row "UTC") =
    Got (Settings [String dquote "$user" +:+ String dquote ""; " public"] "UTC").
Proof. by vm_compute. Qed.

(** C54.  (When fetching does not fail half way, as in C51.) *)
Theorem storage_listing pf held a :
  answers held a → whole a →
  (** success: everything arrived, every option has a name and a valid value, and
      for every parameter the last option counts *)
  (∀ p, list_storage pf a = Got p ↔
    arrives held a ∧ ∃ l, Forall2 option_text held l ∧ Forall (applicable pf) l ∧ applied pf l p) ∧
  (** otherwise an error *)
  (list_storage pf a = Failed ∨ ∃ p, list_storage pf a = Got p).
Proof. apply list_storage_ok. Qed.
Print Assumptions storage_listing.
Example storage_listing_example :
  option_text "fillfactor=70" ("fillfactor", "70") ∧ option_text "a=b=c" ("a", "b=c") ∧ option_text "a" ("a", "") ∧
  applicable (λ _, ("", false)) ("fillfactor", "70") ∧ ¬ applicable (λ _, ("", false)) ("fillfactor", "7x") ∧
  list_storage (λ _, ("", false)) (Rows [Some "fillfactor=70"; Some "fillfactor=7x"] false) = Failed.
Proof.
  split; [by apply split_option_spec|]. split; [by apply split_option_spec|]. split; [by apply split_option_spec|].
  split; [by apply (applicable_ok _ ∅)|]. split; [|done]. by intros ?%(applicable_ok _ ∅).
Qed.

(** C66.  All or nothing, when no answer is cut. *)
Theorem inspect_all_or_nothing srt pf o ct sv :
  ok_sorter srt → serves ct sv →
  (inspect srt pf o sv = Failed ∨ ∃ db, inspect srt pf o sv = Got db) ∧
  (∀ db, inspect srt pf o sv = Got db → described pf ct (sv_details sv) db) ∧
  (** it does succeed if all rows arrive and all definitions can be read *)
  (serves_all ct sv → readable pf ct → ∃ db, inspect srt pf o sv = Got db).
Proof.
  intros Hsrt Hs. split; [apply inspect_total|]. split; [|intros; by eapply inspect_complete].
  intros db Hdb. by destruct (inspect_got srt pf o ct sv Hsrt Hs db Hdb) as [? _].
Qed.
Print Assumptions inspect_all_or_nothing.

(** C67.  One name that needs quotes, a schema in front of a name, or a constraint
    that is just DEFERRABLE: nothing of the database is described. *)
Theorem inspect_blocked srt pf o ct sv r s t :
  ok_sorter srt → serves ct sv → r ∈ ct_tables ct → text (tr_schema r) s → text (tr_name r) t →
  (∃ d c, d ∈ ct_foreign_keys ct s t ∧ has_byte c (nd_def d) ∧ ¬ plain_byte c) ∨
  (∃ d c, d ∈ ct_triggers ct s t ∧ has_byte c (nd_def d) ∧ ¬ plain_byte c) ∨
  (∃ d x c y, d ∈ ct_indexes ct s t ∧ xr_def d = x +:+ String c y ∧ ¬ has_byte "(" x ∧ c ≠ "("%char ∧ ¬ word_byte c) ∨
  (∃ d x k, (d ∈ ct_foreign_keys ct s t ∨ d ∈ ct_checks ct s t) ∧ nd_def d = x +:+ k ∧ spelled "DEFERRABLE" k ∧
    ¬ ∃ p n w, x = p +:+ n +:+ w ∧ spelled "NOT" n ∧ ws w ()) →
  inspect srt pf o sv = Failed.
Proof.
  intros Hsrt Hs Hr Hrs Hrt Hbad. destruct (inspect_total srt pf o sv) as [|[db Hdb]]; [done|]. exfalso.
  destruct (inspect_got srt pf o ct sv Hsrt Hs db Hdb) as [(_ & _ & _ & _ & _ & Ht & (ixs & Hi & _) & (tgs & Hg & _)) _].
  apply elem_of_list_lookup in Hr as [n Hr].
  destruct (Forall2_lookup_l _ _ _ _ _ Ht Hr) as (t' & Ht' & (He & _ & Hck & Hfk & _)).
  destruct He as (E1 & E2 & _). cbn in E1, E2.
  assert (tb_schema t'.1 = s) as Es by by eapply text_unique. assert (tb_name t'.1 = t) as Et by by eapply text_unique.
  destruct (Forall2_lookup_l _ _ _ _ _ Hi Ht') as (li & _ & Hli). destruct (Forall2_lookup_l _ _ _ _ _ Hg Ht') as (lg & _ & Hlg).
  rewrite Es, Et in *.
  assert (∀ R A (entry : R → A → Prop) rows l d, Forall2 entry rows l → d ∈ rows → ∃ a, entry d a) as Hin.
  { intros R A entry rows l d H [k Hk]%elem_of_list_lookup. destruct (Forall2_lookup_l _ _ _ _ _ H Hk) as (a & _ & Ha). by exists a. }
  destruct Hbad as [(d & c & Hd & Hc & Hn)|[(d & c & Hd & Hc & Hn)|[(d & x & c & y & Hd & Hx & Hp & Hc & Hn)|(d & x & k & Hd & Hx & Hk & Hn)]]].
  - destruct (Hin _ _ _ _ _ _ Hfk Hd) as (fk & _ & H%parse_foreign_key_spec). by eapply Hn, foreign_key_bytes.
  - destruct (Hin _ _ _ _ _ _ Hlg Hd) as (g & _ & H%parse_trigger_spec). by eapply Hn, trigger_bytes.
  - destruct (Hin _ _ _ _ _ _ Hli Hd) as (i & _ & _ & H%parse_index_spec). by eapply Hn, index_bytes.
  - destruct Hd as [Hd|Hd].
    + destruct (Hin _ _ _ _ _ _ Hfk Hd) as (fk & _ & H%parse_foreign_key_spec). rewrite Hx in H.
      apply Hn. by eapply foreign_key_ends.
    + destruct (Hin _ _ _ _ _ _ Hck Hd) as (c & _ & H). rewrite Hx in H. apply Hn. by eapply check_ends.
Qed.
Print Assumptions inspect_blocked.

(** A small database for the examples. *)
Definition one_table : table_row := TableRow (Some "public") (Some "t") (Some "me") None.
Definition catalog_with (fks : list named_def) : catalog :=
  Catalog "public" "UTC" [SchemaRow (Some "public") (Some "me") None] [] true [] [] [one_table]
    (λ _ _, [ColumnRow "z" "integer" true None None; ColumnRow "a" "text" false (Some "''::text") None])
    (λ _ _, [NamedDef "c1" "CHECK (z > 0)"; NamedDef "c2" "CHECK (a > 0)"])
    (λ _ _, fks) (λ _ _, ["fillfactor=70"])
    (λ _ _, [IndexRow "z_index" false "CREATE INDEX z_index ON t USING btree (z)";
             IndexRow "a_index" false "CREATE INDEX a_index ON t USING btree (a)"])
    (λ _ _, []).
Definition server_of (ct : catalog) : server :=
  Server (Row (ct_search_path ct)) (Row (ct_timezone ct)) (Rows (Some <$> ct_schemas ct) false)
    (Rows (Some <$> ct_functions ct) false) (Row (ct_view ct)) (Rows (Some <$> ct_sequences ct) false)
    (Rows (Some <$> ct_old_sequences ct) false) (λ _, Row zero_details) (Rows (Some <$> ct_tables ct) false)
    (λ s t, Rows (Some <$> ct_columns ct s t) false) (λ s t, Rows (Some <$> ct_checks ct s t) false)
    (λ s t, Rows (Some <$> ct_foreign_keys ct s t) false) (λ s t, Rows (Some <$> ct_storage ct s t) false)
    (λ s t, Rows (Some <$> ct_indexes ct s t) false) (λ s t, Rows (Some <$> ct_triggers ct s t) false).
Lemma server_of_all ct : serves_all ct (server_of ct).
Proof. constructor; try done. intros x. by exists zero_details. Qed.
Definition no_floats : float_parser := λ _, ("", false).
Lemma catalog_readable fks :
  (∀ d, d ∈ fks → ∃ fk, parse_foreign_key (nd_def d) = Parsed fk) → readable no_floats (catalog_with fks).
Proof.
  intros Hf r s t _ _ _. split_and!.
  - intros d [->|[->|[]%elem_of_nil]%elem_of_cons]%elem_of_cons.
    + eexists (Check "c1" "z > 0" false false). split; [done|by vm_compute].
    + eexists (Check "c2" "a > 0" false false). split; [done|by vm_compute].
  - intros d Hd. destruct (Hf d Hd) as [fk Hfk]. exists (fk_set_name (nd_name d) fk).
    apply foreign_key_of_entry. unfold foreign_key_of. by rewrite Hfk.
  - intros d kv [->|[]%elem_of_nil]%elem_of_cons Hkv%split_option_spec. subst kv. by apply (applicable_ok _ ∅).
  - intros d [->|[->|[]%elem_of_nil]%elem_of_cons]%elem_of_cons.
    + eexists (Index s "t" "z_index" false false "btree" "" [IndexKey "z" "" "" false]). apply index_of_entry. by vm_compute.
    + eexists (Index s "t" "a_index" false false "btree" "" [IndexKey "a" "" "" false]). apply index_of_entry. by vm_compute.
  - by intros d []%elem_of_nil.
Qed.
Example inspect_example : ok_sorter (@insertion_sort) ∧ serves_all (catalog_with fk_rows) (server_of (catalog_with fk_rows)) ∧
  serves (catalog_with fk_rows) (server_of (catalog_with fk_rows)) ∧ readable no_floats (catalog_with fk_rows).
Proof.
  split; [apply insertion_sort_ok|]. split; [apply server_of_all|]. split; [apply serves_all_serves, server_of_all|].
  apply catalog_readable. intros d [->|[->|[]%elem_of_nil]%elem_of_cons]%elem_of_cons; eexists; by vm_compute.
Qed.
Example inspect_blocked_example :
  let d := NamedDef "f" ("FOREIGN KEY (" +:+ String dquote "Id" +:+ String dquote ") REFERENCES u(id)") in
  d ∈ ct_foreign_keys (catalog_with [d]) "public" "t" ∧ has_byte dquote (nd_def d) ∧ ¬ plain_byte dquote.
Proof.
  cbv zeta. split; [by left|]. split; [by eexists "FOREIGN KEY (", _|]. rewrite <-plain_code_spec. by vm_compute.
Qed.

(** C52.  Missing: the order of checks and indexes (see below). *)
Theorem sort_partial srt pf o ct sv db :
  ok_sorter srt → serves ct sv → inspect srt pf o sv = Got db →
  (io_sort_columns o = true → Forall (λ t, StronglySorted str_le (co_name <$> tb_columns t.1)) (db_tables db)) ∧
  (io_sort_columns o = false →
    Forall (λ t, Forall2 column_entry (ct_columns ct (tb_schema t.1) (tb_name t.1)) (tb_columns t.1)) (db_tables db)) ∧
  (** no entry is lost, whatever the options *)
  described pf ct (sv_details sv) db.
Proof.
  intros Hsrt Hs Hdb. destruct (inspect_got srt pf o ct sv Hsrt Hs db Hdb) as (H1 & H2 & H3 & _). split; [|by split].
  intros Ho. eapply Forall_impl; [exact H2|]. intros t Ht. by apply Ht.
Qed.
Print Assumptions sort_partial.
(** The order of schema, table and name. *)
Definition index_le (a b : index) : Prop :=
  (ix_schema a ≠ ix_schema b ∧ str_le (ix_schema a) (ix_schema b)) ∨
  (ix_schema a = ix_schema b ∧ ix_table a ≠ ix_table b ∧ str_le (ix_table a) (ix_table b)) ∨
  (ix_schema a = ix_schema b ∧ ix_table a = ix_table b ∧ str_le (ix_name a) (ix_name b)).
(** Up to six indexes of one schema stay in the server's order, and checks always. *)
Theorem sort_no_effect srt pf o ct sv db s :
  ok_sorter srt → serves ct sv → inspect srt pf o sv = Got db →
  Forall (λ t, tb_schema t.1 = s) (db_tables db) → (length (db_indexes db) ≤ 6)%nat →
  (∃ ixs, Forall2 (λ t l, Forall2 (index_entry s) (ct_indexes ct s (tb_name t.1)) l) (db_tables db) ixs ∧
    db_indexes db = List.concat ixs) ∧
  Forall (λ t, Forall2 check_entry (ct_checks ct (tb_schema t.1) (tb_name t.1)) (tb_checks t.1)) (db_tables db).
Proof.
  intros Hsrt Hs Hdb Hsc Hlen. destruct (inspect_got srt pf o ct sv Hsrt Hs db Hdb) as (H1 & _ & _ & ixs & H4 & H5).
  destruct H1 as (_ & _ & _ & _ & _ & Ht & _). split.
  - exists ixs. assert (Forall2 (λ t l, Forall2 (index_entry s) (ct_indexes ct s (tb_name t.1)) l) (db_tables db) ixs) as H.
    { clear -H4 Hsc. induction H4 as [|t l ts ixs H H4 IH]; constructor; apply Forall_cons in Hsc as [E Hsc].
      - by rewrite E in H.
      - by apply IH. }
    split; [done|]. rewrite H5. destruct (io_sort_indexes o) eqn:Ho; [|done].
    apply (sort_indexes_noop srt _ s Hsrt).
    + rewrite H5 in Hlen. destruct (Hsrt _ index_less (List.concat ixs)) as (Hp & _). by rewrite Hp in Hlen.
    + clear -H. induction H as [|t l ts ixs H1 H IH]; [constructor|]. cbn. apply Forall_app. split; [|done].
      clear -H1. induction H1 as [|r i rs l (Hi & _) H IH]; by constructor.
  - clear -Ht. induction Ht as [|r t rs ts (_ & _ & H & _) Ht IH]; by constructor.
Qed.
Print Assumptions sort_no_effect.
(** Whatever sort.Slice does within its contract. *)
Theorem sort_refuted srt : ok_sorter srt → ∃ pf sv db,
  inspect srt pf (InspectOptions true true true) sv = Got db ∧
  ¬ StronglySorted index_le (db_indexes db) ∧
  ∃ t, t ∈ db_tables db ∧ ¬ StronglySorted str_le (ck_expression <$> tb_checks t.1).
Proof.
  intros Hsrt. exists no_floats, (server_of (catalog_with [])).
  pose proof (server_of_all (catalog_with [])) as Ha. pose proof (serves_all_serves _ _ Ha) as Hs.
  destruct (inspect_complete srt no_floats (InspectOptions true true true) _ _ Ha) as [db Hdb].
  { apply catalog_readable. by intros d []%elem_of_nil. }
  exists db. split; [done|].
  destruct (inspect_got srt _ _ _ _ Hsrt Hs db Hdb) as ((_ & _ & _ & _ & _ & Ht & (ixs & Hi & Hp) & _) & _).
  assert (∃ t, db_tables db = [t] ∧ tb_schema t.1 = "public" ∧ tb_name t.1 = "t" ∧
    Forall2 check_entry [NamedDef "c1" "CHECK (z > 0)"; NamedDef "c2" "CHECK (a > 0)"] (tb_checks t.1))
    as (t & Etb & Es & Et & Hck).
  { apply Forall2_cons_inv_l in Ht as (t & ts & (H1 & _ & H3 & _) & H2 & E). apply Forall2_nil_inv_l in H2 as ->.
    exists t. destruct H1 as (E1 & E2 & _). split; [done|].
    split; [by eapply text_unique; [exact E1|left]|]. split; [by eapply text_unique; [exact E2|left]|]. exact H3. }
  rewrite Etb in Hi. apply Forall2_cons_inv_l in Hi as (l & l' & Hl & Hl' & ->). apply Forall2_nil_inv_l in Hl' as ->.
  cbn in Hp. rewrite app_nil_r in Hp.
  apply Forall2_cons_inv_l in Hl as (i1 & l1 & Hi1 & Hl & ->). apply Forall2_cons_inv_l in Hl as (i2 & l2 & Hi2 & Hl & ->).
  apply Forall2_nil_inv_l in Hl as ->.
  destruct (sort_no_effect srt _ _ _ _ db "public" Hsrt Hs Hdb) as [(ixs & Hx & Hdx) _].
  { rewrite Etb. by repeat constructor. }
  { rewrite Hp. cbn. lia. }
  rewrite Etb in Hx. apply Forall2_cons_inv_l in Hx as (l & l' & Hl & Hl' & ->). apply Forall2_nil_inv_l in Hl' as ->.
  apply Forall2_cons_inv_l in Hl as (j1 & l1 & Hj1 & Hl & ->). apply Forall2_cons_inv_l in Hl as (j2 & l2 & Hj2 & Hl & ->).
  apply Forall2_nil_inv_l in Hl as ->. cbn in Hdx.
  split.
  - rewrite Hdx. intros H. inversion H as [|? ? _ Hf]. apply Forall_cons in Hf as [Hle _].
    apply index_of_entry in Hj1, Hj2. vm_compute in Hj1, Hj2. simplify_eq.
    destruct Hle as [[? _]|[(_ & ? & _)|(_ & _ & Hle)]]; [done|done|]. by vm_compute in Hle.
  - exists t. split; [rewrite Etb; by left|].
    apply Forall2_cons_inv_l in Hck as (c1 & l1 & [_ Hc1] & Hl & ->). apply Forall2_cons_inv_l in Hl as (c2 & l2 & [_ Hc2] & Hl & ->).
    apply Forall2_nil_inv_l in Hl as ->. vm_compute in Hc1, Hc2. destruct c1, c2. cbn in *.
    intros H. inversion H as [|? ? _ Hf]. apply Forall_cons in Hf as [Hle _]. simplify_eq. by vm_compute in Hle.
Qed.
Print Assumptions sort_refuted.

(** C68 *)
Theorem describe_found schema name a b :
  (describe_trigger schema a = NotFound ↔ a = NoRow) ∧
  (∀ t, describe_trigger schema a = Got t ↔ ∃ def, a = Row def ∧ trigger_entry schema (NamedDef "" def) t) ∧
  describe_trigger schema a ≠ Panicked ∧
  (describe_function schema name b = NotFound ↔ b = NoRow) ∧
  (∀ f, describe_function schema name b = Got f ↔ ∃ r, b = Row r ∧
    function_entry (FunctionRow (Some schema) (Some name) (fr_owner r) (fr_comment r) (fr_returns r) (fr_language r) (fr_definition r)) f).
Proof.
  split; [|split; [|split; [|split]]].
  - destruct a as [| |def]; cbn; [done|done|]. destruct (parse_trigger def); done.
  - intros t. destruct a as [| |def]; cbn; [split; [done|by intros (? & ? & _)]..|].
    pose proof (trigger_of_entry schema (NamedDef "" def) t) as H. unfold trigger_of in H. cbn [nd_def] in H.
    destruct (parse_trigger def) as [g|cs|] eqn:E; cbn in H.
    + split.
      * intros [= <-]. exists def. split; [done|]. by apply H.
      * intros (d & [= <-] & Ht). apply H in Ht. congruence.
    + split; [done|]. intros (d & [= <-] & Ht%H). done.
    + split; [done|]. intros (d & [= <-] & Ht%H). done.
  - destruct a as [| |def]; cbn; [done|done|]. pose proof (trigger_no_crash def). by destruct (parse_trigger def).
  - by destruct b.
  - intros f. destruct b as [| |r]; cbn; [split; [done|by intros (? & ? & _)]..|].
    unfold function_entry. cbn. destruct f; cbn. split.
    + intros [= <- <- <- <- <- <- <-]. exists r. split; [done|]. split_and!; try apply text_nullable; by left.
    + intros (r' & [= <-] & H1 & H2 & ? & ? & ? & ? & ?). texts. cbn in *. by subst.
Qed.
Print Assumptions describe_found.
Example describe_example :
  describe_trigger "public" (Row "CREATE TRIGGER g BEFORE INSERT ON t FOR EACH ROW EXECUTE PROCEDURE f()") =
    Got (Trigger "public" "t" "g" "f" "BEFORE" false false false true false true false false []).
Proof. by vm_compute. Qed.
