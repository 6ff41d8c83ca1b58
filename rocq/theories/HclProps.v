(** Files with the description of a database: C112–C116. *)
From Coq Require Import String Ascii.
From stdpp Require Import gmap list strings numbers.
From Verif Require Import GoStrings GoUtf8 DdlModel DdlSpec DdlProofs PgModel PgSpec PgProofs PgProps CliModel.
From Verif Require Import HclModel HclSpec HclProofs HclRead HclWrite HclText HclTextProofs HclExamples.
Local Open Scope Z_scope.

(** C112: a description that is written is read again. *)
Theorem written_again L n good finite d : ok_lib L n good finite →
  every_text good d → typed_db finite d →
  parse_bytes L (db_text L d) = Some (change_db n d) ∧
  (every_text (λ s, n s = s) d → parse_bytes L (db_text L d) = Some d).
Proof.
  intros OK Hg Ht. pose proof (written_read L n good finite OK d Hg Ht) as H. split; [done|].
  intros Hn. by rewrite (change_db_same n d Hn) in H.
Qed.
Print Assumptions written_again.
(** The assumptions hold for a printer and a reader of texts, and for the database of the
    tests, written as in internal/ddl/testdata/expected.hcl. *)
Example written_again_example :
  ok_lib plain_lib clean (λ _, True) decimal_text ∧
  every_text (λ _, True) expected_db ∧ typed_db decimal_text expected_db ∧
  every_text (λ _, True) stored_db ∧ typed_db decimal_text stored_db ∧
  db_text plain_lib expected_db = expected_hcl ∧
  parse_bytes plain_lib expected_hcl = Some expected_db.
Proof.
  split; [apply plain_ok_lib|]. split; [apply all_good|]. split; [apply expected_typed|].
  split; [apply all_good|]. split; [apply stored_typed|].
  split; vm_compute; reflexivity.
Qed.
(** A text that is not UTF-8 is not read again. *)
Theorem written_again_refuted : ∃ L n good finite d, ok_lib L n good finite ∧ every_text good d ∧ typed_db finite d ∧
  (∃ d', parse_bytes L (db_text L d) = Some d' ∧ d' ≠ d).
Proof.
  exists plain_lib, clean, (λ _, True), decimal_text,
    (DbFile None [Schema "public" "" (String (of_byte 255) "")] [] [] [] [] []).
  split; [apply plain_ok_lib|]. split; [apply all_good|].
  split; [split; by apply list.Forall_nil|].
  eexists. split; [vm_compute; reflexivity|]. intros [=].
Qed.
Print Assumptions written_again_refuted.

(** C113: what a file means. *)
Theorem file_meaning L src d :
  parse_bytes L src = Some d ↔ ∃ b, hl_read L src = Some b ∧ file_says L b d.
Proof.
  unfold parse_bytes. rewrite bind_Some. split; intros (b & Hb & H); exists b; (split; [done|]).
  - by apply db_read in H as [_ H].
  - by apply db_read.
Qed.
Print Assumptions file_meaning.
Theorem parse_file_meaning L files name d :
  parse_file L files name = Some d ↔ ∃ src, files !! name = Some src ∧ parse_bytes L src = Some d.
Proof. unfold parse_file. by rewrite bind_Some. Qed.
Print Assumptions parse_file_meaning.
(** A body says at most one thing; if an attribute or a block is unknown, nothing. *)
Theorem file_meaning_unique L b d d' : file_says L b d → file_says L b d' → d = d'.
Proof.
  intros H H'. assert (∀ d, file_says L b d → decode (db_fields L) db_zero ([], b) = Some d) as K.
  { intros e He. by apply db_read. }
  apply K in H, H'. congruence.
Qed.
Print Assumptions file_meaning_unique.
Theorem unknown_refused L src b n x : hl_read L src = Some b →
  (n, x) ∈ b_blocks b → n ∉ ["parameters"; "schema"; "function"; "sequence"; "table"; "index"; "trigger"] →
  parse_bytes L src = None.
Proof.
  intros Hb Hx Hn. destruct (parse_bytes L src) as [d|] eqn:E; [|done]. exfalso.
  apply file_meaning in E as (b' & Hb' & ((_ & _ & H) & _)). rewrite Hb in Hb'. injection Hb' as <-.
  by apply Hn, (H _ _ Hx).
Qed.
Print Assumptions unknown_refused.
Definition minimal (s : string) : string :=
  "table ""public"" ""t"" {
  storage_parameters {
    " +:+ s +:+ "
  }
}
".
Example file_meaning_example :
  (∃ b, read_text (minimal "fillfactor = 70") = Some b ∧
     file_says plain_lib b (DbFile None [] [] [] [(Table "public" "t" "" "" [] [] [], Some (<["Fillfactor" := VInt 70]> ∅))] [] [])) ∧
  parse_bytes plain_lib (minimal "fillfactor = ""70""") = parse_bytes plain_lib (minimal "fillfactor = 70") ∧
  parse_bytes plain_lib (minimal "fillfactor = ""much""") = None ∧
  parse_bytes plain_lib (minimal "autovacuum_vacuum_cost_delay = 10") = None ∧
  parse_bytes plain_lib "view ""public"" ""v"" {
}
" = None.
Proof.
  split; [|split_and!; vm_compute; reflexivity].
  apply (file_meaning plain_lib). vm_compute. reflexivity.
Qed.

(** C114: the file an inspection leaves is read as the database that was inspected. *)
Lemma options_typed pf (finite : string → Prop) p l p' :
  typed_storage (λ _, True) p → set_options pf p l = Got p' →
  (∀ f x, p' !! f = Some (VFloat x) → finite x) → typed_storage finite p'.
Proof.
  intros Hp H Hf. assert (typed_storage (λ _, True) p') as Ht.
  { clear Hf. revert p Hp H. induction l as [|[s|] l IH]; intros p Hp; cbn [set_options]; [by intros [= <-]| |done].
    destruct (split_option s) as [k v]. destruct (storage_set pf p k v) as [p1 ok] eqn:E. destruct ok; [|done].
    apply IH. clear IH. apply set_ok in E as [[_ ->]|(f & kd & x & Hin & Hs & ->)]; [done|].
    intros g y. rewrite lookup_insert_Some. intros [[<- <-]|[_ Hg]]; [|by apply Hp].
    exists k, kd. split; [exact Hin|]. destruct kd; cbn in Hs.
    - destruct Hs as (z & -> & Hz). destruct Hz as [_ Hz]. unfold in_range, max_int in *. lia.
    - destruct Hs as [[-> _]|[-> _]]; done.
    - destruct Hs as (z & -> & _). done. }
  intros f v Hv. destruct (Ht f v Hv) as (n & k & Hin & Hk). exists n, k. split; [done|].
  destruct k, v; try done. by eapply Hf.
Qed.
Lemma kept_file_of db d : database_kept db d → d = file_of db.
Proof.
  destruct d as [a b c e f g h]. intros (H1 & H2 & H3 & H4 & H5 & H6 & H7). cbn in *. subst. unfold file_of. f_equal.
  - induction H4 as [|q s qs ss Hq _ IH]; [done|]. cbn. f_equal; [|exact IH].
    destruct s. unfold sequence_kept in Hq. cbn in Hq. destruct Hq as (? & ? & ? & ? & ? & ? & ? & ? & ? & ? & ? & o & ? & ? & ? & ?).
    destruct o. cbn in *. subst. reflexivity.
  - induction H5 as [|t u ts us [Ht1 Ht2] _ IH]; [done|]. cbn. f_equal; [|exact IH]. destruct t, u; cbn in *. by subst.
Qed.
Lemma file_of_kept db : database_kept db (file_of db).
Proof.
  split_and!; try reflexivity.
  - cbn. apply Forall2_fmap_r, Forall_Forall2_diag, list.Forall_forall. intros q _. split_and!; try reflexivity.
    eexists. split_and!; reflexivity.
  - cbn. apply Forall2_fmap_r, Forall_Forall2_diag, list.Forall_forall. done.
Qed.
Theorem inspected_file L n good finite srt pf o sv db d disk output w w' :
  ok_lib L n good finite → inspect srt pf o sv = Got db → database_kept db d →
  (** 64 bit integers and finite floating point numbers *)
  Forall (λ q, Forall in_range [sq_start q; sq_minimum q; sq_maximum q; sq_increment q; sq_cache q]) (db_sequences db) →
  (∀ t p f x, (t, p) ∈ db_tables db → p !! f = Some (VFloat x) → finite x) →
  every_text good d → every_text (λ s, n s = s) d →
  (** a file that is written without an error has all that was written *)
  (∀ text arrived, put disk output text = (arrived, true) → arrived = text) →
  output ≠ "" → output ≠ "-" →
  inspect_command disk output (Some db) (λ db, db_text L (file_of db)) w = (w', true) →
  parse_file L (w_files w') output = Some d.
Proof.
  intros OK Hi ->%kept_file_of Hq Hf Hg Hn Hput H1 H2 Hc.
  assert (typed_db finite (file_of db)) as Ht.
  { split.
    - cbn. apply list.Forall_fmap. eapply list.Forall_impl; [exact Hq|]. by intros [].
    - cbn. apply list.Forall_fmap, list.Forall_forall. intros [t p] Hin q [= <-].
      assert (∃ l, set_options pf ∅ l = Got p) as [l Hl].
      { clear -Hi Hin. unfold inspect in Hi.
        apply bind_got in Hi as (y1 & _ & Hi). apply bind_got in Hi as (y2 & _ & Hi). apply bind_got in Hi as (y3 & _ & Hi).
        apply bind_got in Hi as (y4 & _ & Hi). apply bind_got in Hi as (y5 & _ & Hi). apply bind_got in Hi as (y6 & Hx & Hi).
        assert (db_tables db = y6.1.1) as E by (injection Hi as <-; reflexivity). rewrite E in Hin. clear -Hx Hin.
        revert y6 Hx Hin. induction y5 as [|x y5 IH]; intros y6; cbn [inspect_each]; [intros [= <-]; cbn; by intros []%elem_of_nil|].
        intros (a & Ha & Hx)%bind_got. apply bind_got in Hx as (b & Hb & [= <-]). cbn. intros [E|Hin]%elem_of_cons; [|by eapply IH].
        unfold inspect_table in Ha. apply bind_got in Ha as (z1 & _ & Ha). apply bind_got in Ha as (z2 & _ & Ha).
        apply bind_got in Ha as (z3 & _ & Ha). apply bind_got in Ha as (z4 & Hz & Ha). apply bind_got in Ha as (z5 & _ & Ha).
        apply bind_got in Ha as (z6 & _ & [= <-]). cbn in E. injection E as _ ->. unfold list_storage in Hz.
        destruct (sv_storage sv (tb_schema x) (tb_name x)) as [|l ?]; [done|]. by exists l. }
      eapply options_typed; [|exact Hl|].
      + intros f v Hv. by rewrite lookup_empty in Hv.
      + intros f x Hx. by eapply Hf. }
  unfold inspect_command in Hc. rewrite (decide_False (P := output = "")) in Hc by done. unfold create in Hc.
  rewrite (decide_False (P := output = "-")) in Hc by done. destruct (may_open disk output); [|done].
  unfold write in Hc. destruct (put disk output _) as [arrived ok] eqn:Ep.
  rewrite (decide_False (P := output = "-")) in Hc by done. injection Hc as <- ->. apply Hput in Ep as ->. cbn.
  apply parse_file_meaning. eexists. rewrite !lookup_insert. split; [reflexivity|].
  change (default "" (Some "") +:+ db_text L (file_of db)) with (db_text L (file_of db)).
  by eapply written_again.
Qed.
Print Assumptions inspected_file.
Definition honest : disk := Disk (λ _, true) (λ _ text, (text, true)).
Definition seen : database :=
  match inspect (@insertion_sort) no_floats (InspectOptions false false false) (server_of (catalog_with fk_rows)) with
  | Got db => db
  | _ => Database (Settings [] "") [] [] [] [] [] []
  end.
Example inspected_file_example :
  inspect (@insertion_sort) no_floats (InspectOptions false false false) (server_of (catalog_with fk_rows)) = Got seen ∧
  db_sequences seen = [] ∧ ((tb_name ∘ fst) <$> db_tables seen = ["t"]) ∧
  database_kept seen (file_of seen) ∧
  (∀ t p f x, (t, p) ∈ db_tables seen → p !! f = Some (VFloat x) → decimal_text x) ∧
  every_text (λ _, True) (file_of seen) ∧ every_text (λ s, clean s = s) (file_of seen) ∧
  (inspect_command honest "db.hcl" (Some seen) (λ db, db_text plain_lib (file_of db)) (World ∅ "")).2 = true.
Proof.
  split; [vm_compute; reflexivity|]. split; [vm_compute; reflexivity|]. split; [vm_compute; reflexivity|].
  split; [apply file_of_kept|]. split.
  { intros t p f x Ht Hp. assert (p = <["Fillfactor" := VInt 70]> ∅) as ->.
    { assert (snd <$> db_tables seen = [<["Fillfactor" := VInt 70]> ∅]) as E by (vm_compute; reflexivity).
      apply (elem_of_list_fmap_1 snd) in Ht. rewrite E in Ht. by apply elem_of_list_singleton in Ht. }
    rewrite lookup_insert_Some, lookup_empty in Hp. destruct Hp as [[_ [=]]|[_ [=]]]. }
  split; [apply all_good|]. split; [|vm_compute; reflexivity].
  apply all_texts_every, (bool_decide_unpack _). vm_compute. exact I.
Qed.

(** C115: reading a file and writing what was read does not change its meaning. *)
Theorem rewritten L n good finite src d : ok_lib L n good finite →
  parse_bytes L src = Some d → every_text good d → every_text (λ s, n s = s) d →
  parse_bytes L (db_text L d) = Some d ∧
  (** and a second time nothing changes at all *)
  ∀ d', parse_bytes L (db_text L d) = Some d' → db_text L d' = db_text L d.
Proof.
  intros OK H Hg Hn. assert (parse_bytes L (db_text L d) = Some d) as Hd.
  { eapply written_again; [done|done| |done]. apply file_meaning in H as (b & _ & Hb).
    eapply says_typed; [|exact Hb]. by eapply ok_back. }
  split; [done|]. intros d' Hd'. congruence.
Qed.
Print Assumptions rewritten.
Example rewritten_example :
  let src := minimal "autovacuum_vacuum_scale_factor = 0.50" in
  (∃ d, parse_bytes plain_lib src = Some d ∧ every_text (λ s, clean s = s) d ∧ db_text plain_lib d ≠ src).
Proof.
  cbv zeta. eexists. split; [vm_compute; reflexivity|]. split.
  - apply all_texts_every, (bool_decide_unpack _). vm_compute. exact I.
  - intros H. apply (f_equal String.length) in H. revert H. vm_compute. discriminate.
Qed.

(** C116: a storage parameter that an inspection keeps is written under the name it has in
    PostgreSQL, and nothing else is written for it. *)
Theorem storage_name_kept L n good finite pf key field k v p : ok_lib L n good finite →
  (key, field, k) ∈ parameters → storage_set pf ∅ key v = (p, true) →
  (∀ x, p !! field = Some (VFloat x) → finite x) →
  ∃ hv, encode (storage_fields L) p = ([], Body [(key, hv)] []) ∧ storage_says L ([], Body [(key, hv)] []) p.
Proof.
  intros OK Hin Hset Hf. apply (set_known_ok _ _ _ _ _ _ _ Hin) in Hset as (x & Hs & ->).
  assert (encode (storage_fields L) (<[field := x]> ∅) = ([], Body [(key, value_hval L x)] [])) as E.
  { clear -Hin. unfold parameters in Hin. repeat (apply elem_of_cons in Hin as [[= -> -> ->]|Hin]; [reflexivity|]).
    by apply elem_of_nil in Hin. }
  exists (value_hval L x). split; [exact E|]. rewrite <- E. apply storage_read.
  eapply (storage_again L finite).
  - intros f Hfin. apply (ok_float _ _ _ _ OK) in Hfin. destruct (hl_decimal L f). by destruct Hfin.
  - intros g y. rewrite lookup_insert_Some, lookup_empty. intros [[<- <-]|[_ [=]]].
    exists key, k. split; [exact Hin|]. destruct k; cbn in Hs.
    + destruct Hs as (z & -> & Hz). destruct Hz as [_ Hz]. unfold in_range, max_int in *. lia.
    + destruct Hs as [[-> _]|[-> _]]; done.
    + destruct Hs as (z & -> & _). apply Hf. by rewrite lookup_insert.
Qed.
Print Assumptions storage_name_kept.
Example storage_name_kept_example :
  ("autovacuum_vacuum_cost_limit", "AutovacuumVacuumCostDelay", KInt) ∈ parameters ∧
  (storage_set (λ s, (s, true)) ∅ "autovacuum_vacuum_cost_limit" "200").2 = true ∧
  encode (storage_fields plain_lib) (storage_set (λ s, (s, true)) ∅ "autovacuum_vacuum_cost_limit" "200").1 =
    ([], Body [("autovacuum_vacuum_cost_limit", HNumber 200 0)] []).
Proof. split; [apply (bool_decide_unpack _); by vm_compute|]. split; vm_compute; reflexivity. Qed.
