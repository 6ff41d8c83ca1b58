(** The database of internal/ddl/ddl_test.go:19-106 and the file it is written to, for the
    examples of HclProps.v. *)
From Coq Require Import String Ascii.
From stdpp Require Import gmap list strings numbers.
From Verif Require Import GoStrings DdlModel PgModel HclModel HclSpec HclText HclTextProofs.
Local Open Scope Z_scope.

(** internal/ddl/testdata/expected.hcl. *)
Definition expected_hcl : string := "
parameters {
  search_path = [""$user"", ""public""]
  timezone    = """"
}

schema ""public"" {
  owner   = """"
  comment = """"
}

function ""public"" ""update_modified_column"" {
  owner      = """"
  comment    = """"
  returns    = ""trigger""
  language   = ""plpgsql""
  definition = ""BEGIN\n  NEW.modified = now();\n  RETURN NEW;\nEND;\n""
}

sequence ""public"" ""bar_id_seq"" {
  owner     = """"
  comment   = """"
  data_type = """"
  start     = 1
  minimum   = 1
  maximum   = 2147483647
  increment = 1
  cache     = 1
  cycle     = false

  owned_by {
    schema = ""public""
    table  = ""bar""
    column = ""id""
  }
}
sequence ""public"" ""foo_id_seq"" {
  owner     = """"
  comment   = """"
  data_type = """"
  start     = 0
  minimum   = 0
  maximum   = 2147483647
  increment = 0
  cache     = 0
  cycle     = false
}

table ""public"" ""bar"" {
  owner   = """"
  comment = """"

  column ""id"" {
    type     = ""integer""
    not_null = true
    default  = ""nextval('bar_id_seq'::regclass)""
    comment  = """"
  }
  column ""foo_id"" {
    type     = ""integer""
    not_null = true
    default  = """"
    comment  = """"
  }

  foreign_key ""foo"" {
    name               = """"
    columns            = [""foo_id""]
    referenced         = [""id""]
    match              = """"
    on_delete          = """"
    on_update          = """"
    deferrable         = false
    initially_deferred = false
  }
}
table ""public"" ""foo"" {
  owner   = """"
  comment = ""A simple test case""

  column ""id"" {
    type     = ""integer""
    not_null = true
    default  = ""nextval('foo_id_seq'::regclass)""
    comment  = """"
  }
  column ""created"" {
    type     = ""timestamp with time zone""
    not_null = true
    default  = ""now()""
    comment  = """"
  }
  column ""modified"" {
    type     = ""timestamp with time zone""
    not_null = true
    default  = ""now()""
    comment  = """"
  }
  column ""key"" {
    type     = ""character varying(50)""
    not_null = true
    default  = """"
    comment  = """"
  }
  column ""value"" {
    type     = ""character varying(500)""
    not_null = false
    default  = """"
    comment  = """"
  }
}

trigger ""public"" ""foo"" ""update_foo_modified"" {
  function           = ""update_modified_column""
  when               = ""before""
  constraint         = false
  deferrable         = false
  initially_deferred = false
  for_each_row       = true
  delete             = false
  insert             = false
  truncate           = false
  update             = true
  columns            = null
}
".

(** internal/ddl/ddl_test.go:14-18. *)
Definition update_modified : string := "BEGIN
  NEW.modified = now();
  RETURN NEW;
END;
".
Definition plain_column (name type : string) (not_null : bool) (default : string) : column :=
  Column name type not_null default "".
(** internal/ddl/ddl_test.go:20-106. *)
Definition expected_db : db_file :=
  DbFile (Some (Settings ["$user"; "public"] ""))
    [Schema "public" "" ""]
    [Func "public" "update_modified_column" "" "" "trigger" "plpgsql" update_modified]
    [SeqFile "public" "bar_id_seq" "" "" "" 1 1 2147483647 1 1 false (Some (SeqOwner "public" "bar" "id"));
     SeqFile "public" "foo_id_seq" "" "" "" 0 0 2147483647 0 0 false None]
    [(Table "public" "bar" "" ""
        [plain_column "id" "integer" true "nextval('bar_id_seq'::regclass)";
         plain_column "foo_id" "integer" true ""] []
        [ForeignKey "" "foo" ["foo_id"] ["id"] "" "" "" false false], None);
     (Table "public" "foo" "" "A simple test case"
        [plain_column "id" "integer" true "nextval('foo_id_seq'::regclass)";
         plain_column "created" "timestamp with time zone" true "now()";
         plain_column "modified" "timestamp with time zone" true "now()";
         plain_column "key" "character varying(50)" true "";
         plain_column "value" "character varying(500)" false ""] [] [], None)]
    []
    [Trigger "public" "foo" "update_foo_modified" "update_modified_column" "before" false false false true
       false false false true []].
(** Storage parameters of each type. *)
Definition stored : storage :=
  <["Fillfactor" := VInt 70]> (<["AutovacuumEnabled" := VBool false]>
    (<["AutovacuumVacuumScaleFactor" := VFloat "0.25"]> ∅)).
Definition stored_db : db_file :=
  DbFile None [] [] [] [(Table "public" "t" "" "" [] [] [], Some stored)] [] [].

Lemma all_good d : every_text (λ _, True) d.
Proof.
  assert (∀ l, Forall (λ _ : string, True) l) as H by (intros l; apply list.Forall_forall; done).
  assert (∀ A (P : A → Prop) l, (∀ x, P x) → Forall P l) as H' by (intros; apply list.Forall_forall; done).
  unfold every_text, every_settings. split_and!; auto; apply H'; intros x; unfold every_schema, every_func, every_seq,
    every_table, every_index, every_trigger, every_column, every_check, every_fk; split_and?; auto.
Qed.
Lemma no_storage_typed d :
  Forall (λ q, Forall in_range [sf_start q; sf_minimum q; sf_maximum q; sf_increment q; sf_cache q]) (df_sequences d) →
  Forall (λ t : table * option storage, t.2 = None) (df_tables d) → typed_db decimal_text d.
Proof. intros H1 H2. split; [done|]. eapply list.Forall_impl; [exact H2|]. intros t Ht p Hp. congruence. Qed.
Lemma expected_typed : typed_db decimal_text expected_db.
Proof.
  apply no_storage_typed; cbn; repeat (apply list.Forall_cons; split); try (apply list.Forall_nil; exact I); try reflexivity; unfold in_range; simpl; lia.
Qed.
Lemma stored_typed : typed_db decimal_text stored_db.
Proof.
  split; [by apply list.Forall_nil|]. apply list.Forall_cons. split; [|by apply list.Forall_nil].
  intros p [= <-] f v. unfold stored. rewrite !lookup_insert_Some, lookup_empty.
  intros [[<- <-]|[_ [[<- <-]|[_ [[<- <-]|[_ H]]]]]]; [| | |done].
  - exists "fillfactor", KInt. split; [apply (bool_decide_unpack _); by vm_compute|]. unfold in_range. lia.
  - exists "autovacuum_enabled", KBool. split; [apply (bool_decide_unpack _); by vm_compute|done].
  - exists "autovacuum_vacuum_scale_factor", KFloat. split; [apply (bool_decide_unpack _); by vm_compute|].
    exists 25, 2%nat. split; [by right|]. by vm_compute.
Qed.

(** All texts, to check them by computation. *)
Definition table_texts (t : table * option storage) : list string :=
  [tb_schema t.1; tb_name t.1; tb_owner t.1; tb_comment t.1] ++
  concat ((λ c, [co_name c; co_type c; co_default c; co_comment c]) <$> tb_columns t.1) ++
  concat ((λ c, [ck_name c; ck_expression c]) <$> tb_checks t.1) ++
  concat ((λ f, [fk_name f; fk_table f; fk_match f; fk_on_delete f; fk_on_update f] ++ fk_columns f ++ fk_referenced f)
            <$> tb_foreign_keys t.1).
Definition all_texts (d : db_file) : list string :=
  match df_parameters d with Some s => pa_timezone s :: pa_search_path s | None => [] end ++
  concat ((λ s, [sc_name s; sc_owner s; sc_comment s]) <$> df_schemas d) ++
  concat ((λ f, [fn_schema f; fn_name f; fn_owner f; fn_comment f; fn_returns f; fn_language f; fn_definition f])
            <$> df_functions d) ++
  concat ((λ q, [sf_schema q; sf_name q; sf_owner q; sf_comment q; sf_type q] ++
            match sf_owned q with Some o => [so_schema o; so_table o; so_column o] | None => [] end) <$> df_sequences d) ++
  concat (table_texts <$> df_tables d) ++
  concat ((λ i, [ix_schema i; ix_table i; ix_name i; ix_using i; ix_where i] ++
            concat ((λ k, [ik_column k; ik_expression k; ik_opclass k]) <$> ix_keys i)) <$> df_indexes d) ++
  concat ((λ t, [tg_schema t; tg_table t; tg_name t; tg_function t; tg_when t] ++ tg_columns t) <$> df_triggers d).
Lemma Forall_concat_fmap {A} (P : string → Prop) (f : A → list string) l :
  Forall P (concat (f <$> l)) → Forall (λ x, Forall P (f x)) l.
Proof.
  induction l as [|x l IH]; cbn; [intros _; by apply list.Forall_nil|]. rewrite Forall_app, list.Forall_cons. intros [? ?]. auto.
Qed.
Lemma all_texts_every P d : Forall P (all_texts d) → every_text P d.
Proof.
  unfold all_texts. rewrite !Forall_app. intros (H1 & H2 & H3 & H4 & H5 & H6 & H7).
  apply Forall_concat_fmap in H2, H3, H4, H5, H6, H7. split_and!.
  - intros s Hs. by rewrite Hs in H1.
  - exact H2.
  - exact H3.
  - eapply list.Forall_impl; [exact H4|]. intros q Hq. cbn in Hq. rewrite !list.Forall_cons in Hq.
    destruct Hq as (? & ? & ? & ? & ? & Hq). split; [by rewrite !list.Forall_cons|]. intros o Ho. by rewrite Ho in Hq.
  - eapply list.Forall_impl; [exact H5|]. intros t Ht. unfold table_texts in Ht. rewrite !Forall_app in Ht.
    destruct Ht as (Ha & Hb & Hc & Hd). apply Forall_concat_fmap in Hb, Hc, Hd. by split_and!.
  - eapply list.Forall_impl; [exact H6|]. intros i Hi. cbn beta in Hi. rewrite Forall_app in Hi.
    destruct Hi as [Ha Hb]. apply Forall_concat_fmap in Hb. by split.
  - exact H7.
Qed.
