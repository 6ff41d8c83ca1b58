(** Proofs about HCL files: what is written is read again. *)
From Coq Require Import String Ascii.
From stdpp Require Import gmap list strings numbers.
From Verif Require Import DdlModel PgModel HclModel HclSpec HclProofs HclRead.
Local Open Scope Z_scope.

Section generic.
  Context {A : Type}.
  Implicit Types (fs : list (field A)) (a : A).

  Definition attrs_of fs a : list (string * hval) :=
    omap (λ f, match f with FAttr n _ w _ => pair n <$> w a | _ => None end) fs.
  Definition blocks_of fs a : list (string * block) :=
    concat ((λ f, match f with FBlock n _ w _ => pair n <$> w a | _ => [] end) <$> fs).

  Lemma attrs_of_names fs a n v : (n, v) ∈ attrs_of fs a → n ∈ attr_names fs.
  Proof.
    unfold attrs_of, attr_names. intros (f & Hf & H)%elem_of_list_omap.
    apply elem_of_list_omap. exists f. split; [done|]. destruct f as [|m ? w ?|]; [done| |done].
    destruct (w a); [|done]. by injection H as -> ->.
  Qed.
  Lemma attrs_of_NoDup fs a : NoDup (attr_names fs) → NoDup (attrs_of fs a).*1.
  Proof.
    induction fs as [|f fs IH]; [done|]. destruct f as [|n ? w ?|]; cbn; [done| |done].
    intros [Hn HN]%list.NoDup_cons. destruct (w a) as [v|]; cbn; [|by apply IH].
    apply list.NoDup_cons. split; [|by apply IH].
    intros ([m x] & -> & H)%elem_of_list_fmap. by apply attrs_of_names in H.
  Qed.
  Lemma attrs_of_given fs a n r w rd v :
    FAttr n r w rd ∈ fs → w a = Some v → (n, v) ∈ attrs_of fs a.
  Proof. intros Hf Hw. apply elem_of_list_omap. exists (FAttr n r w rd). split; [done|]. by rewrite Hw. Qed.
  Lemma attrs_of_missing fs a n r w rd v :
    NoDup (attr_names fs) → FAttr n r w rd ∈ fs → w a = None → (n, v) ∉ attrs_of fs a.
  Proof.
    induction fs as [|f fs IH]; intros HN Hf Hw; [by apply elem_of_nil in Hf|].
    apply elem_of_cons in Hf as [<-|Hf].
    - cbn in *. apply list.NoDup_cons in HN as [Hn HN]. rewrite Hw. cbn.
      intros H. by apply attrs_of_names in H.
    - destruct f as [|m ? w' ?|]; cbn in *; [by apply IH| |by apply IH].
      apply list.NoDup_cons in HN as [Hm HN].
      destruct (w' a) as [v'|]; cbn; [|by apply IH].
      intros [[= -> ->]|H]%elem_of_cons; [|by apply IH in H].
      apply Hm, elem_of_list_omap. by exists (FAttr m r w rd).
  Qed.
  Lemma those_app n l l' : those n (l ++ l') = those n l ++ those n l'.
  Proof. induction l as [|[m x] l IH]; [done|]. simpl. destruct (decide (m = n)); simpl; by rewrite IH. Qed.
  Lemma those_same n l : those n (pair n <$> l) = l.
  Proof. induction l as [|x l IH]; [done|]. simpl. rewrite decide_True by done. f_equal. exact IH. Qed.
  Lemma those_other n m l : m ≠ n → those n (pair m <$> l) = [].
  Proof. intros H. induction l as [|x l IH]; [done|]. simpl. by rewrite decide_False by done. Qed.
  Lemma those_blocks_none fs a n : n ∉ block_names fs → those n (blocks_of fs a) = [].
  Proof.
    induction fs as [|f fs IH]; [done|]. intros H. unfold blocks_of. cbn. rewrite those_app.
    destruct f as [| |m ? w ?]; cbn in *; [by apply IH|by apply IH|].
    apply not_elem_of_cons in H as [Hne H]. rewrite those_other by done. by apply IH.
  Qed.
  Lemma those_blocks fs a n many w rd :
    NoDup (block_names fs) → FBlock n many w rd ∈ fs → those n (blocks_of fs a) = w a.
  Proof.
    induction fs as [|f fs IH]; intros HN Hf; [by apply elem_of_nil in Hf|].
    unfold blocks_of. cbn. rewrite those_app.
    apply elem_of_cons in Hf as [<-|Hf].
    - cbn in HN. apply list.NoDup_cons in HN as [Hn HN]. rewrite those_same.
      pose proof (those_blocks_none fs a n Hn) as H. unfold blocks_of in H. rewrite H. apply app_nil_r.
    - destruct f as [| |m ? w' ?]; cbn in HN |- *; [by apply IH|by apply IH|].
      apply list.NoDup_cons in HN as [Hm HN]. rewrite those_other; [by apply IH|].
      intros ->. apply Hm, elem_of_list_omap. by exists (FBlock n many w rd).
  Qed.
  Lemma blocks_of_names fs a n x : (n, x) ∈ blocks_of fs a → n ∈ block_names fs.
  Proof.
    induction fs as [|f fs IH]; [intros H; by apply elem_of_nil in H|].
    unfold blocks_of. cbn. rewrite elem_of_app. intros [H|H].
    - destruct f as [| |m ? w ?]; [by apply elem_of_nil in H|by apply elem_of_nil in H|].
      apply elem_of_list_fmap in H as (y & [= -> ->] & _). cbn. by left.
    - destruct f; cbn; [by apply IH|by apply IH|]. right. by apply IH.
  Qed.

  Lemma encode_body fs a :
    live fs = fs → (encode fs a).2 = Body (attrs_of fs a) (blocks_of fs a).
  Proof. intros H. unfold encode. by rewrite H. Qed.

  (** What reading does with a field that was written. *)
  Definition own_effect a (f : field A) (e : A → A) : Prop :=
    match f with
    | FLabel _ _ _ => e = id
    | FAttr _ required w r =>
        match w a with Some v => r v = Some e | None => required = false ∧ e = id end
    | FBlock _ many w r => (many = true ∨ (length (w a) ≤ 1)%nat) ∧ r (w a) = Some e
    end.
  Lemma decode_encode fs (zero : A) a es :
    live fs = fs → NoDup (attr_names fs) → NoDup (block_names fs) →
    Forall2 (own_effect a) fs es →
    set_labels fs (encode fs a).1 (foldl (λ a f, f a) zero es) = a →
    decode fs zero (encode fs a) = Some a.
  Proof.
    intros Hlive Ha Hb Hes Heq. apply decode_spec. rewrite Hlive.
    assert (Hbody : (encode fs a).2 = Body (attrs_of fs a) (blocks_of fs a)) by (unfold encode; by rewrite Hlive).
    rewrite Hbody. split_and!.
    - clear. unfold encode, label_count. simpl. induction fs as [|[]]; cbn; congruence || done.
    - split_and!; simpl; [by apply attrs_of_NoDup|apply attrs_of_names|apply blocks_of_names].
    - exists es. split; [|done].
      assert (∀ f, f ∈ fs → ∀ e, own_effect a f e →
        decode_field (Body (attrs_of fs a) (blocks_of fs a)) f = Some e) as Hone.
      { intros f Hf e He. destruct f as [|n r w rd|n many w rd]; simpl in He |- *.
        - by subst.
        - pose proof (attrs_of_NoDup fs a Ha) as HN. destruct (w a) as [v|] eqn:E.
          + rewrite (proj2 (assoc_given _ n v HN)); [done|]. by eapply attrs_of_given.
          + destruct He as [-> ->]. rewrite (proj2 (assoc_missing _ n HN)); [done|].
            intros v. by eapply attrs_of_missing.
        - rewrite of_type_those. simpl. rewrite (those_blocks _ _ _ _ _ _ Hb Hf). destruct He as [[->|Hlen] He]; [done|].
          rewrite bool_decide_eq_true_2 by done. by rewrite orb_true_r. }
      clear Heq Hlive Hbody Ha Hb. revert Hone.
      generalize (Body (attrs_of fs a) (blocks_of fs a)) as b. intros b Hone.
      induction Hes as [|f e fs es He Hes IH]; [constructor|].
      constructor; [apply Hone; [by left|done]|]. apply IH. intros g Hg. apply Hone. by right.
  Qed.
End generic.

Section own.
  Context {A : Type}.
  Lemma own_attr {T} n r (c : codec T) get (set : T → A → A) a v :
    c_write c (get a) = Some v → c_read c v = Some (get a) →
    own_effect a (attr n r c get set) (set (get a)).
  Proof. intros Hw Hr. simpl. rewrite Hw, Hr. done. Qed.
  Lemma own_blocks {B} n (fs : list (field B)) zero (get : A → list B) set a :
    Forall (λ b, decode fs zero (encode fs b) = Some b) (get a) →
    own_effect a (blocks n fs zero get set) (set (get a)).
  Proof.
    intros H. split; [by left|]. apply fmap_Some. exists (get a). split; [|done].
    apply mapM_Some, Forall2_fmap_l, Forall_Forall2_diag, H.
  Qed.
  Lemma own_ptr {B} n (fs : list (field B)) zero (get : A → option B) set a :
    (∀ b, get a = Some b → decode fs zero (encode fs b) = Some b) →
    own_effect a (block_ptr n fs zero get set) (set (get a)).
  Proof.
    intros H. simpl. destruct (get a) as [b|]; simpl; (split; [right; lia|]); [|done].
    by rewrite (H b eq_refl).
  Qed.
End own.

Section write.
  Variable L : hcl_lib.
  Lemma own_text {A} n r get (set : string → A → A) a : own_effect a (attr n r (text_codec L) get set) (set (get a)).
  Proof. by eapply own_attr. Qed.
  Lemma own_bool {A} n r get (set : bool → A → A) a : own_effect a (attr n r (bool_codec L) get set) (set (get a)).
  Proof. by eapply own_attr. Qed.
  Lemma own_int {A} n r get (set : Z → A → A) a :
    in_range (get a) → own_effect a (attr n r (int_codec L) get set) (set (get a)).
  Proof. intros H. eapply own_attr; [reflexivity|]. apply read_int. split; [by split|done]. Qed.
  Lemma own_texts {A} n r get (set : list string → A → A) a :
    own_effect a (attr n r (texts_codec L) get set) (set (get a)).
  Proof.
    eapply own_attr; [reflexivity|]. apply read_texts. destruct (get a) as [|s l]; simpl; [done|].
    constructor; [done|]. apply Forall2_fmap_l, Forall_Forall2_diag, list.Forall_forall. done.
  Qed.

  Ltac nodup := apply (bool_decide_unpack _); by vm_compute.
  Ltac own :=
    lazymatch goal with
    | |- Forall2 _ [] _ => apply Forall2_nil_2
    | |- Forall2 _ (FLabel _ _ _ :: _) _ => apply Forall2_cons_2; [reflexivity|own]
    | |- Forall2 _ (attr _ _ (text_codec _) _ _ :: _) _ => apply Forall2_cons_2; [apply own_text|own]
    | |- Forall2 _ (attr _ _ (bool_codec _) _ _ :: _) _ => apply Forall2_cons_2; [apply own_bool|own]
    | |- Forall2 _ (attr _ _ (int_codec _) _ _ :: _) _ => apply Forall2_cons_2; [apply own_int; assumption|own]
    | |- Forall2 _ (attr _ _ (texts_codec _) _ _ :: _) _ => apply Forall2_cons_2; [apply own_texts|own]
    | |- Forall2 _ (blocks _ _ _ _ _ :: _) _ => apply Forall2_cons_2; [apply own_blocks; try assumption|own]
    | |- Forall2 _ (block_ptr _ _ _ _ _ :: _) _ => apply Forall2_cons_2; [apply own_ptr; try assumption|own]
    end.
  Ltac solve_write fields :=
    eapply decode_encode; [reflexivity|nodup|nodup|unfold fields; own|];
    match goal with |- _ = ?s => first [destruct s as [[] ?]; reflexivity|destruct s; reflexivity] end.

  Lemma schema_again s : decode (schema_fields L) schema_zero (encode (schema_fields L) s) = Some s.
  Proof. solve_write schema_fields. Qed.
  Lemma settings_again s : decode (settings_fields L) settings_zero (encode (settings_fields L) s) = Some s.
  Proof. solve_write settings_fields. Qed.
  Lemma func_again f : decode (func_fields L) func_zero (encode (func_fields L) f) = Some f.
  Proof. solve_write func_fields. Qed.
  Lemma owner_again o : decode (owner_fields L) owner_zero (encode (owner_fields L) o) = Some o.
  Proof. solve_write owner_fields. Qed.
  Lemma seq_again q :
    Forall in_range [sf_start q; sf_minimum q; sf_maximum q; sf_increment q; sf_cache q] →
    decode (seq_fields L) seq_zero (encode (seq_fields L) q) = Some q.
  Proof.
    intros H. pose proof (λ b (_ : sf_owned q = Some b), owner_again b).
    repeat (apply list.Forall_cons in H as [? H]). solve_write seq_fields.
  Qed.
  Lemma column_again c : decode (column_fields L) column_zero (encode (column_fields L) c) = Some c.
  Proof. solve_write column_fields. Qed.
  Lemma check_again c : decode (check_fields L) check_zero (encode (check_fields L) c) = Some c.
  Proof. solve_write check_fields. Qed.
  Lemma fk_again f : decode (fk_fields L) fk_zero (encode (fk_fields L) f) = Some f.
  Proof. solve_write fk_fields. Qed.
  Lemma key_again k : decode (key_fields L) key_zero (encode (key_fields L) k) = Some k.
  Proof. solve_write key_fields. Qed.
  Lemma index_again i : decode (index_fields L) index_zero (encode (index_fields L) i) = Some i.
  Proof.
    assert (Forall (λ k, decode (key_fields L) key_zero (encode (key_fields L) k) = Some k) (ix_keys i)).
    { apply list.Forall_forall. intros k _. apply key_again. }
    solve_write index_fields.
  Qed.
  Lemma trigger_again t : decode (trigger_fields L) trigger_zero (encode (trigger_fields L) t) = Some t.
  Proof. solve_write trigger_fields. Qed.

  (** Storage parameters, tables and the whole. *)
  Lemma storage_names : NoDup (attr_names (storage_fields L)).
  Proof. nodup. Qed.
  Lemma storage_known : attr_names (storage_fields L) = known_storage.*1.*1.
  Proof. vm_compute. reflexivity. Qed.
  Lemma storage_no_blocks : block_names (storage_fields L) = [].
  Proof. vm_compute. reflexivity. Qed.
  Lemma storage_only (p : storage) :
    only (Body (attrs_of (storage_fields L) p) (blocks_of (storage_fields L) p)) known_storage.*1.*1 [].
  Proof.
    pose proof storage_names as HN. pose proof storage_known as HK. pose proof storage_no_blocks as HB.
    generalize dependent (storage_fields L). intros fs HN HK HB. rewrite <-HK, <-HB. split_and!.
    - by apply attrs_of_NoDup.
    - intros n v H. by apply attrs_of_names in H.
    - intros n x H. by apply blocks_of_names in H.
  Qed.
  Lemma storage_vars : NoDup storage_tags.*2.*1.
  Proof. nodup. Qed.
  Lemma storage_labels (p : storage) : (encode (storage_fields L) p).1 = [].
  Proof. reflexivity. Qed.
  Lemma storage_again (finite : string → Prop) (p : storage) :
    (∀ f, finite f → let '(m, e) := hl_decimal L f in hl_float L m e = Some f) → typed_storage finite p →
    decode (storage_fields L) storage_zero (encode (storage_fields L) p) = Some p.
  Proof.
    intros Hfloat Hp. apply storage_read.
    pose proof storage_names as HN. pose proof (storage_labels p) as Hlabels.
    pose proof (encode_body (storage_fields L) p eq_refl) as Hbody.
    unfold storage_says. rewrite Hlabels, Hbody. clear Hlabels Hbody. split_and!; [done| | |].
    - exact (storage_only p).
    - intros n f k Hk.
      assert (Hin : storage_field L (n, (f, k)) ∈ storage_fields L).
      { apply elem_of_list_fmap. exists (n, (f, k)). split; [done|]. by apply storage_tags_known. }
      destruct (p !! f) as [v|] eqn:E.
      + left. exists (value_hval L v). split.
        * eapply attrs_of_given; [exact Hin|]. simpl. by rewrite E.
        * destruct (Hp _ _ E) as (n' & k' & Hk' & Hv).
          assert (k' = k) as ->.
          { clear -Hk Hk'.
            pose proof storage_vars as HT.
            apply storage_tags_known in Hk, Hk'.
            apply elem_of_list_lookup in Hk as [i Hi], Hk' as [j Hj].
            assert (i = j) as ->.
            { eapply NoDup_lookup; [exact HT| |]; rewrite !list_lookup_fmap; [rewrite Hi|rewrite Hj]; done. }
            congruence. }
          destruct k, v as [z|b|x]; try (exfalso; exact Hv).
          -- exists z. split; [|reflexivity]. by split; [split|].
          -- exists b. split; reflexivity.
          -- apply Hfloat in Hv. simpl. destruct (hl_decimal L x) as [m e]. exists m, e, x. split_and!; [by split|exact Hv|reflexivity].
      + right. split; [|done]. intros v. eapply attrs_of_missing; [done|exact Hin|]. simpl. by rewrite E.
    - intros f Hf. destruct (p !! f) as [v|] eqn:E; [|done]. exfalso.
      destruct (Hp _ _ E) as (n & k & Hk & _). apply Hf.
      apply elem_of_list_fmap. exists (n, f). split; [reflexivity|]. apply elem_of_list_fmap.
      exists (n, f, k). split; [reflexivity|exact Hk].
  Qed.
  Lemma table_again (finite : string → Prop) (t : table * option storage) :
    (∀ f, finite f → let '(m, e) := hl_decimal L f in hl_float L m e = Some f) →
    (∀ p, t.2 = Some p → typed_storage finite p) →
    decode (table_fields L) table_zero (encode (table_fields L) t) = Some t.
  Proof.
    intros Hfloat Hp.
    pose proof (λ p (H : snd t = Some p), storage_again finite p Hfloat (Hp p H)).
    assert (Forall (λ c, decode (column_fields L) column_zero (encode (column_fields L) c) = Some c) (tb_columns t.1)).
    { apply list.Forall_forall. intros c _. apply column_again. }
    assert (Forall (λ c, decode (check_fields L) check_zero (encode (check_fields L) c) = Some c) (tb_checks t.1)).
    { apply list.Forall_forall. intros c _. apply check_again. }
    assert (Forall (λ c, decode (fk_fields L) fk_zero (encode (fk_fields L) c) = Some c) (tb_foreign_keys t.1)).
    { apply list.Forall_forall. intros c _. apply fk_again. }
    solve_write table_fields.
  Qed.
  Lemma db_again (finite : string → Prop) d :
    (∀ f, finite f → let '(m, e) := hl_decimal L f in hl_float L m e = Some f) → typed_db finite d →
    decode (db_fields L) db_zero (encode (db_fields L) d) = Some d.
  Proof.
    intros Hfloat [Hq Ht].
    pose proof (λ b (_ : df_parameters d = Some b), settings_again b).
    assert (Forall (λ c, decode (schema_fields L) schema_zero (encode (schema_fields L) c) = Some c) (df_schemas d)).
    { apply list.Forall_forall. intros c _. apply schema_again. }
    assert (Forall (λ c, decode (func_fields L) func_zero (encode (func_fields L) c) = Some c) (df_functions d)).
    { apply list.Forall_forall. intros c _. apply func_again. }
    assert (Forall (λ c, decode (seq_fields L) seq_zero (encode (seq_fields L) c) = Some c) (df_sequences d)).
    { eapply list.Forall_impl; [exact Hq|]. intros c. apply seq_again. }
    assert (Forall (λ c, decode (table_fields L) table_zero (encode (table_fields L) c) = Some c) (df_tables d)).
    { eapply list.Forall_impl; [exact Ht|]. intros c. by apply table_again. }
    assert (Forall (λ c, decode (index_fields L) index_zero (encode (index_fields L) c) = Some c) (df_indexes d)).
    { apply list.Forall_forall. intros c _. apply index_again. }
    assert (Forall (λ c, decode (trigger_fields L) trigger_zero (encode (trigger_fields L) c) = Some c) (df_triggers d)).
    { apply list.Forall_forall. intros c _. apply trigger_again. }
    solve_write db_fields.
  Qed.
End write.

(** * Changed texts *)

Definition change_block (n : string → string) (x : block) : block := (n <$> x.1, change_body n x.2).
Section change.
  Context {A : Type} (n : string → string) (c : A → A).
  Definition field_changes (a : A) (f : field A) : Prop :=
    match f with
    | FLabel _ get _ => get (c a) = n (get a)
    | FAttr _ _ w _ => w (c a) = change_value n <$> w a
    | FBlock _ _ w _ => w (c a) = change_block n <$> w a
    end.
  Lemma encode_change fs a :
    live fs = fs → Forall (field_changes a) fs → encode fs (c a) = change_block n (encode fs a).
  Proof.
    intros Hlive H. unfold encode, change_block. rewrite Hlive. cbn [fst snd change_body]. f_equal; [|f_equal].
    - clear Hlive. induction H as [|f fs Hf H IH]; [done|]. destruct f; cbn in *; [|done|done]. by rewrite Hf, IH.
    - clear Hlive. induction H as [|f fs Hf H IH]; [done|]. destruct f as [|m ? w ?|]; cbn in *; [done| |done].
      rewrite Hf. destruct (w a); cbn; [|done]. f_equal. exact IH.
    - clear Hlive. induction H as [|f fs Hf H IH]; [done|]. cbn [concat fmap list_fmap]. rewrite fmap_app. f_equal; [|exact IH].
      destruct f as [| |m ? w ?]; cbn in *; [done|done|]. rewrite Hf, <- !list_fmap_compose. done.
  Qed.
End change.

Lemma texts_change L n l :
  c_write (texts_codec L) (n <$> l) = change_value n <$> c_write (texts_codec L) l.
Proof. destruct l as [|s l]; [done|]. cbn. do 3 f_equal. rewrite <- !list_fmap_compose. done. Qed.
Section changes.
  Variables (L : hcl_lib) (n : string → string).
  Lemma changes_each {A B} (fs : list (field B)) (cB : B → B) (get : A → list B) (cA : A → A) a :
    (∀ b, encode fs (cB b) = change_block n (encode fs b)) → get (cA a) = cB <$> get a →
    encode fs <$> get (cA a) = change_block n <$> (encode fs <$> get a).
  Proof.
    intros H ->. rewrite <- !list_fmap_compose. apply list_fmap_ext. intros ? b _. apply H.
  Qed.
  Lemma changes_ptr {A B} (fs : list (field B)) (cB : B → B) (get : A → option B) (cA : A → A) a :
    (∀ b, encode fs (cB b) = change_block n (encode fs b)) → get (cA a) = cB <$> get a →
    match get (cA a) with Some b => [encode fs b] | None => [] end =
    change_block n <$> match get a with Some b => [encode fs b] | None => [] end.
  Proof. intros H ->. destruct (get a) as [b|]; cbn; [|done]. by rewrite H. Qed.

  Ltac changes :=
    lazymatch goal with
    | |- Forall _ [] => by apply list.Forall_nil
    | |- Forall _ (?f :: _) =>
        apply list.Forall_cons; split;
        [lazymatch f with
         | attr _ _ (texts_codec _) _ _ => apply texts_change
         | blocks _ _ _ _ _ => eapply changes_each; [eassumption|reflexivity]
         | block_ptr _ _ _ _ _ => eapply changes_ptr; [eassumption|reflexivity]
         | _ => reflexivity
         end|changes]
    end.
  Ltac solve_change fields := apply encode_change; [reflexivity|unfold fields; changes].

  Lemma schema_change s : encode (schema_fields L) (change_schema n s) = change_block n (encode (schema_fields L) s).
  Proof. solve_change schema_fields. Qed.
  Lemma settings_change s :
    encode (settings_fields L) (change_settings n s) = change_block n (encode (settings_fields L) s).
  Proof. solve_change settings_fields. Qed.
  Lemma func_change s : encode (func_fields L) (change_func n s) = change_block n (encode (func_fields L) s).
  Proof. solve_change func_fields. Qed.
  Lemma owner_change s : encode (owner_fields L) (change_owner n s) = change_block n (encode (owner_fields L) s).
  Proof. solve_change owner_fields. Qed.
  Lemma seq_change s : encode (seq_fields L) (change_seq n s) = change_block n (encode (seq_fields L) s).
  Proof. pose proof owner_change. solve_change seq_fields. Qed.
  Lemma column_change s : encode (column_fields L) (change_column n s) = change_block n (encode (column_fields L) s).
  Proof. solve_change column_fields. Qed.
  Lemma check_change s : encode (check_fields L) (change_check n s) = change_block n (encode (check_fields L) s).
  Proof. solve_change check_fields. Qed.
  Lemma fk_change s : encode (fk_fields L) (change_fk n s) = change_block n (encode (fk_fields L) s).
  Proof. solve_change fk_fields. Qed.
  Lemma key_change s : encode (key_fields L) (change_key n s) = change_block n (encode (key_fields L) s).
  Proof. solve_change key_fields. Qed.
  Lemma index_change s : encode (index_fields L) (change_index n s) = change_block n (encode (index_fields L) s).
  Proof. pose proof key_change. solve_change index_fields. Qed.
  Lemma trigger_change s :
    encode (trigger_fields L) (change_trigger n s) = change_block n (encode (trigger_fields L) s).
  Proof. solve_change trigger_fields. Qed.
  Lemma storage_change s : encode (storage_fields L) (id s) = change_block n (encode (storage_fields L) s).
  Proof.
    apply encode_change; [reflexivity|]. apply list.Forall_forall. intros f ([m [g k]] & -> & _)%elem_of_list_fmap.
    simpl. destruct (s !! g) as [[z|b|x]|]; simpl; [done|done| |done]. by destruct (hl_decimal L x).
  Qed.
  Lemma table_change t : encode (table_fields L) (change_table n t) = change_block n (encode (table_fields L) t).
  Proof.
    pose proof column_change. pose proof check_change. pose proof fk_change. pose proof storage_change.
    apply encode_change; [reflexivity|].
    assert (snd (change_table n t) = id <$> snd t) by (destruct t as [? []]; done).
    unfold table_fields. repeat (apply list.Forall_cons; split;
      [first [reflexivity|eapply changes_each; [eassumption|reflexivity]|eapply changes_ptr; eassumption]|]).
    by apply list.Forall_nil.
  Qed.
  Lemma db_change d : encode (db_fields L) (change_db n d) = change_block n (encode (db_fields L) d).
  Proof.
    pose proof settings_change. pose proof schema_change. pose proof func_change. pose proof seq_change.
    pose proof table_change. pose proof index_change. pose proof trigger_change.
    solve_change db_fields.
  Qed.
End changes.

(** * Texts that can be written *)

Definition word_char (c : ascii) : bool :=
  Ascii.eqb c "_" || (Nat.leb 97 (nat_of_ascii c) && Nat.leb (nat_of_ascii c) 122).
Fixpoint wordb (s : string) : bool :=
  match s with "" => true | String c s => word_char c && wordb s end.
Lemma word_char_spec c : word_char c = true → c = "_"%char ∨ (97 ≤ nat_of_ascii c ≤ 122)%nat.
Proof.
  unfold word_char. intros [H|H]%orb_true_iff.
  - left. by apply Ascii.eqb_eq.
  - right. apply andb_true_iff in H as [H1 H2]. split; by apply Nat.leb_le.
Qed.
Lemma wordb_word s : s ≠ "" → wordb s = true → is_word s.
Proof.
  intros Hne H. split; [done|]. clear Hne. induction s as [|c s IH].
  - intros c H'. by apply elem_of_nil in H'.
  - cbn [wordb] in H. apply andb_true_iff in H as [Hc H]. cbn [list_ascii_of_string].
    intros c' [->|H']%elem_of_cons; [by apply word_char_spec|by apply IH].
Qed.
Definition good_block (good : string → Prop) (x : block) : Prop := Forall good x.1 ∧ good_body good x.2.
Lemma foldr_Forall {B} (Q : B → Prop) l : foldr (λ x P, Q x ∧ P) True l ↔ Forall Q l.
Proof. induction l as [|x l IH]; simpl; [by rewrite list.Forall_nil|]. by rewrite list.Forall_cons, IH. Qed.
Section goods.
  Context {A : Type} (good : string → Prop).
  Definition field_good (a : A) (f : field A) : Prop :=
    match f with
    | FLabel _ get _ => good (get a)
    | FAttr m _ w _ => is_word m ∧ ∀ v, w a = Some v → good_value good v
    | FBlock m _ w _ => is_word m ∧ Forall (good_block good) (w a)
    end.
  Lemma encode_good fs a :
    live fs = fs → NoDup (attr_names fs) → Forall (field_good a) fs → good_block good (encode fs a).
  Proof.
    intros Hlive HN H. unfold good_block, encode. rewrite Hlive. cbn [fst snd good_body].
    pose proof (attrs_of_NoDup fs a HN) as HN'. clear Hlive HN. split_and!; [|exact HN'| |].
    - induction H as [|f fs Hf H IH]; cbn; [by apply list.Forall_nil|]. 
      destruct f as [|m ? w ?|]; cbn in *; [|..]. 
      + apply list.Forall_cons; split; [done|]. apply IH. done.
      + apply IH. destruct (w a); cbn in HN'; [by apply list.NoDup_cons in HN' as [_ ?]|done].
      + by apply IH.
    - induction H as [|f fs Hf H IH]; cbn; [by apply list.Forall_nil|].
      destruct f as [|m ? w ?|]; cbn in *; [by apply IH| |by apply IH].
      destruct (w a) as [v|]; cbn in *; [|by apply IH].
      apply list.NoDup_cons in HN' as [_ HN']. apply list.Forall_cons; split; [|by apply IH].
      simpl. split; [apply Hf|]. by apply Hf.
    - apply foldr_Forall. clear HN'. induction H as [|f fs Hf H IH]; cbn; [by apply list.Forall_nil|].
      apply Forall_app. split; [|exact IH]. destruct f as [| |m ? w ?]; cbn in *; [by apply list.Forall_nil|by apply list.Forall_nil|].
      destruct Hf as [Hm Hw]. apply list.Forall_fmap. eapply list.Forall_impl; [exact Hw|].
      intros x [Hx1 Hx2]. done.
  Qed.
End goods.
Section written.
  Variables (L : hcl_lib) (n : string → string) (good finite : string → Prop) (OK : ok_lib L n good finite).
  Lemma texts_good l v : Forall good l → c_write (texts_codec L) l = Some v → good_value good v.
  Proof.
    intros H [= <-]. destruct l as [|s l]; [done|].
    change (foldr (λ v P, good_value good v ∧ P) True (HText <$> s :: l)). apply foldr_Forall, list.Forall_fmap.
    eapply list.Forall_impl; [exact H|]. done.
  Qed.
  Ltac nodup := apply (bool_decide_unpack _); by vm_compute.
  Ltac word := apply wordb_word; [done|reflexivity].
  Ltac goods :=
    lazymatch goal with
    | |- Forall _ [] => by apply list.Forall_nil
    | |- Forall _ (?f :: _) =>
        apply list.Forall_cons; split;
        [lazymatch f with
         | FLabel _ _ _ => simpl; assumption
         | attr _ _ (text_codec _) _ _ => split; [word|intros ? [= <-]; simpl; assumption]
         | attr _ _ (bool_codec _) _ _ => split; [word|intros ? [= <-]; exact I]
         | attr _ _ (int_codec _) _ _ => split; [word|intros ? [= <-]; left; reflexivity]
         | attr _ _ (texts_codec _) _ _ => split; [word|intros ?; apply texts_good; assumption]
         | _ => split; [word|]
         end|goods]
    end.
  Ltac solve_good fields := apply encode_good; [reflexivity|nodup|unfold fields; goods].
  Ltac split_every H := repeat (rewrite ?Forall_app, ?list.Forall_cons in H); destruct_and? H.

  Lemma schema_good s : every_schema good s → good_block good (encode (schema_fields L) s).
  Proof. unfold every_schema. intros H. split_every H. solve_good schema_fields. Qed.
  Lemma settings_good s : every_settings good s → good_block good (encode (settings_fields L) s).
  Proof. unfold every_settings. intros H. split_every H. solve_good settings_fields. Qed.
  Lemma func_good s : every_func good s → good_block good (encode (func_fields L) s).
  Proof. unfold every_func. intros H. split_every H. solve_good func_fields. Qed.
  Lemma owner_good s :
    Forall good [so_schema s; so_table s; so_column s] → good_block good (encode (owner_fields L) s).
  Proof. intros H. split_every H. solve_good owner_fields. Qed.
  Lemma seq_good s : every_seq good s → good_block good (encode (seq_fields L) s).
  Proof.
    intros [H Ho]. split_every H. solve_good seq_fields.
    destruct (sf_owned s) as [o|]; [|by apply list.Forall_nil].
    apply list.Forall_singleton, owner_good. by apply Ho.
  Qed.
  Lemma column_good s : every_column good s → good_block good (encode (column_fields L) s).
  Proof. unfold every_column. intros H. split_every H. solve_good column_fields. Qed.
  Lemma check_good s : every_check good s → good_block good (encode (check_fields L) s).
  Proof. unfold every_check. intros H. split_every H. solve_good check_fields. Qed.
  Lemma fk_good s : every_fk good s → good_block good (encode (fk_fields L) s).
  Proof. unfold every_fk. intros H. split_every H. solve_good fk_fields. Qed.
  Lemma key_good s :
    Forall good [ik_column s; ik_expression s; ik_opclass s] → good_block good (encode (key_fields L) s).
  Proof. intros H. split_every H. solve_good key_fields. Qed.
  Lemma trigger_good s : every_trigger good s → good_block good (encode (trigger_fields L) s).
  Proof. unfold every_trigger. intros H. split_every H. solve_good trigger_fields. Qed.
  Lemma each_good {B} (fs : list (field B)) (P : B → Prop) (l : list B) :
    (∀ b, P b → good_block good (encode fs b)) → Forall P l → Forall (good_block good) (encode fs <$> l).
  Proof. intros H Hl. apply list.Forall_fmap. eapply list.Forall_impl; [exact Hl|]. exact H. Qed.
  Lemma index_good s : every_index good s → good_block good (encode (index_fields L) s).
  Proof.
    intros [H Hk]. split_every H. solve_good index_fields. by eapply each_good; [apply key_good|].
  Qed.
  Lemma storage_good p : typed_storage finite p → good_block good (encode (storage_fields L) p).
  Proof.
    intros Hp. apply encode_good; [reflexivity|nodup|]. unfold storage_fields. apply list.Forall_fmap.
    assert (Forall (λ t : string * (string * kind), is_word t.1) storage_tags) as HW.
    { unfold storage_tags. repeat (apply list.Forall_cons; split; [word|]). by apply list.Forall_nil. }
    eapply list.Forall_impl; [exact HW|]. intros [m [f k]] Hm. split; [exact Hm|]. simpl.
    intros v (x & Hx & ->)%fmap_Some. destruct (Hp _ _ Hx) as (? & k' & _ & Hv).
    destruct x as [z|b|y]; simpl; [by left|done|].
    assert (finite y) as Hy by (by destruct k'). apply (ok_float _ _ _ _ OK) in Hy.
    destruct (hl_decimal L y) as [m' e]. by destruct Hy.
  Qed.
  Lemma table_good (t : table * option storage) :
    every_table good t → (∀ p, t.2 = Some p → typed_storage finite p) →
    good_block good (encode (table_fields L) t).
  Proof.
    intros (H & Hc & Hk & Hf) Hp. split_every H. solve_good table_fields.
    - by eapply each_good; [apply column_good|].
    - by eapply each_good; [apply check_good|].
    - by eapply each_good; [apply fk_good|].
    - destruct (snd t) as [p|] eqn:E; [|by apply list.Forall_nil].
      apply list.Forall_singleton, storage_good. by apply Hp.
  Qed.
  Lemma db_good d : every_text good d → typed_db finite d → good_block good (encode (db_fields L) d).
  Proof.
    intros (Hs & H1 & H2 & H3 & H4 & H5 & H6) [_ Ht]. solve_good db_fields.
    - destruct (df_parameters d) as [s|]; [|by apply list.Forall_nil].
      apply list.Forall_singleton, settings_good. by apply Hs.
    - by eapply each_good; [apply schema_good|].
    - by eapply each_good; [apply func_good|].
    - by eapply each_good; [apply seq_good|].
    - apply list.Forall_fmap. apply list.Forall_forall. intros t Hin.
      rewrite list.Forall_forall in H4, Ht. apply table_good; [by apply H4|by apply Ht].
    - by eapply each_good; [apply index_good|].
    - by eapply each_good; [apply trigger_good|].
  Qed.

  Lemma change_typed d : typed_db finite d → typed_db finite (change_db n d).
  Proof.
    intros [Hq Ht]. split; simpl; apply list.Forall_fmap; (eapply list.Forall_impl; [eassumption|]); by intros [].
  Qed.
  Lemma written_read d :
    every_text good d → typed_db finite d → parse_bytes L (db_text L d) = Some (change_db n d).
  Proof.
    intros Hg Ht. unfold parse_bytes, db_text. destruct (db_good d Hg Ht) as [_ Hb].
    rewrite (ok_print _ _ _ _ OK _ Hb). cbn [mbind option_bind].
    assert (Hc : encode (db_fields L) (change_db n d) = ([], change_body n (encode (db_fields L) d).2)).
    { rewrite db_change. reflexivity. }
    rewrite <- Hc. eapply db_again; [|by apply change_typed]. intros f Hf. apply (ok_float _ _ _ _ OK) in Hf.
    destruct (hl_decimal L f). by destruct Hf.
  Qed.
End written.

(** * Texts that are not changed *)

Section same.
  Variable n : string → string.
  Notation same := (λ s, n s = s).
  Lemma same_list {B} (c : B → B) (P : B → Prop) l : (∀ b, P b → c b = b) → Forall P l → c <$> l = l.
  Proof. intros H Hl. induction Hl as [|b l Hb Hl IH]; [done|]. cbn. rewrite H by done. f_equal. exact IH. Qed.
  Lemma same_texts l : Forall same l → n <$> l = l.
  Proof. by apply same_list. Qed.
  Ltac same H :=
    repeat (rewrite ?Forall_app, ?list.Forall_cons in H); destruct_and? H; f_equal; first [assumption|by apply same_texts].
  Lemma change_db_same d : every_text same d → change_db n d = d.
  Proof.
    intros (Hs & H1 & H2 & H3 & H4 & H5 & H6). destruct d as [s a b c e f g]; simpl in *.
    unfold change_db; simpl. f_equal.
    - destruct s as [s|]; [|done]. simpl. f_equal. specialize (Hs _ eq_refl). destruct s. unfold every_settings in Hs.
      unfold change_settings. simpl in *. same Hs.
    - eapply same_list; [|exact H1]. intros [] H. unfold every_schema in H. unfold change_schema. simpl in *. same H.
    - eapply same_list; [|exact H2]. intros [] H. unfold every_func in H. unfold change_func. simpl in *. same H.
    - eapply same_list; [|exact H3]. intros [] [H Ho]. unfold change_seq. simpl in *.
      assert (change_owner n <$> sf_owned = sf_owned).
      { destruct sf_owned as [o|]; [|done]. simpl. f_equal. specialize (Ho _ eq_refl). destruct o.
        unfold change_owner; simpl in *. same Ho. }
      repeat (rewrite ?Forall_app, ?list.Forall_cons in H); destruct_and? H. f_equal; assumption || done.
    - eapply same_list; [|exact H4]. intros [[] p] (H & Hc & Hk & Hf). unfold change_table. simpl in *. f_equal.
      repeat (rewrite ?Forall_app, ?list.Forall_cons in H); destruct_and? H. f_equal; try assumption.
      + eapply same_list; [|exact Hc]. intros [] H'. unfold every_column in H'. unfold change_column. simpl in *.
        repeat (rewrite ?Forall_app, ?list.Forall_cons in H'); destruct_and? H'. f_equal; assumption.
      + eapply same_list; [|exact Hk]. intros [] H'. unfold every_check in H'. unfold change_check. simpl in *.
        repeat (rewrite ?Forall_app, ?list.Forall_cons in H'); destruct_and? H'. f_equal; assumption.
      + eapply same_list; [|exact Hf]. intros [] H'. unfold every_fk in H'. unfold change_fk. simpl in *.
        repeat (rewrite ?Forall_app, ?list.Forall_cons in H'); destruct_and? H'.
        f_equal; first [assumption|by apply same_texts].
    - eapply same_list; [|exact H5]. intros [] [H Hk]. unfold change_index. simpl in *.
      repeat (rewrite ?Forall_app, ?list.Forall_cons in H); destruct_and? H. f_equal; try assumption.
      eapply same_list; [|exact Hk]. intros [] H'. unfold change_key. simpl in *.
      repeat (rewrite ?Forall_app, ?list.Forall_cons in H'); destruct_and? H'. f_equal; assumption.
    - eapply same_list; [|exact H6]. intros [] H. unfold every_trigger in H. unfold change_trigger. simpl in *.
      same H.
  Qed.
End same.

(** * What is read can be written *)

Section typed.
  Variables (L : hcl_lib) (finite : string → Prop).
  Hypothesis back : ∀ m e f, hl_float L m e = Some f → finite f.

  Lemma int_in_range b n z : may (as_int L) 0 b n z → in_range z.
  Proof. intros [(v & _ & _ & H)|[_ ->]]; [done|]. split; lia. Qed.
  Lemma storage_typed x p : storage_says L x p → typed_storage finite p.
  Proof.
    intros (_ & _ & Hk & Hn) f v Hf. destruct (decide (f ∈ known_storage.*1.*2)) as [Hin|Hin].
    - apply elem_of_list_fmap in Hin as ([n f'] & -> & ([[n' g] k] & E & Hin)%elem_of_list_fmap). cbn in E. injection E as -> ->.
      exists n', k. cbn [snd] in *. split; [done|]. destruct (Hk _ _ _ Hin) as [(w & _ & Hw)|[_ Hw]]; [|congruence].
      rewrite Hf in Hw. destruct w; [done|..]; destruct k; cbn in Hw;
        first [destruct Hw as (z & [_ Hz] & [= ->]); exact Hz
              |destruct Hw as (z & _ & [= ->]); exact I
              |destruct Hw as (m' & e' & f'' & _ & Hb & [= ->]); by eapply back].
    - rewrite (Hn _ Hin) in Hf. done.
  Qed.
  Lemma says_typed b d : file_says L b d → typed_db finite d.
  Proof.
    intros (_ & _ & _ & _ & Hq & Ht & _). split.
    - unfold each in Hq. induction Hq as [|x q xs qs Hx _ IH]; [by apply list.Forall_nil|].
      apply list.Forall_cons. split; [|exact IH]. unfold sequence_says in Hx. destruct_and! Hx.
      repeat (apply list.Forall_cons; split; [by eapply int_in_range|]). by apply list.Forall_nil.
    - unfold each in Ht. induction Ht as [|x t xs ts Hx _ IH]; [by apply list.Forall_nil|].
      apply list.Forall_cons. split; [|exact IH]. intros p Hp. unfold table_says in Hx. destruct_and! Hx.
      match goal with H : at_most_one _ _ _ _ |- _ => rewrite Hp in H; destruct H as (y & _ & Hy) end.
      by eapply storage_typed.
  Qed.
End typed.
