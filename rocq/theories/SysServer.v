(** A server that answers the queries from its catalogues: one exists for every
    database. *)
From Coq Require Import String Ascii.
From stdpp Require Import gmap list strings numbers sorting.
From Verif Require Import GoBase GoStrings DdlModel DdlSpec MachineModel ParseModel ParseGrammar ParseSpec PgModel PgSpec PgProofs
  QueryModel QueryProofs SysModel SysSpec SysProofs SysListing SysInspect.
Local Open Scope Z_scope.

(** * Sorting rows *)

Section isort.
  Context {A : Type} (le : A → A → bool).
  Fixpoint place (x : A) (l : list A) : list A :=
    match l with [] => [x] | y :: l => if le x y then x :: y :: l else y :: place x l end.
  Fixpoint isort (l : list A) : list A := match l with [] => [] | x :: l => place x (isort l) end.
  Lemma place_perm x l : place x l ≡ₚ x :: l.
  Proof. induction l as [|y l IH]; [done|]. simpl. destruct (le x y); [done|]. rewrite IH. constructor. Qed.
  Lemma isort_perm l : isort l ≡ₚ l.
  Proof. induction l as [|x l IH]; [done|]. simpl. by rewrite place_perm, IH. Qed.
  Context (C : A → Prop)
    (Htotal : ∀ x y, C x → C y → le x y = true ∨ le y x = true)
    (Htrans : ∀ x y z, C x → C y → C z → le x y = true → le y z = true → le x z = true).
  Lemma place_sorted x l : C x → Forall C l → StronglySorted (λ a b, le a b = true) l → StronglySorted (λ a b, le a b = true) (place x l).
  Proof using Htotal Htrans.
    intros Hx Hl. induction 1 as [|y l Hs IH Hy]; simpl; [by repeat constructor|].
    apply Forall_cons in Hl as [Cy Hl]. destruct (le x y) eqn:E.
    - constructor; [by constructor|]. constructor; [done|].
      rewrite Forall_forall in Hy, Hl. apply Forall_forall. intros z Hz. apply (Htrans x y z); auto.
    - assert (le y x = true) as Eyx by (destruct (Htotal x y); congruence).
      constructor; [by apply IH|]. rewrite place_perm. by constructor.
  Qed.
  Lemma isort_sorted l : Forall C l → StronglySorted (λ a b, le a b = true) (isort l).
  Proof using Htotal Htrans.
    induction 1 as [|x l Hx Hl IH]; simpl; [constructor|]. apply place_sorted; [done| |done]. by rewrite isort_perm.
  Qed.
End isort.

(** * Comparing keys *)

Definition kind (v : value) : nat :=
  match v with VInt _ => 1 | VBool _ => 2 | VName _ => 3 | VText _ => 4 | VInts _ => 5 | _ => 0 end.
Definition keys_like (ks : list nat) (a : list value) : Prop := kind <$> a = ks.
Section keys.
  Context (sy : system) (Hs : sane sy).
  Let st := store_of sy.
  Lemma leb_trans a b c : String.leb a b = true → String.leb b c = true → String.leb a c = true.
  Proof.
    intros H1 H2. change (str_le a b) in H1. change (str_le b c) in H2. change (str_le a c). by etrans.
  Qed.
  Lemma ints_total a b : ints_le a b = true ∨ ints_le b a = true.
  Proof.
    revert b. induction a as [|x a IH]; intros [|y b]; simpl; auto. destruct (decide (x = y)) as [->|N].
    - rewrite decide_True by done. apply IH.
    - rewrite decide_False by done. rewrite !bool_decide_eq_true. lia.
  Qed.
  Lemma ints_trans a b c : ints_le a b = true → ints_le b c = true → ints_le a c = true.
  Proof.
    revert b c. induction a as [|x a IH]; intros [|y b] [|z c]; simpl; try done.
    repeat case_decide; subst; rewrite ?bool_decide_eq_true; try done; try lia; eauto.
  Qed.
  Lemma value_total k a b : kind a = S k → kind b = S k → value_le st a b = true ∨ value_le st b a = true.
  Proof using Hs.
    destruct a, b; simpl; try congruence; intros _ _; rewrite ?bool_decide_eq_true.
    - match goal with |- implb ?x ?y = _ ∨ _ => destruct x, y end; auto.
    - lia.
    - apply String.leb_total.
    - apply (sane_text_total _ Hs).
    - apply ints_total.
  Qed.
  Lemma value_trans k a b c : kind a = S k → kind b = S k → kind c = S k →
    value_le st a b = true → value_le st b c = true → value_le st a c = true.
  Proof using Hs.
    destruct a, b, c; simpl; try congruence; intros _ _ _; rewrite ?bool_decide_eq_true.
    - match goal with |- implb ?x ?y = _ → implb _ ?z = _ → _ => destruct x, y, z end; auto.
    - lia.
    - apply leb_trans.
    - apply (sane_text_trans _ Hs).
    - apply ints_trans.
  Qed.
  Lemma keys_total desc ks a b : Forall (λ k, k ≠ 0%nat) ks → keys_like ks a → keys_like ks b →
    keys_le st desc a b = true ∨ keys_le st desc b a = true.
  Proof using Hs.
    revert ks a b. induction desc as [|d desc IH]; intros ks [|x a] [|y b] Hk Ha Hb; simpl; auto.
    destruct ks as [|[|k] ks]; [done|by inversion Hk|]. injection Ha as Kx Ha. injection Hb as Ky Hb. inversion_clear Hk.
    destruct (value_total k x y Kx Ky) as [E|E]; rewrite E; simpl.
    - destruct (value_le st y x) eqn:E'; simpl; [by eapply IH|]. destruct d; auto.
    - rewrite andb_true_r. destruct (value_le st x y) eqn:E'; simpl; [by eapply IH|]. destruct d; auto.
  Qed.
  Lemma keys_trans desc ks a b c : Forall (λ k, k ≠ 0%nat) ks → keys_like ks a → keys_like ks b → keys_like ks c →
    keys_le st desc a b = true → keys_le st desc b c = true → keys_le st desc a c = true.
  Proof using Hs.
    revert ks a b c. induction desc as [|d desc IH]; intros ks [|x a] [|y b] [|z c] Hk Ha Hb Hc; simpl; auto;
      destruct ks as [|[|k] ks]; try done; [by inversion Hk|].
    injection Ha as Kx Ha. injection Hb as Ky Hb. injection Hc as Kz Hc. inversion_clear Hk as [|? ? _ Hk'].
    pose proof (value_trans k x y z Kx Ky Kz) as T1. pose proof (value_trans k z y x Kz Ky Kx) as T2.
    pose proof (value_trans k y z x Ky Kz Kx) as T3. pose proof (value_trans k x z y Kx Kz Ky) as T4.
    pose proof (value_trans k z x y Kz Kx Ky) as T5. pose proof (value_trans k y x z Ky Kx Kz) as T6.
    specialize (IH ks a b c Hk' Ha Hb Hc).
    destruct (value_le st x y), (value_le st y x), (value_le st y z), (value_le st z y), (value_le st x z), (value_le st z x), d;
      simpl in *; auto; try (by specialize (T1 eq_refl eq_refl)); try (by specialize (T2 eq_refl eq_refl));
      try (by specialize (T3 eq_refl eq_refl)); try (by specialize (T4 eq_refl eq_refl)); try (by specialize (T5 eq_refl eq_refl));
      try (by specialize (T6 eq_refl eq_refl)); intros; congruence.
  Qed.
End keys.

(** * Answering *)

Definition answered (sy : system) (q : query) (ps : list string) : list (list value) :=
  match eval_query (store_of sy) (VText <$> ps) [] q with
  | Some raw => (isort (λ a b, keys_le (store_of sy) (descending q) a.2 b.2) raw).*1
  | None => []
  end.
Lemma answered_yields {T} sy (f : T → list value * list value) P ks q ps : sane sy →
  rows_for f P (eval_query (store_of sy) (VText <$> ps) [] q) → Forall (λ k, k ≠ 0%nat) ks →
  (∀ t, P t → keys_like ks (f t).2) → yields (store_of sy) (VText <$> ps) q (answered sy q ps).
Proof.
  intros Hs (l & E & _ & HP) Hk Hf. unfold answered. rewrite E. exists (map f l), (isort (λ a b, keys_le (store_of sy) (descending q) a.2 b.2) (map f l)).
  split_and!; [done|apply isort_perm| |done].
  apply (isort_sorted _ (λ r, keys_like ks r.2)).
  - intros x y Hx Hy. by apply (keys_total sy Hs _ ks).
  - intros x y z Hx Hy Hz. by apply (keys_trans sy Hs _ ks).
  - apply Forall_forall. intros r Hr. change (r ∈ f <$> l) in Hr. apply elem_of_list_fmap in Hr as (t & -> & Ht). by apply Hf, HP.
Qed.

Section catalogues.
Context (sy : system) (Hs : sane sy).

Lemma scan_omap {R} (scan : list value → option R) (rows : list (list value)) (held : list R) : scan <$> rows = Some <$> held → omap scan rows = held.
Proof.
  revert held. induction rows as [|r rows IH]; intros [|x held] E; try done. injection E as E1 E2. simpl. rewrite E1. f_equal. by apply IH.
Qed.
Lemma gives_rows {O R} (scan : list value → option R) q ps (P : O → Prop) before row :
  gives scan sy q ps P before row → yields (store_of sy) (VText <$> ps) q (answered sy q ps) →
  has_rows scan sy q ps (omap scan (answered sy q ps)).
Proof.
  intros [_ Hg] Hy. exists (answered sy q ps). split; [done|]. destruct (Hg _ Hy) as (os & held & _ & _ & _ & E & _).
  by rewrite (scan_omap _ _ _ E).
Qed.
Lemma keys_few : Forall (λ k, k ≠ 0%nat) [3%nat] ∧ Forall (λ k, k ≠ 0%nat) [3; 3]%nat ∧ Forall (λ k, k ≠ 0%nat) [1]%nat ∧
  Forall (λ k, k ≠ 0%nat) [3; 5]%nat ∧ Forall (λ k, k ≠ 0%nat) [2; 2; 3]%nat ∧ Forall (λ k, k ≠ 0%nat) [4]%nat ∧ Forall (λ k, k ≠ 0%nat) [].
Proof. split_and!; repeat (constructor; [done|]); constructor. Qed.

Lemma schemas_answered : yields (store_of sy) (VText <$> []) list_schemas_query (answered sy list_schemas_query []).
Proof using Hs. by apply (answered_yields sy _ _ [3]%nat _ [] Hs (schemas_rows sy Hs)); [apply keys_few|]. Qed.
Lemma tables_answered : yields (store_of sy) (VText <$> []) list_tables_query (answered sy list_tables_query []).
Proof using Hs. by apply (answered_yields sy _ _ [3; 3]%nat _ [] Hs (tables_rows sy Hs)); [apply keys_few|]. Qed.
Lemma functions_answered : yields (store_of sy) (VText <$> []) list_functions_query (answered sy list_functions_query []).
Proof using Hs. apply (answered_yields sy _ _ [3; 3]%nat _ [] Hs (functions_rows sy Hs)); [apply keys_few|]. by intros [[n p] g] _. Qed.
Lemma function_answered s name :
  yields (store_of sy) (VText <$> [s; name]) describe_function_query (answered sy describe_function_query [s; name]).
Proof using Hs. by apply (answered_yields sy _ _ [] _ [s; name] Hs (describe_function_rows sy s name Hs)). Qed.
Lemma sequences_answered : is_Some (sy_sequences sy) →
  yields (store_of sy) (VText <$> []) list_sequences_query (answered sy list_sequences_query []).
Proof using Hs.
  intros [l Hl]. apply (answered_yields sy _ _ [3; 3]%nat _ [] Hs (sequences_rows sy l Hs Hl)); [apply keys_few|]. by intros [o q] _.
Qed.
Lemma old_sequences_answered : yields (store_of sy) (VText <$> []) list_sequences_pre10_query (answered sy list_sequences_pre10_query []).
Proof using Hs. by apply (answered_yields sy _ _ [3; 3]%nat _ [] Hs (old_sequences_rows sy Hs)); [apply keys_few|]. Qed.
Lemma columns_answered s t : yields (store_of sy) (VText <$> [s; t]) list_columns_query (answered sy list_columns_query [s; t]).
Proof using Hs. by apply (answered_yields sy _ _ [1]%nat _ [s; t] Hs (columns_rows sy s t Hs)); [apply keys_few|]. Qed.
Lemma checks_answered s t : yields (store_of sy) (VText <$> [s; t]) list_checks_query (answered sy list_checks_query [s; t]).
Proof using Hs. by apply (answered_yields sy _ _ [3]%nat _ [s; t] Hs (checks_rows sy s t Hs)); [apply keys_few|]. Qed.
Lemma triggers_answered s t : yields (store_of sy) (VText <$> [s; t]) list_triggers_query (answered sy list_triggers_query [s; t]).
Proof using Hs. by apply (answered_yields sy _ _ [3]%nat _ [s; t] Hs (triggers_rows sy s t Hs)); [apply keys_few|]. Qed.
Lemma trigger_answered s t name :
  yields (store_of sy) (VText <$> [s; t; name]) describe_trigger_query (answered sy describe_trigger_query [s; t; name]).
Proof using Hs. by apply (answered_yields sy _ _ [] _ [s; t; name] Hs (describe_trigger_rows sy s t name Hs)). Qed.
Lemma indexes_answered s t : yields (store_of sy) (VText <$> [s; t]) list_indexes_query (answered sy list_indexes_query [s; t]).
Proof using Hs. by apply (answered_yields sy _ _ [2; 2; 3]%nat _ [s; t] Hs (indexes_rows sy s t Hs)); [apply keys_few|]. Qed.
Lemma foreign_keys_answered s t :
  yields (store_of sy) (VText <$> [s; t]) list_foreign_keys_query (answered sy list_foreign_keys_query [s; t]).
Proof using Hs. by apply (answered_yields sy _ _ [3; 5]%nat _ [s; t] Hs (foreign_keys_rows sy s t Hs)); [apply keys_few|]. Qed.
Lemma options_answered s t :
  yields (store_of sy) (VText <$> [s; t]) list_table_storage_parameters_query (answered sy list_table_storage_parameters_query [s; t]).
Proof using Hs.
  destruct (options_rows sy s t Hs) as (held & E & _). unfold answered. change (VText <$> [s; t]) with [VText s; VText t]. rewrite E.
  eexists (map option_out held), _. split_and!; [done|apply isort_perm| |done].
  apply (isort_sorted _ (λ r, keys_like [4]%nat r.2)).
  - intros x y Hx Hy. apply (keys_total sy Hs _ [4]%nat); try done. apply keys_few.
  - intros x y z Hx Hy Hz. apply (keys_trans sy Hs _ [4]%nat); try done. apply keys_few.
  - apply Forall_forall. intros r Hr. change (r ∈ option_out <$> held) in Hr. by apply elem_of_list_fmap in Hr as (x & -> & Hx).
Qed.
Lemma view_answered : yields (store_of sy) (VText <$> []) has_sequences_view_query [[VBool (bool_decide (is_Some (sy_sequences sy)))]].
Proof using Hs.
  eexists _, _. split_and!; [apply (has_view_eval sy Hs)|done|repeat constructor|done].
Qed.

Definition catalog_from (path zone : string) : catalog :=
  Catalog path zone (omap scan_schema (answered sy list_schemas_query [])) (omap scan_function (answered sy list_functions_query []))
    (bool_decide (is_Some (sy_sequences sy)))
    (omap scan_sequence (answered sy list_sequences_query [])) (omap scan_old_sequence (answered sy list_sequences_pre10_query []))
    (omap scan_table (answered sy list_tables_query []))
    (λ s t, omap scan_column (answered sy list_columns_query [s; t])) (λ s t, omap scan_named (answered sy list_checks_query [s; t]))
    (λ s t, omap scan_named (answered sy list_foreign_keys_query [s; t]))
    (λ s t, omap scan_text (answered sy list_table_storage_parameters_query [s; t]))
    (λ s t, omap scan_index (answered sy list_indexes_query [s; t])) (λ s t, omap scan_named (answered sy list_triggers_query [s; t])).
Lemma catalog_from_of path zone : catalog_of sy (catalog_from path zone).
Proof using Hs.
  constructor; simpl.
  - eapply gives_rows; [apply (schemas_give sy Hs)|apply schemas_answered].
  - eapply gives_rows; [apply (functions_give sy Hs)|apply functions_answered].
  - eexists. split; [apply view_answered|done].
  - intros Hq. pose proof Hq as [l Hl]. eapply gives_rows; [apply (sequences_give sy Hs l Hl)|by apply sequences_answered].
  - eapply gives_rows; [apply (old_sequences_give sy Hs)|apply old_sequences_answered].
  - eapply gives_rows; [apply (tables_give sy Hs)|apply tables_answered].
  - intros s t. eapply gives_rows; [apply (columns_give sy Hs)|apply columns_answered].
  - intros s t. eapply gives_rows; [apply (checks_give sy Hs)|apply checks_answered].
  - intros s t. eapply gives_rows; [apply (foreign_keys_give sy Hs)|apply foreign_keys_answered].
  - intros s t. pose proof (options_answered s t) as Hy. eexists. split; [exact Hy|].
    destruct (options_scanned sy s t _ Hs Hy) as [held E]. by rewrite (scan_omap _ _ _ E).
  - intros s t. eapply gives_rows; [apply (indexes_give sy Hs)|apply indexes_answered].
  - intros s t. eapply gives_rows; [apply (triggers_give sy Hs)|apply triggers_answered].
Qed.

(** The sequence of that quoted name. *)
Definition details_from (x : string) : row_answer details_row :=
  match filter (λ nc, rel_namespace nc.2 = ns_oid nc.1 ∧ identifier [ns_name nc.1; rel_name nc.2] = x)
          (list_prod (sy_namespaces sy) (sy_classes sy)) with
  | [nc] => Row (sy_old_details sy (rel_oid nc.2))
  | _ => RowFailed
  end.
Lemma details_from_reads : reads_details sy details_from.
Proof.
  intros n c (H1 & H2 & H3) _. unfold details_from.
  match goal with |- context [filter ?P ?l] => assert (Hin : (n, c) ∈ filter P l) end.
  { apply elem_of_list_filter. split; [done|]. apply elem_of_list_In, in_prod; by apply elem_of_list_In. }
  revert Hin. match goal with |- context [filter ?P ?l] => generalize (filter P l) end.
  intros [|x [|y l]] Hin; try (by right). apply elem_of_list_singleton in Hin as <-. by left.
Qed.
Definition server_from (path zone : string) : server :=
  let ct := catalog_from path zone in
  Server (Row (ct_search_path ct)) (Row (ct_timezone ct)) (Rows (Some <$> ct_schemas ct) false)
    (Rows (Some <$> ct_functions ct) false) (Row (ct_view ct)) (Rows (Some <$> ct_sequences ct) false)
    (Rows (Some <$> ct_old_sequences ct) false) details_from (Rows (Some <$> ct_tables ct) false)
    (λ s t, Rows (Some <$> ct_columns ct s t) false) (λ s t, Rows (Some <$> ct_checks ct s t) false)
    (λ s t, Rows (Some <$> ct_foreign_keys ct s t) false) (λ s t, Rows (Some <$> ct_storage ct s t) false)
    (λ s t, Rows (Some <$> ct_indexes ct s t) false) (λ s t, Rows (Some <$> ct_triggers ct s t) false).
Lemma rows_answer {R} (held : list R) : answers held (Rows (Some <$> held) false) ∧ whole (Rows (Some <$> held) false).
Proof. split; [|done]. constructor. by apply delivers_all. Qed.
Lemma server_from_served path zone : served sy (server_from path zone).
Proof using Hs.
  exists (catalog_from path zone). split; [apply catalog_from_of|]. split; [|apply details_from_reads].
  constructor; simpl; try (by left); intros; apply rows_answer.
Qed.
End catalogues.
