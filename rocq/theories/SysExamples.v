(** Databases for the examples. *)
From Coq Require Import String Ascii.
From stdpp Require Import gmap list strings numbers sorting.
From Verif Require Import GoBase GoStrings DdlModel DdlSpec MachineModel ParseModel ParseGrammar ParseSpec PgModel PgSpec PgProofs
  QueryModel QueryProofs SysModel SysSpec SysProofs SysListing SysInspect SysServer.
Local Open Scope Z_scope.

(** * Checking that a database is sane *)

Global Instance depend_eq_dec : EqDecision pg_depend.
Proof. solve_decision. Defined.
Definition sane_facts (sy : system) : Prop :=
  NoDup (ns_oid <$> sy_namespaces sy) ∧ NoDup (ns_name <$> sy_namespaces sy) ∧ NoDup (rel_oid <$> sy_classes sy) ∧
  NoDup ((λ c, (rel_namespace c, rel_name c)) <$> sy_classes sy) ∧ NoDup ((λ a, (att_rel a, att_num a)) <$> sy_attributes sy) ∧
  NoDup ((λ d, (def_rel d, def_num d)) <$> sy_attrdefs sy) ∧ NoDup (ind_index <$> sy_indexes sy) ∧
  NoDup (con_oid <$> sy_constraints sy) ∧ NoDup ((λ r, (con_rel r, con_name r)) <$> sy_constraints sy) ∧
  NoDup (trig_oid <$> sy_triggers sy) ∧ NoDup ((λ t, (trig_rel t, trig_name t)) <$> sy_triggers sy) ∧
  NoDup (proc_oid <$> sy_procs sy) ∧ NoDup (lang_oid <$> sy_languages sy) ∧ NoDup (seq_rel <$> default [] (sy_sequences sy)) ∧
  NoDup (sy_depends sy) ∧
  Forall (λ c, List.Exists (λ n, ns_oid n = rel_namespace c) (sy_namespaces sy)) (sy_classes sy) ∧
  Forall (λ p, List.Exists (λ n, ns_oid n = proc_namespace p) (sy_namespaces sy)) (sy_procs sy) ∧
  Forall (λ p, List.Exists (λ l, lang_oid l = proc_lang p) (sy_languages sy)) (sy_procs sy) ∧
  Forall (λ i, List.Exists (λ c, rel_oid c = ind_index i) (sy_classes sy)) (sy_indexes sy) ∧
  Forall (λ r, con_type r = "f" → List.Exists (λ c, rel_oid c = con_frel r) (sy_classes sy)) (sy_constraints sy) ∧
  Forall (λ i, Forall (λ c, Forall (λ d, rel_oid c = ind_index i → rel_oid d = ind_rel i → rel_namespace c = rel_namespace d)
    (sy_classes sy)) (sy_classes sy)) (sy_indexes sy) ∧
  List.Exists (λ n, List.Exists (λ c, ns_name n = "pg_catalog" ∧ rel_namespace c = ns_oid n ∧ rel_name c = "pg_class")
    (sy_classes sy)) (sy_namespaces sy) ∧
  (List.Exists (λ n, List.Exists (λ c, ns_name n = "pg_catalog" ∧ rel_namespace c = ns_oid n ∧ rel_name c = "pg_sequence")
    (sy_classes sy)) (sy_namespaces sy) ↔ is_Some (sy_sequences sy)) ∧
  (is_Some (sy_sequences sy) →
    Forall (λ c, rel_kind c = "S" → List.Exists (λ s, seq_rel s = rel_oid c) (default [] (sy_sequences sy))) (sy_classes sy)).
Lemma sane_by sy : sane_facts sy → sy_text_le sy = String.leb → sane sy.
Proof.
  intros (H1 & H2 & H3 & H4 & H5 & H6 & H7 & H8 & H9 & H10 & H11 & H12 & H13 & H14 & H15 & H16 & H17 & H18 & H19 & H20 & H21 & H22 & H23 & H24) E.
  rewrite Forall_forall in H16. rewrite Forall_forall in H17. rewrite Forall_forall in H18. rewrite Forall_forall in H19. rewrite Forall_forall in H20. rewrite Forall_forall in H21.
  constructor; try done.
  - intros l Hl. by rewrite Hl in H14.
  - intros c Hc. specialize (H16 c Hc). apply Exists_exists in H16. naive_solver.
  - intros c Hc. specialize (H17 c Hc). apply Exists_exists in H17. naive_solver.
  - intros c Hc. specialize (H18 c Hc). apply Exists_exists in H18. naive_solver.
  - intros c Hc. specialize (H19 c Hc). apply Exists_exists in H19. naive_solver.
  - intros c Hc Hf. specialize (H20 c Hc Hf). apply Exists_exists in H20. naive_solver.
  - intros i c d Hi Hc Hd. specialize (H21 i Hi). rewrite Forall_forall in H21. specialize (H21 c Hc). rewrite Forall_forall in H21.
    by apply H21.
  - apply Exists_exists in H22 as (n & Hn & Hc). apply Exists_exists in Hc as (c & Hc & ? & ? & ?). by exists n, c.
  - rewrite <- H23. split.
    + intros (n & c & Hn & Hc & ? & ? & ?). apply Exists_exists. exists n. split; [done|]. apply Exists_exists. by exists c.
    + intros Hx. apply Exists_exists in Hx as (n & Hn & Hc). apply Exists_exists in Hc as (c & Hc & ? & ? & ?). by exists n, c.
  - intros l c Hl Hc Hk. rewrite Hl in H24. specialize (H24 ltac:(eauto)). rewrite Forall_forall in H24. specialize (H24 c Hc Hk).
    apply Exists_exists in H24. naive_solver.
  - intros x. rewrite E. destruct (String.leb_total x x); done.
  - intros x y z. rewrite E. apply leb_trans.
  - intros x y. rewrite E. apply String.leb_total.
  - intros x y. rewrite E. apply String.leb_antisym.
Qed.

(** * A shop *)

Definition by_oid (l : list (Z * string)) (d : string) (oid : Z) : string :=
  match list_find (λ x, x.1 = oid) l with Some (_, x) => x.2 | None => d end.
(** [path] is the search path, [old] a server before 10, [procs] the functions,
    [keys] further foreign keys of the orders. *)
Definition shop (path : list Z) (old : bool) (procs : list pg_proc) (keys : list pg_constraint) : system :=
  System
    [PgNamespace 1 "pg_catalog" 10; PgNamespace 2 "public" 10; PgNamespace 3 "app" 11; PgNamespace 4 "information_schema" 10]
    ([PgClass 100 "pg_class" 1 "r" 10 None] ++ (if old then [] else [PgClass 101 "pg_sequence" 1 "r" 10 None]) ++
     [PgClass 200 "users" 2 "r" 11 (Some ["fillfactor=70"; "autovacuum_enabled=false"]); PgClass 201 "orders" 2 "r" 11 None;
      PgClass 202 "users_id_seq" 2 "S" 11 None; PgClass 203 "users_pkey" 2 "i" 11 None; PgClass 204 "orders_who" 2 "i" 11 None;
      PgClass 205 "tickets" 2 "S" 11 None; PgClass 206 "totals" 2 "v" 11 None;
      PgClass 300 "users" 3 "r" 11 None; PgClass 301 "audit" 3 "r" 11 None])
    [PgAttribute 200 2 "name" 25 (-1) false false false; PgAttribute 200 1 "id" 20 (-1) true true false;
     PgAttribute 200 3 "gone" 23 (-1) false false true; PgAttribute 200 (-1) "ctid" 27 (-1) true false false;
     PgAttribute 201 1 "id" 20 (-1) true false false; PgAttribute 201 2 "who" 20 (-1) false false false;
     PgAttribute 301 1 "what" 25 (-1) true false false]
    [PgAttrdef 200 1 "nextval"]
    [PgIndex 203 200 true true; PgIndex 204 201 false false]
    ([PgConstraint 500 "named" "c" 200 0 [2]; PgConstraint 501 "by_user" "f" 201 200 [2]; PgConstraint 502 "users_pkey" "p" 200 0 [1]] ++ keys)
    [PgTrigger 600 200 "watch" false; PgTrigger 601 200 "RI_ConstraintTrigger_a" true]
    procs
    [PgLanguage 14 "sql"]
    (if old then None else Some [PgSequence 202 20 1 1 1000 1 1 false; PgSequence 205 20 5 1 99 1 1 true])
    (λ oid, if decide (oid = 202) then DetailsRow 1 1 1000 1 1 false else DetailsRow 5 1 99 1 1 true)
    [PgDepend 100 202 100 200 1 "a"; PgDepend 100 201 100 200 0 "n"]
    path
    (by_oid [(10, "postgres"); (11, "me")] "") (λ cat oid, if decide (oid = 200) then Some "people" else None)
    (λ rel num, if decide (rel = 200 ∧ num = 2) then Some "full name" else None)
    (λ t _, by_oid [(20, "bigint"); (25, "text")] "?" t) (λ b _, b +:+ "('users_id_seq'::regclass)")
    (by_oid [(203, "CREATE UNIQUE INDEX users_pkey ON users USING btree (id)"); (204, "CREATE INDEX orders_who ON orders USING btree (who)")] "")
    (λ oid _, by_oid [(500, "CHECK (name <> ''::text)"); (501, "FOREIGN KEY (who) REFERENCES users(id)");
        (503, "FOREIGN KEY (who) REFERENCES users(id) ON DELETE CASCADE")] "" oid)
    (by_oid [(600, "CREATE TRIGGER watch BEFORE INSERT ON users FOR EACH ROW EXECUTE PROCEDURE f()");
        (601, "CREATE CONSTRAINT TRIGGER ""RI_ConstraintTrigger_a"" AFTER DELETE ON users FROM orders NOT DEFERRABLE INITIALLY IMMEDIATE FOR EACH ROW EXECUTE PROCEDURE ""RI_FKey_noaction_del""()")] "")
    (λ _, Some "integer") String.leb.
Definition f_int : pg_proc := PgProc 700 "f" 2 11 14 "SELECT 1" [23].
Definition f_text : pg_proc := PgProc 701 "f" 2 11 14 "SELECT 2" [25].
Definition g_none : pg_proc := PgProc 702 "g" 2 11 14 "SELECT 3" [].
Definition by_user_too : pg_constraint := PgConstraint 503 "by_user_too" "f" 201 200 [2].
Lemma shop_sane old procs keys path : old = true ∨ old = false → path ∈ [[1; 2]; [3; 1; 2]] →
  procs ∈ [[f_int; g_none]; [f_int; f_text; g_none]] → keys ∈ [[]; [by_user_too]] → sane (shop path old procs keys).
Proof.
  intros Ho Hp Hq Hk. apply sane_by; [|done].
  rewrite !elem_of_cons, elem_of_nil in Hp. rewrite !elem_of_cons, elem_of_nil in Hq. rewrite !elem_of_cons, elem_of_nil in Hk.
  destruct Ho as [-> | ->], Hp as [->|[->|[]]], Hq as [->|[->|[]]], Hk as [->|[->|[]]]; apply (bool_decide_unpack _); by vm_compute.
Qed.
Definition usual : system := shop [1; 2] false [f_int; g_none] [].
Definition overloaded : system := shop [1; 2] false [f_int; f_text; g_none] [].
Definition shadowed : system := shop [3; 1; 2] false [f_int; g_none] [].
Definition aged : system := shop [1; 2] true [f_int; g_none] [].
Definition doubled : system := shop [1; 2] false [f_int; g_none] [by_user_too].
Lemma all_sane : sane usual ∧ sane overloaded ∧ sane shadowed ∧ sane aged ∧ sane doubled.
Proof. split_and!; apply shop_sane; try (by left); try (by right); try (by right; left); by left. Qed.
