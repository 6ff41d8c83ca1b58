(** Concrete graphs and histories, used to show that hypotheses can be met. *)
From stdpp Require Import gmap sets list strings relations.
From Verif Require Import GoBase GoBaseProofs DagModel DagSpec DagProofs DepProofs.

(** ** Concrete graphs used by the examples. *)
Definition ex_nodes : gmap string (list string) :=
  {[ "a" := ["b"; "c"]; "b" := ["c"]; "c" := []; "d" := ["a"] ]}.
Definition ex_cyc : gmap string (list string) :=
  {[ "a" := ["b"]; "b" := ["c"]; "c" := ["a"]; "d" := [] ]}.
Definition ex_skip : gmap string (list string) :=
  {[ "0" := []; "a" := ["0"]; "b" := []; "c" := [] ]}.
Definition ex_graph (nodes : gmap string (list string)) : digraph :=
  (λ l, list_to_set l) <$> nodes.
Definition ex_order (nodes : gmap string (list string)) : list string := elements (dom nodes).
Definition ex_orders (nodes : gmap string (list string)) : dag_orders :=
  DagOrders (ex_order nodes) (ex_order nodes) elements (ex_order nodes) elements.

Example ex_inner_ok : ok_set_ranger elements.
Proof. intros X. unfold range_of_set. done. Qed.
Example ex_map_ranger_ok : ok_map_ranger (λ g : digraph, elements (dom g)).
Proof. intros m. unfold range_of. done. Qed.
Example ex_orders_ok nodes : ok_dag_orders nodes (ex_orders nodes).
Proof. exact (ok_dag_orders_elements nodes). Qed.
Example ex_graph_range : range_of (ex_graph ex_nodes) (ex_order ex_nodes).
Proof. unfold range_of, ex_graph, ex_order. by rewrite dom_fmap_L. Qed.
(** The graph built from [nodes], if the constructor accepts. *)
Lemma ex_graph_built nodes :
  match new_directed_graph (ex_order nodes) nodes with inl _ => false | inr _ => true end = true →
  new_directed_graph (ex_order nodes) nodes = inr (ex_graph nodes).
Proof.
  pose proof (new_directed_graph_spec nodes (ex_order nodes)) as H.
  destruct (new_directed_graph _ _) as [e|g]; [done|]. intros _.
  destruct H as (_ & _ & _ & ->); [by unfold range_of|done].
Qed.
Example ex_graph_closed : closed (ex_graph ex_nodes).
Proof.
  apply (new_directed_graph_closed ex_nodes (ex_order ex_nodes)); [by unfold range_of|].
  apply ex_graph_built. vm_compute. reflexivity.
Qed.
Example ex_cyc_range : range_of (ex_graph ex_cyc) (ex_order ex_cyc).
Proof. unfold range_of, ex_graph, ex_order. by rewrite dom_fmap_L. Qed.
Example ex_cyc_closed : closed (ex_graph ex_cyc).
Proof.
  apply (new_directed_graph_closed ex_cyc (ex_order ex_cyc)); [by unfold range_of|].
  apply ex_graph_built. vm_compute. reflexivity.
Qed.

(** Computing concrete histories, so that the examples below need only compare
    lists of names. *)
Fixpoint ex_drive (g : depgraph) (cs : list string) : depgraph * list string :=
  match cs with
  | [] => (g, [])
  | c :: cs' =>
    let '(g1, out) := dg_next elements g c in
    let '(g2, outs) := ex_drive g1 cs' in (g2, out ++ outs)
  end.
Definition ex_run (nodes : gmap string (list string)) (cs : list string) : option (list string) :=
  match new_dependency_graph (ex_orders nodes) nodes with
  | Some (inr g) => Some (ex_drive g cs).2
  | _ => None
  end.
Lemma ex_drive_history nodes cs : ∀ g passed released,
  dg_history nodes g passed released →
  dg_history nodes (ex_drive g cs).1 (passed ++ cs) (released ++ (ex_drive g cs).2).
Proof.
  induction cs as [|c cs IH]; intros g passed released H; simpl; [by rewrite !app_nil_r|].
  destruct (dg_next elements g c) as [g1 out] eqn:E.
  pose proof (IH _ _ _ (dgh_next _ _ _ _ _ _ _ _ H ex_inner_ok E)) as IH1.
  destruct (ex_drive g1 cs) as [g2 outs]. simpl in *. by rewrite <-!app_assoc in IH1.
Qed.
Lemma ex_run_history nodes cs released :
  ex_run nodes cs = Some released → ∃ g, dg_history nodes g cs released.
Proof.
  unfold ex_run. destruct (new_dependency_graph _ _) as [[e|g]|] eqn:E; [done| |done].
  intros [= <-]. exists (ex_drive g cs).1. apply (ex_drive_history nodes cs g [] []).
  exact (dgh_new _ _ _ (ex_orders_ok _) E).
Qed.
Fixpoint ex_driven_loop (g : depgraph) (dn rel cs : list string) : option (list string) :=
  match cs with
  | [] => Some rel
  | c :: cs' =>
    if bool_decide (c ∈ rel ∧ c ∉ dn) then
      let '(g', out) := dg_next elements g c in ex_driven_loop g' (dn ++ [c]) (rel ++ out) cs'
    else None
  end.
Definition ex_driven (nodes : gmap string (list string)) (x : string) (cs : list string)
    : option (list string) :=
  match new_dependency_graph (ex_orders nodes) nodes with
  | Some (inr g) =>
    let '(g', out) := dg_next elements g x in ex_driven_loop g' [] out cs
  | _ => None
  end.
Lemma ex_driven_loop_spec nodes cs released : ∀ g dn rel,
  dg_driven nodes g dn rel → ex_driven_loop g dn rel cs = Some released →
  ∃ g, dg_driven nodes g (dn ++ cs) released.
Proof.
  induction cs as [|c cs IH]; intros g dn rel H H1.
  - injection H1 as <-. rewrite app_nil_r. eauto.
  - simpl in H1. case_bool_decide as Hc; [|done]. destruct Hc as [Hc1 Hc2].
    destruct (dg_next elements g c) as [g' out] eqn:E.
    destruct (IH g' (dn ++ [c]) (rel ++ out)) as [g'' H2]; [|done|].
    + exact (dgd_next _ _ _ _ _ _ _ _ H Hc1 Hc2 ex_inner_ok E).
    + rewrite <-app_assoc in H2. eauto.
Qed.
Lemma ex_driven_spec nodes x cs released :
  nodes !! x = None → ex_driven nodes x cs = Some released →
  ∃ g, dg_driven nodes g cs released.
Proof.
  intros Hx. unfold ex_driven.
  destruct (new_dependency_graph _ _) as [[e|g0]|] eqn:E; [done| |done].
  destruct (dg_next elements g0 x) as [g1 o1] eqn:E1. intros H.
  apply (ex_driven_loop_spec nodes cs released g1 [] o1); [|done].
  refine (dgd_new nodes _ _ _ _ _ _ (ex_orders_ok nodes) E _ ex_inner_ok E1).
  by apply not_elem_of_dom.
Qed.

