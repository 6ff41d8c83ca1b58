(** Specification vocabulary for graphs.  Independent of the algorithms. *)
From stdpp Require Import gmap sets list strings relations.
From Verif Require Import DagModel.

(** [n] has an edge to [m] ("n depends on m"). *)
Definition edge (g : digraph) (n m : string) : Prop := ∃ X, g !! n = Some X ∧ m ∈ X.

(** Every edge leads to a node of the graph. *)
Definition closed (g : digraph) : Prop := ∀ n m, edge g n m → m ∈ dom g.

(** Some node reaches itself through one or more edges. *)
Definition cyclic (g : digraph) : Prop := ∃ n, tc (edge g) n n.

(** [x] occurs before [y] in [l]. *)
Definition before (l : list string) (x y : string) : Prop :=
  ∃ l1 l2 l3, l = l1 ++ x :: l2 ++ y :: l3.

(** [l] lists every node exactly once, dependencies first. *)
Definition topological (g : digraph) (l : list string) : Prop :=
  NoDup l ∧ (∀ x, x ∈ l ↔ x ∈ dom g) ∧ (∀ n m, edge g n m → before l m n).

(** [c] is a cycle of [g], listed against the direction of the edges. *)
Definition reported_cycle (g : digraph) (c : list string) : Prop :=
  c ≠ [] ∧ NoDup c ∧
  (∀ i x y, c !! i = Some x → c !! S i = Some y → edge g y x) ∧
  (∀ x y, head c = Some x → last c = Some y → edge g x y).

(** The relation described by a map from names to lists of names. *)
Definition listed (nodes : gmap string (list string)) (n m : string) : Prop :=
  ∃ ms, nodes !! n = Some ms ∧ m ∈ ms.
Definition dangling (nodes : gmap string (list string)) : Prop :=
  ∃ n m, listed nodes n m ∧ m ∉ dom nodes.
Definition circular (nodes : gmap string (list string)) : Prop :=
  ∃ n, tc (listed nodes) n n.

(** Abstract graphs: a set of nodes and a set of edges. *)
Record agraph := AGraph { ag_nodes : gset string; ag_edges : gset (string * string) }.
Inductive graph_op :=
| OpAddEdge (n m : string)
| OpAddEdges (n : string) (ms : list string)
| OpRemoveEdge (n m : string)
| OpRemoveNode (n : string).
Definition a_add_edge (g : agraph) (n m : string) : agraph :=
  AGraph ({[ n; m ]} ∪ ag_nodes g) ({[ (n, m) ]} ∪ ag_edges g).
Definition a_op (g : agraph) (o : graph_op) : agraph :=
  match o with
  | OpAddEdge n m => a_add_edge g n m
  | OpAddEdges n ms => foldl (λ g m, a_add_edge g n m) g ms
  | OpRemoveEdge n m => AGraph (ag_nodes g) (ag_edges g ∖ {[ (n, m) ]})
  | OpRemoveNode n =>
    AGraph (ag_nodes g ∖ {[ n ]}) (filter (λ e, e.1 ≠ n ∧ e.2 ≠ n) (ag_edges g))
  end.
Definition a_has_node (g : agraph) (n : string) : bool := bool_decide (n ∈ ag_nodes g).
Definition a_out_degree (g : agraph) (n : string) : nat :=
  size (filter (λ e, e.1 = n) (ag_edges g)).

(** Executing an edit operation; [r] chooses the iteration order of RemoveNode. *)
Definition exec_op (g : digraph) (ro : GoBase.map_ranger node_set * graph_op) : digraph :=
  match ro with
  | (r, OpAddEdge n m) => add_edge g n m
  | (r, OpAddEdges n ms) => add_edges g n ms
  | (r, OpRemoveEdge n m) => remove_edge g n m
  | (r, OpRemoveNode n) => remove_node (r g) g n
  end.

(** Iteration orders that a run of NewDependencyGraph on [nodes] may see
    (the digraph it ranges over has the keys of [nodes]). *)
Definition ok_dag_orders (nodes : gmap string (list string)) (o : dag_orders) : Prop :=
  GoBase.range_of nodes (do_new o) ∧ GoBase.range_of nodes (do_tsort o) ∧
  GoBase.ok_set_ranger (do_tsort_inner o) ∧ GoBase.range_of nodes (do_fill o) ∧
  GoBase.ok_set_ranger (do_fill_inner o).

(** Histories of a dependency graph: construction, then any calls of Next.
    [passed] are the names passed to Next so far, [released] the names returned. *)
Inductive dg_history (nodes : gmap string (list string)) :
    depgraph → list string → list string → Prop :=
| dgh_new o g :
    ok_dag_orders nodes o → new_dependency_graph o nodes = Some (inr g) →
    dg_history nodes g [] []
| dgh_next r g g' passed released c out :
    dg_history nodes g passed released → GoBase.ok_set_ranger r →
    dg_next r g c = (g', out) →
    dg_history nodes g' (passed ++ [c]) (released ++ out).

(** Histories of a caller that follows the protocol: first Next(x) for a name
    that is no task, then Next(t) for tasks that were released and not yet
    completed. *)
Inductive dg_driven (nodes : gmap string (list string)) :
    depgraph → list string → list string → Prop :=
| dgd_new o r g g' x out :
    ok_dag_orders nodes o → new_dependency_graph o nodes = Some (inr g) →
    x ∉ dom nodes → GoBase.ok_set_ranger r → dg_next r g x = (g', out) →
    dg_driven nodes g' [] out
| dgd_next r g g' completed released t out :
    dg_driven nodes g completed released →
    t ∈ released → t ∉ completed →
    GoBase.ok_set_ranger r → dg_next r g t = (g', out) →
    dg_driven nodes g' (completed ++ [t]) (released ++ out).
