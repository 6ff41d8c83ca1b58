(** Model of internal/dag. *)
From stdpp Require Import gmap sets list strings.
From Verif Require Import GoBase.

(** internal/dag/nodeset.go:4 -- a set of node names (map[string]struct{}). *)
Notation node_set := (gset string).

(** internal/dag/directed.go:4 *)
Notation digraph := (gmap string node_set).

(** internal/dag/errors.go:5-7,13-16 *)
Inductive graph_error :=
| InvalidEdge (node edge : string)
| CircularDependency (cycle : list string).

(** internal/dag/nodeset.go:7-9, 12-14, 17-20, 23-25 *)
Definition ns_add (nodes : node_set) (n : string) : node_set := {[ n ]} ∪ nodes.
Definition ns_remove (nodes : node_set) (n : string) : node_set := nodes ∖ {[ n ]}.
Definition ns_contains (nodes : node_set) (n : string) : bool := bool_decide (n ∈ nodes).
Definition ns_size (nodes : node_set) : nat := size nodes.

(** internal/dag/directed.go:10-17: the inner loop of NewDirectedGraph. *)
Fixpoint check_edges (nodes : gmap string (list string)) (n : string)
    (ms : list string) (set : node_set) : graph_error + node_set :=
  match ms with
  | [] => inr set
  | m :: ms' =>
    match nodes !! m with
    | None => inl (InvalidEdge n m)
    | Some _ => check_edges nodes n ms' (ns_add set m)
    end
  end.

(** internal/dag/directed.go:9-20: the outer loop; [order] is the order in
    which [range nodes] yields the keys.  [nodes[n]] is the list stored at [n]
    (the nil slice if absent, which cannot happen for a key of the range). *)
Fixpoint new_digraph_loop (nodes : gmap string (list string)) (order : list string)
    (g : digraph) : graph_error + digraph :=
  match order with
  | [] => inr g
  | n :: order' =>
    match check_edges nodes n (default [] (nodes !! n)) ∅ with
    | inl e => inl e
    | inr set => new_digraph_loop nodes order' (<[ n := set ]> g)
    end
  end.

(** internal/dag/directed.go:7-21 *)
Definition new_directed_graph (order : list string) (nodes : gmap string (list string))
  : graph_error + digraph :=
  new_digraph_loop nodes order ∅.

(** internal/dag/directed.go:24-34 *)
Definition add_edge (g : digraph) (node edge : string) : digraph :=
  let g := match g !! node with
           | Some set => <[ node := ns_add set edge ]> g
           | None => <[ node := {[ edge ]} ]> g
           end in
  match g !! edge with
  | Some _ => g
  | None => <[ edge := ∅ ]> g
  end.

(** internal/dag/directed.go:37-41 *)
Definition add_edges (g : digraph) (node : string) (edges : list string) : digraph :=
  foldl (λ g e, add_edge g node e) g edges.

(** internal/dag/directed.go:44-48 *)
Definition has_node (g : digraph) (node : string) : bool :=
  match g !! node with Some _ => true | None => false end.

(** internal/dag/directed.go:51-54: delete on the nil map of a missing node is a no-op. *)
Definition remove_edge (g : digraph) (node edge : string) : digraph :=
  match g !! node with
  | Some set => <[ node := ns_remove set edge ]> g
  | None => g
  end.

(** internal/dag/directed.go:57-63; [order] is the order of [range nodes]. *)
Definition remove_node (order : list string) (g : digraph) (node : string) : digraph :=
  delete node (foldl (λ g n, remove_edge g n node) g order).

(** internal/dag/directed.go:66-68: len of the nil map of a missing node is 0. *)
Definition out_degree (g : digraph) (node : string) : nat :=
  match g !! node with Some set => size set | None => 0 end.

(** internal/dag/tsort.go:41-47.  [v_cycle = None] is the nil slice; a non-nil
    empty slice is [Some []].  The [graph] field is passed separately. *)
Record visitor := Visitor {
  v_visited : gset string;
  v_visiting : gset string;
  v_cycle : option (list string);
  v_sorted : list string;
}.

(** internal/dag/tsort.go:71-74: the end of a visit that found no cycle. *)
Definition visit_done (v : visitor) (n : string) : visitor :=
  Visitor ({[ n ]} ∪ v_visited v) (v_visiting v ∖ {[ n ]}) (v_cycle v) (v_sorted v ++ [n]).

(** internal/dag/tsort.go:59-70: the loop over the successors of [n];
    [rec] is the recursive call of visit. *)
Fixpoint visit_loop (rec : visitor → string → option (visitor * string))
    (n : string) (v : visitor) (ms : list string) : option (visitor * string) :=
  match ms with
  | [] => Some (visit_done v n, "")
  | m :: ms' =>
    match rec v m with
    | None => None
    | Some (v', start) =>
      match v_cycle v' with
      | Some c =>
        if decide (start = "") then Some (v', start)
        else
          Some (Visitor (v_visited v') (v_visiting v') (Some (c ++ [n])) (v_sorted v'),
                if decide (n = start) then "" else start)
      | None => visit_loop rec n v' ms'
      end
    end
  end.

(** internal/dag/tsort.go:49-75.  Result [None] means the fuel ran out (the Go
    code has no fuel; [tsort] supplies enough, see [tsort_total]). *)
Fixpoint visit (fuel : nat) (graph : gmap string (list string)) (v : visitor) (n : string)
    : option (visitor * string) :=
  match fuel with
  | O => None
  | S fuel' =>
    if decide (n ∈ v_visiting v) then
      Some (Visitor (v_visited v) (v_visiting v)
              (match v_cycle v with None => Some [] | c => c end) (v_sorted v), n)
    else if decide (n ∈ v_visited v) then Some (v, "")
    else
      visit_loop (visit fuel' graph) n
        (Visitor (v_visited v) ({[ n ]} ∪ v_visiting v) (v_cycle v) (v_sorted v))
        (default [] (graph !! n))
  end.

Inductive tsort_result :=
| Sorted_ok (l : list string)     (* (result, nil) *)
| Found_cycle (c : list string)   (* (nil, cycle), cycle non-nil *).

(** internal/dag/tsort.go:28-38 *)
Fixpoint tsort_loop (fuel : nat) (graph : gmap string (list string)) (v : visitor)
    (ns : list string) : option tsort_result :=
  match ns with
  | [] => Some (Sorted_ok (v_sorted v))
  | n :: ns' =>
    if decide (n ∈ v_visited v) then tsort_loop fuel graph v ns'
    else
      match visit fuel graph v n with
      | None => None
      | Some (v', _) =>
        match v_cycle v' with
        | Some c => Some (Found_cycle c)
        | None => tsort_loop fuel graph v' ns'
        end
      end
  end.

(** internal/dag/tsort.go:6-39.  [order] is the order of [range digraph] and
    [inner] gives the order of [range nodeset] for each node's set. *)
Definition tsort (order : list string) (inner : set_ranger) (g : digraph)
    : option tsort_result :=
  let nodes := sort_strings order in
  let edges := list_to_map
    (map (λ n, (n, sort_strings (inner (default ∅ (g !! n))))) order)
    : gmap string (list string) in
  tsort_loop (S (S (length order))) edges (Visitor ∅ ∅ None []) nodes.

(** internal/dag/dependency.go:4-13.  The singly linked list of pending tasks
    is a list; its nodes are never shared. *)
Record depgraph := DepGraph {
  dg_dependencies : gmap string node_set;
  dg_dependents : gmap string node_set;
  dg_pending : list string;
}.

(** internal/dag/dependency.go:44-50: body of the inner loop. *)
Definition add_dependency (n : string) (g : depgraph) (m : string) : depgraph :=
  DepGraph
    (<[ n := ns_add (default ∅ (dg_dependencies g !! n)) m ]> (dg_dependencies g))
    (<[ m := ns_add (default ∅ (dg_dependents g !! m)) n ]> (dg_dependents g))
    (dg_pending g).

(** internal/dag/dependency.go:42-51; [order] is the order of the outer range
    and [inner] that of the inner ranges. *)
Definition fill_dependencies (order : list string) (inner : set_ranger)
    (d : digraph) (g : depgraph) : depgraph :=
  foldl (λ g n,
      foldl (add_dependency n)
        (DepGraph (<[ n := ∅ ]> (dg_dependencies g)) (dg_dependents g) (dg_pending g))
        (inner (default ∅ (d !! n))))
    g order.

(** Iteration orders of the five map ranges executed by NewDependencyGraph:
    directed.go:9, tsort.go:11, tsort.go:14, dependency.go:42, dependency.go:44. *)
Record dag_orders := DagOrders {
  do_new : list string;
  do_tsort : list string;
  do_tsort_inner : set_ranger;
  do_fill : list string;
  do_fill_inner : set_ranger;
}.

(** internal/dag/dependency.go:16-54.  [None] only if [tsort] ran out of fuel.
    The loop at lines 33-39 rebuilds nodeOrder as a linked list. *)
Definition new_dependency_graph (o : dag_orders) (nodes : gmap string (list string))
    : option (graph_error + depgraph) :=
  match new_directed_graph (do_new o) nodes with
  | inl e => Some (inl e)
  | inr d =>
    match tsort (do_tsort o) (do_tsort_inner o) d with
    | None => None
    | Some (Found_cycle c) => Some (inl (CircularDependency c))
    | Some (Sorted_ok nodeOrder) =>
      Some (inr (fill_dependencies (do_fill o) (do_fill_inner o) d
                   (DepGraph ∅ ∅ nodeOrder)))
    end
  end.

(** internal/dag/dependency.go:57-59 *)
Definition has_pending (g : depgraph) : bool :=
  match dg_pending g with [] => false | _ => true end.

(** internal/dag/dependency.go:70,78: [g.dependencies[id].Size() < 1]; a missing
    entry is the nil set, whose size is 0. *)
Definition dg_ready (deps : gmap string node_set) (id : string) : bool :=
  bool_decide (ns_size (default ∅ (deps !! id)) < 1).

(** internal/dag/dependency.go:69-74: pop the ready prefix of the list. *)
Fixpoint pop_ready (deps : gmap string node_set) (pending : list string)
    : list string * list string :=
  match pending with
  | [] => ([], [])
  | x :: xs =>
    if dg_ready deps x then
      let '(r, p) := pop_ready deps xs in (x :: r, p)
    else ([], pending)
  end.

(** internal/dag/dependency.go:76-82.  [scan_ready deps rest] is the loop with
    [head] at some list node and [rest] the ids after it.  When [p] is removed,
    [head.next = p.next] and then the post statement [head = head.next] moves
    to the node after [p], which is therefore never tested itself. *)
Fixpoint scan_ready (deps : gmap string node_set) (rest : list string)
    : list string * list string :=
  match rest with
  | [] => ([], [])
  | p :: rest' =>
    if dg_ready deps p then
      match rest' with
      | [] => ([p], [])
      | q :: rest'' =>
        let '(r, k) := scan_ready deps rest'' in (p :: r, q :: k)
      end
    else
      let '(r, k) := scan_ready deps rest' in (r, p :: k)
  end.

(** internal/dag/dependency.go:65-67; [order] is the order of the range.
    Remove on the nil set of a missing entry is a no-op. *)
Definition remove_completed (order : list string) (deps : gmap string node_set)
    (completed : string) : gmap string node_set :=
  foldl (λ deps id,
      match deps !! id with
      | Some set => <[ id := ns_remove set completed ]> deps
      | None => deps
      end) deps order.

(** internal/dag/dependency.go:63-84 *)
Definition dg_next (ranger : set_ranger) (g : depgraph) (completed : string)
    : depgraph * list string :=
  let deps := remove_completed
    (ranger (default ∅ (dg_dependents g !! completed))) (dg_dependencies g) completed in
  let '(r1, pending) := pop_ready deps (dg_pending g) in
  match pending with
  | [] => (DepGraph deps (dg_dependents g) [], r1)
  | h :: rest =>
    let '(r2, rest') := scan_ready deps rest in
    (DepGraph deps (dg_dependents g) (h :: rest'), r1 ++ r2)
  end.
