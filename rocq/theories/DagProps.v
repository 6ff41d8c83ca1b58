(** Property theorems C01-C09 (internal/dag). *)
From stdpp Require Import gmap sets list strings relations.
From Verif Require Import GoBase GoBaseProofs DagModel DagSpec DagProofs DepProofs DagExamples.

(** ** C01 *)
Theorem tsort_sound g order inner l :
  range_of g order → ok_set_ranger inner → closed g →
  tsort order inner g = Some (Sorted_ok l) → topological g l.
Proof. exact (tsort_sound_lem g order inner l). Qed.
Print Assumptions tsort_sound.
Example tsort_sound_ex :
  tsort (ex_order ex_nodes) elements (ex_graph ex_nodes) = Some (Sorted_ok ["c"; "b"; "a"; "d"]).
Proof. vm_compute. done. Qed.

(** ** C02.  [None] would be exhausted fuel, i.e. non-termination of the Go code. *)
Theorem tsort_decides g order inner :
  range_of g order → ok_set_ranger inner → closed g →
  tsort order inner g ≠ None ∧
  ((∃ c, tsort order inner g = Some (Found_cycle c)) ↔ cyclic g).
Proof. exact (tsort_decides_lem g order inner). Qed.
Print Assumptions tsort_decides.
Example tsort_decides_ex :
  tsort (ex_order ex_cyc) elements (ex_graph ex_cyc) = Some (Found_cycle ["c"; "b"; "a"]).
Proof. vm_compute. done. Qed.

(** ** C03 *)
Theorem tsort_cycle_real g order inner c :
  range_of g order → ok_set_ranger inner → closed g → "" ∉ dom g →
  tsort order inner g = Some (Found_cycle c) → reported_cycle g c.
Proof. exact (tsort_cycle_lem g order inner c). Qed.
Print Assumptions tsort_cycle_real.

(** Without the restriction the claim fails: the self loop on "" is reported as []. *)
Theorem tsort_cycle_real_refuted :
  ∃ g order inner, range_of g order ∧ ok_set_ranger inner ∧ closed g ∧
    tsort order inner g = Some (Found_cycle []).
Proof. exact tsort_cycle_refuted_lem. Qed.
Print Assumptions tsort_cycle_real_refuted.

(** ** C04 *)
Theorem tsort_deterministic g order order' inner inner' :
  range_of g order → range_of g order' → ok_set_ranger inner → ok_set_ranger inner' →
  tsort order inner g = tsort order' inner' g.
Proof. exact (tsort_order_irrelevant g order order' inner inner'). Qed.
Print Assumptions tsort_deterministic.

Theorem new_directed_graph_deterministic nodes o1 o2 :
  range_of nodes o1 → range_of nodes o2 →
  match new_directed_graph o1 nodes, new_directed_graph o2 nodes with
  | inl _, inl _ => True
  | inr g1, inr g2 => g1 = g2
  | _, _ => False
  end.
Proof. exact (new_directed_graph_deterministic_lem nodes o1 o2). Qed.
Print Assumptions new_directed_graph_deterministic.

(** Same decision, same error apart from the choice among dangling edges, and
    the same graph on success. *)
Theorem new_dependency_graph_deterministic nodes o1 o2 :
  ok_dag_orders nodes o1 → ok_dag_orders nodes o2 →
  match new_dependency_graph o1 nodes, new_dependency_graph o2 nodes with
  | Some (inl (InvalidEdge _ _)), Some (inl (InvalidEdge _ _)) => True
  | Some r1, Some r2 => r1 = r2
  | _, _ => False
  end.
Proof. exact (new_dependency_graph_order_irrelevant nodes o1 o2). Qed.
Print Assumptions new_dependency_graph_deterministic.

Theorem dg_next_deterministic r1 r2 g c :
  ok_set_ranger r1 → ok_set_ranger r2 → dg_next r1 g c = dg_next r2 g c.
Proof. exact (dg_next_order_irrelevant r1 r2 g c). Qed.
Print Assumptions dg_next_deterministic.
Example deterministic_ex : range_of (ex_graph ex_cyc) ["a"; "b"; "c"; "d"] ∧
  range_of (ex_graph ex_cyc) ["d"; "c"; "b"; "a"].
Proof.
  assert (∀ l, bool_decide (NoDup l) = true →
     bool_decide (list_to_set l = dom (ex_graph ex_cyc)) = true → range_of (ex_graph ex_cyc) l) as H.
  { intros l H1%bool_decide_eq_true H2%bool_decide_eq_true. unfold range_of.
    rewrite <-H2. symmetry. by apply elements_list_to_set. }
  split; apply H; vm_compute; done.
Qed.

(** ** C05 *)
Theorem new_directed_graph_exact nodes order :
  range_of nodes order →
  match new_directed_graph order nodes with
  | inl e => ∃ n m, listed nodes n m ∧ m ∉ dom nodes ∧ e = InvalidEdge n m
  | inr g => ¬ dangling nodes ∧ dom g = dom nodes ∧ ∀ n m, edge g n m ↔ listed nodes n m
  end.
Proof. exact (new_directed_graph_exact_lem nodes order). Qed.
Print Assumptions new_directed_graph_exact.

Theorem new_directed_graph_iff nodes order :
  range_of nodes order →
  (∃ g, new_directed_graph order nodes = inr g) ↔ ¬ dangling nodes.
Proof. exact (new_directed_graph_success nodes order). Qed.
Print Assumptions new_directed_graph_iff.
Example new_directed_graph_ex :
  new_directed_graph ["a"] {[ "a" := ["a"; "x"] ]} = inl (InvalidEdge "a" "x") ∧
  new_directed_graph (ex_order ex_nodes) ex_nodes = inr (ex_graph ex_nodes).
Proof. split; [vm_compute; done|]. assert (H : match new_directed_graph (ex_order ex_nodes) ex_nodes with inl _ => false | inr _ => true end = true) by (vm_compute; reflexivity). exact (ex_graph_built ex_nodes H). Qed.

(** ** C06.  [a0] is the (nodes, edges) pair of the initial graph; [ops] any
    sequence of edits, each with its own iteration order. *)
Theorem graph_edits_refine g0 a0 ops :
  ag_nodes a0 = dom g0 → (∀ n m, (n, m) ∈ ag_edges a0 ↔ edge g0 n m) → closed g0 →
  Forall (λ ro, ok_map_ranger ro.1) ops →
  let g := foldl exec_op g0 ops in
  let a := foldl a_op a0 ops.*2 in
  (∀ n, has_node g n = a_has_node a n) ∧
  (∀ n, out_degree g n = a_out_degree a n) ∧
  (∀ n m, edge g n m ↔ (n, m) ∈ ag_edges a) ∧ closed g.
Proof. exact (graph_edits_lem g0 a0 ops). Qed.
Print Assumptions graph_edits_refine.
Example graph_edits_ex :
  let r := λ g : digraph, elements (dom g) in
  let g := foldl exec_op (∅ : digraph)
    [(r, OpAddEdges "a" ["b"; "c"]); (r, OpAddEdge "c" "b"); (r, OpRemoveNode "b")] in
  (has_node g "b", has_node g "c", out_degree g "a", out_degree g "c") = (false, true, 1, 0).
Proof. vm_compute. done. Qed.

(** ** C07: at every point of every history. *)
Theorem dg_release_sound nodes g passed released :
  dg_history nodes g passed released →
  NoDup released ∧
  ∀ x, x ∈ released → x ∈ dom nodes ∧ ∀ m, listed nodes x m → m ∈ passed.
Proof. exact (dg_release_sound_lem nodes g passed released). Qed.
Print Assumptions dg_release_sound.
Example dg_history_ex : ∃ g,
  dg_history ex_nodes g [""; "c"; "b"] ["c"; "b"; "a"].
Proof. apply ex_run_history. vm_compute. reflexivity. Qed.

(** ** C08 *)
Theorem dg_drive_complete nodes g completed released :
  dg_driven nodes g completed released →
  (∀ t, t ∈ released → t ∈ completed) →
  released ≡ₚ elements (dom nodes) ∧ has_pending g = false.
Proof. exact (dg_driven_done nodes g completed released). Qed.
Print Assumptions dg_drive_complete.

Theorem dg_has_pending_exact nodes g passed released :
  dg_history nodes g passed released →
  has_pending g = false ↔ released ≡ₚ elements (dom nodes).
Proof. exact (dg_history_pending nodes g passed released). Qed.
Print Assumptions dg_has_pending_exact.

(** The loop ends: no more completions than tasks can be made. *)
Theorem dg_drive_bounded nodes g completed released :
  dg_driven nodes g completed released → length completed ≤ size (dom nodes).
Proof. exact (dg_drive_bounded_lem nodes g completed released). Qed.
Print Assumptions dg_drive_bounded.
Example dg_driven_ex : ∃ g, dg_driven ex_skip g ["b"; "0"] ["0"; "b"; "c"; "a"].
Proof. apply (ex_driven_spec ex_skip ""); vm_compute; reflexivity. Qed.

(** ** C09.  The documented contract, refuted: after Next a task that is not
    released has all its dependencies completed. *)
Theorem dg_next_contract_refuted :
  ∃ nodes g passed released t, dg_history nodes g passed released ∧ passed ≠ [] ∧
    t ∈ dom nodes ∧ t ∉ released ∧ (∀ m, listed nodes t m → m ∈ passed).
Proof. exact dg_next_contract_refuted_lem. Qed.
Print Assumptions dg_next_contract_refuted.

(** What holds: an empty answer means that nothing can be started. *)
Theorem dg_next_contract_partial nodes g passed released r c g' :
  dg_history nodes g passed released → ok_set_ranger r → dg_next r g c = (g', []) →
  ∀ t, t ∈ dom nodes → t ∉ released → ∃ m, listed nodes t m ∧ m ∉ passed ++ [c].
Proof. exact (dg_next_empty_lem nodes g passed released r c g'). Qed.
Print Assumptions dg_next_contract_partial.
Example dg_next_contract_ex :
  ex_run ex_skip [""] = Some ["0"; "b"] ∧ ex_run ex_skip [""; ""] = Some ["0"; "b"; "c"] ∧
  ex_run ex_skip [""; ""; ""] = Some ["0"; "b"; "c"].
Proof. vm_compute. done. Qed.
