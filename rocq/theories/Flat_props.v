(** C135: flattened graphs. *)
From Verif Require Import Py Flat_model Flat_spec Flat_proofs.
Local Open Scope Z_scope.
Local Open Scope list_scope.

(** The flat graph has one source and one sink, and computes what the graph of graphs does: if values
    are added, the results for [x] are the same. *)
Theorem flat_same : forall A (es : list (Z * Z * hop A)), sound_op (Sub es) -> exists s t,
  (forall n, In n (f_nodes (flatten_graph es)) ->
     ((~ exists e, In e (f_edges (flatten_graph es)) /\ snd (fst e) = n) <-> n = s) /\ ((~ exists e, In e (f_edges (flatten_graph es)) /\ fst (fst e) = n) <-> n = t)) /\
  In s (f_nodes (flatten_graph es)) /\ In t (f_nodes (flatten_graph es)) /\
  (forall e, In e (f_edges (flatten_graph es)) -> In (fst (fst e)) (f_nodes (flatten_graph es)) /\ In (snd (fst e)) (f_nodes (flatten_graph es))) /\
  forall X (sem : A -> X -> X) plus zero, addition plus zero -> forall x y,
    computes sem (sum_of plus zero) (Sub es) x y <-> exists at_node, flat_values sem (sum_of plus zero) (flatten_graph es) s at_node /\ at_node s = x /\ at_node t = y.
Proof. exact flat_same_. Qed.
Print Assumptions flat_same.
Example flat_same_example : let es := [(1, 2, Plain 5); (1, 3, Sub [(1, 2, Plain 6); (2, 3, Plain 7)]); (2, 3, Plain 8)] in
  sound_op (Sub es) /\ flatten_graph es = mkFlat [1; 2; 3; 4] [(1, 2, 5); (1, 4, 6); (4, 3, 7); (2, 3, 8)].
Proof. exact flat_same_example_. Qed.

(** Every operation is there, in the order in which the graph of graphs has them. *)
Theorem flat_operations : forall A (es : list (Z * Z * hop A)), sound_op (Sub es) -> exists l, leaves (Sub es) l /\ map snd (f_edges (flatten_graph es)) = l.
Proof. exact flat_operations_. Qed.
Print Assumptions flat_operations.
Example flat_operations_example : leaves (Sub [(1, 2, Plain 5); (2, 3, Sub [(1, 2, Plain 6)])]) [5; 6] /\ map snd (f_edges (flatten_graph [(1, 2, Plain 5); (2, 3, Sub [(1, 2, Plain 6)])])) = [5; 6].
Proof. exact flat_operations_example_. Qed.

