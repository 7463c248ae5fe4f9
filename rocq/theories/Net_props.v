(** C134: calling topologies.  C136: the module made of a graph. *)
From Verif Require Import Py Prune_model Prune_spec Prune_proofs Net_model Net_spec Net_proofs Net_call_proofs Net_more_proofs.
Local Open Scope nat_scope.
Local Open Scope list_scope.

(** ** C134 *)

(** If the nodes, left in the order of a breadth first search, are sorted, then a call gives what the
    operations make of the input. *)
Theorem call_right : forall X (g : graph) order src tgt (f : Z -> Z -> X -> X) (merge : list X -> X) x at_node, proper g -> NoDup (edges g) -> topological g order ->
  breadth_first g [src] [src] order -> only g (fun n => forall u, ~ edge g u n) src -> only g (fun n => forall v, ~ edge g n v) tgt ->
  values g order src f (fun _ => merge) x at_node ->
  exists enough, forall fuel, enough <= fuel -> call_topology merge f fuel g x = Ok (at_node tgt).
Proof. exact call_right_. Qed.
Print Assumptions call_right.
Example call_right_example : let g := of_edges diamond_mid_edges in proper g /\ NoDup (edges g) /\ topological g [1; 2; 3; 4]%Z /\ breadth_first g [1%Z] [1%Z] [1; 2; 3; 4]%Z.
Proof. exact diamond_mid_example. Qed.

(** Operations one after another *)
Theorem sequential_called : forall X n (f : Z -> Z -> X -> X) (merge : list X -> X) x at_node, 1 <= n -> at_node 1%Z = x ->
  (forall k, (1 <= k <= Z.of_nat n)%Z -> at_node (k + 1)%Z = f k (k + 1)%Z (at_node k)) ->
  exists enough, forall fuel, enough <= fuel -> call_topology merge f fuel (of_edges (sequential_edges n)) x = Ok (at_node (Z.of_nat n + 1)%Z).
Proof. exact sequential_called_. Qed.
Print Assumptions sequential_called.
Example sequential_called_example : call_topology (fold_right Z.add 0%Z) (fun u v y => y * 10 + u)%Z 9 (of_edges (sequential_edges 3)) 7%Z = Ok 7123%Z.
Proof. reflexivity. Qed.

(** Every node gets what comes from all before it. *)
Theorem dense_called : forall X n (f : Z -> Z -> X -> X) (merge : list X -> X) x at_node, 2 <= n -> at_node 1%Z = x ->
  (forall j, 1 <= j < n -> at_node (Z.of_nat j + 1)%Z = merged merge (map (fun i => f (Z.of_nat i + 1)%Z (Z.of_nat j + 1)%Z (at_node (Z.of_nat i + 1)%Z)) (seq 0 j))) ->
  exists enough, forall fuel, enough <= fuel -> call_topology merge f fuel (of_edges (dense_edges n)) x = Ok (at_node (Z.of_nat n)).
Proof. exact dense_called_. Qed.
Print Assumptions dense_called.
Example dense_called_example : call_topology (fold_right Z.add 0%Z) (fun u v y => y + 10 * u + v)%Z 30 (of_edges (dense_edges 3)) 0%Z = Ok (13 + (12 + 23))%Z.
Proof. reflexivity. Qed.

Theorem small_called : forall X (f : Z -> Z -> X -> X) (merge : list X -> X) x k,
  call_topology merge f (6 + k) (of_edges residual_edges) x = Ok (merge [f 1%Z 3%Z x; f 2%Z 3%Z (f 1%Z 2%Z x)]) /\
  call_topology merge f (8 + k) (of_edges diamond_edges) x = Ok (merge [f 2%Z 4%Z (f 1%Z 2%Z x); f 3%Z 4%Z (f 1%Z 3%Z x)]) /\
  call_topology merge f (9 + k) (of_edges diamond_mid_edges) x =
    Ok (merge [f 2%Z 4%Z (f 1%Z 2%Z x); f 3%Z 4%Z (merge [f 1%Z 3%Z x; f 2%Z 3%Z (f 1%Z 2%Z x)])]).
Proof. exact small_called_. Qed.
Print Assumptions small_called.
Example small_called_example : call_topology (fold_right Z.mul 1%Z) (fun u v y => y + u)%Z 6 (of_edges residual_edges) 5%Z = Ok (6 * 8)%Z.
Proof. reflexivity. Qed.

(** A graph whose nodes are sorted, but not in the order of a breadth first search: operations are
    applied twice, the result is another one. *)
Theorem call_order_refuted : exists (g : graph) order src tgt (f : Z -> Z -> Z -> Z) at_node r, proper g /\ NoDup (edges g) /\ topological g order /\
  only g (fun n => forall u, ~ edge g u n) src /\ only g (fun n => forall v, ~ edge g n v) tgt /\
  values g order src f (fun _ => fold_right Z.add 0%Z) 1%Z at_node /\
  (forall k, call_topology (fold_right Z.add 0%Z) f (15 + k) g 1%Z = Ok r) /\ r <> at_node tgt.
Proof. exact call_order_refuted_. Qed.
Print Assumptions call_order_refuted.

(** More operations than edges: they are ignored. *)
Theorem surplus_ignored : forall A (es : list (Z * Z)) (vals more : list A), List.length vals = List.length es -> create_graph es (vals ++ more) = create_graph es vals.
Proof. exact surplus_ignored_. Qed.
Print Assumptions surplus_ignored.
Example surplus_ignored_example : List.length [1; 2; 3] = List.length residual_edges /\ create_graph residual_edges ([1; 2; 3] ++ [4]) = create_graph residual_edges [1; 2; 3].
Proof. split; reflexivity. Qed.
(** With as many operations as edges, every edge has its own. *)
Theorem operations_in_order : forall A (es : list (Z * Z)) (vals : list A), List.length vals = List.length es ->
  edges (fst (create_graph es vals)) = es /\ forall i e a, nth_error es i = Some e -> nth_error vals i = Some a -> nth_error (snd (create_graph es vals)) i = Some (e, a).
Proof. exact operations_in_order_. Qed.
Print Assumptions operations_in_order.
Example operations_in_order_example : snd (create_graph residual_edges [7; 8; 9]) = [((1, 2)%Z, 7); ((1, 3)%Z, 8); ((2, 3)%Z, 9)].
Proof. reflexivity. Qed.
(** Fewer operations than edges: there is no error, the edges at the end are missing, and a call gives
    the wrong result. *)
Theorem missing_operations_refuted : exists (vals : list (Z -> Z)) f, List.length vals < List.length residual_edges /\ (forall u v a, In ((u, v), a) (snd (create_graph residual_edges vals)) -> f u v = a) /\
  forall k, call_topology (fold_right Z.add 0%Z) f (6 + k) (fst (create_graph residual_edges vals)) 1%Z = Ok 6%Z.
Proof. exact missing_operations_refuted_. Qed.
Print Assumptions missing_operations_refuted.

(** ** C136 *)

(** The module gives what the operations make of its input. *)
Theorem module_right : forall X op comb (total : list X -> X) (g : graph) order src tgt (f : Z -> Z -> X -> X) (merge : Z -> list X -> X), proper g -> NoDup (edges g) -> topological g order ->
  only g (fun n => forall u, ~ edge g u n) src -> only g (fun n => forall v, ~ edge g n v) tgt ->
  (forall u v, edge g u v -> does (op u v) (f u v)) -> (forall n, In n order -> 1 < List.length (feeding g order n) -> combines total (comb n) (merge n)) ->
  forall x at_node, values g order src f merge x at_node -> exists m, to_pytorch op comb g order = Ok m /\ call_module total m x = Ok (at_node tgt).
Proof. exact module_right_. Qed.
Print Assumptions module_right.
Example module_right_example : let op := fun u v => Op (fun y => y + 10 * u + v)%Z in let g := of_edges diamond_mid_edges in let total := fold_right Z.add 0%Z in
  bind (to_pytorch op (fun _ => Sum) g [1; 2; 3; 4]%Z) (fun m => call_module total m 0%Z) = Ok ((12 + 24) + (13 + (12 + 23) + 34))%Z.
Proof. reflexivity. Qed.

(** A node without outgoing edges that is smaller than the last one is refused. *)
Theorem several_outputs_refused : forall X op comb (g : graph) order n, topological g order -> (exists src, only g (fun n => forall u, ~ edge g u n) src) ->
  (forall u v, edge g u v -> exists f : X -> X, does (op u v) f) -> (forall m, In m order -> exists f : list X -> X, comb m = CombModule f \/ comb m = Sum) ->
  In n order -> (forall v, ~ edge g n v) -> (n < List.last order 0)%Z -> to_pytorch op comb g order = Err NotImplementedError.
Proof. exact several_outputs_refused_. Qed.
Print Assumptions several_outputs_refused.
Example several_outputs_refused_example : to_pytorch (X := Z) (fun u v => Op (fun y => y)) (fun _ => Sum) (of_edges [(1, 2); (1, 3)]%Z) [1; 2; 3]%Z = Err NotImplementedError.
Proof. reflexivity. Qed.

(** But not if it is greater: then its value is lost. *)
Theorem second_output_lost_refuted : exists (g : graph) order out, smallest_first g order /\ In out order /\ (forall v, ~ edge g out v) /\ out <> List.last order 0%Z /\
  exists m, to_pytorch (X := Z) (fun u v => Op (fun y => y + v)%Z) (fun _ => Sum) g order = Ok m /\ forall x, call_module (fold_right Z.add 0%Z) m x = Ok (x + 6 + 3)%Z.
Proof. exact second_output_lost_refuted_. Qed.
Print Assumptions second_output_lost_refuted.

(** [merge_fn] of a topology is not what the module does: it adds, as the nodes' [comb_op] says. *)
Theorem merge_fn_refuted : exists (merge : list Z -> Z) (f : Z -> Z -> Z -> Z), (forall k, call_topology merge f (6 + k) (of_edges residual_edges) 5%Z = Ok (5 * 7)%Z) /\
  bind (to_pytorch (fun u v => Op (f u v)) (fun _ => Sum) (of_edges residual_edges) [1; 2; 3]%Z) (fun m => call_module (fold_right Z.add 0%Z) m 5%Z) = Ok (5 + 7)%Z.
Proof. exact merge_fn_refuted_. Qed.
Print Assumptions merge_fn_refuted.

(** Without operations that are primitives or graphs (numbers, functions) there is no module. *)
Theorem other_operations_refused : forall X op comb (g : graph) order u v, topological g order -> (exists src, only g (fun n => forall u, ~ edge g u n) src) ->
  (forall m, In m order -> exists f : list X -> X, comb m = CombModule f \/ comb m = Sum) ->
  edge g u v -> op u v = UnknownOp -> exists e, to_pytorch (X := X) op comb g order = Err e /\ (e = ValueError \/ e = NotImplementedError).
Proof. exact other_operations_refused_. Qed.
Print Assumptions other_operations_refused.
Example other_operations_refused_example : to_pytorch (X := Z) (fun u v => if Z.eqb u 2 then UnknownOp else Op (fun y => y)) (fun _ => Sum) (of_edges (sequential_edges 2)) [1; 2; 3]%Z = Err ValueError.
Proof. reflexivity. Qed.
