(** The values that a graph of operations gives its nodes. *)
From Verif Require Import Py Prune_model Prune_spec Net_model.
Local Open Scope list_scope.

Definition pair_dec : forall a b : Z * Z, {a = b} + {a <> b}.
Proof. decide equality; apply Z.eq_dec. Defined.
(** The nodes with an edge to [n], in the given order *)
Definition feeding (g : graph) (order : list Z) (n : Z) : list Z := filter (fun u => if in_dec pair_dec (u, n) (edges g) then true else false) order.
(** One value stays as it is, others are merged. *)
Definition merged {X} (merge : list X -> X) (ys : list X) : X := match ys with [y] => y | _ => merge ys end.
(** [at_node] gives the input [x], and every other node what the operations at its edges make of the
    values where they begin, merged. *)
Definition values {X} (g : graph) (order : list Z) (src : Z) (f : Z -> Z -> X -> X) (merge : Z -> list X -> X) (x : X) (at_node : Z -> X) : Prop :=
  at_node src = x /\
  forall n, In n order -> n <> src -> at_node n = merged (merge n) (map (fun u => f u n (at_node u)) (feeding g order n)).
(** What operations at edges and nodes do *)
Definition does {X} (o : edge_op (X := X)) (f : X -> X) : Prop := o = Op f.
Definition combines {X} (total : list X -> X) (o : comb_op (X := X)) (f : list X -> X) : Prop := o = CombModule f \/ (o = Sum /\ f = total).
(** Of the nodes that could be next, the smallest one is. *)
Definition smallest_first (g : graph) (order : list Z) : Prop :=
  topological g order /\ forall a n b m, order = a ++ n :: b -> In m b -> (forall u, edge g u m -> In u a) -> (n <= m)%Z.
(** Breadth first search: [queue] and [seen], and the order in which nodes are left *)
Inductive breadth_first (g : graph) : list Z -> list Z -> list Z -> Prop :=
| bf_done seen : breadth_first g [] seen []
| bf_next u q seen fresh o : fresh = filter (fun v => if in_dec Z.eq_dec v seen then false else true) (succs g u) ->
    breadth_first g (q ++ fresh) (seen ++ fresh) o -> breadth_first g (u :: q) seen (u :: o).
(** Edges from the nodes of [order] go along it. *)
Definition along (g : graph) (order : list Z) : Prop := NoDup order /\ forall u v, edge g u v -> In u order -> exists a b c, order = a ++ u :: b ++ v :: c.
