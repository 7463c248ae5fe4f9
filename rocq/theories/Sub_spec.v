(** The graph of a tree of topologies and operations: edges are replaced by the graphs of the subtrees. *)
From Coq Require Import List Bool Arith String.
From Verif Require Import Sub_model.
Import ListNotations.
Local Open Scope nat_scope.
Local Open Scope list_scope.
Local Notation length := List.length.

(** a tree: an operation, or a topology with a subtree for each edge *)
Inductive tree : Type := Op (s : string) | Topo (s : string) (cs : list tree).
(** its terminals in order *)
Fixpoint terminals (t : tree) : list string := match t with Op s => [s] | Topo s cs => s :: flat_map terminals cs end.
(** its operations in order *)
Fixpoint operations (t : tree) : list string := match t with Op s => [s] | Topo _ cs => flat_map operations cs end.
(** edges of a topology: from a first node b to a last one z, numbered from 1, and no node has a greater number
    than those of the edge that is last in the lexicographic order *)
Definition good_edges (el : list edge) (b z : nat) : Prop :=
  NoDup el /\ (forall u v, In (u, v) el -> 1 <= u /\ 1 <= v /\ u <> v) /\ begin_end el = Ok (b, z) /\
  exists x y, In (x, y) el /\ forall u v, In (u, v) el -> (u < x \/ u = x /\ v <= y) /\ u <= Nat.max x y /\ v <= Nat.max x y.
(** a tree fits the topologies *)
Fixpoint fits (edges_of : string -> option (list edge)) (t : tree) : Prop :=
  match t with
  | Op s => edges_of s = None
  | Topo s cs => (exists el b z, edges_of s = Some el /\ good_edges el b z /\ length cs = length el) /\ (fix all l := match l with [] => True | c :: l => fits edges_of c /\ all l end) cs
  end.
(** The graph of a tree: relation between a tree, the edge it is put for, its labelled edges *)
Section Graph.
  Variable edges_of : string -> option (list edge).
  (** [graph_of t e inner l]: l are the operations of t on edges between the ends of e and the nodes [inner], all new *)
  Inductive graph_of : tree -> edge -> list nat -> list (edge * string) -> Prop :=
  | GOp s e : graph_of (Op s) e [] [(e, s)]
  | GTopo s cs el b z e (f : nat -> nat) (own : list nat) inner l :
      edges_of s = Some el -> begin_end el = Ok (b, z) ->
      f b = fst e -> f z = snd e ->
      (forall n, In n (map fst el ++ map snd el) -> n <> b -> n <> z -> In (f n) own) ->
      (forall n m, In n (map fst el ++ map snd el) -> In m (map fst el ++ map snd el) -> f n = f m -> n = m) ->
      graphs_of cs (map (fun e => (f (fst e), f (snd e))) el) inner l ->
      (forall n, In n (own ++ inner) -> n <> fst e /\ n <> snd e) -> (forall n, In n own -> ~ In n inner) ->
      graph_of (Topo s cs) e (own ++ inner) l
  with graphs_of : list tree -> list edge -> list nat -> list (edge * string) -> Prop :=
  | GNil : graphs_of [] [] [] []
  | GCons c cs e es i1 i2 l1 l2 : graph_of c e i1 l1 -> graphs_of cs es i2 l2 -> (forall n, In n i1 -> ~ In n i2) -> graphs_of (c :: cs) (e :: es) (i1 ++ i2) (l1 ++ l2).
End Graph.
(** what is left of the operations in the graph *)
Definition kept (zero : string -> bool) (l : list (edge * string)) : graph := map (fun x => (fst x, Some (snd x))) (filter (fun x => negb (zero (snd x))) l).
(** the operations along a path in a graph *)
Inductive path (G : graph) : nat -> nat -> list string -> Prop :=
| PNil u : path G u u []
| PCons u v w s ws : In ((u, v), Some s) G -> path G v w ws -> path G u w (s :: ws).
(** The sequences of operations of a tree: an operation alone; for a topology, along a walk from its first node to
    its last one, sequences of the subtrees of the edges one after the other. *)
Section Words.
  Variable edges_of : string -> option (list edge).
  Inductive word : tree -> list string -> Prop :=
  | WOp s : word (Op s) [s]
  | WTopo s cs el b z ws : edges_of s = Some el -> begin_end el = Ok (b, z) -> walk (combine el cs) b z ws -> word (Topo s cs) ws
  with walk : list (edge * tree) -> nat -> nat -> list string -> Prop :=
  | KNil l u : walk l u u []
  | KCons l u v w c w1 w2 : In ((u, v), c) l -> word c w1 -> walk l v w w2 -> walk l u w (w1 ++ w2).
End Words.
