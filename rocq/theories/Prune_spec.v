(** Vocabulary for graphs. *)
From Verif Require Import Py Prune_model.
From Coq Require Import String.
Local Open Scope list_scope.

Definition edge (g : graph) (u v : Z) : Prop := In (u, v) (edges g).
(** The edges are between nodes, each of which is there once. *)
Definition proper (g : graph) : Prop := NoDup (nodes g) /\ forall u v, edge g u v -> In u (nodes g) /\ In v (nodes g).
(** All nodes in an order along which every edge goes *)
Definition topological (g : graph) (order : list Z) : Prop :=
  (forall n, In n order <-> In n (nodes g)) /\ NoDup order /\
  forall u v, edge g u v -> exists a b c, order = a ++ u :: b ++ v :: c.
(** A path of edges *)
Inductive path (g : graph) : Z -> Z -> Prop :=
| path_here n : path g n n
| path_step u v w : edge g u v -> path g v w -> path g u w.
(** A path of at least one edge all of whose nodes between the ends satisfy [P] *)
Inductive path_through (g : graph) (P : Z -> Prop) : Z -> Z -> Prop :=
| through_edge u v : edge g u v -> path_through g P u v
| through_step u v w : edge g u v -> P v -> path_through g P v w -> path_through g P u w.
(** The part of [g] on its nodes that satisfy [P] *)
Definition part (g : graph) (P : Z -> Prop) (h : graph) : Prop :=
  (forall n, In n (nodes h) <-> In n (nodes g) /\ P n) /\ forall u v, edge h u v <-> edge g u v /\ P u /\ P v.
(** A text contains another. *)
Definition contains (z s : string) : Prop := exists a b, s = (a ++ z ++ b)%string.
(** [h] is [g] without the special nodes, those with identities being bypassed. *)
Definition bypassed (g : graph) (zero identity : Z -> bool) (h : graph) : Prop :=
  (forall n, In n (nodes h) <-> In n (nodes g) /\ zero n = false /\ identity n = false) /\
  forall u v, edge h u v <-> (zero u = false /\ identity u = false) /\ (zero v = false /\ identity v = false) /\ path_through g (fun n => identity n = true) u v.
(** The only node satisfying [P] *)
Definition only (g : graph) (P : Z -> Prop) (n : Z) : Prop := forall m, In m (nodes g) /\ P m <-> m = n.
(** [sorted] gives an order for [g] and for every graph on nodes of [g] whose edges are along paths of [g]. *)
Definition sorts (sorted : graph -> list Z) (g : graph) : Prop :=
  forall h, (forall n, In n (nodes h) -> In n (nodes g)) -> (forall u v, edge h u v -> In u (nodes h) /\ In v (nodes h) /\ u <> v /\ path g u v) -> topological h (sorted h).
