(** Paths of a topology, by its edges and by its nodes (core_graph_grammar.py:245-266). *)
From Coq Require Import List Arith.
From Verif Require Import Dual_model.
Import ListNotations.
Local Open Scope nat_scope.
Local Open Scope list_scope.

(** the only node that no edge goes to is b, the only one that no edge comes from is z
    (core_graph_grammar.py:252-253) *)
Definition from_to (el : list edge) (b z : nat) : Prop :=
  (forall n, (exists v, In (n, v) el) /\ (forall u, ~ In (u, n) el) <-> n = b) /\
  (forall n, (exists u, In (u, n) el) /\ (forall v, ~ In (n, v) el) <-> n = z).
(** a path from u to v along the edges with these positions (core_graph_grammar.py:245-266) *)
Inductive along (el : list edge) : nat -> nat -> list nat -> Prop :=
| AlongNil u : along el u u []
| AlongCons u v w i l : nth_error el i = Some (u, v) -> along el v w l -> along el u w (i :: l).
(** a path from x to 1, the output, over these nodes (core_graph_grammar.py:261-264) *)
Inductive over (nl : list edge) : nat -> list nat -> Prop :=
| OverEnd x : In (x, 1) nl -> over nl x []
| OverCons x y l : In (x, y) nl -> over nl y l -> over nl x (y :: l).
