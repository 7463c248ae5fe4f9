(** Vocabulary for architecture parameters. *)
From Verif Require Import Py Prune_model Prune_spec Arch_model.
From Coq Require Import String.
Local Open Scope list_scope.

(** What a parameter may be after any calls, failing or not *)
Inductive reachable {V} (repr : string -> res V) : param V -> Prop :=
| at_first : reachable repr new_param
| after_value p : reachable repr p -> reachable repr (snd (get_value repr p))
| after_id p : reachable repr p -> reachable repr (snd (get_id p))
| after_load s p : reachable repr p -> reachable repr (snd (create_from_id repr s p))
| after_load_param q p : reachable repr q -> reachable repr p -> reachable repr (snd (load_from_param repr q p))
| after_set s p : reachable repr p -> reachable repr (snd (set_value repr s p))
| after_default d p : reachable repr p -> reachable repr (set_default d p)
| cloned p : reachable repr p -> reachable repr (clone p)
| sampled text p q : reachable repr p -> sample repr text p = Ok q -> reachable repr q
| mutated child b q : mutate repr child b = Ok q -> reachable repr q
| crossed c1 c2 a b : crossover repr c1 c2 = Ok (a, b) -> reachable repr a
| crossed' c1 c2 a b : crossover repr c1 c2 = Ok (a, b) -> reachable repr b.
(** [q] is where the first of the edges to [u] begins. *)
Definition first_edge (g : graph) (q u : Z) : Prop := exists l1 l2, edges g = l1 ++ (q, u) :: l2 /\ forall p, ~ In (p, u) l1.
