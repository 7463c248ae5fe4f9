(** C145: the graph of an architecture has the operations of its tree, on the paths the topologies say. *)
From Coq Require Import List Bool Arith String Lia.
From Verif Require Import Sub_model Sub_spec Sub_proofs.
From Coq Require Import Permutation.
Import ListNotations.
Local Open Scope string_scope.
Local Open Scope nat_scope.
Local Open Scope list_scope.
Local Notation length := List.length.

(** an example: a residual connection, one edge of which is two operations one after the other *)
Definition topologies (s : string) : option (list edge) :=
  if String.eqb s "Linear" then Some [(1, 2); (2, 3)] else if String.eqb s "Residual" then Some [(1, 2); (1, 3); (2, 3)] else None.
Definition net : tree := Topo "Residual" [Topo "Linear" [Op "conv"; Op "norm"]; Op "skip"; Op "zero"].
Lemma net_fits : fits topologies net.
Proof.
  assert (R : good_edges [(1, 2); (1, 3); (2, 3)] 1 3).
  { split; [repeat constructor; cbn; intuition discriminate|]. split; [intros u v I; cbn in I; repeat (destruct I as [[= <- <-]|I]; [lia|]); destruct I|]. split; [lazy; reflexivity|]. exists 2, 3. split; [cbn; auto|]. intros u v I. cbn in I. repeat (destruct I as [[= <- <-]|I]; [cbn; lia|]). destruct I. }
  assert (L : good_edges [(1, 2); (2, 3)] 1 3).
  { split; [repeat constructor; cbn; intuition discriminate|]. split; [intros u v I; cbn in I; repeat (destruct I as [[= <- <-]|I]; [lia|]); destruct I|]. split; [lazy; reflexivity|]. exists 2, 3. split; [cbn; auto|]. intros u v I. cbn in I. repeat (destruct I as [[= <- <-]|I]; [cbn; lia|]). destruct I. }
  cbn. split; [exists [(1, 2); (1, 3); (2, 3)], 1, 3; auto|]. split; [split; [exists [(1, 2); (2, 3)], 1, 3; auto|auto]|auto].
Qed.

(** The paths from the first to the last node of the graph are exactly the sequences of operations of the tree,
    without those in which there is an operation that is pruned. *)
Theorem paths_are_sequences : forall edges_of zero s cs, fits edges_of (Topo s cs) -> exists el b z G off, edges_of s = Some el /\ begin_end el = Ok (b, z) /\
  built edges_of zero (terminals (Topo s cs)) = Ok (G, [], off) /\ NoDup (map fst G) /\
  forall ws, path G b z ws <-> word edges_of (Topo s cs) ws /\ Forall (fun o => zero o = false) ws.
Proof. exact built_paths. Qed.
Example paths_are_sequences_ex : fits topologies net /\
  built topologies (fun _ => false) (terminals net) = Ok ([((1, 3), Some "skip"); ((2, 3), Some "zero"); ((1, 5), Some "conv"); ((5, 2), Some "norm")], [], 6) /\
  built topologies (String.eqb "zero") (terminals net) = Ok ([((1, 3), Some "skip"); ((1, 5), Some "conv"); ((5, 2), Some "norm")], [], 6).
Proof. split; [exact net_fits|]. split; lazy; reflexivity. Qed.
(** Each operation that is not pruned is on an edge of its own. *)
Theorem operations_are_edges : forall edges_of zero s cs, fits edges_of (Topo s cs) -> exists G off,
  built edges_of zero (terminals (Topo s cs)) = Ok (G, [], off) /\ Permutation (map snd G) (map Some (filter (fun o => negb (zero o)) (operations (Topo s cs)))).
Proof. exact built_operations. Qed.
Example operations_are_edges_ex : fits topologies net /\ operations net = ["conv"; "norm"; "skip"; "zero"].
Proof. split; [exact net_fits|]. reflexivity. Qed.

(** Not if the nodes of a topology are numbered in another way: then new nodes get the numbers of others, and
    operations overwrite each other. *)
Definition odd (s : string) : option (list edge) := if String.eqb s "T" then Some [(1, 9); (1, 3); (3, 2); (2, 9)] else None.
Theorem numbering_refuted : exists edges_of el t G off,
  edges_of "T" = Some el /\ NoDup el /\ (exists b z, begin_end el = Ok (b, z)) /\
  built edges_of (fun _ => false) (terminals t) = Ok (G, [], off) /\ length G < length (operations t).
Proof.
  exists odd, [(1, 9); (1, 3); (3, 2); (2, 9)], (Topo "T" [Topo "T" [Op "a"; Op "b"; Op "c"; Op "d"]; Topo "T" [Op "e"; Op "f"; Op "g"; Op "h"]; Op "i"; Op "j"]). eexists _, _.
  split; [reflexivity|]. split; [repeat constructor; cbn; intuition discriminate|]. split; [exists 1, 9; lazy; reflexivity|]. split; [lazy; reflexivity|]. cbn. lia.
Qed.

Print Assumptions paths_are_sequences.
Print Assumptions operations_are_edges.
Print Assumptions numbering_refuted.
