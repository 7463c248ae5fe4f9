(** C147: a topology with the operations on nodes has the same paths as with the operations on edges. *)
From Coq Require Import List Bool Arith Lia.
From Verif Require Import Dual_model Dual_spec Dual_proofs.
Import ListNotations.
Local Open Scope nat_scope.
Local Open Scope list_scope.

(** an example: a cell with four nodes; nodes are not in order *)
Definition cell : list edge := [(1, 4); (1, 2); (4, 3); (2, 4); (2, 3)].
Lemma cell_from_to : from_to cell 1 3.
Proof.
  split; intros n; split.
  - intros ((v & I) & N). cbn in I. repeat (destruct I as [I|I]; [injection I as <- <-; try reflexivity; exfalso; first [apply (N 1); cbn; tauto|apply (N 2); cbn; tauto]|]). destruct I.
  - intros ->. split; [exists 4; cbn; auto|]. intros u I. cbn in I. repeat (destruct I as [I|I]; [discriminate|]). destruct I.
  - intros ((u & I) & N). cbn in I. repeat (destruct I as [I|I]; [injection I as <- <-; try reflexivity; exfalso; first [apply (N 3); cbn; tauto|apply (N 4); cbn; tauto]|]). destruct I.
  - intros ->. split; [exists 4; cbn; auto|]. intros u I. cbn in I. repeat (destruct I as [I|I]; [discriminate|]). destruct I.
Qed.

(** The paths from the input to the output go over exactly the nodes (their numbers are two more than the positions
    of the edges) of the paths of the topology. *)
Theorem same_paths : forall el b z, NoDup el -> from_to el b z -> exists nl, node_list el = Ok nl /\
  forall l, over nl 0 l <-> exists r, l = map (fun k => k + 2) r /\ along el b z r.
Proof.
  intros el b z ND FT. destruct (node_list_spec el b z ND FT) as (nl & E & S). exists nl. split; [exact E|]. exact (input_paths el b z FT nl S).
Qed.
Example same_paths_ex : NoDup cell /\ from_to cell 1 3 /\ node_list cell = Ok [(0, 2); (0, 3); (4, 1); (2, 4); (5, 4); (3, 5); (6, 1); (3, 6)] /\ along cell 1 3 [1; 3; 2].
Proof.
  split; [repeat constructor; cbn; intuition discriminate|]. split; [exact cell_from_to|]. split; [lazy; reflexivity|].
  econstructor; [reflexivity|]. econstructor; [reflexivity|]. econstructor; [reflexivity|]. constructor.
Qed.
(** The edges are those from the input to the edges of the first node, from the edges to the last node to the output,
    and between edges of which one follows the other; there are no others. *)
Theorem dual_edges : forall el b z, NoDup el -> from_to el b z -> exists nl, node_list el = Ok nl /\ forall x y, In (x, y) nl <->
  (exists j v, x = 0 /\ y = j + 2 /\ nth_error el j = Some (b, v)) \/ (exists j u, x = j + 2 /\ y = 1 /\ nth_error el j = Some (u, z)) \/
  exists i j u v w, x = i + 2 /\ y = j + 2 /\ nth_error el i = Some (u, v) /\ nth_error el j = Some (v, w).
Proof. exact node_list_spec. Qed.
Example dual_edges_ex : NoDup cell /\ from_to cell 1 3 /\ nth_error cell 3 = Some (2, 4) /\ nth_error cell 2 = Some (4, 3).
Proof. split; [repeat constructor; cbn; intuition discriminate|]. split; [exact cell_from_to|]. split; reflexivity. Qed.
(** Without one first and one last node there is none: unpacking fails. *)
Theorem no_single_end : forall el, (forall b z, ~ from_to el b z) -> node_list el = Err ValueError.
Proof.
  intros el H. unfold node_list. destruct (begin_end el) as [(b & z)|e] eqn:E.
  - exfalso. apply (H b z). unfold begin_end in E.
    destruct (filter _ (nodup Nat.eq_dec (map fst el))) as [|b' [|? ?]] eqn:EB; try discriminate. destruct (filter _ (nodup Nat.eq_dec (map snd el))) as [|z' [|? ?]] eqn:EZ; try discriminate.
    assert (b' = b /\ z' = z) as (-> & ->) by (split; congruence). split; intros n.
    + transitivity (In n [b]); [|cbn; intuition]. rewrite <- EB, filter_In, outside, !nodup_In, in_firsts, in_seconds. split; intros (P & Q); (split; [exact P|]); [intros (u & I); exact (Q u I)|intros u I; apply Q; exists u; exact I].
    + transitivity (In n [z]); [|cbn; intuition]. rewrite <- EZ, filter_In, outside, !nodup_In, in_firsts, in_seconds. split; intros (P & Q); (split; [exact P|]); [intros (u & I); exact (Q u I)|intros u I; apply Q; exists u; exact I].
  - unfold begin_end in E. destruct (filter _ (nodup Nat.eq_dec (map fst el))) as [|? [|? ?]]; try (assert (e = ValueError) as -> by congruence; reflexivity).
    destruct (filter _ (nodup Nat.eq_dec (map snd el))) as [|? [|? ?]]; try discriminate; assert (e = ValueError) as -> by congruence; reflexivity.
Qed.
Example no_single_end_ex : (forall b z, ~ from_to [(1, 3); (2, 3)] b z) /\ node_list [(1, 3); (2, 3)] = Err ValueError.
Proof.
  split; [|lazy; reflexivity]. intros b z (B & _).
  assert (E : 1 = b). { apply B. split; [exists 3; cbn; auto|]. intros u I. cbn in I. intuition discriminate. }
  assert (F : 2 = b). { apply B. split; [exists 3; cbn; auto|]. intros u I. cbn in I. intuition discriminate. } congruence.
Qed.

Print Assumptions same_paths.
Print Assumptions dual_edges.
Print Assumptions no_single_end.
