(** C131: pruning parts that are not connected.  C132: pruning operations. *)
From Verif Require Import Py Prune_model Prune_spec Prune_proofs.
From Coq Require Import String FinFun.
Local Open Scope Z_scope.
Local Open Scope list_scope.

(** ** C131 *)

(** What is left is exactly the part on the paths from the input to the output. *)
Theorem pruned_to_paths : forall g order src tgt, proper g -> topological g order -> (forall v, ~ edge g tgt v) ->
  exists h, prune_unconnected_parts g order src tgt = Ok h /\ part g (fun n => path g src n /\ path g n tgt) h.
Proof. intros g order src tgt P T N. exact (prune_p g src tgt P N order T). Qed.
Print Assumptions pruned_to_paths.

(** A graph is refused as invalid exactly if there is no path at all. *)
Theorem refused_without_path : forall g order src tgt, proper g -> topological g order -> In src (nodes g) -> src <> tgt -> (forall v, ~ edge g tgt v) ->
  (path g src tgt -> exists h, bind (prune_unconnected_parts g order src tgt) check_graph = Ok h /\ prune_unconnected_parts g order src tgt = Ok h) /\
  (~ path g src tgt -> bind (prune_unconnected_parts g order src tgt) check_graph = Err ValueError).
Proof. exact check_pruned. Qed.
Print Assumptions refused_without_path.

(** An input that is the output is refused. *)
Theorem input_is_output : forall g order n, proper g -> topological g order -> (forall v, ~ edge g n v) -> bind (prune_unconnected_parts g order n n) check_graph = Err ValueError.
Proof. exact check_single. Qed.
Print Assumptions input_is_output.

(** 1 to 6, with a dead end 4-7-8 and 2 that is not reached *)
Definition g0 := mkGraph [1; 2; 3; 4; 5; 6; 7; 8] [(1, 3); (1, 4); (3, 5); (4, 5); (5, 6); (4, 7); (7, 8); (2, 5)].
Definition upwards (n : nat) (h : graph) : list Z := filter (has_node h) (map (fun k => Z.of_nat (S k)) (seq 0 n)).
Lemma upwards_in n h : (forall m, In m (nodes h) -> 1 <= m <= Z.of_nat n) -> forall m, In m (upwards n h) <-> In m (nodes h).
Proof.
  intros H m. unfold upwards. rewrite filter_In, has_node_iff, in_map_iff. split; [tauto|]. intros M. split; [|exact M].
  specialize (H m M). exists (Z.to_nat (m - 1)). split; [lia|]. apply in_seq. lia.
Qed.
Lemma upwards_sorted n h : (forall m, In m (nodes h) -> 1 <= m <= Z.of_nat n) -> (forall u v, edge h u v -> In u (nodes h) /\ In v (nodes h) /\ u < v) -> topological h (upwards n h).
Proof.
  intros H E. split; [exact (upwards_in n h H)|]. split.
  - apply NoDup_filter. apply FinFun.Injective_map_NoDup; [intros a b X; lia|apply seq_NoDup].
  - intros u v X. destruct (E u v X) as (U & V & L). specialize (H u U) as HU. specialize (H v V) as HV. unfold upwards.
    assert (Q : map (fun k => Z.of_nat (S k)) (seq 0 n) = map (fun k => Z.of_nat (S k)) (seq 0 (Z.to_nat (u - 1))) ++ u :: map (fun k => Z.of_nat (S k)) (seq (Z.to_nat u) (Z.to_nat (v - 1 - u))) ++ v :: map (fun k => Z.of_nat (S k)) (seq (Z.to_nat v) (n - Z.to_nat v))).
    { replace n with (Z.to_nat (u - 1) + (1 + (Z.to_nat (v - 1 - u) + (1 + (n - Z.to_nat v)))))%nat at 1 by lia. rewrite !seq_app, !map_app. cbn [seq map app]. f_equal.
      replace (0 + Z.to_nat (u - 1))%nat with (Z.to_nat (u - 1)) by lia. f_equal; [lia|].
      replace (Z.to_nat (u - 1) + 1)%nat with (Z.to_nat u) by lia. f_equal. replace (Z.to_nat u + Z.to_nat (v - 1 - u))%nat with (Z.to_nat (v - 1)) by lia. f_equal; [lia|]. f_equal. f_equal. lia. }
    rewrite Q. exists (filter (has_node h) (map (fun k => Z.of_nat (S k)) (seq 0 (Z.to_nat (u - 1))))), (filter (has_node h) (map (fun k => Z.of_nat (S k)) (seq (Z.to_nat u) (Z.to_nat (v - 1 - u))))), (filter (has_node h) (map (fun k => Z.of_nat (S k)) (seq (Z.to_nat v) (n - Z.to_nat v)))).
    apply filter_split; apply has_node_iff; assumption.
Qed.
Lemma upwards_path g u v : (forall a b, edge g a b -> a < b) -> path g u v -> u <= v.
Proof. intros H X. induction X as [|a b c X1 X2 IH]; [lia|]. specialize (H a b X1). lia. Qed.
Lemma upwards_sorts n g : (forall m, In m (nodes g) -> 1 <= m <= Z.of_nat n) -> (forall u v, edge g u v -> u < v) -> sorts (upwards n) g.
Proof.
  intros H E h N X. apply upwards_sorted; [intros m M; apply H, N, M|]. intros u v Y. destruct (X u v Y) as (A & B & C & D). split; [exact A|]. split; [exact B|]. pose proof (upwards_path g u v E D). lia.
Qed.
Example g0_proper : proper g0.
Proof.
  split; [cbn; repeat (apply NoDup_cons; [cbn; intuition discriminate|]); apply NoDup_nil|]. intros u v E. unfold edge in E. cbn in E.
  repeat (destruct E as [E|E]; [injection E as <- <-; cbn; auto 20|]). destruct E.
Qed.
Example g0_up : forall u v, edge g0 u v -> u < v.
Proof. intros u v E. unfold edge in E. cbn in E. repeat (destruct E as [E|E]; [injection E as <- <-; lia|]). destruct E. Qed.
Example g0_small : forall m, In m (nodes g0) -> 1 <= m <= Z.of_nat 8.
Proof. intros m M. cbn in M. repeat (destruct M as [<-|M]; [cbn; lia|]). destruct M. Qed.
Example g0_topological : topological g0 [1; 2; 3; 4; 5; 6; 7; 8].
Proof.
  change [1; 2; 3; 4; 5; 6; 7; 8] with (upwards 8 g0). apply upwards_sorted; [exact g0_small|]. intros u v E. destruct (proj2 g0_proper u v E). split; [assumption|]. split; [assumption|]. exact (g0_up u v E).
Qed.
Example g0_sink : forall v, ~ edge g0 6 v.
Proof. intros v E. unfold edge in E. cbn in E. repeat (destruct E as [E|E]; [discriminate|]). destruct E. Qed.
Example pruned_ex : prune_unconnected_parts g0 [1; 2; 3; 4; 5; 6; 7; 8] 1 6 = Ok (mkGraph [1; 3; 4; 5; 6] [(1, 3); (1, 4); (3, 5); (4, 5); (5, 6)]).
Proof. lazy. reflexivity. Qed.
(** The output cannot be reached. *)
Example refused_ex : bind (prune_unconnected_parts (mkGraph [1; 2; 3; 4] [(1, 2); (3, 4)]) [1; 2; 3; 4] 1 4) check_graph = Err ValueError.
Proof. lazy. reflexivity. Qed.

Example input_is_output_ex : bind (prune_unconnected_parts g0 [1; 2; 3; 4; 5; 6; 7; 8] 6 6) check_graph = Err ValueError.
Proof. exact (input_is_output g0 _ 6 g0_proper g0_topological g0_sink). Qed.

(** ** C132 *)

(** Operations at the nodes: the nodes with zeros and identities go, an edge leads from one of the
    others to another exactly if there was an edge or a path of identities, and of this graph only the
    paths from the input to the output are left. *)
Theorem identities_bypassed : forall sorted zero identity g src tgt, proper g -> (exists o, topological g o) -> sorts sorted g ->
  only g (fun n => forall u, ~ edge g u n) src -> only g (fun n => forall v, ~ edge g n v) tgt ->
  exists g1 h, bypassed g zero identity g1 /\ prune_graph_nodes sorted zero identity g = Ok h /\ part g1 (fun n => path g1 src n /\ path g1 n tgt) h.
Proof. exact prune_nodes_p. Qed.
Print Assumptions identities_bypassed.

(** A graph with several inputs or outputs, or none, is refused. *)
Theorem several_ends_refused : forall sorted zero identity name zero_op g, proper g ->
  ((forall n, ~ only g (fun n => forall u, ~ edge g u n) n) \/ (forall n, ~ only g (fun n => forall v, ~ edge g n v) n)) ->
  prune_graph_nodes sorted zero identity g = Err RuntimeError /\ prune_graph_edges sorted name zero_op g = Err RuntimeError.
Proof.
  intros sorted zero identity name zero_op g P H. unfold prune_graph_nodes, prune_graph_edges.
  assert (X : the_only (filter (fun n => is_nil (preds g n)) (nodes g)) = Err RuntimeError \/ the_only (filter (fun n => is_nil (succs g n)) (nodes g)) = Err RuntimeError).
  { destruct H as [H|H]; [left; exact (not_only g _ _ (proj1 P) (fun m => no_preds g m) H)|right; exact (not_only g _ _ (proj1 P) (fun m => no_succs g m) H)]. }
  destruct (the_only (filter (fun n => is_nil (preds g n)) (nodes g))) as [n|e] eqn:E.
  - destruct X as [X|X]; [discriminate|]. cbn [bind]. rewrite X. split; reflexivity.
  - assert (e = RuntimeError) as -> by (destruct (filter (fun n => is_nil (preds g n)) (nodes g)) as [|a [|b l]]; cbn in E; congruence). split; reflexivity.
Qed.
Print Assumptions several_ends_refused.

(** Primitives at the edges: those whose name contains the name of a zero go, and of this graph only
    the paths from the input to the output are left. *)
Theorem zeros_pruned : forall sorted name zero_op g src tgt, proper g -> (exists o, topological g o) -> sorts sorted g ->
  only g (fun n => forall u, ~ edge g u n) src -> only g (fun n => forall v, ~ edge g n v) tgt ->
  exists g1 h, (forall n, In n (nodes g1) <-> In n (nodes g)) /\ (forall u v, edge g1 u v <-> edge g u v /\ ~ exists z, In z zero_op /\ contains z (name (u, v))) /\
    prune_graph_edges sorted name zero_op g = Ok h /\ part g1 (fun n => path g1 src n /\ path g1 n tgt) h.
Proof. exact prune_edges_p. Qed.
Print Assumptions zeros_pruned.

Definition g1 := mkGraph [1; 2; 3; 4; 5] [(1, 2); (1, 3); (2, 4); (3, 4); (4, 5)].
Definition ops (e : Z * Z) : string := if Z.eqb (fst e) 2 then "ZeroPadConv" else "conv".
(** An operation that is no zero, but has a name that contains one, is pruned too. *)
Theorem zero_name_refuted : exists g name zero_op h, (forall e, In e (edges g) -> ~ In (name e) zero_op) /\ prune_graph_edges (upwards 5) name zero_op g = Ok h /\ edges h <> edges g.
Proof.
  exists g1, ops, ["Zero"; "zero"]%string. eexists. split; [|split; [lazy; reflexivity|cbn; discriminate]].
  intros e E. cbn in E. repeat (destruct E as [<-|E]; [cbn; intuition discriminate|]). destruct E.
Qed.
Print Assumptions zero_name_refuted.

Example g1_proper : proper g1.
Proof.
  split; [cbn; repeat (apply NoDup_cons; [cbn; intuition discriminate|]); apply NoDup_nil|]. intros u v E. unfold edge in E. cbn in E.
  repeat (destruct E as [E|E]; [injection E as <- <-; cbn; auto 20|]). destruct E.
Qed.
Example g1_sorts : sorts (upwards 5) g1 /\ exists o, topological g1 o.
Proof.
  assert (A : forall m, In m (nodes g1) -> 1 <= m <= Z.of_nat 5) by (intros m M; cbn in M; repeat (destruct M as [<-|M]; [cbn; lia|]); destruct M).
  assert (B : forall u v, edge g1 u v -> u < v) by (intros u v E; unfold edge in E; cbn in E; repeat (destruct E as [E|E]; [injection E as <- <-; lia|]); destruct E).
  split; [apply upwards_sorts; assumption|]. exists (upwards 5 g1). apply upwards_sorted; [exact A|]. intros u v E. destruct (proj2 g1_proper u v E). split; [assumption|]. split; [assumption|]. exact (B u v E).
Qed.
Example g1_only : only g1 (fun n => forall u, ~ edge g1 u n) 1 /\ only g1 (fun n => forall v, ~ edge g1 n v) 5.
Proof.
  split; intros m; rewrite <- (no_preds g1 m) || rewrite <- (no_succs g1 m); split.
  - intros [M E]. cbn in M. repeat (destruct M as [<-|M]; [first [reflexivity|discriminate]|]). destruct M.
  - intros ->. split; [cbn; auto|reflexivity].
  - intros [M E]. cbn in M. repeat (destruct M as [<-|M]; [first [reflexivity|discriminate]|]). destruct M.
  - intros ->. split; [cbn; auto 10|reflexivity].
Qed.
(** 3 is an identity, 2 a zero *)
Example bypassed_ex : prune_graph_nodes (upwards 5) (Z.eqb 2) (Z.eqb 3) g1 = Ok (mkGraph [1; 4; 5] [(4, 5); (1, 4)]).
Proof. lazy. reflexivity. Qed.
Example zeros_ex : prune_graph_edges (upwards 5) (fun e => if Z.eqb (snd e) 3 then "zero"%string else "conv"%string) ["zero"%string] g1 = Ok (mkGraph [1; 2; 4; 5] [(1, 2); (2, 4); (4, 5)]).
Proof. lazy. reflexivity. Qed.
Example several_ex : prune_graph_nodes (upwards 5) (Z.eqb 2) (Z.eqb 3) (mkGraph [1; 2; 3] [(1, 3); (2, 3)]) = Err RuntimeError.
Proof. lazy. reflexivity. Qed.
