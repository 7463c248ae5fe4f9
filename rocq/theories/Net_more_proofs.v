(** More about topologies and modules. *)
From Verif Require Import Py Prune_model Prune_spec Prune_proofs Net_model Net_spec Net_proofs Net_call_proofs.
Local Open Scope nat_scope.
Local Open Scope list_scope.
Local Notation length := List.length.

Lemma call_right_ : forall X (g : graph) order src tgt (f : Z -> Z -> X -> X) (merge : list X -> X) x at_node, proper g -> NoDup (edges g) -> topological g order ->
  breadth_first g [src] [src] order -> only g (fun n => forall u, ~ edge g u n) src -> only g (fun n => forall v, ~ edge g n v) tgt ->
  values g order src f (fun _ => merge) x at_node ->
  exists enough, forall fuel, enough <= fuel -> call_topology merge f fuel g x = Ok (at_node tgt).
Proof.
  intros X g order src tgt f merge x at_ PR ED TO BF SRC TGT V. exists (cost g order). intros fuel LE. rewrite <- (last_target g order tgt PR TO TGT).
  apply (call_ok g order src f merge x at_); try assumption.
  - intros n. apply succs_NoDup, ED.
  - destruct TO as (T1 & T2 & T3). split; [exact T2|]. intros u v E _. exact (T3 u v E).
  - apply SRC. reflexivity.
Qed.
Lemma call_family X (g : graph) order tgt (f : Z -> Z -> X -> X) (merge : list X -> X) x at_node : proper g ->
  (forall m, NoDup (succs g m)) /\ topological g order /\ breadth_first g [1%Z] [1%Z] order /\ only g (fun m => forall u, ~ edge g u m) 1%Z /\ only g (fun m => forall v, ~ edge g m v) tgt ->
  values g order 1%Z f (fun _ => merge) x at_node -> exists enough, forall fuel, enough <= fuel -> call_topology merge f fuel g x = Ok (at_node tgt).
Proof.
  intros PR (SN & TO & BF & SRC & TGT) V. exists (cost g order). intros fuel LE. rewrite <- (last_target g order tgt PR TO TGT). apply (call_ok g order 1%Z f merge x at_node); try assumption.
  - destruct TO as (T1 & T2 & T3). split; [exact T2|]. intros u v E _. exact (T3 u v E).
  - apply SRC. reflexivity.
Qed.
Lemma sequential_called_ : forall X n (f : Z -> Z -> X -> X) (merge : list X -> X) x at_node, 1 <= n -> at_node 1%Z = x ->
  (forall k, (1 <= k <= Z.of_nat n)%Z -> at_node (k + 1)%Z = f k (k + 1)%Z (at_node k)) ->
  exists enough, forall fuel, enough <= fuel -> call_topology merge f fuel (of_edges (sequential_edges n)) x = Ok (at_node (Z.of_nat n + 1)%Z).
Proof.
  intros X n f merge x at_ L A1 A2. apply (call_family X _ (up (S n))); [apply of_edges_proper|exact (sequential_ok n L)|]. split; [exact A1|]. intros m I N. apply up_In in I.
  assert (FE : feeding (of_edges (sequential_edges n)) (up (S n)) m = [(m - 1)%Z]).
  { assert (U : forall u, In u (up (S n)) -> edge (of_edges (sequential_edges n)) u m <-> u = (m - 1)%Z) by (intros u U; apply up_In in U; rewrite sequential_edge; lia).
    assert (IN : In (m - 1)%Z (up (S n))) by (apply up_In; lia). pose proof (up_NoDup (S n)) as D. revert U IN D. generalize (up (S n)) as l. clear. unfold feeding. induction l as [|a l IH]; intros U IN D; [destruct IN|]. inversion D as [|? ? D1 D2]; subst. cbn [filter].
    destruct (Z.eq_dec a (m - 1)) as [->|NE].
    - destruct (in_dec pair_dec _ _) as [_|NI]; [|destruct NI; apply (U (m - 1)%Z (or_introl eq_refl)); reflexivity]. f_equal. assert (K : forall l', (forall b, In b l' -> In b l) -> filter (fun u => if in_dec pair_dec (u, m) (edges (of_edges (sequential_edges n))) then true else false) l' = []).
      { induction l' as [|b l' IHl]; intros H; [reflexivity|]. cbn [filter]. destruct (in_dec pair_dec _ _) as [E|_]; [|apply IHl; intros c C; apply H; right; exact C]. exfalso. apply (U b (or_intror (H b (or_introl eq_refl)))) in E. apply D1. rewrite <- E. apply H. left. reflexivity. }
      apply K. auto.
    - destruct (in_dec pair_dec _ _) as [E|_]; [apply (U a (or_introl eq_refl)) in E; contradiction|]. apply IH; [intros u W; apply U; right; exact W|destruct IN as [E|IN]; [contradiction|exact IN]|exact D2]. }
  rewrite FE. cbn [map merged]. specialize (A2 (m - 1)%Z ltac:(lia)). replace (m - 1 + 1)%Z with m in A2 by lia. exact A2.
Qed.
Lemma dense_called_ : forall X n (f : Z -> Z -> X -> X) (merge : list X -> X) x at_node, 2 <= n -> at_node 1%Z = x ->
  (forall j, 1 <= j < n -> at_node (Z.of_nat j + 1)%Z = merged merge (map (fun i => f (Z.of_nat i + 1)%Z (Z.of_nat j + 1)%Z (at_node (Z.of_nat i + 1)%Z)) (seq 0 j))) ->
  exists enough, forall fuel, enough <= fuel -> call_topology merge f fuel (of_edges (dense_edges n)) x = Ok (at_node (Z.of_nat n)).
Proof.
  intros X n f merge x at_ L A1 A2. apply (call_family X _ (up n)); [apply of_edges_proper|exact (dense_ok n L)|]. split; [exact A1|]. intros m I N. apply up_In in I.
  rewrite (feeding_up _ n m (Z.to_nat (m - 1))); [|intros u U; apply up_In in U; rewrite dense_edge; lia|lia].
  specialize (A2 (Z.to_nat (m - 1)) ltac:(lia)). replace (Z.of_nat (Z.to_nat (m - 1)) + 1)%Z with m in A2 by lia. rewrite A2. unfold up. rewrite map_map. reflexivity.
Qed.
Lemma small_called_ : forall X (f : Z -> Z -> X -> X) (merge : list X -> X) x k,
  call_topology merge f (6 + k) (of_edges residual_edges) x = Ok (merge [f 1%Z 3%Z x; f 2%Z 3%Z (f 1%Z 2%Z x)]) /\
  call_topology merge f (8 + k) (of_edges diamond_edges) x = Ok (merge [f 2%Z 4%Z (f 1%Z 2%Z x); f 3%Z 4%Z (f 1%Z 3%Z x)]) /\
  call_topology merge f (9 + k) (of_edges diamond_mid_edges) x =
    Ok (merge [f 2%Z 4%Z (f 1%Z 2%Z x); f 3%Z 4%Z (merge [f 1%Z 3%Z x; f 2%Z 3%Z (f 1%Z 2%Z x)])]).
Proof. intros X f merge x k. split; [|split]; destruct k; reflexivity. Qed.

(** *** an order to check by computation *)
Lemma topological_check g order : (forall n, In n order <-> In n (nodes g)) -> NoDup order ->
  forallb (fun e => match (fix after l := match l with [] => [] | a :: l' => if Z.eqb a (fst e) then l' else after l' end) order with l => existsb (Z.eqb (snd e)) l end) (edges g) = true -> topological g order.
Proof.
  intros H1 H2 H3. split; [exact H1|]. split; [exact H2|]. intros u v E. rewrite forallb_forall in H3. specialize (H3 (u, v) E). cbn [fst snd] in H3. clear -H3. induction order as [|a l IH]; [discriminate|].
  destruct (Z.eqb_spec a u) as [->|N].
  - apply existsb_exists in H3. destruct H3 as (w & W & Q). apply Z.eqb_eq in Q. subst w. apply in_split in W. destruct W as (b & c & ->). exists [], b, c. reflexivity.
  - destruct (IH H3) as (x & y & z & ->). exists (a :: x), y, z. reflexivity.
Qed.
Ltac nodup_z := repeat (constructor; [intros H; cbn [In] in H; repeat (destruct H as [H|H]; [discriminate|]); exact H|]); constructor.
Ltac nodup_p := repeat (constructor; [intros H; cbn [In] in H; repeat (destruct H as [H|H]; [discriminate|]); exact H|]); constructor.
Lemma diamond_mid_example : let g := of_edges diamond_mid_edges in proper g /\ NoDup (edges g) /\ topological g [1; 2; 3; 4]%Z /\ breadth_first g [1%Z] [1%Z] [1; 2; 3; 4]%Z.
Proof.
  split; [apply of_edges_proper|]. split; [cbn; nodup_p|]. split; [apply topological_check; [intros n; reflexivity|nodup_z|reflexivity]|].
  repeat (eapply bf_next; [reflexivity|]; cbn). constructor.
Qed.
Lemma call_order_refuted_ : exists (g : graph) order src tgt (f : Z -> Z -> Z -> Z) at_node r, proper g /\ NoDup (edges g) /\ topological g order /\
  only g (fun n => forall u, ~ edge g u n) src /\ only g (fun n => forall v, ~ edge g n v) tgt /\
  values g order src f (fun _ => fold_right Z.add 0%Z) 1%Z at_node /\
  (forall k, call_topology (fold_right Z.add 0%Z) f (15 + k) g 1%Z = Ok r) /\ r <> at_node tgt.
Proof.
  exists (of_edges [(1, 2); (1, 3); (2, 4); (3, 2); (4, 5)]%Z), [1; 3; 2; 4; 5]%Z, 1%Z, 5%Z, (fun _ _ y => y), (fun n => if Z.leb n 1 then 1 else if Z.eqb n 3 then 1 else 2)%Z, 4%Z.
  split; [apply of_edges_proper|]. split; [cbn; nodup_p|]. split; [apply topological_check; [intros n; cbn; tauto|nodup_z|reflexivity]|].
  assert (ED : forall u v, edge (of_edges [(1, 2); (1, 3); (2, 4); (3, 2); (4, 5)]%Z) u v <-> (u = 1 /\ v = 2 \/ u = 1 /\ v = 3 \/ u = 2 /\ v = 4 \/ u = 3 /\ v = 2 \/ u = 4 /\ v = 5)%Z).
  { intros u v. unfold edge. cbn [of_edges edges In]. split; [intros H; repeat (destruct H as [H|H]; [injection H; lia|]); destruct H|]. intros H. repeat (destruct H as [(-> & ->)|H]; [tauto|]). destruct H as (-> & ->). tauto. }
  split; [|split; [|split; [|split]]].
  - intros m. cbn [of_edges nodes fold_left fst snd add_node existsb Z.eqb Pos.eqb orb app In]. split.
    + intros (H & K). destruct (Z.eq_dec m 1) as [E|N]; [exact E|exfalso]. repeat (destruct H as [H|H]; [subst m; first [congruence|apply (K 1%Z); apply ED; lia|apply (K 2%Z); apply ED; lia|apply (K 4%Z); apply ED; lia]|]). exact H.
    + intros ->. split; [left; reflexivity|]. intros u E. apply ED in E. lia.
  - intros m. cbn [of_edges nodes fold_left fst snd add_node existsb Z.eqb Pos.eqb orb app In]. split.
    + intros (H & K). destruct (Z.eq_dec m 5) as [E|N]; [exact E|exfalso]. repeat (destruct H as [H|H]; [subst m; first [congruence|apply (K 2%Z); apply ED; lia|apply (K 4%Z); apply ED; lia|apply (K 5%Z); apply ED; lia]|]). exact H.
    + intros ->. split; [cbn; tauto|]. intros u E. apply ED in E. lia.
  - split; [reflexivity|]. intros n H N. cbn [In] in H. repeat (destruct H as [<-|H]; [first [congruence|vm_compute; reflexivity]|]). destruct H.
  - intros k. destruct k; reflexivity.
  - discriminate.
Qed.
Lemma surplus_ignored_ : forall A (es : list (Z * Z)) (vals more : list A), List.length vals = List.length es -> create_graph es (vals ++ more) = create_graph es vals.
Proof.
  intros A es vals more L. unfold create_graph. replace (combine es (vals ++ more)) with (combine es vals); [reflexivity|]. revert vals L. induction es as [|e es IH]; intros [|a vals] L; try discriminate L; [reflexivity|]. cbn [combine app]. f_equal. apply IH. cbn in L. lia.
Qed.
Lemma operations_in_order_ : forall A (es : list (Z * Z)) (vals : list A), List.length vals = List.length es ->
  edges (fst (create_graph es vals)) = es /\ forall i e a, nth_error es i = Some e -> nth_error vals i = Some a -> nth_error (snd (create_graph es vals)) i = Some (e, a).
Proof.
  intros A es vals L. unfold create_graph. cbn [fst snd of_edges edges]. split.
  - revert vals L. induction es as [|e es IH]; intros [|a vals] L; try discriminate L; [reflexivity|]. cbn [combine map fst]. f_equal. apply IH. cbn in L. lia.
  - clear L. revert vals. induction es as [|e es IH]; intros vals [|i] e' a' H1 H2; try discriminate H1; destruct vals as [|a vals]; try discriminate H2; cbn [nth_error combine] in *; [congruence|exact (IH vals i e' a' H1 H2)].
Qed.
Lemma missing_operations_refuted_ : exists (vals : list (Z -> Z)) f, List.length vals < List.length residual_edges /\ (forall u v a, In ((u, v), a) (snd (create_graph residual_edges vals)) -> f u v = a) /\
  forall k, call_topology (fold_right Z.add 0%Z) f (6 + k) (fst (create_graph residual_edges vals)) 1%Z = Ok 6%Z.
Proof.
  exists [fun y => y + 1; fun y => y + 5]%Z, (fun u v => if Z.eqb v 2 then fun y => y + 1 else fun y => y + 5)%Z. split; [cbn; lia|]. split.
  - intros u v a H. cbn in H. destruct H as [H|[H|[]]]; injection H as <- <- <-; reflexivity.
  - intros k. destruct k; reflexivity.
Qed.

(** ** modules *)
Lemma module_right_ : forall X op comb (total : list X -> X) (g : graph) order src tgt (f : Z -> Z -> X -> X) (merge : Z -> list X -> X), proper g -> NoDup (edges g) -> topological g order ->
  only g (fun n => forall u, ~ edge g u n) src -> only g (fun n => forall v, ~ edge g n v) tgt ->
  (forall u v, edge g u v -> does (op u v) (f u v)) -> (forall n, In n order -> 1 < List.length (feeding g order n) -> combines total (comb n) (merge n)) ->
  forall x at_node, values g order src f merge x at_node -> exists m, to_pytorch op comb g order = Ok m /\ call_module total m x = Ok (at_node tgt).
Proof.
  intros X op comb total g order src tgt f merge PR ED TO SRC TGT OPS COMB x at_ V. pose proof (last_target g order tgt PR TO TGT) as LT. rewrite <- LT.
  apply (module_ok op comb total g order src f merge x at_); try assumption. intros n I S0. rewrite LT. assert (n = tgt); [|lia]. apply TGT. destruct TO as (T1 & _). split; [apply T1, I|]. apply no_succs, is_nil_iff. exact S0.
Qed.
Section Refused.
  Context {X : Type}.
  Variables (op : Z -> Z -> edge_op (X := X)) (comb : Z -> comb_op (X := X)) (g : graph).
  Lemma merge_fine n s : (exists f : list X -> X, comb n = CombModule f \/ comb n = Sum) -> exists s', gen_merge comb n s = Ok s'.
  Proof. intros COMB. unfold gen_merge. destruct (map snd (inputs s n)) as [|a [|b l]]; cbn [bind]; try (eexists; reflexivity); destruct COMB as (f & [-> | ->]); eexists; reflexivity. Qed.
  Lemma edge_err n e : forall vs, fold_left (gen_edge op n) vs (Err e) = Err e.
  Proof. induction vs as [|v vs IH]; [reflexivity|exact IH]. Qed.
  Lemma node_err last e : forall ns, fold_left (gen_node op comb g last) ns (Err e) = Err e.
  Proof. induction ns as [|v vs IH]; [reflexivity|exact IH]. Qed.
  (** the errors that edges give *)
  Lemma edges_err n : forall vs s, (exists s', fold_left (gen_edge op n) vs (Ok s) = Ok s' /\ forall v, In v vs -> op n v <> UnknownOp) \/ (fold_left (gen_edge op n) vs (Ok s) = Err ValueError /\ exists v, In v vs /\ op n v = UnknownOp).
  Proof.
    induction vs as [|v vs IH]; intros s; [left; exists s; split; [reflexivity|intros v []]|]. cbn [fold_left]. unfold gen_edge at 2 4. cbn [bind]. destruct (op n v) as [f|] eqn:E.
    - destruct (IH (mkGen (used s ++ [S (max_used s)]) (set_input (inputs s) v (dict_set n (S (max_used s)) (inputs s v))) (modules s ++ [Unary f]) (forward s ++ [Assign (S (max_used s)) (length (modules s)) (var s)]) (var s))) as [(s' & H1 & H2)|(H1 & w & H2 & H3)].
      + left. exists s'. split; [exact H1|]. intros w [<-|W]; [congruence|exact (H2 w W)].
      + right. split; [exact H1|]. exists w. split; [right; exact H2|exact H3].
    - right. rewrite edge_err. split; [reflexivity|]. exists v. split; [left; reflexivity|exact E].
  Qed.
  Lemma nodes_fail last (P : exn -> Prop) bad : forall ns s, In bad ns -> (forall s s', gen_node op comb g last (Ok s) bad <> Ok s') ->
    (forall m s e, In m ns -> gen_node op comb g last (Ok s) m = Err e -> P e) ->
    exists e, fold_left (gen_node op comb g last) ns (Ok s) = Err e /\ P e.
  Proof.
    induction ns as [|n ns IH]; intros s I B A; [destruct I|]. cbn [fold_left]. destruct (gen_node op comb g last (Ok s) n) as [s'|e] eqn:R.
    - destruct I as [->|I]; [destruct (B s s' R)|]. apply IH; [exact I|exact B|]. intros m s2 e M. apply A. right. exact M.
    - rewrite node_err. exists e. split; [reflexivity|]. exact (A n s e (or_introl eq_refl) R).
  Qed.
  Lemma start_ok order (P : exn -> Prop) : (exists src, only g (fun n => forall u, ~ edge g u n) src) ->
    (forall s, exists e, fold_left (gen_node op comb g (List.last order 0%Z)) order (Ok s) = Err e /\ P e) ->
    exists e, to_pytorch op comb g order = Err e /\ P e.
  Proof.
    intros (src & SRC) H. unfold to_pytorch. destruct (filter (fun n => is_nil (preds g n)) (nodes g)) as [|input l] eqn:F.
    - exfalso. destruct (proj2 (SRC src) eq_refl) as (I & N). assert (J : In src (filter (fun n => is_nil (preds g n)) (nodes g))) by (apply filter_In; split; [exact I|apply no_preds; exact N]). rewrite F in J. destruct J.
    - match goal with |- context [fold_left _ order (Ok ?s)] => destruct (H s) as (e & -> & E) end. exists e. split; [reflexivity|exact E].
  Qed.
  Lemma node_split last n s : (exists f : list X -> X, comb n = CombModule f \/ comb n = Sum) -> exists s', gen_node op comb g last (Ok s) n = if is_nil (succs g n) && Z.ltb n last then Err NotImplementedError else fold_left (gen_edge op n) (succs g n) (Ok s').
  Proof. intros C. destruct (merge_fine n s C) as (s' & E). exists s'. unfold gen_node. cbn [bind]. rewrite E. reflexivity. Qed.
End Refused.
Lemma several_outputs_refused_ : forall X op comb (g : graph) order n, topological g order -> (exists src, only g (fun n => forall u, ~ edge g u n) src) ->
  (forall u v, edge g u v -> exists f : X -> X, does (op u v) f) -> (forall m, In m order -> exists f : list X -> X, comb m = CombModule f \/ comb m = Sum) ->
  In n order -> (forall v, ~ edge g n v) -> (n < List.last order 0)%Z -> to_pytorch op comb g order = Err NotImplementedError.
Proof.
  intros X op comb g order n TO SRC OPS COMB I S0 LT. destruct (start_ok op comb g order (fun e => e = NotImplementedError) SRC) as (e & E & ->); [|exact E]. intros s. apply (nodes_fail op comb g _ _ n); [exact I| |].
  - intros s1 s2 H. destruct (node_split op comb g (List.last order 0%Z) n s1 (COMB n I)) as (s' & Q). rewrite Q in H. rewrite (proj2 (no_succs g n) S0), (proj2 (Z.ltb_lt _ _) LT) in H. discriminate H.
  - intros m s1 e M H. destruct (node_split op comb g (List.last order 0%Z) m s1 (COMB m M)) as (s' & Q). rewrite Q in H. destruct (is_nil (succs g m) && Z.ltb m (List.last order 0%Z)); [congruence|].
    destruct (edges_err op m (succs g m) s') as [(s2 & R & _)|(_ & v & V & U)]; [congruence|]. apply succs_iff in V. destruct (OPS m v V) as (f & F). unfold does in F. congruence.
Qed.
Lemma other_operations_refused_ : forall X op comb (g : graph) order u v, topological g order -> (exists src, only g (fun n => forall u, ~ edge g u n) src) ->
  (forall m, In m order -> exists f : list X -> X, comb m = CombModule f \/ comb m = Sum) ->
  edge g u v -> op u v = UnknownOp -> exists e, to_pytorch (X := X) op comb g order = Err e /\ (e = ValueError \/ e = NotImplementedError).
Proof.
  intros X op comb g order u v TO SRC COMB E U. apply (start_ok op comb g order (fun e => e = ValueError \/ e = NotImplementedError) SRC). intros s.
  assert (I : In u order) by (destruct TO as (_ & _ & T3); destruct (T3 u v E) as (a & b & c & ->); apply in_or_app; right; left; reflexivity).
  apply (nodes_fail op comb g _ _ u); [exact I| |].
  - intros s1 s2 H. destruct (node_split op comb g (List.last order 0%Z) u s1 (COMB u I)) as (s' & Q). rewrite Q in H. destruct (is_nil (succs g u) && Z.ltb u (List.last order 0%Z)); [discriminate|].
    destruct (edges_err op u (succs g u) s') as [(s3 & _ & R)|(R & _)]; [|congruence]. apply (R v); [apply succs_iff; exact E|exact U].
  - intros m s1 e M H. destruct (node_split op comb g (List.last order 0%Z) m s1 (COMB m M)) as (s' & Q). rewrite Q in H. destruct (is_nil (succs g m) && Z.ltb m (List.last order 0%Z)); [right; congruence|].
    destruct (edges_err op m (succs g m) s') as [(s2 & R & _)|(R & _)]; [congruence|left; congruence].
Qed.
Lemma second_output_lost_refuted_ : exists (g : graph) order out, smallest_first g order /\ In out order /\ (forall v, ~ edge g out v) /\ out <> List.last order 0%Z /\
  exists m, to_pytorch (X := Z) (fun u v => Op (fun y => y + v)%Z) (fun _ => Sum) g order = Ok m /\ forall x, call_module (fold_right Z.add 0%Z) m x = Ok (x + 6 + 3)%Z.
Proof.
  exists (of_edges [(1, 5); (1, 6); (6, 3)]%Z), [1; 5; 6; 3]%Z, 5%Z. split; [split|split; [|split; [|split]]].
  - apply topological_check; [intros n; cbn; tauto|nodup_z|reflexivity].
  - intros a n b m E I H. destruct a as [|a0 [|a1 [|a2 [|a3 a]]]]; cbn [app] in E; try (destruct a; discriminate E).
    + injection E as <- <-. cbn in I. lia.
    + injection E as <- <- <-. cbn in I. destruct I as [<-|[<-|[]]]; [lia|]. exfalso. specialize (H 6%Z). destruct H as [H|[]]; [cbn; tauto|discriminate H].
    + injection E as <- <- <- <-. cbn in I. destruct I as [<-|[]]. exfalso. specialize (H 6%Z). destruct H as [H|[H|[]]]; [cbn; tauto|discriminate H|discriminate H].
    + injection E as <- <- <- <- <-. destruct I.
  - cbn; tauto.
  - intros v H. cbn in H. destruct H as [H|[H|[H|[]]]]; discriminate H.
  - discriminate.
  - eexists. split; [lazy; reflexivity|]. intros x. lazy. reflexivity.
Qed.
Lemma merge_fn_refuted_ : exists (merge : list Z -> Z) (f : Z -> Z -> Z -> Z), (forall k, call_topology merge f (6 + k) (of_edges residual_edges) 5%Z = Ok (5 * 7)%Z) /\
  bind (to_pytorch (fun u v => Op (f u v)) (fun _ => Sum) (of_edges residual_edges) [1; 2; 3]%Z) (fun m => call_module (fold_right Z.add 0%Z) m 5%Z) = Ok (5 + 7)%Z.
Proof. exists (fold_right Z.mul 1%Z), (fun u v y => if Z.eqb v 2 then y + 2 else y)%Z. split; [intros k; destruct k; lazy; reflexivity|lazy; reflexivity]. Qed.
