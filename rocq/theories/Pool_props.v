(** C139: the pool of candidates of the acquisition sampler, and what is chosen of it. *)
From Verif Require Import Py Pool_model Pool_spec Pool_proofs.
From Coq Require Import Permutation Sorted.
Local Open Scope nat_scope.
Local Open Scope list_scope.
Local Notation length := List.length.

(** ** an argpartition and a topk that keep their promises *)
Definition argsort (l : list Z) (k : nat) : list nat := map fst (sort_loss (combine (seq 0 (length l)) l)).
Definition last_sorted (l : list Z) (n : nat) : list nat := skipn (length l - n) (argsort l 0).
Lemma combine_nth_in (l : list Z) i v : In (i, v) (combine (seq 0 (length l)) l) -> nth i l 0%Z = v.
Proof.
  intros I. apply In_nth with (d := (0, 0%Z)) in I. destruct I as (n & L & E). rewrite combine_length, seq_length, Nat.min_id in L. rewrite combine_nth, seq_nth in E by (rewrite ?seq_length; lia). injection E as <- <-. reflexivity.
Qed.
Lemma argsort_perm l k : Permutation (argsort l k) (seq 0 (length l)).
Proof.
  unfold argsort. rewrite sort_loss_perm. assert (E : map fst (combine (seq 0 (length l)) l) = seq 0 (length l)); [|rewrite E; reflexivity].
  generalize (seq_length (length l) 0). generalize (seq 0 (length l)) as s. intros s. revert l. induction s as [|x s IH]; intros [|y l] H; try discriminate; [reflexivity|]. cbn. f_equal. apply IH. cbn in H. lia.
Qed.
Lemma sorted_split {A} (R : A -> A -> Prop) l k : StronglySorted R l -> forall x y, In x (firstn k l) -> In y (skipn k l) -> R x y.
Proof.
  revert l. induction k as [|k IH]; intros l S x y I J; [destruct I|]. destruct S as [|a l S F]; [destruct I|]. cbn [firstn skipn] in *. destruct I as [<-|I]; [|exact (IH l S x y I J)]. rewrite Forall_forall in F. apply F. rewrite <- (firstn_skipn k). apply in_or_app. right. exact J.
Qed.
Lemma argsort_split l k m i j : In i (firstn k (argsort l m)) -> In j (skipn k (argsort l m)) -> (nth i l 0 <= nth j l 0)%Z.
Proof.
  unfold argsort. rewrite firstn_map, skipn_map. intros I J. apply in_map_iff in I. destruct I as ((i', v) & <- & I). apply in_map_iff in J. destruct J as ((j', w) & <- & J).
  pose proof (sorted_split _ _ k (sort_loss_sorted (combine (seq 0 (length l)) l)) _ _ I J) as S. cbn [fst snd] in *.
  rewrite (combine_nth_in l i' v), (combine_nth_in l j' w); [exact S| |]; apply (Permutation_in _ (sort_loss_perm _)); rewrite <- (firstn_skipn k); apply in_or_app; auto.
Qed.
Lemma argsort_partitions : partitions argsort.
Proof. intros l k _. split; [apply argsort_perm|]. apply argsort_split. Qed.
Lemma last_sorted_selects : selects last_sorted.
Proof.
  intros l n L. unfold last_sorted. pose proof (argsort_perm l 0) as P. assert (D : NoDup (argsort l 0)) by (apply (Permutation_NoDup (Permutation_sym P)), seq_NoDup).
  split; [rewrite skipn_length, (Permutation_length P), seq_length; lia|]. split; [rewrite <- (firstn_skipn (length l - n)) in D; revert D; generalize (firstn (length l - n) (argsort l 0)) as a; induction a as [|x a IH]; intros D; [exact D|inversion D; auto]|].
  split; [intros i I; assert (J : In i (argsort l 0)) by (rewrite <- (firstn_skipn (length l - n)); apply in_or_app; right; exact I); apply (Permutation_in _ P) in J; apply in_seq in J; lia|].
  intros i j I J NJ. assert (K : In j (argsort l 0)) by (apply (Permutation_in _ (Permutation_sym P)), in_seq; lia). rewrite <- (firstn_skipn (length l - n)) in K. apply in_app_or in K. destruct K as [K|K]; [|contradiction]. exact (argsort_split l _ 0 j i K I).
Qed.

(** ** C139 *)

(** The pool has the size that is asked for. *)
Theorem pool_has_its_size : forall X mutate (eqb : X -> X -> bool) hash random allow n_best mutate_size patience pool_size data, 0 < n_best -> mutate_size <= pool_size ->
  exists pool, create_pool mutate eqb hash random allow n_best mutate_size patience pool_size data = Ok pool /\ length pool = pool_size.
Proof. exact @pool_size_ok. Qed.
Example pool_has_its_size_ex : create_pool (fun t x => Ok (x + 10 * S t)) Nat.eqb (fun t _ => Z.of_nat t) (fun i => 100 + i) false 2 4 3 6 [(1, 5%Z); (2, 3%Z); (3, 4%Z)] = Ok [12; 22; 33; 43; 100; 101].
Proof. reflexivity. Qed.

(** It begins with mutations of the best configurations, none of them what it was before, and the rest is
    random. *)
Theorem pool_of_the_best : forall X mutate (eqb : X -> X -> bool) hash random allow n_best mutate_size patience pool_size data, data <> [] -> 0 < n_best ->
  exists mutants, create_pool mutate eqb hash random allow n_best mutate_size patience pool_size data = Ok (mutants ++ map random (seq 0 (pool_size - length mutants))) /\
    length mutants <= mutate_size /\ (forall m, In m mutants -> exists c t, among_best n_best data c /\ mutate t c = Ok m /\ (allow = false -> eqb m c = false)).
Proof. exact @pool_ok. Qed.
Example pool_of_the_best_ex : among_best 2 [(1, 5%Z); (2, 3%Z); (3, 4%Z)] 3 /\ ~ among_best 2 [(1, 5%Z); (2, 3%Z); (3, 4%Z)] 1.
Proof. split; [exists 4%Z; split; [right; right; left; reflexivity|lazy; lia]|]. intros (y & I & L). cbn [In] in I. destruct I as [E|[E|[E|[]]]]; try discriminate. injection E as <-. cbv in L. lia. Qed.

(** If equal configurations had equal hashes, the mutations would all be different. *)
Theorem mutations_differ_by_value : forall X mutate (eqb : X -> X -> bool) hash random n_best mutate_size patience pool_size data (h : X -> Z),
  (forall t x, hash t x = h x) -> (forall a b, eqb a b = true -> h a = h b) -> data <> [] -> 0 < n_best ->
  exists mutants, create_pool mutate eqb hash random false n_best mutate_size patience pool_size data = Ok (mutants ++ map random (seq 0 (pool_size - length mutants))) /\ ForallOrdPairs (fun a b => eqb a b = false) mutants.
Proof. exact @pool_distinct. Qed.
Example mutations_differ_by_value_ex : create_pool (fun t x => Ok (x + 10 * S (t / 2))) Nat.eqb (fun _ x => Z.of_nat x) (fun i => 100 + i) false 1 3 5 4 [(1, 5%Z)] = Ok [11; 21; 31; 100].
Proof. reflexivity. Qed.
(** They do not: the same configuration can be there twice, although isomorphisms are not allowed, *)
Theorem mutations_differ_refuted : exists (mutate : nat -> nat -> res nat) hash random pool, create_pool mutate Nat.eqb hash random false 1 2 5 2 [(0, 1%Z)] = Ok pool /\ pool = [7; 7].
Proof. exact pool_repeats. Qed.
(** and different ones are turned away until patience is used up. *)
Theorem mutations_kept_refuted : exists (mutate : nat -> nat -> res nat) hash random pool, (forall t t' x m, mutate t x = Ok m -> mutate t' x = Ok m -> t = t') /\ (forall t x, exists m, mutate t x = Ok m /\ m <> x) /\
  create_pool mutate Nat.eqb hash random false 1 4 5 4 [(0, 1%Z)] = Ok pool /\ pool = [1; random 0; random 1; random 2].
Proof. exact pool_rejects. Qed.

(** For one configuration, at most [patience] calls of [mutate] are in vain, whatever it gives. *)
Theorem patience_is_kept : forall X mutate (eqb : X -> X -> bool) hash allow config per_arch patience t kept t' kept',
  children mutate eqb hash allow per_arch patience t config kept = (t', kept') -> t' <= t + (length kept' - length kept) + patience /\ length kept <= length kept'.
Proof. intros X mutate eqb hash allow config per_arch patience. exact (children_calls mutate eqb hash allow config per_arch patience). Qed.
Example patience_is_kept_ex : children (fun t x => if Nat.even t then Err ValueError else Ok (x + t)) Nat.eqb (fun t _ => Z.of_nat t) false 5 3 0 10 [] = (5, [(13, 3%Z); (11, 1%Z)]).
Proof. reflexivity. Qed.

(** No best ones at all are a division by zero. *)
Theorem no_best_fails : forall X mutate (eqb : X -> X -> bool) hash random allow mutate_size patience pool_size data, data <> [] -> create_pool mutate eqb hash random allow 0 mutate_size patience pool_size data = Err ZeroDivisionError.
Proof. exact @pool_zero. Qed.
Example no_best_fails_ex : [(1, 5%Z)] <> [].
Proof. discriminate. Qed.

(** As many as are asked for are chosen, with different values, and all others have smaller ones. *)
Theorem best_are_proposed : forall argpartition topk, partitions argpartition -> forall eis n, 0 < n -> n <= different eis ->
  exists is, propose_location argpartition topk eis n = Ok is /\ length is = n /\ (forall i, In i is -> i < length eis) /\ NoDup (map (fun i => nth i eis 0%Z) is) /\
    forall i j, In i is -> j < length eis -> ~ In (nth j eis 0%Z) (map (fun i => nth i eis 0%Z) is) -> (nth j eis 0 < nth i eis 0)%Z.
Proof. exact propose_best. Qed.
Example best_are_proposed_ex : partitions argsort /\ propose_location argsort last_sorted [3; 7; 1; 7; 5]%Z 2 = Ok [4; 1].
Proof. split; [exact argsort_partitions|]. lazy. reflexivity. Qed.
(** If there are not so many different values, the best candidates are chosen all the same. *)
Theorem few_values : forall argpartition topk eis n, selects topk -> different eis < n -> n <= length eis -> exists is, propose_location argpartition topk eis n = Ok is /\ greatest eis n is.
Proof. exact propose_few. Qed.
Example few_values_ex : selects last_sorted /\ propose_location argsort last_sorted [3; 7; 7; 7; 3]%Z 3 = Ok [1; 2; 3].
Proof. split; [exact last_sorted_selects|]. lazy. reflexivity. Qed.
Theorem more_than_there_are : forall argpartition topk eis n, length eis < n -> propose_location argpartition topk eis n = Err RuntimeError.
Proof. exact propose_more. Qed.
Example more_than_there_are_ex : propose_location argsort last_sorted [3; 7]%Z 3 = Err RuntimeError.
Proof. reflexivity. Qed.
(** A single sample is a candidate with the greatest value. *)
Theorem sample_is_best : forall X argpartition topk (value : X -> Z) pool, partitions argpartition -> pool <> [] ->
  exists x, sample_batch argpartition topk value (Ok pool) 1 = Ok [x] /\ In x pool /\ forall y, In y pool -> (value y <= value x)%Z.
Proof. exact @sample_one. Qed.
Example sample_is_best_ex : sample_batch argsort last_sorted (fun x => (10 - x) * x)%Z (Ok [1; 4; 6; 9]%Z) 1 = Ok [4]%Z.
Proof. lazy. reflexivity. Qed.
(** None at all are all of them, one for each value. *)
Theorem batch_of_none : forall argpartition topk, partitions argpartition -> forall eis, eis <> [] -> exists is, propose_location argpartition topk eis 0 = Ok is /\ length is = different eis.
Proof. exact propose_zero. Qed.
Theorem batch_size_refuted : exists argpartition topk eis n is, partitions argpartition /\ propose_location argpartition topk eis n = Ok is /\ length is <> n.
Proof. exists argsort, last_sorted, [3; 7; 7]%Z, 0, [0; 1]. split; [exact argsort_partitions|]. split; [lazy; reflexivity|discriminate]. Qed.
Example batch_of_none_ex : propose_location argsort last_sorted [3; 7; 7]%Z 0 = Ok [0; 1].
Proof. lazy. reflexivity. Qed.

Print Assumptions pool_has_its_size.
Print Assumptions pool_of_the_best.
Print Assumptions mutations_differ_by_value.
Print Assumptions mutations_differ_refuted.
Print Assumptions mutations_kept_refuted.
Print Assumptions patience_is_kept.
Print Assumptions no_best_fails.
Print Assumptions best_are_proposed.
Print Assumptions few_values.
Print Assumptions more_than_there_are.
Print Assumptions sample_is_best.
Print Assumptions batch_of_none.
Print Assumptions batch_size_refuted.
