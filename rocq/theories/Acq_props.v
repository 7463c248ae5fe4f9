(** C141: weights on acquisition functions.  C142: costs, decaying priors, confidence bounds and incumbents. *)
From Coq Require Import QArith List Bool Lia Psatz.
From Verif Require Import Acq_model Acq_spec Acq_proofs.
Import ListNotations.
Local Open Scope list_scope.
Local Notation length := List.length.

(** ** C141 *)
(** The values of an example: two samples, at each point the point itself, and one more; the greatest of the
    points, the sum of the samples. *)
Definition two_samples (ps : list nat) : list (list nat) := [ps; map S ps].
Definition greatest (l : list nat) : nat := fold_right Nat.max O l.
Definition total (l : list nat) : nat := fold_right Nat.add O l.
Definition base (pend : list nat) : acqf nat nat := MC two_samples greatest total pend.
Definition times (v p : nat) : nat := (v * p)%nat.

(** Pending points are considered once: by the weighted function, no longer by the one it weighs. *)
Theorem pending_once : forall (P V : Type) (w : V -> P -> V) (a : acqf P V),
  pending_of (weigh w a) = pending_of a /\ exists i, weigh w a = Weighted w i (pending_of a) /\ pending_of i = [].
Proof. exact @weigh_pending. Qed.
Example pending_once_ex : forward (base [5]) [3] = Ok (5 + 6)%nat /\ forward (weigh (fun v _ => v) (base [5])) [3] = Ok (5 + 6)%nat.
Proof. split; lazy; reflexivity. Qed.

(** With one weight, each value of each sample, at the points and the pending ones, is weighed before the reductions. *)
Theorem one_weight : forall (P V : Type) (w : V -> P -> V) f q s pend ps, (forall vs, In vs (f (ps ++ pend)) -> length vs = length (ps ++ pend)) ->
  forward (weigh w (MC f q s pend)) ps = Ok (s (map (fun vs => q (map (fun vp => w (fst vp) (snd vp)) (combine vs (ps ++ pend)))) (f (ps ++ pend)))).
Proof. exact @one_weight_value. Qed.
Example one_weight_ex : (forall vs, In vs (two_samples ([3] ++ [5])) -> length vs = length ([3] ++ [5])) /\ forward (weigh times (base [5])) [3] = Ok (25 + 30)%nat.
Proof. split; [intros vs [ <-|[ <-|[]]]; reflexivity|lazy; reflexivity]. Qed.

(** With two weights and nothing pending, the second one is put on the value of the first. *)
Theorem two_weights : forall (P V : Type) (w1 w2 : V -> P -> V) (a : acqf P V) p v,
  pending_of a = [] -> forward (weigh w1 a) [p] = Ok v -> forward (weigh w2 (weigh w1 a)) [p] = Ok (w2 v p).
Proof. exact @two_weights_value. Qed.
Example two_weights_ex : forward (weigh times (base [])) [3] = Ok 21%nat /\ forward (weigh times (weigh times (base []))) [3] = Ok 63%nat.
Proof. split; lazy; reflexivity. Qed.

(** But with two weights and pending points there is never a value: with a prior and costs, no candidate can be
    found while another configuration is evaluated. *)
Theorem two_weights_and_pending : forall (P V : Type) (w1 w2 : V -> P -> V) f q s pend p, pend <> [] -> (forall ps vs, In vs (f ps) -> length vs = length ps) ->
  forward (acquired (Some w1) (Some w2) (MC f q s pend)) [p] = Err AssertionError.
Proof. exact @two_weights_error. Qed.
Example two_weights_and_pending_ex : (forall ps vs, In vs (two_samples ps) -> length vs = length ps) /\
  forward (acquired (Some times) (Some times) (base [5])) [3] = Err AssertionError /\ forward (acquired (Some times) None (base [5])) [3] = Ok 55%nat /\
  forward (acquired None (Some times) (base [5])) [3] = Ok 55%nat /\ forward (acquired (Some times) (Some times) (base [])) [3] = Ok 63%nat.
Proof. split; [intros ps vs [ <-|[ <-|[]]]; [reflexivity|apply map_length]|]. repeat split; lazy; reflexivity. Qed.
Theorem prior_and_costs_refuted : exists (w1 w2 : nat -> nat -> nat) (a : acqf nat nat) p,
  (exists v, forward (acquired (Some w1) None a) [p] = Ok v) /\ (exists v, forward (acquired None (Some w2) a) [p] = Ok v) /\
  forall v, forward (acquired (Some w1) (Some w2) a) [p] <> Ok v.
Proof.
  exists times, times, (base [5]), 3%nat. split; [eexists; lazy; reflexivity|]. split; [eexists; lazy; reflexivity|].
  intros v. apply two_weights_fail. discriminate.
Qed.

(** ** C142 *)
Local Open Scope Q_scope.
(** Of two points with the same value, the cheaper one is no worse. *)
Theorem cheaper_is_no_worse : forall log power is_log alpha acq c1 c2, growing_log log -> growing_power power -> 0 <= alpha -> 0 < c1 -> c1 <= c2 ->
  no_worse (cooled log power is_log alpha acq c1) (cooled log power is_log alpha acq c2).
Proof. exact cheaper. Qed.
(** an example of a power for exponents that are 0 or at least 1/2: the number itself, or one *)
Definition lin (c e : Q) : Q := if Qle_bool (1 # 2) e then c else 1.
Lemma lin_grows : growing_power lin.
Proof. split; intros; unfold lin; destruct (Qle_bool _ _); try assumption; [apply Qle_refl|reflexivity]. Qed.
Lemma log_grows : growing_log (fun c => c - 1).
Proof. intros a b _ L. lra. Qed.
Example cheaper_is_no_worse_ex : cooled (fun c => c - 1) lin false 1 6 2 = Some (6 / 2) /\ cooled (fun c => c - 1) lin false 1 6 3 = Some (6 / 3) /\
  cooled (fun c => c - 1) lin false 1 (-(6)) 3 = Some (- (6) * 3) /\ growing_log (fun c => c - 1) /\ growing_power lin.
Proof. split; [reflexivity|]. split; [reflexivity|]. split; [reflexivity|]. split; [exact log_grows|exact lin_grows]. Qed.

(** Of two points with the same cost, the one with the greater value is no worse. *)
Theorem better_is_no_worse : forall log power is_log alpha acq1 acq2 c, growing_power power -> 0 <= alpha -> 0 < c -> acq1 <= acq2 ->
  no_worse (cooled log power is_log alpha acq2 c) (cooled log power is_log alpha acq1 c).
Proof. exact better. Qed.
Example better_is_no_worse_ex : cooled (fun c => c - 1) lin false 1 (-(6)) 3 = Some (- (6) * 3) /\ cooled (fun c => c - 1) lin false 1 6 3 = Some (6 / 3) /\ growing_power lin.
Proof. split; [reflexivity|]. split; [reflexivity|]. exact lin_grows. Qed.

(** When the whole budget is used, costs no longer matter. *)
Theorem costs_cool_down : forall log power is_log acq c, (forall a, 0 < a -> power a (1 - 1) == 1) -> 0 < c ->
  exists v, cost_cooled log power is_log 1 acq c = Ok (Some v) /\ v == acq.
Proof. exact all_used. Qed.
Example costs_cool_down_ex : (forall a, 0 < a -> lin a (1 - 1) == 1) /\ cost_cooled (fun c => c - 1) lin false 1 6 3 = Ok (Some (6 / 1)) /\ cost_cooled (fun c => c - 1) lin false 0 6 3 = Ok (Some (6 / 3)).
Proof. split; [intros a _; reflexivity|]. split; reflexivity. Qed.

(** A predicted cost that is not positive leaves no value, however good the point. *)
Theorem no_value_without_cost : forall log power is_log alpha acq c, c <= 0 -> cooled log power is_log alpha acq c = None.
Proof. exact no_cost. Qed.
Example no_value_without_cost_ex : cost_cooled (fun c => c - 1) lin true (1 # 2) 6 (-(1)) = Ok None.
Proof. reflexivity. Qed.
Theorem cheaper_refuted : forall log power, exists is_log used acq c1 c2 v, c1 < c2 /\ cost_cooled log power is_log used acq c1 = Ok None /\ cost_cooled log power is_log used acq c2 = Ok (Some v).
Proof. intros log power. exists true, (1 # 2), 1, (-(1)), 1. eexists. split; [reflexivity|]. split; [reflexivity|]. reflexivity. Qed.

(** The prior decays with the number of observations, of those at the highest fidelity if there are fidelities. *)
Theorem prior_decays : forall train, train <> [] ->
  ((forall x, In x train -> x = None) -> set_decay None train = Ok (DPy (inject_Z (Z.of_nat (length train))))) /\
  ((forall x, In x train -> x <> None) -> set_decay None train = Ok (DNp (inject_Z (Z.of_nat (length (filter complete train)))))).
Proof. exact decay_counts. Qed.
Example prior_decays_ex : set_decay None [None; None] = Ok (DPy 2) /\ set_decay None [Some (3, 9); Some (9, 9); Some (1, 9)] = Ok (DNp 1).
Proof. split; reflexivity. Qed.

(** Before the state is set, nothing can be weighed. *)
Theorem weighing_before_state : forall log power is_log beta xs, (exists x, In x xs /\ ~ snd x == 1) -> prior_weighted log power is_log beta (DPy 0) xs = Err ZeroDivisionError.
Proof. exact unset_fails. Qed.
Example weighing_before_state_ex : (exists x, In x [(6, 1); (4, 1 # 2)] /\ ~ snd x == 1) /\ prior_weighted (fun c => c) lin false 10 (DPy 1) [(6, 1); (4, 1 # 2)] = Ok [Some 6; Some (4 * ((1 # 2) + tiny))].
Proof. split; [|reflexivity]. exists (4, 1 # 2). split; [right; left; reflexivity|]. discriminate. Qed.

(** The likelier a point is by the prior, the better, if values are not negative. *)
Theorem likelier_is_no_worse : forall log power beta t shift acq p1 p2, growing_power power -> 0 <= beta -> 0 < t -> 0 <= acq -> 0 <= p1 -> p1 <= p2 -> ~ p1 == 1 -> ~ p2 == 1 ->
  exists a b, weighted_one log power false beta (DNp t) shift acq p1 = Ok (Some a) /\ weighted_one log power false beta (DNp t) shift acq p2 = Ok (Some b) /\ a <= b.
Proof. exact likelier. Qed.
Example likelier_is_no_worse_ex : weighted_one (fun c => c) lin false 10 (DNp 2) 0 4 (1 # 4) = Ok (Some (4 * ((1 # 4) + tiny))) /\ weighted_one (fun c => c) lin false 10 (DNp 2) 0 4 (1 # 2) = Ok (Some (4 * ((1 # 2) + tiny))) /\ growing_power lin.
Proof. split; [reflexivity|]. split; [reflexivity|]. exact lin_grows. Qed.
(** Not if they are negative. *)
Theorem likelier_refuted : exists power, growing_power power /\ exists p1 p2 acq a b, 0 < p1 /\ p1 < p2 /\
  prior_weighted (fun c => c) power false 10 (DPy 1) [(acq, p1); (acq, p2)] = Ok [Some a; Some b] /\ b < a.
Proof.
  exists lin. split; [exact lin_grows|]. exists (1 # 4), (1 # 2), (-(4)). eexists _, _. split; [reflexivity|]. split; [reflexivity|]. split; [reflexivity|]. reflexivity.
Qed.
(** Nor for logarithms: a point whose logarithm of the prior is one is not weighed at all. *)
Theorem log_prior_of_one_refuted : forall log power, (forall x, 0 < x -> log x <= x - 1) ->
  exists beta t p1 p2 acq a b, 0 < beta /\ 0 < t /\ p1 < p2 /\ prior_weighted log power true beta (DPy t) [(acq, p1); (acq, p2)] = Ok [Some a; Some b] /\ b < a.
Proof. exact prior_of_one. Qed.
Example log_prior_of_one_ex : (forall x, 0 < x -> x - 1 <= x - 1) /\ prior_weighted (fun x => x - 1) lin true 10 (DPy 100) [(1 # 2, 1); (1 # 2, 2)] = Ok [Some (1 # 2); Some ((1 # 2) + 0 + tiny - 1 + 10 / 100 * 2)].
Proof. split; [intros; apply Qle_refl|reflexivity]. Qed.

(** Before any observation at the highest fidelity, every point but the likeliest has the value zero. *)
Theorem nothing_complete : forall power beta acq prior log shift, prior + tiny < 1 -> exists v, weighted_one log power false beta (DNp 0) shift acq prior = Ok (Some v) /\ v == 0.
Proof. exact none_complete. Qed.
Example nothing_complete_ex : set_decay None [Some (3, 9); Some (1, 9)] = Ok (DNp 0) /\ (1 # 2) + tiny < 1.
Proof. split; reflexivity. Qed.

(** The confidence bound: great for great uncertainty, and for small means, or great ones if maximised. *)
Theorem confidence_bound : forall sqrt u mu std, u_fitted u = true -> 0 <= u_beta u ->
  exists v, ucb_eval sqrt u mu std = Ok (Some v) /\ v == (if u_maximize u then mu else - mu) + sqrt (u_beta u) * std.
Proof. exact ucb_value. Qed.
Example confidence_bound_ex : exists v, ucb_eval (fun b => b) (mkUcb true 1 false) 3 2 = Ok (Some v) /\ v == - (3) + 1 * 2.
Proof. eexists. split; reflexivity. Qed.
(** Its parameter cannot be changed. *)
Theorem beta_cannot_be_set : forall u beta, snd (ucb_set_state u (Some beta)) = Err TypeError /\ u_beta (fst (ucb_set_state u (Some beta))) = u_beta u.
Proof. exact ucb_fails. Qed.
Example beta_cannot_be_set_ex : ucb_set_state (mkUcb false 1 true) (Some 2) = (mkUcb true 1 true, Err TypeError) /\ ucb_set_state (mkUcb false 1 true) None = (mkUcb true 1 true, Ok tt).
Proof. split; reflexivity. Qed.
Theorem beta_is_set_refuted : exists u beta, u_beta (fst (ucb_set_state u (Some beta))) <> beta.
Proof. exists (mkUcb true 1 true), 2. discriminate. Qed.

(** The incumbent of the expected improvement: the least value observed, or the one observed where the mean is least. *)
Theorem incumbent_is_least : forall y mu m, ei_incumbent true y mu = Ok m -> least m y.
Proof. exact incumbent_least. Qed.
Example incumbent_is_least_ex : ei_incumbent true [3; 1; 2] [1; 3; 2] = Ok 1 /\ ei_incumbent false [3; 1; 2] [1; 3; 2] = Ok 3.
Proof. split; reflexivity. Qed.
Theorem incumbent_of_means : forall y mu, length y = length mu -> mu <> [] ->
  exists i v m, ei_incumbent false y mu = Ok v /\ nth_error y i = Some v /\ nth_error mu i = Some m /\ least m mu.
Proof. exact incumbent_posterior. Qed.
Example incumbent_of_means_ex : length [3; 1; 2] = length [2; 3; 1] /\ ei_incumbent false [3; 1; 2] [2; 3; 1] = Ok 2.
Proof. split; reflexivity. Qed.

Print Assumptions pending_once.
Print Assumptions one_weight.
Print Assumptions two_weights.
Print Assumptions two_weights_and_pending.
Print Assumptions prior_and_costs_refuted.
Print Assumptions cheaper_is_no_worse.
Print Assumptions better_is_no_worse.
Print Assumptions costs_cool_down.
Print Assumptions no_value_without_cost.
Print Assumptions cheaper_refuted.
Print Assumptions prior_decays.
Print Assumptions weighing_before_state.
Print Assumptions likelier_is_no_worse.
Print Assumptions likelier_refuted.
Print Assumptions log_prior_of_one_refuted.
Print Assumptions nothing_complete.
Print Assumptions confidence_bound.
Print Assumptions beta_cannot_be_set.
Print Assumptions beta_is_set_refuted.
Print Assumptions incumbent_is_least.
Print Assumptions incumbent_of_means.
