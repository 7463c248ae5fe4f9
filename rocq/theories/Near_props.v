(** C143: distances, neighbours of the incumbent.  C144: when samples and models use the prior. *)
From Coq Require Import QArith Qabs List Bool Lia Psatz.
From Verif Require Import Near_model Near_spec Near_proofs.
Import ListNotations.
Local Open Scope Q_scope.
Local Open Scope list_scope.

(** an example of a norm: the sum of the absolute values *)
Definition sum_norm (l : list Q) : Q := fold_right (fun x s => Qabs x + s) 0 l.
Lemma sum_norm_like : norm_like sum_norm.
Proof.
  assert (N : forall l, 0 <= sum_norm l). { induction l as [|x l IH]; [apply Qle_refl|]. cbn. pose proof (Qabs_nonneg x). fold (sum_norm l). lra. }
  split; [exact N|]. split.
  - induction l as [|x l IH]; cbn; [split; [constructor|reflexivity]|]. fold (sum_norm l). pose proof (Qabs_nonneg x) as A. pose proof (N l) as B. split.
    + intros Z. assert (Z1 : Qabs x == 0) by lra. assert (Z2 : sum_norm l == 0) by lra. constructor; [|apply IH; exact Z2].
      pose proof (Qle_Qabs x). pose proof (Qle_Qabs (- x)) as M. rewrite Qabs_opp in M. lra.
    + intros F. inversion F as [|? ? F1 F2]; subst. apply IH in F2. rewrite F1, F2. reflexivity.
  - intros l l' F. induction F as [|x y l l' E F IH]; [reflexivity|]. cbn. fold (sum_norm l) (sum_norm l'). rewrite E, Qabs_opp, IH. reflexivity.
Qed.
Definition c1 : config := [(false, HNum (Some (1 # 2))); (false, HCat (Some 1%nat)); (true, HNum (Some 1)); (false, HConst)].
Definition c2 : config := [(false, HNum (Some (1 # 4))); (false, HCat (Some 2%nat)); (true, HNum (Some 0)); (false, HConst)].

(** ** C143 *)
(** A distance is never negative, and zero exactly if the numbers and categories (of all but the fidelity) are the same. *)
Theorem zero_distance : forall norm, norm_like norm -> forall c1 c2 d, config_dist norm c1 c2 = Ok d ->
  0 <= d /\ (d == 0 <-> Forall2 Qeq (numbers c1) (numbers c2) /\ places c1 = places c2).
Proof. exact dist_zero_values. Qed.
Example zero_distance_ex : norm_like sum_norm /\ exists d, config_dist sum_norm c1 c2 = Ok d /\ d == 3 # 4.
Proof. split; [exact sum_norm_like|]. eexists. split; reflexivity. Qed.
(** It is the same both ways. *)
Theorem same_both_ways : forall norm, norm_like norm -> forall c1 c2 d, config_dist norm c1 c2 = Ok d -> exists d', config_dist norm c2 c1 = Ok d' /\ d' == d.
Proof. exact dist_sym. Qed.
Example same_both_ways_ex : norm_like sum_norm /\ exists d, config_dist sum_norm c2 c1 = Ok d /\ d == 3 # 4.
Proof. split; [exact sum_norm_like|]. eexists. split; reflexivity. Qed.
(** Configurations that differ only in a graph are at the distance zero. *)
Theorem graphs_differ_refuted : forall norm, norm_like norm -> exists a b d, a <> b /\ config_dist norm [(false, HGraph a)] [(false, HGraph b)] = Ok d /\ d == 0.
Proof.
  intros norm N. exists 0%nat, 1%nat. eexists. split; [discriminate|]. split; [reflexivity|].
  refine (proj2 (proj2 (dist_zero_values norm N [(false, HGraph 0)] [(false, HGraph 1)] _ eq_refl)) _). split; [constructor|reflexivity].
Qed.

(** The neighbour taken is the first sample within the radius at its turn, which grows by one hundredth after each
    1001 samples, or within the tolerance. *)
Theorem first_within : forall fuel ds distance j r, sample_neighbour fuel ds distance = Ok (j, r) ->
  let radius i := grown distance (1 # 100) (Nat.div i (S (N.to_nat 1000))) in
  r == radius j /\ (ds j < radius j \/ ds j < 1 # 100) /\ forall i, (i < j)%nat -> radius i <= ds i /\ 1 # 100 <= ds i.
Proof. intros fuel ds distance j r. exact (neighbour_ok (N.to_nat 1000) (1 # 100) (1 # 100) distance ds fuel j r). Qed.
Example first_within_ex : sample_neighbour 9 (fun i => 1 / inject_Z (Z.of_nat (S i))) (1 # 4) = Ok (4%nat, 1 # 4).
Proof. lazy. reflexivity. Qed.
(** With a radius that is positive and distances that are bounded there always is one. *)
Theorem neighbour_is_found : forall ds distance b, 0 < distance -> (forall j, ds j < b) -> exists fuel j r, sample_neighbour fuel ds distance = Ok (j, r).
Proof. intros ds distance b P. exact (neighbour_ends (N.to_nat 1000) (1 # 100) (1 # 100) distance ds b P eq_refl). Qed.
Example neighbour_is_found_ex : 0 < 1 # 4 /\ forall j : nat, (fun _ => 3 # 4) j < 1.
Proof. split; [reflexivity|]. intros _. reflexivity. Qed.
(** With a radius of zero it never grows, and the search need not end. *)
Theorem no_radius_no_end : forall ds distance, distance <= 0 -> (forall j, 1 # 100 <= ds j) -> forall fuel, sample_neighbour fuel ds distance = Err OutOfFuel.
Proof.
  intros ds distance P T. refine (neighbour_never (N.to_nat 1000) (1 # 100) (1 # 100) distance ds P _ T _); [discriminate|].
  intros j. apply Qle_trans with (1 # 100); [discriminate|apply T].
Qed.
Example no_radius_no_end_ex : 0 <= 0 /\ forall j : nat, 1 # 100 <= (fun _ => 1 # 2) j.
Proof. split; [discriminate|]. intros _. discriminate. Qed.
Theorem neighbour_is_found_refuted : exists ds distance, (forall j, ds j < 1) /\ forall fuel, sample_neighbour fuel ds distance = Err OutOfFuel.
Proof. exists (fun _ => 1 # 2), 0. split; [intros; reflexivity|]. apply no_radius_no_end; [discriminate|]. intros _. discriminate. Qed.

(** ** C144 *)
(** The share of samples from the prior: none for a fraction of zero, all for one, and the more the greater it is. *)
Theorem fraction_of_prior : forall u, 0 <= u -> u < 1 -> from_prior 0 u = false /\ from_prior 1 u = true /\ forall f, (from_prior f u = true <-> u < f).
Proof.
  intros u A B. split; [apply Acq_proofs.qltb_false; exact A|]. split; [apply Acq_proofs.qltb_spec; exact B|]. intros f. apply Acq_proofs.qltb_spec.
Qed.
Example fraction_of_prior_ex : fixed_prior (1 # 2) = Ok (1 # 2) /\ from_prior (1 # 2) (1 # 4) = true /\ from_prior (1 # 2) (1 # 2) = false /\ fixed_prior 2 = Err AssertionError.
Proof. repeat split. Qed.
(** The model uses the prior exactly when its exponent 10 / decay_t has become insignificant, below 1e-4: after more
    than a hundred thousand. *)
Theorem prior_when_insignificant : forall t, 0 < t -> (exists e, prior_weight true (Some t) = Ok (Some e)) <-> inject_Z (10 ^ 5) < t.
Proof. exact prior_weight_when. Qed.
Example prior_when_insignificant_ex : prior_weight true (Some 10) = Ok None /\ prior_weight true (Some 1000000) = Ok (Some (10 / 1000000)).
Proof. split; reflexivity. Qed.
Theorem significant_prior_refuted : exists t, 0 < t /\ 1 # 10000 < 10 / t /\ prior_weight true (Some t) = Ok None.
Proof. exists 10. repeat split. Qed.

Print Assumptions zero_distance.
Print Assumptions same_both_ways.
Print Assumptions graphs_differ_refuted.
Print Assumptions first_within.
Print Assumptions neighbour_is_found.
Print Assumptions no_radius_no_end.
Print Assumptions neighbour_is_found_refuted.
Print Assumptions fraction_of_prior.
Print Assumptions prior_when_insignificant.
Print Assumptions significant_prior_refuted.
