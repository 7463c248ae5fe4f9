(** C39, C40, C67 - C70: PriorBand. *)
From Coq Require Import Lqa.
From Verif Require Import Pb_args_proofs Sh_play_proofs.
Open Scope nat_scope.

(** ** Material for the examples: fidelity 1..4, eta 2; one configuration at each of the
    rungs 1, 2 and two at rung 0, all finished *)
Definition pfid : fidelity := mkFid 1 4 true.
Definition popt : options := mkOpt false None false false false true.
Definition pask := ask (H := nat) insertion_argsort exact_log (ASHA 0) popt pfid 2.
Definition pbracket : bracket := mkB [(2, inject_Z 4); (1, inject_Z 2); (0, inject_Z 1)] [(0, 4); (1, 2); (2, 1)] 0 2.
Definition pevents : list event :=
  [Asked 10 0; Asked 11 0; Reported (0, 0) (Loss (FZ 3)); Reported (1, 0) (Loss (FZ 1)); Asked 0 0; Asked 12 0;
   Reported (1, 1) (Loss (FZ 1)); Reported (2, 0) (Loss (FZ 2)); Asked 0 0; Reported (2, 1) (Loss (FZ 2)); Asked 0 0;
   Reported (1, 2) (Loss (FZ 1)); Asked 13 0; Reported (3, 0) (Loss (FZ 5))].
Definition ptrials : list (strial nat) :=
  [mkST (3, 0) 13 1 (Loss (FZ 5)) None; mkST (1, 2) 11 (inject_Z 4) (Loss (FZ 1)) (Some (1, 1));
   mkST (2, 1) 12 (inject_Z 2) (Loss (FZ 2)) (Some (2, 0)); mkST (2, 0) 12 1 (Loss (FZ 2)) None;
   mkST (1, 1) 11 (inject_Z 2) (Loss (FZ 1)) (Some (1, 0));
   mkST (1, 0) 11 1 (Loss (FZ 1)) None; mkST (0, 0) 10 1 (Loss (FZ 3)) None].
Definition flat_score (_ _ _ : nat) : Q * Q := (1, 1)%Q.
Definition zero_score (_ _ _ : nat) : Q * Q := (0, 0)%Q.
Definition distance (a b : nat) : Q := Qabs.Qabs (qnat a - qnat b).
Definition no_argmin (_ : list perf) : res nat := Err TypeError.
Definition pargs (score : nat -> nat -> nat -> Q * Q) := pb_args insertion_argsort 0 score distance no_argmin.
Lemma pfid_legal : legal pfid.
Proof. split; [reflexivity|split; [reflexivity|]]. intros _. split; [exists 1%Z|exists 4%Z]; reflexivity. Qed.
Lemma pbracket_made : make_bracket exact_log pfid 2 0 = Ok pbracket.
Proof. vm_compute. reflexivity. Qed.
Lemma ptrials_history : history pask ptrials.
Proof. apply (play_history _ pevents []); [constructor|vm_compute; reflexivity]. Qed.
Lemma never_above_exact : never_above exact_log.
Proof. exact (exact_below exact_log exact_log_exact). Qed.

(** C39: the weights are non-negative numbers that sum to one, and the incumbent has no
    weight while it is not used. *)
Theorem priorband_weights_valid :
  forall lg (H : Type) argsort (default : H) score dist argmin_strings f eta s s' b0 b o ts t st how rung a,
  never_above lg -> legal f -> 2 <= eta -> make_bracket lg f eta s = Ok b0 -> make_bracket lg f eta s' = Ok b ->
  (st = Dynamic -> permutes argsort /\ densities score /\ scored score) ->
  pb_args argsort default score dist argmin_strings o t st how f eta b0 b ts rung = Ok a ->
  valid (a_weights a) /\ (a_inc a = None -> w_inc (a_weights a) = Num 0).
Proof. exact args_valid. Qed.
Print Assumptions priorband_weights_valid.
(** C39: and there are weights, for every rung, eta, type of weights and style, except
    where the following theorems show that there are none. *)
Theorem priorband_weights_exist :
  forall lg (H : Type) argsort (default : H) score dist argmin_strings f eta s s' b0 b o ts tb t st how rung budget,
  never_above lg -> legal f -> 2 <= eta -> make_bracket lg f eta s = Ok b0 -> make_bracket lg f eta s' = Ok b ->
  observe o (b_min b0) (b_max b0) ts = Ok tb -> o_ignore_errors o = false ->
  t <> OtherType -> st <> OtherStyle ->
  (forall r, b_min b0 <= r <= b_max b0 -> nget r (b_rungs b0) = Some (budget r)) ->
  (t = Linear -> rung <= b_max b0 - b_min b0) ->
  (st = Decay -> f_int f = true \/ (spent budget (t_rows tb) < 1024 * (qnat eta * f_upper f))%Q) ->
  (st = Dynamic -> (exists x, In x (t_rows tb) /\ is_nan (r_perf x) = false) \/
     forall r, b_min b0 <= r <= b_max b0 -> finished_at ts r < eta) ->
  (how = Hypersphere -> forall x, In x (t_rows tb) -> exists y, In y (t_rows tb) /\ (0 < dist (r_hps x) (r_hps y))%Q) ->
  exists a, pb_args argsort default score dist argmin_strings o t st how f eta b0 b ts rung = Ok a.
Proof. exact args_exist. Qed.
Print Assumptions priorband_weights_exist.
Lemma insertion_permutes : permutes insertion_argsort.
Proof.
  intros l. unfold insertion_argsort.
  assert (P : forall ps acc, Permutation (fold_left (fun acc p => insert_val p acc) ps acc) (ps ++ acc)).
  { induction ps as [|p ps IH]; intros acc; cbn [fold_left app]; auto. rewrite IH, insert_val_perm.
    symmetry. apply Permutation_middle. }
  rewrite P, app_nil_r.
  assert (C : forall (l : list fl) lo, map snd (combine l (seq lo (length l))) = seq lo (length l)).
  { induction l0 as [|x l0 IH]; intros lo; cbn [length seq combine map snd]; auto. rewrite IH. reflexivity. }
  rewrite C. reflexivity.
Qed.
Definition pbudget (r : nat) : Q := match r with 0 => inject_Z 1 | 1 => inject_Z 2 | _ => inject_Z 4 end.
Lemma pbudget_ok : forall r, b_min pbracket <= r <= b_max pbracket -> nget r (b_rungs pbracket) = Some (pbudget r).
Proof. intros [|[|[|r]]] [A B]; cbn in *; auto; lia. Qed.
Example priorband_weights_example :
  make_bracket exact_log pfid 2 0 = Ok pbracket /\ history pask ptrials /\
  permutes insertion_argsort /\ densities flat_score /\ scored flat_score /\
  (exists a, pargs flat_score popt Geometric Dynamic Hypersphere pfid 2 pbracket pbracket ptrials 1 = Ok a /\
     a_inc a = Some 11 /\ valid (a_weights a)) /\
  (exists a, pargs flat_score popt Linear Decay Mutation pfid 2 pbracket pbracket (tl ptrials) 2 = Ok a /\ a_inc a = None).
Proof.
  split; [exact pbracket_made|]. split; [exact ptrials_history|]. split; [exact insertion_permutes|].
  split; [intros ? ? ?; split; discriminate|]. split; [intros ? ? ?; reflexivity|]. split.
  - eexists. split; [vm_compute; reflexivity|]. split; [reflexivity|].
    eexists _, _, _. split; [reflexivity|]. split; [discriminate|]. split; [discriminate|]. split; [discriminate|reflexivity].
  - eexists. split; [vm_compute; reflexivity|reflexivity].
Qed.

(** C39 for the dynamic style: densities of the best configurations that are all zero in
    floats give NaN, and nothing can be sampled. *)
Theorem dynamic_weights_refuted : exists (score : nat -> nat -> nat -> Q * Q) ts a,
  history pask ts /\ densities score /\
  pargs score popt Geometric Dynamic Mutation pfid 2 pbracket pbracket ts 0 = Ok a /\
  w_prior (a_weights a) = NaN /\ ~ valid (a_weights a) /\ forall u, ensemble_policy (a_weights a) u = Err ValueError.
Proof.
  exists zero_score, ptrials. eexists. split; [exact ptrials_history|]. split; [intros ? ? ?; split; discriminate|].
  split; [vm_compute; reflexivity|]. split; [reflexivity|]. split; [|reflexivity].
  intros (p & i & r & X & _). discriminate.
Qed.
Print Assumptions dynamic_weights_refuted.
(** C39 for the dynamic style: ValueError when the evaluations so far have all given NaN. *)
Theorem dynamic_nan_refuted : exists ts, history pask ts /\
  pargs flat_score popt Geometric Dynamic Mutation pfid 2 pbracket pbracket ts 0 = Err ValueError.
Proof.
  eexists. split.
  - apply (play_history _ [Asked 10 0; Asked 11 0; Reported (0, 0) (Loss FNaN); Reported (1, 0) (Loss FNaN)] []);
      [constructor|vm_compute; reflexivity].
  - vm_compute. reflexivity.
Qed.
Print Assumptions dynamic_nan_refuted.
(** C39 for linear weights: IndexError at the highest rung of a bracket that does not start
    at rung 0. *)
Theorem linear_weights_refuted : exists b, make_bracket exact_log pfid 2 1 = Ok b /\ b_min b <= 2 <= b_max b /\
  pargs flat_score popt Linear Constant Mutation pfid 2 b b [] 2 = Err IndexError.
Proof. eexists. split; [vm_compute; reflexivity|]. split; [cbn; lia|vm_compute; reflexivity]. Qed.
Print Assumptions linear_weights_refuted.
(** C39 for "hypersphere": ValueError when all configurations are at distance zero from the
    incumbent. *)
Theorem nearest_neighbour_refuted : exists ts, history pask ts /\
  pargs flat_score popt Geometric Constant Hypersphere pfid 2 pbracket pbracket ts 0 = Err ValueError.
Proof.
  eexists. split.
  - apply (play_history _
      [Asked 10 0; Asked 10 0; Reported (0, 0) (Loss (FZ 3)); Reported (1, 0) (Loss (FZ 1)); Asked 0 0; Asked 10 0;
       Reported (1, 1) (Loss (FZ 1)); Reported (2, 0) (Loss (FZ 2)); Asked 0 0; Reported (2, 1) (Loss (FZ 2)); Asked 0 0;
       Reported (1, 2) (Loss (FZ 1)); Asked 10 0; Reported (3, 0) (Loss (FZ 5))] []); [constructor|vm_compute; reflexivity].
  - vm_compute. reflexivity.
Qed.
Print Assumptions nearest_neighbour_refuted.

(** C40: without a rung, the configuration with the smallest value of all that have one is
    found; if there is none that has one, ValueError. *)
Theorem incumbent_best : forall (H : Type) argmin_strings fuel (rows : list (row H)), 
  (forall x, In x rows -> r_perf x <> PErr) -> rows <> [] ->
  ((exists x, In x rows /\ is_nan (r_perf x) = false) ->
   exists x, find_incumbent argmin_strings fuel None rows = Ok (Some x) /\ best_row rows x) /\
  ((forall x, In x rows -> is_nan (r_perf x) = true) ->
   find_incumbent argmin_strings fuel None rows = Err ValueError).
Proof.
  intros H am fuel rows NE NN.
  assert (E : no_errors rows) by (intros x I; specialize (NE x I); destruct (r_perf x); auto; congruence).
  split.
  - intros (x & I & X). destruct (Pb_inc_proofs.find_exists am fuel rows x E I X) as [y F]. exists y. split; [exact F|].
    exact (Pb_inc_proofs.find_best am fuel rows y E F).
  - intros A. exact (Pb_inc_proofs.find_none am fuel rows E NN A).
Qed.
Print Assumptions incumbent_best.
Example incumbent_best_example : exists tb, observe popt 0 2 ptrials = Ok tb /\
  (forall x, In x (t_rows tb) -> r_perf x <> PErr) /\
  find_incumbent no_argmin 0 None (t_rows tb) = Ok (Some (mkRow 1 11 (inject_Z 4) 2 (PNum (FZ 1)))).
Proof.
  eexists. split; [vm_compute; reflexivity|]. split; [|vm_compute; reflexivity].
  cbn. intros x [<-|[<-|[<-|[<-|[]]]]]; discriminate.
Qed.
(** C40: PriorBand's incumbent is one of those. *)
Theorem priorband_incumbent_best :
  forall (H : Type) argsort (default : H) score dist argmin_strings f eta b0 b o ts tb t st how rung a h,
  o_ignore_errors o = false -> observe o (b_min b0) (b_max b0) ts = Ok tb -> t_rows tb <> [] ->
  pb_args argsort default score dist argmin_strings o t st how f eta b0 b ts rung = Ok a -> a_inc a = Some h ->
  exists x, best_row (t_rows tb) x /\ r_hps x = h.
Proof. exact (@args_incumbent). Qed.
Print Assumptions priorband_incumbent_best.
Example priorband_incumbent_example :
  exists a, pargs flat_score popt Geometric Constant Mutation pfid 2 pbracket pbracket ptrials 0 = Ok a /\ a_inc a = Some 11.
Proof. eexists. split; [vm_compute; reflexivity|reflexivity]. Qed.
(** C40: with a rung, no number of steps suffices. *)
Theorem incumbent_at_rung_refuted : exists (rows : list (row nat)) r,
  (exists x, In x rows /\ r_rung x = r /\ is_nan (r_perf x) = false) /\
  forall argmin_strings fuel, find_incumbent argmin_strings fuel (Some r) rows = Err OutOfFuel.
Proof.
  exists [mkRow 0 10 1%Q 0 (PNum (FZ 1))], 0. split; [eexists; split; [left; reflexivity|split; reflexivity]|].
  intros. apply find_with_rung.
Qed.
Print Assumptions incumbent_at_rung_refuted.

(** C67: the schedule of the weights. *)
Theorem priorband_schedule :
  forall lg (H : Type) argsort (default : H) score dist argmin_strings f eta s s' b0 b o ts tb t st how rung a,
  never_above lg -> legal f -> 2 <= eta -> make_bracket lg f eta s = Ok b0 -> make_bracket lg f eta s' = Ok b ->
  observe o (b_min b0) (b_max b0) ts = Ok tb ->
  (st = Dynamic -> permutes argsort /\ densities score /\ scored score) ->
  pb_args argsort default score dist argmin_strings o t st how f eta b0 b ts rung = Ok a ->
  exists p i r, a_weights a = mkW (Num p) (Num i) (Num r) /\
    random_share t eta (b_max b0 - b_min b0) rung r /\
    match a_inc a with
    | None => (i == 0)%Q
    | Some _ =>
        match st with
        | Constant => (p == qnat eta * i)%Q
        | Decay => forall budget, (forall r, b_min b0 <= r <= b_max b0 -> nget r (b_rungs b0) = Some (budget r)) ->
            exists k : nat, (p * inject_Z (2 ^ Z.of_nat k) == p + i)%Q /\
            (qnat k * (qnat eta * f_upper f) <= spent budget (t_rows tb) < qnat (S k) * (qnat eta * f_upper f))%Q
        | Dynamic => (forall r, b_min b0 <= r <= b_max b0 -> finished_at ts r < eta) -> (p == qnat eta * i)%Q
        | OtherStyle => False
        end
    end.
Proof. exact args_schedule. Qed.
Print Assumptions priorband_schedule.
Example priorband_schedule_example :
  exists a, pargs flat_score popt Geometric Decay Mutation pfid 2 pbracket pbracket ptrials 1 = Ok a /\
    a_inc a = Some 11 /\
    match a_weights a with
    | mkW (Num p) (Num i) (Num r) => (p == 1 # 3 /\ i == 1 # 3 /\ r == 1 # 3)%Q
    | _ => False
    end.
Proof. eexists. split; [vm_compute; reflexivity|]. split; [reflexivity|]. cbn. repeat split; reflexivity. Qed.

(** C67: with valid weights one of the three policies is drawn, and one with a positive
    weight; so the incumbent is never drawn while it is not used. *)
Theorem policy_drawn : forall w u, unit_interval u -> valid w ->
  exists x p, ensemble_policy w u = Ok x /\
    (match x with FromInc => w_inc w | FromPrior => w_prior w | Random => w_random w end) = Num p /\ (0 < p)%Q.
Proof.
  intros w u U V. destruct (policy_total w u U V) as [x X]. destruct (policy_positive w u x U X) as (p & P & P0).
  exists x, p. auto.
Qed.
Print Assumptions policy_drawn.
Theorem inactive_incumbent_never_drawn :
  forall lg (H : Type) argsort (default : H) score dist argmin_strings f eta s s' b0 b o ts t st how rung a u,
  never_above lg -> legal f -> 2 <= eta -> make_bracket lg f eta s = Ok b0 -> make_bracket lg f eta s' = Ok b ->
  (st = Dynamic -> permutes argsort /\ densities score /\ scored score) ->
  pb_args argsort default score dist argmin_strings o t st how f eta b0 b ts rung = Ok a ->
  unit_interval u -> a_inc a = None -> ensemble_policy (a_weights a) u <> Ok FromInc.
Proof.
  intros lg H argsort default score dist am f eta s s' b0 b o ts t st how rung a u NA LG E M0 M D A U N X.
  destruct (args_valid lg argsort default score dist am f eta s s' b0 b o ts t st how rung a NA LG E M0 M D A) as [_ Z].
  destruct (policy_positive _ _ _ U X) as (p & P & P0). cbn in P. rewrite (Z N) in P. injection P as <-.
  exact (Qlt_irrefl 0 P0).
Qed.
Print Assumptions inactive_incumbent_never_drawn.
Example policy_drawn_example :
  let w := mkW (Num (1 # 2)) (Num 0%Q) (Num (1 # 2)) in
  valid w /\ ensemble_policy w 0%Q = Ok FromPrior /\ ensemble_policy w (3 # 4) = Ok Random.
Proof.
  cbv zeta. split; [|split; vm_compute; reflexivity]. eexists _, _, _. split; [reflexivity|].
  repeat split; discriminate.
Qed.
(** C67: the probabilities of the partner in a crossover. *)
Theorem crossover_partner : forall w i, valid w -> w_inc w = Num i -> (0 < i)%Q ->
  exists l, crossover_probs w = map Num l /\ distribution l.
Proof. exact crossover_valid. Qed.
Print Assumptions crossover_partner.
Example crossover_partner_example :
  let w := mkW (Num (1 # 2)) (Num (1 # 4)) (Num (1 # 4)) in
  valid w /\ exists p q, crossover_probs w = [Num p; Num q] /\ (p == 2 # 3)%Q /\ (q == 1 # 3)%Q.
Proof.
  cbv zeta. split; [eexists _, _, _; split; [reflexivity|]; repeat split; discriminate|].
  eexists _, _. split; [vm_compute; reflexivity|split; reflexivity].
Qed.

(** C68: the incumbent is used when what the configurations in the table have cost reaches
    the cost of a whole bracket and some evaluation at the highest rung has finished. *)
Theorem incumbent_activation :
  forall lg (H : Type) argsort (default : H) score dist argmin_strings f eta s s' b0 b o ts tb t st how rung a,
  never_above lg -> legal f -> 2 <= eta -> make_bracket lg f eta s = Ok b0 -> make_bracket lg f eta s' = Ok b ->
  observe o (b_min b0) (b_max b0) ts = Ok tb ->
  pb_args argsort default score dist argmin_strings o t st how f eta b0 b ts rung = Ok a ->
  forall size budget budget0,
    (forall r, b_min b <= r <= b_max b -> nget r (b_rungs b) = Some (budget r) /\ nget r (b_sizes b) = Some (size r)) ->
    (forall r, b_min b0 <= r <= b_max b0 -> nget r (b_rungs b0) = Some (budget0 r)) ->
  (a_inc a <> None <->
   (stop_cost size budget (b_min b) (b_max b - b_min b) <= spent budget0 (t_rows tb))%Q /\
   exists u, In u ts /\ finished u /\ snd (st_id u) = b_max b0).
Proof. exact args_activation. Qed.
Print Assumptions incumbent_activation.
Example incumbent_activation_example : exists tb, observe popt 0 2 ptrials = Ok tb /\
  (spent pbudget (t_rows tb) == 8)%Q /\
  (stop_cost (fun r => match r with 0 => 4 | 1 => 2 | _ => 1 end)%nat pbudget 0 2 == 8)%Q.
Proof. eexists. split; [vm_compute; reflexivity|]. split; vm_compute; reflexivity. Qed.
(** C68: but it can stop being used: a promotion takes the promoted configuration's cost
    out of the sum until it has finished. *)
Theorem activation_kept_refuted : exists ts q a a',
  history pask ts /\ pask ts 14 0 = Ok q /\ history pask (stored q :: ts) /\
  pargs flat_score popt Geometric Constant Mutation pfid 2 pbracket pbracket ts 0 = Ok a /\ a_inc a <> None /\
  pargs flat_score popt Geometric Constant Mutation pfid 2 pbracket pbracket (stored q :: ts) 0 = Ok a' /\ a_inc a' = None.
Proof.
  exists ptrials. eexists _, _, _. split; [exact ptrials_history|]. split; [vm_compute; reflexivity|].
  split; [apply (h_ask _ ptrials ptrials 14 0); [exact ptrials_history|apply Permutation_refl|vm_compute; reflexivity]|].
  split; [vm_compute; reflexivity|]. split; [discriminate|]. split; [vm_compute; reflexivity|reflexivity].
Qed.
Print Assumptions activation_kept_refuted.

(** C69: the draw of a bracket: the probabilities are positive, sum to one and do not grow
    with the bracket's number; whatever the random number, an existing bracket is drawn. *)
Theorem bracket_draw : forall eta K, 2 <= eta ->
  distribution (bracket_probs eta K) /\
  (forall s p q, nth_error (bracket_probs eta K) s = Some p -> nth_error (bracket_probs eta K) (S s) = Some q ->
     (0 < q <= p)%Q) /\
  (forall s p t q, nth_error (bracket_probs eta K) s = Some p -> nth_error (bracket_probs eta K) t = Some q ->
     (p * (qpow eta (K - t) * qnat (K - s + 1)) == q * (qpow eta (K - s) * qnat (K - t + 1)))%Q) /\
  forall u, unit_interval u -> exists s, bracket_to_run eta K u = Ok s /\ s <= K.
Proof.
  intros eta K E. split; [apply bracket_probs_distribution; lia|]. split; [|split].
  - intros s p q. apply bracket_probs_decreasing. exact E.
  - intros s p t q P Q. apply bracket_probs_ratio; auto; lia.
  - intros u U. apply bracket_total; auto; lia.
Qed.
Print Assumptions bracket_draw.
Example bracket_draw_example : bracket_to_run 3 2 (1 # 2) = Ok 0 /\ bracket_to_run 3 2 (9 # 10) = Ok 2 /\
  forall p, nth_error (bracket_probs 3 2) 0 = Some p -> (p == 18 # 33)%Q.
Proof. split; [vm_compute; reflexivity|]. split; [vm_compute; reflexivity|]. intros p. vm_compute. intros [= <-]. reflexivity. Qed.

(** C70: once the initial design is done, sampling with a model always raises. *)
Theorem model_sampling_raises : forall (H : Type) m n f b0 hist (rows : list (row H)) rung from_policy best,
  is_init_phase m n f b0 hist rows = Ok false ->
  exists e, sample_new_config true m n f b0 hist rows rung from_policy best = Err e.
Proof. exact (@model_always_raises). Qed.
Print Assumptions model_sampling_raises.
Theorem model_sampling_refuted : exists ts tb,
  history pask ts /\ observe popt 0 2 ts = Ok tb /\
  is_init_phase ByRung 2 pfid pbracket (rung_histories popt 0 2 ts) (t_rows tb) = Ok false /\
  forall rung from_policy best,
  sample_new_config true ByRung 2 pfid pbracket (rung_histories popt 0 2 ts) (t_rows tb) rung from_policy best
  = Err AttributeError.
Proof.
  exists ptrials. eexists. split; [exact ptrials_history|]. split; [vm_compute; reflexivity|].
  split; [vm_compute; reflexivity|]. intros. vm_compute. reflexivity.
Qed.
Print Assumptions model_sampling_refuted.
(** C70: before that, and without a model, the sampling policy decides. *)
Theorem model_free_sampling : forall (H : Type) m n f b0 hist (rows : list (row H)) rung from_policy best mb,
  mb = false \/ is_init_phase m n f b0 hist rows = Ok true ->
  sample_new_config mb m n f b0 hist rows rung from_policy best = from_policy.
Proof. exact (@model_free). Qed.
Print Assumptions model_free_sampling.
Example model_free_example :
  is_init_phase (H := nat) ByRung 3 pfid pbracket (rung_histories popt 0 2 (firstn 3 ptrials)) [] = Ok true.
Proof. vm_compute. reflexivity. Qed.
(** C70: for a model per rung, the initial design is over when some rung has enough finished
    evaluations, and the highest such rung is taken. *)
Theorem active_rung_highest : forall n lo hi hist, lo <= hi ->
  (forall k, lo <= k <= hi -> exists h, nget k hist = Some h) ->
  exists r, active n (mkB [] [] lo hi) hist = Ok r /\
  match r with
  | Some k => lo <= k <= hi /\ (exists h, nget k hist = Some h /\ n <= length h) /\
      forall j h, k < j <= hi -> nget j hist = Some h -> length h < n
  | None => forall j h, lo <= j <= hi -> nget j hist = Some h -> length h < n
  end.
Proof.
  intros n lo hi hist L G. destruct (active_spec n lo hi hist L G (S hi - lo) (le_n _)) as (r & R & S0).
  exists r. split; [exact R|]. destruct r as [k|].
  - destruct S0 as (A & B & C). split; [lia|]. split; [exact B|]. intros j h J. apply C. lia.
  - intros j h J. apply S0. lia.
Qed.
Print Assumptions active_rung_highest.
Example active_rung_example : active 2 (mkB [] [] 0 2) (rung_histories popt 0 2 ptrials) = Ok (Some 1).
Proof. vm_compute. reflexivity. Qed.

(** C67, dynamic style: from the highest rung with at least eta finished evaluations, the
    best ones are scored against the default and against the incumbent; the better one is,
    the more it counts; the prior's share is its part of the total. *)
Theorem dynamic_shares : forall (H : Type) argsort (default : H) score argmin eta lo hist rows inc r top h idx cfgs,
  lo <= r <= top -> nget r hist = Some h -> eta <= length h ->
  (forall j, r < j <= top -> exists h', nget j hist = Some h' /\ length h' < eta) ->
  incumbent default argmin rows = Ok inc -> argsort_perfs argsort (map snd h) = Ok idx ->
  Forall2 (fun i c => exists id x, nth_error (map fst h) i = Some id /\ find_row id rows = Some x /\ r_hps x = c)
    (firstn (Nat.max (length h / eta) eta) idx) cfgs ->
  let A := rank_sum (fun c => fst (score c default inc)) cfgs in
  let B := rank_sum (fun c => snd (score c default inc)) cfgs in
  (0 < A + B)%Q ->
  exists p i, ratio_dynamic argsort default score argmin eta lo hist rows top = Ok (Num p, Num i) /\
    (p * (A + B) == A)%Q /\ (i * (A + B) == B)%Q.
Proof.
  intros H argsort default score argmin eta lo hist rows inc r top h idx cfgs LT G L K I X F A B P.
  replace top with (r + (top - r)) by lia.
  apply (dynamic_shares_l argsort default score argmin eta lo hist rows inc r h idx cfgs); auto; [lia|].
  intros j J. apply K. lia.
Qed.
Print Assumptions dynamic_shares.
Definition own_score (c d i : nat) : Q * Q := (qnat c, if Nat.eqb c i then 1%Q else 0%Q).
Example dynamic_shares_example : exists tb p i, observe popt 0 2 ptrials = Ok tb /\
  argsort_perfs insertion_argsort (map snd (history_at popt ptrials 1)) = Ok [1; 0] /\
  ratio_dynamic insertion_argsort 0 own_score no_argmin 2 0 (rung_histories popt 0 2 ptrials) (t_rows tb) 2
    = Ok (Num p, Num i) /\ (p == 34 # 36)%Q /\ (i == 2 # 36)%Q.
Proof.
  eexists _, _, _. split; [vm_compute; reflexivity|]. split; [vm_compute; reflexivity|].
  split; [vm_compute; reflexivity|]. split; reflexivity.
Qed.
(** C70: for a joint model, the initial design is over when the finished evaluations have
    cost as much as [n] evaluations at the highest fidelity. *)
Theorem joint_design_by_cost : forall (H : Type) n f b0 hist (rows : list (row H)) budget, (0 < f_upper f)%Q ->
  (forall x, In x rows -> is_nan (r_perf x) = false -> nget (r_rung x) (b_rungs b0) = Some (budget (r_rung x))) ->
  exists x, is_init_phase Joint n f b0 hist rows = Ok x /\
    (x = true <-> (spent budget rows < qnat n * f_upper f)%Q).
Proof. exact (@joint_design_l). Qed.
Print Assumptions joint_design_by_cost.
Example joint_design_example : exists tb, observe popt 0 2 ptrials = Ok tb /\
  is_init_phase Joint 3 pfid pbracket [] (t_rows tb) = Ok true /\
  is_init_phase Joint 2 pfid pbracket [] (t_rows tb) = Ok false.
Proof. eexists. split; [vm_compute; reflexivity|]. split; vm_compute; reflexivity. Qed.
