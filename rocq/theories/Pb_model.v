(** PriorBand: how much weight the prior, the incumbent and random search get, and what is
    sampled.
    neps/optimizers/multi_fidelity_prior/priorband.py:36-299,
    neps/optimizers/multi_fidelity_prior/async_priorband.py:300-332,
    neps/optimizers/multi_fidelity_prior/utils.py:106-166,
    neps/optimizers/multi_fidelity/sampling_policy.py:95-272, 275-405,
    neps/optimizers/multi_fidelity/mf_bo.py:133-204,
    neps/optimizers/multi_fidelity/hyperband.py:421-437 *)
From Verif Require Export Sh_model.
From Coq Require Export Qabs.
Open Scope nat_scope.
Open Scope list_scope.

(** Weights.  Simplification: exact rationals instead of floats; NaN is what 0/0 gives. *)
Inductive weight : Type := Num (q : Q) | NaN.
Definition nadd (a b : weight) : weight :=
  match a, b with Num x, Num y => Num (x + y)%Q | _, _ => NaN end.
Definition nmul (a b : weight) : weight :=
  match a, b with Num x, Num y => Num (x * y)%Q | _, _ => NaN end.
(** Division of a part by the sum of all (non-negative) parts. *)
Definition share (x total : Q) : weight := if Qeq_bool total 0 then NaN else Num (x / total)%Q.
Definition qnat (n : nat) : Q := inject_Z (Z.of_nat n).

(** priorband.py:46, 53, 55; strings that are none of the options end in ValueError *)
Inductive prior_weight_type : Type := Geometric | Linear | FiftyFifty | OtherType.
Inductive inc_style : Type := Constant | Decay | Dynamic | OtherStyle.
Inductive inc_sample_type : Type := Hypersphere | Mutation | Crossover | Gaussian.

Record weights : Type := mkW { w_prior : weight; w_inc : weight; w_random : weight }.

(** [np.linspace(start, stop, num, endpoint=True)] *)
Definition linspace (start stop : Q) (n : nat) : list Q :=
  map (fun i => (start + qnat i * ((stop - start) / qnat (n - 1)))%Q) (seq 0 n).

(** priorband.py:174-198 calc_sampling_args, the weight of the prior relative to random
    search; [nrungs] = len(self.rung_map) *)
Definition raw_prior_weight (t : prior_weight_type) (eta nrungs rung : nat) : res Q :=
  match t with
  | Geometric => Ok (qpow eta rung)
  | Linear => match nth_error (linspace 1 (qnat eta) nrungs) rung with
              | Some w => Ok w
              | None => Err IndexError
              end
  | FiftyFifty => Ok 1%Q
  | OtherType => Err ValueError
  end.

(** utils.py:153-166 get_prior_weight_for_decay.  The exponent is a float unless the
    budgets are integers: [2**idx] then raises from 1024 on. *)
Definition prior_weight_for_decay (resources : Q) (eta : nat) (f : fidelity) : res Q :=
  let unit := (qnat eta * f_upper f)%Q in
  if Qeq_bool unit 0 then Err ZeroDivisionError
  else
    let idx := Qfloor (resources / unit)%Q in
    if negb (f_int f) && Z.leb 1024 idx then Err OverflowError
    else Ok (/ inject_Z (2 ^ idx))%Q.

Section Pb.
Context {H : Type}.
Variable argsort : list fl -> list nat.
(** The default configuration (search_space.py:687-730 sample_default_configuration). *)
Variable default : H.
(** utils.py:132-150 compute_scores: configuration, prior, incumbent; products of densities *)
Variable score : H -> H -> H -> Q * Q.
(** utils.py:106-129 compute_config_dist *)
Variable dist : H -> H -> Q.
(** [np.nanargmin] of a list with strings in it (numpy turns all into strings). *)
Variable argmin_strings : list perf -> res nat.

(** ** The incumbent *)
(** [np.nanargmin] of floats: the first of the smallest *)
Fixpoint argmin_from (i : nat) (best : option (nat * fl)) (l : list perf) : option (nat * fl) :=
  match l with
  | [] => best
  | p :: l' =>
      argmin_from (S i)
        (match p with
         | PNum FNaN | PErr => best
         | PNum x => match best with
                     | Some (_, y) => if fl_ltb x y then Some (i, x) else best
                     | None => Some (i, x)
                     end
         end) l'
  end.
Definition nanargmin (l : list perf) : res nat :=
  if existsb is_err l then argmin_strings l
  else match argmin_from 0 None l with Some (i, _) => Ok i | None => Err ValueError end.

(** priorband.py:76-86 find_incumbent, the loop: [rung] is not changed in it *)
Fixpoint rung_loop (fuel : nat) (rung : option nat) (rows idxs : list (row H)) : res (list (row H)) :=
  match rung with
  | None => Ok idxs
  | Some r =>
      match fuel with
      | O => Err OutOfFuel
      | S fuel' => rung_loop fuel' rung rows (filter (fun x => Nat.eqb (r_rung x) r) rows)
      end
  end.

(** priorband.py:72-102 find_incumbent; [None]: no rows, the default is returned *)
Definition find_incumbent (fuel : nat) (rung : option nat) (rows : list (row H)) : res (option (row H)) :=
  bind (rung_loop fuel rung rows rows) (fun idxs =>
  match idxs with
  | [] => Ok None
  | _ => bind (nanargmin (map r_perf idxs)) (fun i =>
         match nth_error idxs i with Some x => Ok (Some x) | None => Err IndexError end)
  end).
Definition incumbent (rows : list (row H)) : res H :=
  bind (find_incumbent 0 None rows) (fun x => Ok (match x with Some r => r_hps r | None => default end)).

(** ** Resources *)
(** priorband.py:157-160, 223-225: what the finished evaluations in the table have cost *)
Fixpoint resources_used (rungs : list (nat * Q)) (rows : list (row H)) : res Q :=
  match rows with
  | [] => Ok 0%Q
  | x :: rows' =>
      if is_nan (r_perf x) then resources_used rungs rows'
      else bind (ngetitem (r_rung x) rungs) (fun c =>
           bind (resources_used rungs rows') (fun s => Ok (c + s)%Q))
  end.

(** [sorted(...)] *)
Fixpoint insert_nat (x : nat) (l : list nat) : list nat :=
  match l with
  | [] => [x]
  | y :: l' => if Nat.leb x y then x :: l else y :: insert_nat x l'
  end.
Definition sort_nat (l : list nat) : list nat := fold_right insert_nat [] l.

(** priorband.py:147-155: the cost of one bracket in which promoted configurations are
    continued *)
Fixpoint continuations (b : bracket) (rungs : list nat) : res Q :=
  match rungs with
  | [] => Ok 0%Q
  | O :: _ => Err KeyError
  | S r :: rest =>
      bind (ngetitem (S r) (b_rungs b)) (fun hi =>
      bind (ngetitem r (b_rungs b)) (fun lo =>
      bind (ngetitem (S r) (b_sizes b)) (fun n =>
      bind (continuations b rest) (fun s => Ok (qnat n * (hi - lo) + s)%Q))))
  end.
Definition bracket_cost (b : bracket) : res Q :=
  bind (ngetitem (b_min b) (b_rungs b)) (fun c =>
  bind (ngetitem (b_min b) (b_sizes b)) (fun n =>
  bind (continuations b (tl (sort_nat (map fst (b_rungs b))))) (fun s => Ok (qnat n * c + s)%Q))).

(** successive_halving.py:252-253: rung_histories *)
Definition histories := list (nat * list (nat * perf)).

(** priorband.py:128-170 is_activate_inc.  [b0]: the optimizer's own rungs, [b]: the bracket
    whose cost counts *)
Definition is_activate_inc (b0 b : bracket) (hist : histories) (rows : list (row H)) : res bool :=
  bind (bracket_cost b) (fun cost =>
  bind (resources_used (b_rungs b0) rows) (fun used =>
  if Qle_bool cost used
  then bind (ngetitem (b_max b0) hist) (fun h => Ok (negb (match h with [] => true | _ => false end)))
  else Ok false)).

(** ** Prior against incumbent *)
(** priorband.py:241-248 *)
Definition ratio_constant (eta : nat) : Q * Q :=
  (qnat eta / (qnat eta + 1), 1 / (qnat eta + 1))%Q.

(** priorband.py:233-239 *)
Definition ratio_decay (resources : Q) (eta : nat) (f : fidelity) : res (Q * Q) :=
  bind (prior_weight_for_decay resources eta f) (fun w => Ok (w, 1 - w)%Q).

(** priorband.py:271-282: scores of the best configurations *)
Fixpoint scores (rows : list (row H)) (inc : H) (ids : list nat) : res (list (Q * Q)) :=
  match ids with
  | [] => Ok []
  | c :: ids' =>
      match find_row c rows with
      | None => Err KeyError
      | Some x => bind (scores rows inc ids') (fun l => Ok (score (r_hps x) default inc :: l))
      end
  end.
(** priorband.py:283-287: the first one counts most *)
Fixpoint weighted_sum (l : list (Q * Q)) : Q * Q :=
  match l with
  | [] => (0, 0)%Q
  | s :: l' => let '(a, b) := weighted_sum l' in
               (qnat (length l) * fst s + a, qnat (length l) * snd s + b)%Q
  end.

(** priorband.py:250-299 _prior_to_incumbent_ratio_dynamic *)
Fixpoint ratio_dynamic (eta lo : nat) (hist : histories) (rows : list (row H)) (rung : nat)
  : res (weight * weight) :=
  bind (ngetitem rung hist) (fun h =>
  if Nat.leb eta (length h) then
    bind (incumbent rows) (fun inc =>
    bind (argsort_perfs argsort (map snd h)) (fun idx =>
    let top_n := Nat.max (length h / eta) eta in
    bind (scores rows inc (pick (map fst h) (firstn top_n idx))) (fun l =>
    let '(a, b) := weighted_sum l in
    Ok (share a (a + b)%Q, share b (a + b)%Q))))
  else if Nat.eqb rung lo then
    Ok (Num (qnat eta / (1 + qnat eta))%Q, Num (1 / (1 + qnat eta))%Q)
  else match rung with
       | O => Err KeyError
       | S r => ratio_dynamic eta lo hist rows r
       end).

(** priorband.py:215-231 prior_to_incumbent_ratio *)
Definition prior_to_incumbent_ratio (st : inc_style) (f : fidelity) (eta : nat) (b0 : bracket)
  (hist : histories) (rows : list (row H)) : res (weight * weight) :=
  match st with
  | Constant => let '(a, b) := ratio_constant eta in Ok (Num a, Num b)
  | Decay =>
      bind (resources_used (b_rungs b0) rows) (fun used =>
      bind (ratio_decay used eta f) (fun '(a, b) => Ok (Num a, Num b)))
  | Dynamic => ratio_dynamic eta (b_min b0) hist rows (b_max b0)
  | OtherStyle => Err ValueError
  end.

(** priorband.py:172-213 calc_sampling_args *)
Definition calc_sampling_args (t : prior_weight_type) (st : inc_style) (f : fidelity) (eta : nat)
  (b0 : bracket) (hist : histories) (rows : list (row H)) (rung : nat) : res weights :=
  bind (raw_prior_weight t eta (length (b_rungs b0)) rung) (fun w =>
  let p := Num (w / (w + 1))%Q in
  let r := Num (1 / (w + 1))%Q in
  bind (prior_to_incumbent_ratio st f eta b0 hist rows) (fun '(rp, ri) =>
  Ok (mkW (nmul rp p) (nmul ri p) r))).

(** priorband.py:59-70: the distance to the nearest configuration that is not the incumbent *)
Definition nearest_distance (rows : list (row H)) (inc : H) : res Q :=
  match filter (fun d => negb (Qle_bool d 0)) (map (fun x => dist inc (r_hps x)) rows) with
  | [] => Err ValueError
  | d :: l => Ok (fold_left (fun m x => if Qle_bool m x then m else x) l d)
  end.

(** sampling_args: the incumbent, the weights and the radius for "hypersphere" *)
Record sampling_args : Type := mkArgs { a_inc : option H; a_weights : weights; a_distance : option Q }.

(** priorband.py:104-126 _set_sampling_weights_and_inc *)
Definition set_sampling_weights_and_inc (t : prior_weight_type) (st : inc_style) (how : inc_sample_type)
  (f : fidelity) (eta : nat) (b0 b : bracket) (hist : histories) (rows : list (row H)) (rung : nat)
  : res sampling_args :=
  bind (calc_sampling_args t st f eta b0 hist rows rung) (fun w =>
  bind (is_activate_inc b0 b hist rows) (fun active =>
  if negb active then
    Ok (mkArgs None (mkW (nadd (w_prior w) (w_inc w)) (Num 0) (w_random w)) None)
  else
    bind (incumbent rows) (fun inc =>
    match how with
    | Hypersphere => bind (nearest_distance rows inc) (fun d => Ok (mkArgs (Some inc) w (Some d)))
    | _ => Ok (mkArgs (Some inc) w None)
    end))).

(** ** All of it from the trials *)
(** successive_halving.py:222-253: the history of a rung, in the order of the trials *)
Definition history_at (o : options) (ts : list (strial H)) (k : nat) : list (nat * perf) :=
  flat_map (fun t => if is_pending t || negb (Nat.eqb (snd (st_id t)) k) then []
                     else match get_loss o (st_out t) with Ok p => [(fst (st_id t), p)] | Err _ => [] end) ts.
Definition rung_histories (o : options) (lo hi : nat) (ts : list (strial H)) : histories :=
  map (fun k => (k, history_at o ts k)) (seq lo (S hi - lo)).
Definition pb_args (o : options) (t : prior_weight_type) (st : inc_style) (how : inc_sample_type)
  (f : fidelity) (eta : nat) (b0 b : bracket) (ts : list (strial H)) (rung : nat) : res sampling_args :=
  bind (observe o (b_min b0) (b_max b0) ts) (fun tb =>
  set_sampling_weights_and_inc t st how f eta b0 b (rung_histories o (b_min b0) (b_max b0) ts) (t_rows tb) rung).
End Pb.
Arguments sampling_args : clear implicits.

(** ** Drawing *)
Definition qsum (l : list Q) : Q := fold_right Qplus 0%Q l.
Fixpoint cumsum (acc : Q) (l : list Q) : list Q :=
  match l with [] => [] | p :: l' => (acc + p)%Q :: cumsum (acc + p)%Q l' end.
Fixpoint numbers (l : list weight) : option (list Q) :=
  match l with
  | [] => Some []
  | NaN :: _ => None
  | Num q :: l' => option_map (cons q) (numbers l')
  end.

(** [np.random.choice(range(len(p)), p=p)] for the uniform number [u] in [0, 1): NaN,
    negative entries and a sum that is not one up to sqrt(eps) are refused *)
Definition tolerance : Q := 1 # 67108864.
Definition choice (ps : list weight) (u : Q) : res nat :=
  match numbers ps with
  | None => Err ValueError
  | Some l =>
      if existsb (fun p => negb (Qle_bool 0 p)) l then Err ValueError
      else if negb (Qle_bool (Qabs.Qabs (qsum l - 1)) tolerance) then Err ValueError
      else Ok (length (filter (fun c => Qle_bool (c / qsum l) u) (cumsum 0 l)))
  end.

(** sampling_policy.py:178-185: the policies in the order of their names *)
Inductive policy : Type := FromInc | FromPrior | Random.
Definition ensemble_policy (w : weights) (u : Q) : res policy :=
  bind (choice [w_inc w; w_prior w; w_random w] u) (fun i =>
  match i with 0 => Ok FromInc | 1 => Ok FromPrior | 2 => Ok Random | _ => Err IndexError end).

(** sampling_policy.py:222-235: for "crossover", the probabilities of crossing the incumbent
    with a sample of the prior and with a random one.  [np.clip], [np.abs]; division by
    zero is left to [share]. *)
Definition clip01 (x : Q) : Q := if Qle_bool x 0 then 0%Q else if Qle_bool 1 x then 1%Q else x.
Definition crossover_probs (w : weights) : list weight :=
  match w_prior w, w_inc w, w_random w with
  | Num p, Num i, Num r =>
      match share p (1 - r)%Q, share i (1 - r)%Q with
      | Num a, Num b => let d := Qabs.Qabs (clip01 a - clip01 b) in [Num (1 - d)%Q; Num d]
      | _, _ => [NaN; NaN]
      end
  | _, _, _ => [NaN; NaN]
  end.

(** async_priorband.py:300-316 and hyperband.py:421-437 _get_bracket_to_run: probabilities
    of the brackets 0 ... K *)
Definition bracket_weight (eta K s : nat) : Q :=
  (qpow eta (K - s) * qnat (K + 1) / qnat (K - s + 1))%Q.
Definition bracket_probs (eta K : nat) : list Q :=
  let l := map (bracket_weight eta K) (seq 0 (S K)) in
  map (fun x => (x / qsum l)%Q) l.
Definition bracket_to_run (eta K : nat) (u : Q) : res nat := choice (map Num (bracket_probs eta K)) u.

(** ** Sampling with a model *)
Inductive modelling : Type := ByRung | Joint | OtherModelling.
Section Model.
Context {H : Type}.


(** mf_bo.py:133-140 _active_rung: the highest rung with enough evaluations *)
Fixpoint active_rung (init_size lo : nat) (hist : histories) (n : nat) : res (option nat) :=
  match n with
  | O => Ok None
  | S n' =>
      let rung := lo + n' in
      bind (ngetitem rung hist) (fun h =>
      if Nat.leb init_size (length h) then Ok (Some rung) else active_rung init_size lo hist n')
  end.
Definition active (init_size : nat) (b0 : bracket) (hist : histories) : res (option nat) :=
  active_rung init_size (b_min b0) hist (S (b_max b0) - b_min b0).

(** mf_bo.py:142-163 is_init_phase *)
Definition is_init_phase (m : modelling) (init_size : nat) (f : fidelity) (b0 : bracket)
  (hist : histories) (rows : list (row H)) : res bool :=
  match m with
  | ByRung => bind (active init_size b0 hist) (fun r => Ok (match r with None => true | Some _ => false end))
  | Joint =>
      bind (resources_used (b_rungs b0) rows) (fun used =>
      Ok (negb (Qle_bool (qnat init_size) (used / f_upper f)%Q)))
  | OtherModelling => Err ValueError
  end.

(** The attributes of a ModelPolicy: sampling_policy.py:46-48, 293-301, 346-347. *)
Definition model_policy_attributes : list string :=
  ["pipeline_space"; "patience"; "device"; "prior"; "_encoder"; "_model"; "_acq"; "_y_model"]%string.

(** sampling_policy.py:350-405 ModelPolicy.sample: whichever branch is taken, the first
    thing done with the samples is to look up [self.acquisition].  [best]: the sample with
    the highest score. *)
Definition model_sample (fidelity active_max_fidelity : option Q) (best : H) : res H :=
  let acquisition := existsb (String.eqb "acquisition") model_policy_attributes in
  match fidelity, active_max_fidelity with
  | Some _, _ => if acquisition then Ok best else Err AttributeError
  | None, Some _ => if acquisition then Ok best else Err AttributeError
  | None, None => if acquisition then Ok best else Err AttributeError
  end.

(** mf_bo.py:165-204 sample_new_config: [from_policy] is what the sampling policy gives,
    [from_model] what the model would give *)
Definition sample_new_config (model_based : bool) (m : modelling) (init_size : nat) (f : fidelity)
  (b0 : bracket) (hist : histories) (rows : list (row H)) (rung : nat) (from_policy : res H) (from_model : H)
  : res H :=
  if negb model_based then from_policy
  else
    bind (is_init_phase m init_size f b0 hist rows) (fun init =>
    if init then from_policy
    else
      match m with
      | ByRung =>
          bind (active init_size b0 hist) (fun r =>
          match r with
          | None => Err KeyError
          | Some k => bind (ngetitem k (b_rungs b0)) (fun x => model_sample None (Some x) from_model)
          end)
      | Joint =>
          bind (ngetitem rung (b_rungs b0)) (fun x =>
          bind (ngetitem rung hist) (fun h =>
          match h with
          | [] => Err ValueError            (* min of an empty list *)
          | _ => model_sample (Some x) None from_model
          end))
      | OtherModelling => Err ValueError
      end).
End Model.
