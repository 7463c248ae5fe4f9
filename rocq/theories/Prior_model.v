(** Samplers and priors (neps/sampling), and how Bayesian optimization uses them.

    Tensors of shape (..., ncols) are the list of their rows, in row-major order: the final
    [view] of the samplers is not modelled.  What is drawn at random is an argument.  Devices are
    not modelled; of dtypes only that an integer one truncates.  The numbers given to [cast_one]
    and [to_unit_one], which the code stores in float32 first, are taken as they are. *)
From Verif Require Export Space_model.
Open Scope nat_scope.
Local Notation length := List.length.

Section Samplers.
  Context {T : Type} (A : arith T).
  Local Notation row := (list T).
  Local Notation doms := (domain T + list (domain T))%type.

  (** A dtype: none given, an integer type ([Some false]) or a floating one ([Some true]). *)
  Definition to_dtype (dt : option bool) (x : T) : T := match dt with Some false => atrunc A x | _ => x end.
  (** [Domain.translate(x, frm, to, dtype=dt)] (domain.py:374-398) *)
  Definition translate_as (dt : option bool) (n : nat) (x : list row) (frm to : doms) : res (list row) :=
    bind (translate A n x frm to) (fun y => Ok (map (map (to_dtype dt)) y)).
  (** [Domain.translate(x, frm, to)] where [x] has the dtype: with a list of domains the result
      is stored in a tensor of that dtype (domain.py:394-396), with a single one it is not (375). *)
  Definition translate_into (dt : option bool) (n : nat) (x : list row) (frm to : doms) : res (list row) :=
    match frm, to with
    | inl _, inl _ => translate A n x frm to
    | _, _ => translate_as dt n x frm to
    end.

  (** The number of points asked for: an int or a torch.Size.  Negative ones are not modelled. *)
  Inductive size : Type := Num (n : nat) | Shape (l : list nat).
  (** [n if isinstance(n, int) else reduce(lambda x, y: x * y, n)] *)
  Definition total (s : size) : res nat :=
    match s with
    | Num n => Ok n
    | Shape [] => Err TypeError
    | Shape (x :: l) => Ok (fold_left Nat.mul l x)
    end.

  (** ** Borders (samplers.py:285-340) *)
  (** samplers.py:336-337: [config.bitwise_and(2 ** i).ne(0)] as numbers.  Simplification: int32
      does not overflow (at most 30 dimensions). *)
  Definition border_row (d : nat) (c : nat) : row :=
    map (fun i => if Nat.testbit c i then aZ A 1 else aZ A 0) (seq 0 d).
  (** samplers.py:301-340; [perm] is what torch.randperm gives. *)
  Definition border_sample (d : nat) (n : size) (perm : list nat) (to : doms) (dt : option bool) : res (list row) :=
    let n_possible := 2 ^ d in
    bind (match n with
          | Num n => Ok (Nat.min n n_possible)
          | Shape _ => bind (total n) (fun t => if Nat.ltb n_possible t then Err ValueError else Ok t)
          end) (fun total_samples =>
    let configs := if Nat.leb n_possible total_samples then seq 0 n_possible else firstn total_samples perm in
    translate_into dt d (map (border_row d) configs) (inl (unit_float_domain A)) to).

  (** ** Uniform samples (priors.py:388-412); [raw]: what torch.rand gives. *)
  Definition uniform_sample (d : nat) (raw : list row) (to : doms) (dt : option bool) : res (list row) :=
    translate_as dt d raw (inl (unit_float_domain A)) to.
  (** priors.py:382-386: one number for each row *)
  Definition uniform_log_prob (x : list row) : list T := map (fun _ => aZ A 0) x.

  (** ** Sobol sequences *)
  (** samplers.py:124-129, 136-173; [raw]: what SobolEngine.draw gives *)
  Definition sobol_sample (d : nat) (n : size) (raw : list row) (to : doms) (dt : option bool) : res (list row) :=
    if Nat.ltb d 1 then Err ValueError
    else bind (total n) (fun _ =>
         translate_into dt d (map (map (to_dtype dt)) raw) (inl (unit_float_domain A)) to).

  (** ** Weighted samplers *)
  (** samplers.py:189-208: the probabilities; [cols] are the numbers of columns of the samplers.
      The weights are one-dimensional. *)
  Definition weighted_new (cols : list nat) (weights : list T) : res (list T) :=
    if Nat.ltb (length cols) 2 then Err ValueError
    else if negb (Nat.eqb (length cols) (length weights)) then Err ValueError
    else if negb (forallb (Nat.eqb (hd 0 cols)) cols) then Err ValueError
    else Ok (map (fun w => adiv A w (fold_left (aadd A) weights (aZ A 0))) weights).
  (** samplers.py:225-233 *)
  Definition weighted_dtype (to : doms) (dt : option bool) : option bool :=
    match dt with
    | Some b => Some b
    | None => Some (match to with
                    | inl d => negb (is_int (d_bounds d))
                    | inr l => existsb (fun d => negb (is_int (d_bounds d))) l
                    end)
    end.
  (** samplers.py:278: [output_samples[indices] = samples], where [indices] are those at which
      sampler [i] was chosen *)
  Fixpoint assign (i : nat) (chosen : list nat) (out rows : list row) : list row :=
    match chosen, out with
    | c :: chosen', o :: out' =>
        if Nat.eqb c i then
          match rows with
          | r :: rows' => r :: assign i chosen' out' rows'
          | [] => o :: assign i chosen' out' []
          end
        else o :: assign i chosen' out' rows
    | _, _ => out
    end.
  (** samplers.py:264-278: the samplers one after the other; each is given the number of samples. *)
  Fixpoint weighted_loop (dt : option bool) (i : nat) (samplers : list (nat -> res (list row))) (chosen : list nat) (out : list row)
    : res (list row) :=
    match samplers with
    | [] => Ok out
    | s :: samplers' =>
        let n := count_occ Nat.eq_dec chosen i in
        if Nat.ltb 0 n then
          bind (s n) (fun rows =>
          weighted_loop dt (S i) samplers' chosen (assign i chosen out (map (map (to_dtype dt)) rows)))
        else weighted_loop dt (S i) samplers' chosen out
    end.
  (** samplers.py:216-281; [chosen]: what torch.multinomial gives; [garbage]: the content of
      torch.empty; [samplers]: the sample methods, given the dtype and the number of samples *)
  Definition weighted_sample (samplers : list (option bool -> nat -> res (list row))) (chosen : list nat)
    (garbage : list row) (to : doms) (dt : option bool) : res (list row) :=
    let dt := weighted_dtype to dt in
    weighted_loop dt 0 (map (fun s => s dt) samplers) chosen garbage.
End Samplers.

(** ** The truncated normal distribution (distributions.py:33-229) *)
Section Priors.
  Context {T : Type} (A : arith T).
  Local Notation row := (list T).
  Local Notation doms := (domain T + list (domain T))%type.
  (** torch.erf, torch.erfinv, and the log-probability of torch's Categorical *)
  Variables (erf erfinv : T -> T) (cat_logp : list T -> T -> T).
  (** distributions.py:21-24, 44: [CONST_SQRT_2], [CONST_LOG_INV_SQRT_2PI], [CONST_INV_SQRT_2] and [eps] *)
  Variables (c_sqrt2 c_log c_inv_sqrt2 eps : T).

  Definition half : T := adiv A (aZ A 1) (aZ A 2).
  Record tnorm : Type := mkTN { tn_loc : T; tn_scale : T; tn_a : T; tn_b : T; tn_phi_a : T; tn_Z : T }.

  (** [x.clamp(lo, hi)] is [clip] (NaN stays) *)
  (** distributions.py:124-126 *)
  Definition big_phi (x : T) : T :=
    clip A (amul A half (aadd A (aZ A 1) (erf (amul A x c_inv_sqrt2)))) eps (asub A (aZ A 1) eps).
  (** distributions.py:167-200 and 46-86: the scale is clamped, the bounds are standardised *)
  Definition tn_new (loc scale a b : T) : res tnorm :=
    let scale := if altb A scale eps then eps else scale in
    let sa := adiv A (asub A a loc) scale in
    let sb := adiv A (asub A b loc) scale in
    if altb A sb sa || aeqb A sa sb then Err ValueError
    else Ok (mkTN loc scale a b (big_phi sa)
               (clip A (asub A (big_phi sb) (big_phi sa)) eps (asub A (aZ A 1) eps))).
  (** distributions.py:227-229, 202-203, 145-148 *)
  Definition tn_logp (t : tnorm) (v : T) : T :=
    let z := adiv A (asub A v (tn_loc t)) (tn_scale t) in
    asub A (asub A (asub A c_log (aln A (tn_Z t))) (amul A (amul A z z) half)) (aln A (tn_scale t)).
  (** distributions.py:213-224, 139-142, 129-130: the sample for the uniform draw [p] *)
  Definition tn_icdf (t : tnorm) (p : T) : T :=
    let y := clip A (aadd A (tn_phi_a t) (amul A p (tn_Z t))) eps (asub A (aZ A 1) eps) in
    let z := amul A c_sqrt2 (erfinv (asub A (amul A (aZ A 2) y) (aZ A 1))) in
    let sample := aadd A (amul A z (tn_scale t)) (tn_loc t) in
    clip A sample (tn_a t) (tn_b t).

  (** ** Priors *)
  (** TorchDistributionWithDomain: UNIT_UNIFORM_DIST, a Categorical with its domain, a
      TruncatedNormal (its domain is UNIT_FLOAT_DOMAIN) *)
  Inductive dist : Type := DUnit | DCat (weights : list T) (dom : domain T) | DTrunc (t : tnorm).
  Definition dist_dom (d : dist) : domain T :=
    match d with DUnit => unit_float_domain A | DCat _ dom => dom | DTrunc _ => unit_float_domain A end.
  Definition informed (d : dist) : bool := match d with DUnit => false | _ => true end.

  (** [l[i] = v] *)
  Definition py_set {B} (l : list B) (i : Z) (v : B) : res (list B) :=
    let j := if Z.ltb i 0 then (i + Z.of_nat (length l))%Z else i in
    if Z.ltb j 0 || Z.leb (Z.of_nat (length l)) j then Err IndexError
    else Ok (firstn (Z.to_nat j) l ++ v :: skipn (S (Z.to_nat j)) l).

  (** priors.py:209-233: the weights of a categorical domain *)
  Definition cat_weights (domain : domain T) (center conf : T) : res (list T) :=
    bind (as_integer_domain A domain) (fun ints =>
    match d_card ints with
    | None => Err AssertionError
    | Some n =>
        if Z.eqb (n - 1) 0 then Err ZeroDivisionError
        else
          let w := adiv A (asub A (aZ A 1) conf) (aZ A (n - 1)) in
          match aint A (cast A ints domain center) with
          | None => Err ValueError
          | Some i => py_set (repeat w (Z.to_nat n)) i conf
          end
    end).

  (** priors.py:197-251: one domain *)
  Definition center_one (domain : domain T) (center_conf : option (T * T)) : res dist :=
    match center_conf with
    | None => Ok DUnit
    | Some (center, conf) =>
        if negb (ale A (aZ A 0) conf && ale A conf (aZ A 1)) then Err AssertionError
        else if d_cat domain then bind (cat_weights domain center conf) (fun ws => Ok (DCat ws domain))
        else bind (tn_new (to_unit A domain center) (asub A (aZ A 1) conf) (aZ A 0) (aZ A 1)) (fun t => Ok (DTrunc t))
    end.
  (** priors.py:146-253 (Prior.make_centered): [zip(..., strict=True)] *)
  Fixpoint make_centered (domains : list (domain T)) (centers : list (option (T * T))) : res (list dist) :=
    match domains, centers with
    | [], [] => Ok []
    | d :: domains', c :: centers' =>
        bind (center_one d c) (fun x => bind (make_centered domains' centers') (fun xs => Ok (x :: xs)))
    | _, _ => Err ValueError
    end.

  (** priors.py:125 *)
  Definition confidence_of (c : string) : res T :=
    if String.eqb c "low" then Ok (adiv A (aZ A 1) (aZ A 4))
    else if String.eqb c "medium" then Ok (adiv A (aZ A 1) (aZ A 2))
    else if String.eqb c "high" then Ok (adiv A (aZ A 3) (aZ A 4))
    else Err KeyError.
  (** [hp.domain]: float.py:75, integer.py:80, categorical.py:107 *)
  Definition p_domain (p : param T) : res (domain T) :=
    match p with
    | PF p => Ok (fp_dom p)
    | PI p => Ok (ip_dom p)
    | PC p => indices A (Z.of_nat (length (cp_choices p))) false
    | PK _ => Err AttributeError
    end.
  (** priors.py:132-141: the centre *)
  Definition p_center (p : param T) : res (option (T * T)) :=
    let with_conf conf x := bind (confidence_of conf) (fun c => Ok (Some (x, c))) in
    match p with
    | PF p => match fp_default p with None => Ok None | Some x => with_conf (fp_conf p) x end
    | PI p => match ip_default p with None => Ok None | Some z => with_conf (ip_conf p) (aZ A z) end
    | PC p =>
        match cp_default p with
        | None => Ok None
        | Some _ =>
            match cp_default_index p with
            | Some i => with_conf (cp_conf p) (aZ A (Z.of_nat i))
            | None => Err TypeError
            end
        end
    | PK _ => Err AttributeError
    end.
  (** priors.py:112-143 (Prior.from_parameters) *)
  Definition from_parameters (ps : list (param T)) : res (list dist) :=
    bind (mapM (fun p => bind (p_domain p) (fun d => bind (p_center p) (fun c => Ok (d, c)))) ps) (fun dcs =>
    make_centered (map fst dcs) (map snd dcs)).

  (** priors.py:283-296: the distributions that are not uniform, with their positions *)
  Fixpoint meaningful (i : nat) (ds : list dist) : list (nat * dist) :=
    match ds with
    | [] => []
    | d :: ds' => if informed d then (i, d) :: meaningful (S i) ds' else meaningful (S i) ds'
    end.
  Definition dist_logp (d : dist) (v : T) : T :=
    match d with DUnit => aZ A 0 | DCat ws _ => cat_logp ws v | DTrunc t => tn_logp t v end.
  Definition col (r : row) (i : nat) : res T := match nth_error r i with Some v => Ok v | None => Err IndexError end.
  Definition cols_ok (width : nat) (ixs : list nat) : bool := forallb (fun i => Nat.ltb i width) ixs.

  (** priors.py:329-338: one row of the translated tensor; the distributions but the first one
      are weighted with [1 / len(self.distributions)] *)
  Fixpoint add_rest (weight : T) (rest : list (nat * dist)) (r : row) (acc : T) : res T :=
    match rest with
    | [] => Ok acc
    | (i, d) :: rest' => bind (col r i) (fun v => add_rest weight rest' r (aadd A acc (amul A weight (dist_logp d v))))
    end.
  (** priors.py:304-338 (CenteredPrior.log_prob); [width] is the number of columns of [x], of at
      least one dimension.  Indexing a tensor without rows raises as well. *)
  Definition log_prob (ds : list dist) (width : nat) (x : list row) (frm : doms) : res (list T) :=
    match meaningful 0 ds with
    | [] => Ok (map (fun _ => aZ A 0) x)
    | (i0, d0) :: rest =>
        let ixs := i0 :: map fst rest in
        bind (match frm with
              | inl f => Ok (inl f)
              | inr l => bind (mapM (fun i => match nth_error l i with Some f => Ok f | None => Err IndexError end) ixs)
                              (fun fs => Ok (inr fs))
              end) (fun frm' =>
        if negb (cols_ok width ixs) then Err IndexError
        else
        bind (mapM (fun r => mapM (col r) ixs) x) (fun sub =>
        bind (translate A (length ixs) sub frm' (inr (dist_dom d0 :: map (fun p => dist_dom (snd p)) rest))) (fun tx =>
        if negb (cols_ok (length ixs) ixs) then Err IndexError
        else
        mapM (fun r => bind (col r i0) (fun v =>
              add_rest (adiv A (aZ A 1) (aZ A (Z.of_nat (length ds)))) rest r (dist_logp d0 v))) tx)))
    end.

  (** priors.py:341-364 (CenteredPrior.sample); column [i] of [raw] is what distribution [i] gives *)
  Definition centered_sample (ds : list dist) (raw : list row) (to : doms) (dt : option bool) : res (list row) :=
    translate_as A dt (length ds) (map (map (to_dtype A dt)) raw) (inr (map dist_dom ds)) to.

  (** ** In Bayesian optimization *)
  (** optimizer.py:123-126, ifbo.py:143, initial_design.py:103: the parameters in the order in
      which the prior is made of them.  The names are different, the dictionaries are joined. *)
  Definition bo_params (s : space T) : list (string * param T) := s_numerical s ++ s_categoricals s.
  (** optimizer.py:130-132, with priors *)
  Definition bo_prior (s : space T) : res (list dist) := from_parameters (map snd (bo_params s)).
  Definition enc_param (p : param T) : parameter (T := T) :=
    match p with
    | PF p => PFloat (fp_dom p)
    | PI p => PInteger (ip_dom p)
    | PC p => PCategorical (map (@HC T) (cp_choices p))
    | PK _ => POther
    end.
  Definition bo_constants (s : space T) : list (string * hval T) :=
    flat_map (fun kv => match snd kv with PK p => [(fst kv, HC (kp_value p))] | _ => [] end) s.
  (** optimizer.py:127-129, the default encoder *)
  Definition bo_encoder (s : space T) : res (encoder (T := T)) :=
    default_encoder A (map (fun kv => (fst kv, enc_param (snd kv))) (bo_params s)) (bo_constants s) [].

  (** pibo.py:33-47: the weighted value of one point; [power]: torch.pow.  The log-probability is
      that of the point. *)
  Definition pibo_weight (power : T -> T -> T) (log : bool) (exponent acq lp : T) : T :=
    if log then aadd A acq (aadd A lp exponent)
    else amul A acq (power (aexp A lp) exponent).
  (** optimizer.py:30-56 (_pibo_exp_term) *)
  Definition pibo_exp_term (n_sampled ndims design : nat) : res T :=
    if Nat.eqb ndims 0 then Err ZeroDivisionError
    else Ok (aexp A (adiv A (aZ A (- (Z.of_nat n_sampled - Z.of_nat design))) (aZ A (Z.of_nat ndims)))).
  (** optimizer.py:186-193, gp.py:347-358, weighted_acquisition.py: the values of the acquisition
      function at the points [x], weighted with the prior unless the exponent is insignificant.
      Simplification: one point at a time (q = 1). *)
  Definition bo_weighted (power : T -> T -> T) (log : bool) (prior : list dist) (domains : list (domain T))
    (insignificant : T) (exponent : T) (x : list row) (acq : list T) : res (list T) :=
    if altb A exponent insignificant then Ok acq
    else bind (log_prob prior (length domains) x (inr domains)) (fun lps =>
         Ok (map (fun al => pibo_weight power log exponent (fst al) (snd al)) (combine acq lps))).
End Priors.
Arguments dist T : clear implicits. Arguments tnorm T : clear implicits.
Arguments DUnit {T}. Arguments DCat {T}. Arguments DTrunc {T}.
