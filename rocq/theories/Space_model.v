(** Search spaces and configurations (neps/search_spaces/search_space.py), what is done with
    them in neps/optimizers/multi_fidelity_prior/utils.py, and grid search and random search
    (neps/optimizers/grid_search/optimizer.py, neps/optimizers/random_search/optimizer.py).

    A space is a list of named parameters (a dict in the order of the names); a configuration
    is a space whose parameters have values.  Graph parameters and tabular spaces are not
    modelled.  Random draws are functions of the name of the parameter and of the number of
    the attempt.  Methods that change objects in place return the changed space; the state
    after such a method has raised is not modelled. *)
From Verif Require Export Param_model.
From Coq Require Import DecimalString.
Open Scope nat_scope.
Local Notation length := List.length.

Section Space.
  Context {T : Type} (A : arith T).

  (** hyperparameters/*.py: the kinds of parameters *)
  Inductive param : Type := PF (p : fparam T) | PI (p : iparam T) | PC (p : cparam) | PK (p : kparam).

  (** parameter.py:62-75: is_fidelity (categorical.py:83, constant.py:49: never for these) *)
  Definition p_fid (p : param) : bool :=
    match p with PF p => fp_fid p | PI p => ip_fid p | _ => false end.
  (** parameter.py:208-230: has_prior, of a ParameterWithPrior *)
  Definition p_prior (p : param) : bool :=
    match p with PF p => fp_prior p | PI p => ip_prior p | PC p => cp_prior p | PK _ => false end.
  (** parameter.py:77-80, constant.py:57-60: [value] *)
  Definition p_value (p : param) : option (hval T) :=
    match p with
    | PF p => opt_map HN (fp_value p)
    | PI p => opt_map (fun z => HN (aZ A z)) (ip_value p)
    | PC p => opt_map HC (cp_value p)
    | PK p => Some (HC (kp_value p))
    end.
  (** parameter.py:62-75: [default] *)
  Definition p_default (p : param) : option (hval T) :=
    match p with
    | PF p => opt_map HN (fp_default p)
    | PI p => opt_map (fun z => HN (aZ A z)) (ip_default p)
    | PC p => opt_map HC (cp_default p)
    | PK p => Some (HC (kp_default p))
    end.
  Definition pair_res {P} (f : P -> param) (r : P * res unit) : res param :=
    bind (then_ok r) (fun q => Ok (f q)).
  (** [set_value]; a value of the wrong type raises *)
  Definition p_set (p : param) (v : option (hval T)) : res param :=
    match p, v with
    | PF p, None => pair_res PF (f_set_value A p None)
    | PF p, Some (HN x) => pair_res PF (f_set_value A p (Some x))
    | PI p, None => pair_res PI (i_set_value A p None)
    | PI p, Some (HN x) => pair_res PI (i_set_value A p (Some x))
    | PC p, None => pair_res PC (c_set_value p None)
    | PC p, Some (HC x) => pair_res PC (c_set_value p (Some x))
    | PK p, Some (HC x) => pair_res PK (k_set_value p x)
    | PK p, None => pair_res PK (k_set_value p VNone)
    | _, _ => Err TypeError
    end.
  (** [set_default] *)
  Definition p_set_default (p : param) (v : option (hval T)) : res param :=
    match p, v with
    | PF p, None => pair_res PF (f_set_default A p None)
    | PF p, Some (HN x) => pair_res PF (f_set_default A p (Some x))
    | PI p, None => pair_res PI (i_set_default A p None)
    | PI p, Some (HN x) => pair_res PI (i_set_default A p (Some x))
    | PC p, None => pair_res PC (c_set_default p None)
    | PC p, Some (HC x) => pair_res PC (c_set_default p (Some x))
    | PK p, Some (HC x) => pair_res PK (k_set_default p x)
    | PK p, None => pair_res PK (k_set_default p VNone)
    | _, _ => Err TypeError
    end.
  (** [set_default_confidence_score], of a ParameterWithPrior *)
  Definition p_set_confidence (p : param) (c : string) : res param :=
    match p with
    | PF p => pair_res PF (f_set_confidence p c)
    | PI p => pair_res PI (i_set_confidence p c)
    | PC p => pair_res PC (c_set_confidence p c)
    | PK p => Ok (PK p)
    end.
  (** [load_from]: parameter.py:198-205; integer.py:114-115 ([np.rint(None)] raises) *)
  Definition p_load (p : param) (v : option (hval T)) : res param :=
    match p, v with
    | PI p, Some (HN x) => pair_res PI (i_load A p x)
    | PI _, _ => Err TypeError
    | _, _ => p_set p v
    end.
  (** [clone]; constant.py:53-54 *)
  Definition p_clone (p : param) : res param :=
    match p with
    | PF p => bind (f_clone A p) (fun q => Ok (PF q))
    | PI p => bind (i_clone A p) (fun q => Ok (PI q))
    | PC p => bind (c_clone p) (fun q => Ok (PC q))
    | PK p => Ok (PK (constant_parameter (kp_value p)))
    end.

  (** What is drawn: a number, an index, or numbers for neighbours. *)
  Inductive draw : Type := DNum (x : T) | DIdx (n : nat) | DNums (xs : list T).
  (** [sample]: parameter.py:271-289, 152-160; constant.py:72-73 *)
  Definition p_sample (p : param) (d : draw) : res param :=
    match p, d with
    | PF p, DNum x => bind (f_sample A p x) (fun q => Ok (PF q))
    | PI p, DNum x => bind (i_sample A p x) (fun q => Ok (PI q))
    | PC p, DIdx n => bind (c_sample p n) (fun q => Ok (PC q))
    | PK p, _ => bind (p_clone (PK p)) (fun q => p_set q (Some (HC (kp_value p))))
    | _, _ => Err TypeError
    end.
  (** [mutate(parent=None, mutation_strategy="local_search")] *)
  Definition p_mutate (p : param) (d : draw) : res param :=
    match p, d with
    | PF p, DNums xs => bind (f_mutate A p None LocalSearch (aZ A 0) xs) (fun q => Ok (PF q))
    | PI p, DNums xs => bind (i_mutate A p None LocalSearch (aZ A 0) xs) (fun q => Ok (PI q))
    | PC p, DIdx n => bind (c_mutate p None LocalSearch n) (fun q => Ok (PC q))
    | PK _, _ => Err AttributeError
    | _, _ => Err TypeError
    end.
  (** [crossover(other)]; the other one is of the same kind *)
  Definition p_crossover (p q : param) (d : draw) : res (param * param) :=
    match p, q, d with
    | PF p, PF q, DNums xs => bind (f_crossover A p q None xs) (fun r => Ok (PF (fst r), PF (snd r)))
    | PI p, PI q, DNums xs => bind (i_crossover A p q None xs) (fun r => Ok (PI (fst r), PI (snd r)))
    | PC p, PC q, _ => bind (c_crossover p q None) (fun r => Ok (PC (fst r), PC (snd r)))
    | _, _, _ => Err TypeError
    end.
  (** parameter.py:292-293: isinstance(hp, MutatableParameter) *)
  Definition mutatable (p : param) : bool := match p with PK _ => false | _ => true end.

  (** ** SearchSpace *)
  Definition space : Type := list (string * param).
  Definition s_names (s : space) : list string := map fst s.
  (** The names of the fidelities. *)
  Definition s_fidelities (s : space) : list string := map fst (filter (fun kv => p_fid (snd kv)) s).
  (** search_space.py:192-254; [has_prior] and the maps are functions of the parameters *)
  Definition search_space (l : list (string * param)) : res space :=
    let s := sort_names l in
    match s_fidelities s with
    | _ :: _ :: _ => Err ValueError
    | _ => Ok s
    end.
  Definition s_fidelity (s : space) : option string := hd_error (s_fidelities s).
  Definition s_prior (s : space) : bool := existsb (fun kv => p_prior (snd kv)) s.
  (** search_space.py:236-249 *)
  Definition s_categoricals (s : space) : space := filter (fun kv => match snd kv with PC _ => true | _ => false end) s.
  Definition s_numerical (s : space) : space :=
    filter (fun kv => match snd kv with PF _ | PI _ => negb (p_fid (snd kv)) | _ => false end) s.
  (** search_space.py:553-558 *)
  Definition hp_values (s : space) : list (string * option (hval T)) := map (fun kv => (fst kv, p_value (snd kv))) s.

  Definition each (f : string -> param -> res param) (s : space) : res space :=
    mapM (fun kv => bind (f (fst kv) (snd kv)) (fun q => Ok (fst kv, q))) s.
  (** search_space.py:672-675 *)
  Definition s_clone (s : space) : res space := bind (each (fun _ p => p_clone p) s) search_space.

  (** The first success of at most [n] attempts. *)
  Fixpoint tries {B} (f : nat -> res B) (i n : nat) : option B :=
    match n with
    | O => None
    | S n' => match f i with Ok b => Some b | Err _ => tries f (S i) n' end
    end.
  (** search_space.py:328-374 *)
  Definition s_sample (s : space) (ignore_fidelity : bool) (patience : nat) (draws : string -> nat -> draw) : res space :=
    bind (each (fun name p =>
            if p_fid p && ignore_fidelity then p_clone p
            else match tries (fun i => p_sample p (draws name i)) 0 patience with
                 | Some q => Ok q
                 | None => Err ValueError
                 end) s) search_space.

  (** search_space.py:687-724 *)
  Definition s_sample_default (s : space) (ignore_fidelity ignore_missing : bool) (patience : nat) (draws : string -> nat -> draw)
    : res space :=
    bind (s_sample s ignore_fidelity patience draws) (fun c =>
    fold_left (fun c kv =>
      bind c (fun c =>
      if p_fid (snd kv) && ignore_fidelity then Ok c
      else match p_default (snd kv) with
           | None => if ignore_missing then Ok c else Err ValueError
           | Some d => match lookup (fst kv) c with
                       | None => Err KeyError
                       | Some p => bind (p_set p (Some d)) (fun q => Ok (set_key (fst kv) q c))
                       end
           end)) s (Ok c)).

  (** search_space.py:649-658 *)
  Definition s_serialize (s : space) : res (list (string * hval T)) :=
    mapM (fun kv => match p_value (snd kv) with Some v => Ok (fst kv, v) | None => Err ValueError end) s.
  (** search_space.py:660-670 *)
  Definition s_from_dict (s : space) (config : list (string * option (hval T))) : res space :=
    bind (s_clone s) (fun new =>
    fold_left (fun c kv =>
      bind c (fun c =>
      match lookup (fst kv) c with
      | None => Err KeyError
      | Some p => bind (p_load p (snd kv)) (fun q => Ok (set_key (fst kv) q c))
      end)) config (Ok new)).
  (** search_space.py:560-565 *)
  Definition s_set_to_max_fidelity (s : space) : res space :=
    match s_fidelity s with
    | None => Err ValueError
    | Some name =>
        match lookup name s with
        | Some (PF p) => bind (p_set (PF p) (Some (HN (fp_upper p)))) (fun q => Ok (set_key name q s))
        | Some (PI p) => bind (p_set (PI p) (Some (HN (aZ A (ip_upper p))))) (fun q => Ok (set_key name q s))
        | _ => Err ValueError
        end
    end.
  (** search_space.py:726-730 *)
  Definition s_set_defaults (s : space) : res space :=
    each (fun _ p => match p with PF _ | PI _ => p_set_default p (p_value p) | _ => Ok p end) s.
  (** search_space.py:732-810; [None] among the new values is a value too *)
  Definition s_set_from_dict (s : space) (new : list (string * option (hval T))) (defaults values : bool) (confidence : string)
      (delete_defaults delete_values overwrite_constants : bool) : res space :=
    if negb values && negb defaults then Err ValueError
    else each (fun name p =>
      match lookup name new with
      | None => Ok p
      | Some v =>
          match p with
          | PK k =>
              if negb overwrite_constants then Ok p
              else if negb (defaults && values) then Err ValueError
              else match v with
                   | Some (HC x) => Ok (PK (k_set_constant k x))
                   | None => Ok (PK (k_set_constant k VNone))
                   | Some (HN _) => Err TypeError
                   end
          | _ =>
              bind (if delete_defaults then p_set_default p None else Ok p) (fun p =>
              bind (if delete_values then p_set p None else Ok p) (fun p =>
              bind (if defaults then bind (p_set_default p v) (fun p => p_set_confidence p confidence) else Ok p) (fun p =>
              if values then p_set p v else Ok p)))
          end
      end) s.

  (** ** Mutation and crossover *)
  (** search_space.py:413-438 with [parent=None]; [picks]: the index that np.random.choice
      gives.  Running out of draws counts as a failed attempt. *)
  Definition s_mutatable (s : space) : space := filter (fun kv => negb (p_fid (snd kv)) && mutatable (snd kv)) s.
  Fixpoint smbo (s : space) (picks : nat -> nat) (draws : nat -> draw) (i n : nat) : res space :=
    match n with
    | O => Err ValueError
    | S n' =>
        match nth_error (s_mutatable s) (picks i) with
        | None => Err ValueError
        | Some (name, p) =>
            match p_mutate p (draws i) with
            | Err _ => smbo s picks draws (S i) n'
            | Ok q => bind (each (fun k p => if String.eqb k name then Ok q else p_clone p) s) search_space
            end
        end
    end.
  (** search_space.py:376-409 *)
  Definition s_mutate (s : space) (patience : nat) (picks : nat -> nat) (draws : nat -> draw) : res space :=
    bind (smbo s picks draws 0 patience) search_space.
  (** search_space.py:376-438 with a parent: every parameter compares its child's value to
      [parent.value], which a SearchSpace does not have. *)
  Fixpoint smbo_parent (s : space) (picks : nat -> nat) (i n : nat) : res space :=
    match n with
    | O => Err ValueError
    | S n' => match nth_error (s_mutatable s) (picks i) with None => Err ValueError | Some _ => smbo_parent s picks (S i) n' end
    end.

  (** search_space.py:474-503; [coins]: whether the draw is below the probability.  A parameter
      whose attempts all fail is left out. *)
  Fixpoint simple_crossover (s other : space) (patience : nat) (coins : string -> bool) (draws : string -> nat -> draw)
    : res (list (string * param) * list (string * param)) :=
    match s with
    | [] => Ok ([], [])
    | (k, p) :: s' =>
        match lookup k other with
        | None => Err KeyError
        | Some q =>
            bind (if mutatable p && negb (p_fid p) && coins k then
                    match tries (fun i => p_crossover p q (draws k i)) 0 patience with
                    | Some (a, b) => Ok ([(k, a)], [(k, b)])
                    | None => Ok ([], [])
                    end
                  else bind (p_clone p) (fun a => bind (p_clone q) (fun b => Ok ([(k, a)], [(k, b)]))))
              (fun hd => bind (simple_crossover s' other patience coins draws) (fun tl =>
                 Ok (fst hd ++ fst tl, snd hd ++ snd tl)))
        end
    end.
  (** search_space.py:440-472; [raise Exception] is RuntimeError here *)
  Definition s_crossover (s other : space) (patience : nat) (coins : string -> bool) (draws : string -> nat -> draw)
    : res (space * space) :=
    bind (simple_crossover s other patience coins draws) (fun r =>
    if negb (Nat.eqb (length s) (length (fst r))) then Err RuntimeError
    else bind (search_space (fst r)) (fun a => bind (search_space (snd r)) (fun b => Ok (a, b)))).

  (** ** Comparing configurations *)
  (** 10^8 *)
  Definition decimals : T := aZ A 100000000.
  (** [np.round(a - b, 8) != 0] *)
  Definition rounds_apart (a b : T) : bool :=
    negb (aeqb A (adiv A (arint A (amul A (asub A a b) decimals)) decimals) (aZ A 0)).
  (** [isinstance(v, float)] *)
  Definition is_float (v : option pyval) : bool := match v with Some (VFloat _) => true | _ => false end.
  (** search_space.py:853-863: whether two parameters of the same name count as equal *)
  Definition p_equal (p q : param) : res bool :=
    match p, q with
    | PF p, PF q =>
        match fp_value p with
        | Some x => bind (f_to_norm A p x) (fun a =>
                    match fp_value q with
                    | Some y => bind (f_to_norm A q y) (fun b => Ok (negb (rounds_apart a b)))
                    | None => Err TypeError
                    end)
        | None => Ok (match fp_value q with None => true | Some _ => false end)
        end
    | PI p, PI q => Ok (opt_eqb Z.eqb (ip_value p) (ip_value q))
    | PC p, PC q =>
        if is_float (cp_value p) then
          match cp_value p, cp_value q with
          | Some x, Some y =>
              match index_of x (cp_choices p), index_of y (cp_choices q) with
              | Some i, Some j => Ok (Nat.eqb i j)
              | _, _ => Err ValueError
              end
          | _, _ => Err ValueError
          end
        else Ok (opt_py_eqb (cp_value p) (cp_value q))
    | PK p, PK q => if is_float (Some (kp_value p)) then Ok (py_eqb (kp_value p) (kp_value p) && py_eqb (kp_value q) (kp_value q)
                                                             || negb (py_eqb (kp_value p) (kp_value p)) && negb (py_eqb (kp_value q) (kp_value q)))
                    else Ok (py_eqb (kp_value p) (kp_value q))
    | _, _ => Ok false
    end.
  (** search_space.py:849-865 *)
  Fixpoint equal_loop (s other : space) (include_fidelity : bool) : res bool :=
    match s with
    | [] => Ok true
    | (k, p) :: s' =>
        if p_fid p && negb include_fidelity then equal_loop s' other include_fidelity
        else match lookup k other with
             | None => Err KeyError
             | Some q => bind (p_equal p q) (fun b => if b then equal_loop s' other include_fidelity else Ok false)
             end
    end.
  (** search_space.py:824-865; the names are sorted in both *)
  Definition is_equal_value (s other : space) (include_fidelity : bool) : res bool :=
    if negb (list_eqb String.eqb (s_names s) (s_names other)) then Ok false
    else equal_loop s other include_fidelity.

  (** ** multi_fidelity_prior/utils.py *)
  (** utils.py:40-72 (local_mutation), one attempt: [coins]: whether the draw is at most the
      mutation rate *)
  Definition mutate_once (c : space) (categoricals : bool) (coins : string -> bool) (draws : string -> draw) : res space :=
    bind (each (fun k p =>
            if p_fid p || negb (coins k) then p_clone p
            else match p with
                 | PC _ => if categoricals then p_mutate p (draws k) else p_clone p
                 | PF _ | PI _ => p_mutate p (draws k)
                 | PK _ => p_clone p
                 end) c) search_space.
  (** utils.py:29-73 *)
  Fixpoint local_mutation (c : space) (categoricals : bool) (coins : nat -> string -> bool) (draws : nat -> string -> draw) (i n : nat)
    : res space :=
    match n with
    | O => s_clone c
    | S n' =>
        bind (mutate_once c categoricals (coins i) (draws i)) (fun new =>
        bind (is_equal_value c new false) (fun e =>
        if e then local_mutation c categoricals coins draws (S i) n' else Ok new))
    end.
  (** utils.py:87-91, one attempt *)
  Definition cross_once (c1 c2 : space) (coins : string -> bool) : res space :=
    bind (s_clone c1) (fun child =>
    each (fun k p =>
      if negb (p_fid p) && coins k then
        match lookup k c2 with None => Err KeyError | Some q => p_set p (p_value q) end
      else Ok p) child).
  (** utils.py:76-103 (custom_crossover) *)
  Fixpoint crossover_loop (c1 c2 : space) (coins : nat -> string -> bool) (i n : nat) : res (option space) :=
    match n with
    | O => Ok None
    | S n' =>
        bind (cross_once c1 c2 (coins i)) (fun child =>
        bind (is_equal_value child c1 true) (fun e =>
        if e then crossover_loop c1 c2 coins (S i) n' else bind (search_space child) (fun s => Ok (Some s))))
    end.
  Definition custom_crossover (c1 c2 : space) (coins : nat -> string -> bool) (draws : string -> nat -> draw) (patience : nat) : res space :=
    bind (crossover_loop c1 c2 coins 0 patience) (fun r =>
    match r with Some s => Ok s | None => s_sample c1 true patience draws end).

  (** ** Grids *)
  (** numpy.linspace(0, 1, num=n, endpoint=e) *)
  Definition linspace (n : nat) (endpoint : bool) : list T :=
    let div := if endpoint then n - 1 else n in
    let step := adiv A (aZ A 1) (aZ A (Z.of_nat div)) in
    map (fun i =>
      if Nat.eqb div 0 then aadd A (amul A (aZ A (Z.of_nat i)) (aZ A 1)) (aZ A 0)
      else if endpoint && Nat.ltb 1 n && Nat.eqb i (n - 1) then aZ A 1
      else aadd A (amul A (aZ A (Z.of_nat i)) step) (aZ A 0)) (seq 0 n).
  (** numerical.py:250-269, search_space.py:606-633: the grid of one parameter; the clipped and
      deduplicated grid is computed and not used *)
  Definition p_grid (p : param) (size : nat) (endpoint : bool) : res (list (hval T)) :=
    match p with
    | PC p => Ok (map HC (cp_choices p))
    | PK p => Ok [HC (kp_value p)]
    | PF p => mapM (fun x => bind (f_of_norm A p x) (fun v => Ok (HN v))) (linspace size endpoint)
    | PI p => mapM (fun x => bind (i_of_norm A p x) (fun z => Ok (HN (aZ A z)))) (linspace size endpoint)
    end.
  (** itertools.product *)
  Fixpoint product {B} (ls : list (list B)) : list (list B) :=
    match ls with
    | [] => [[]]
    | l :: ls' => flat_map (fun x => map (cons x) (product ls')) l
    end.
  (** search_space.py:567-647: the values of the configurations of constants; the names are
      sorted again by the constructor *)
  Definition s_grid (s : space) (size : nat) (endpoint : bool) : res (list (list (string * hval T))) :=
    bind (mapM (fun kv => p_grid (snd kv) size endpoint) s) (fun ranges =>
    Ok (map (fun vs => sort_names (combine (s_names s) vs)) (product ranges))).
End Space.
Arguments param T : clear implicits. Arguments space T : clear implicits. Arguments draw T : clear implicits.

(** ** Grid search and random search *)
(** [str(n)] *)
Definition py_str_nat (n : nat) : string := NilZero.string_of_uint (Nat.to_uint n).
(** SampledConfig (base_optimizer.py:72-76) *)
Record sampled (C : Type) : Type := mkSampled { sc_config : C; sc_id : string; sc_previous : option string }.
Arguments mkSampled {C}. Arguments sc_config {C}. Arguments sc_id {C}. Arguments sc_previous {C}.

(** grid_search/optimizer.py:32-44; [shuffled]: the positions in the order of
    [rng.sample(configs, len(configs))], [n]: the number of trials *)
Definition grid_ask {C} (configs : list C) (shuffled : list nat) (n : nat) : res (sampled C) :=
  if Nat.ltb n (length configs) then
    match nth_error shuffled n with
    | None => Err IndexError
    | Some i => match nth_error configs i with None => Err IndexError | Some c => Ok (mkSampled c (py_str_nat n) None) end
    end
  else Err ValueError.
(** random_search/optimizer.py:46-62 *)
Definition random_ask {T} (A : arith T) (s : space T) (ignore_fidelity : bool) (patience : nat) (draws : string -> nat -> draw T) (n : nat)
  : res (sampled (list (string * option (hval T)))) :=
  bind (s_sample A s ignore_fidelity patience draws) (fun c => Ok (mkSampled (hp_values A c) (py_str_nat (n + 1)) None)).
(** bayesian_optimization/optimizer.py:141-218: the configuration of the initial design or of
    the model ([design] has been made before); [model]: what the model proposes, or raises *)
Definition bo_ask {C} (design : list C) (model : res C) (n : nat) : res (sampled C) :=
  match nth_error design n with
  | Some c => Ok (mkSampled c (py_str_nat (n + 1)) None)
  | None => bind model (fun c => Ok (mkSampled c (py_str_nat (n + 1)) None))
  end.
