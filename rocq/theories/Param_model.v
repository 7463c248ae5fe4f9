(** Hyperparameters (neps/search_spaces/hyperparameters/float.py, integer.py, numerical.py,
    categorical.py, constant.py and neps/search_spaces/parameter.py).

    The numbers have the type [T] of the arithmetic (Dom_model); a Python integer given as a
    value is one of these numbers, the bounds and the value of an integer parameter are [Z].
    Methods that change the object return the object afterwards, also when they raise.
    Random draws are arguments.  Type errors (strings for numbers, truth values that are not)
    and tblogger settings are not modelled. *)
From Verif Require Export Enc_model.
Open Scope nat_scope.
Local Notation length := List.length.

(** float.py:41-45, integer.py:37-41, categorical.py:49-53, numerical.py:118: the confidences
    there are *)
Definition confidences : list string := ["low"; "medium"; "high"]%string.
Definition known (c : string) : bool := existsb (String.eqb c) confidences.

Definition opt_map {A B} (f : A -> B) (x : option A) : option B :=
  match x with Some a => Some (f a) | None => None end.
Definition is_some {A} (x : option A) : bool := match x with Some _ => true | None => false end.

Section Param.
  Context {T : Type} (A : arith T).

  (** [x <= y] *)
  Definition ale (x y : T) : bool := altb A x y || aeqb A x y.
  (** Python's [max(a, b)] and [min(a, b)]: the first one unless the second is better *)
  Definition py_max (a b : T) : T := if altb A a b then b else a.
  Definition py_min (a b : T) : T := if altb A b a then b else a.
  (** [int(np.rint(x))]; NaN and infinities raise (OverflowError for infinities) *)
  Definition round_int (x : T) : res Z :=
    match aint A (arint A x) with Some z => Ok z | None => Err ValueError end.
  Definition opt_T_eqb (x y : option T) : bool := opt_eqb (aeqb A) x y.

  (** ** FloatParameter *)
  (** numerical.py:134-153, parameter.py:62-75: the attributes *)
  Record fparam : Type := mkF {
    fp_lower : T; fp_upper : T; fp_log : bool; fp_fid : bool;
    fp_default : option T;
    fp_conf : string;                   (* default_confidence_choice *)
    fp_score : string;                  (* the choice whose score default_confidence_score is *)
    fp_value : option T; fp_norm : option T;
    fp_prior : bool;                    (* has_prior *)
    fp_lb : option (T * T);             (* log_bounds *)
    fp_ld : option T;                   (* log_default *)
    fp_dom : domain T }.

  (** float.py:47-76, numerical.py:97-153 *)
  Definition float_parameter (l u : T) (log fid : bool) (default : option T) (conf : string) : res fparam :=
    bind (floating A l u log None false) (fun d =>
    if ale u l then Err ValueError
    else if log && (ale l (aZ A 0) || ale u (aZ A 0)) then Err ValueError
    else if match default with Some x => negb (ale l x && ale x u) | None => false end then Err ValueError
    else if negb (known conf) then Err ValueError
    else Ok (mkF l u log fid default conf conf None None (is_some default)
               (if log then Some (aln A l, aln A u) else None)
               (if log then opt_map (aln A) default else None) d)).

  (** float.py:154-162; the bounds are those of the logarithms, which were asserted to exist *)
  Definition f_bounds (p : fparam) : res (T * T) :=
    if fp_log p then match fp_lb p with Some b => Ok b | None => Err AssertionError end
    else Ok (fp_lower p, fp_upper p).
  Definition f_to_norm (p : fparam) (x : T) : res T :=
    bind (f_bounds p) (fun b =>
    let x := if fp_log p then aln A x else x in
    Ok (adiv A (asub A x (fst b)) (asub A (snd b) (fst b)))).
  (** float.py:165-174 *)
  Definition f_of_norm (p : fparam) (n : T) : res T :=
    bind (f_bounds p) (fun b =>
    let x := aadd A (amul A n (asub A (snd b) (fst b))) (fst b) in
    Ok (if fp_log p then aexp A x else x)).

  Definition f_with_value (p : fparam) (v n : option T) : fparam :=
    mkF (fp_lower p) (fp_upper p) (fp_log p) (fp_fid p) (fp_default p) (fp_conf p) (fp_score p) v n
        (fp_prior p) (fp_lb p) (fp_ld p) (fp_dom p).
  (** float.py:115-131 *)
  Definition f_set_value (p : fparam) (v : option T) : fparam * res unit :=
    match v with
    | None => (f_with_value p None None, Ok tt)
    | Some x =>
        if negb (ale (fp_lower p) x && ale x (fp_upper p)) then (p, Err ValueError)
        else match f_to_norm p x with
             | Ok n => (f_with_value p (Some x) (Some n), Ok tt)
             | Err e => (f_with_value p (Some x) (fp_norm p), Err e)
             end
    end.
  (** float.py:94-112 *)
  Definition f_set_default (p : fparam) (v : option T) : fparam * res unit :=
    match v with
    | None =>
        (mkF (fp_lower p) (fp_upper p) (fp_log p) (fp_fid p) None (fp_conf p) (fp_score p) (fp_value p) (fp_norm p)
             false (fp_lb p) None (fp_dom p), Ok tt)
    | Some x =>
        if negb (ale (fp_lower p) x && ale x (fp_upper p)) then (p, Err ValueError)
        else (mkF (fp_lower p) (fp_upper p) (fp_log p) (fp_fid p) (Some x) (fp_conf p) (fp_score p) (fp_value p)
                  (fp_norm p) true (fp_lb p) (if fp_log p then Some (aln A x) else fp_ld p) (fp_dom p), Ok tt)
    end.
  (** parameter.py:251-269 *)
  Definition f_set_confidence (p : fparam) (c : string) : fparam * res unit :=
    if known c then
      (mkF (fp_lower p) (fp_upper p) (fp_log p) (fp_fid p) (fp_default p) (fp_conf p) c (fp_value p) (fp_norm p)
           (fp_prior p) (fp_lb p) (fp_ld p) (fp_dom p), Ok tt)
    else (p, Err ValueError).
  (** numerical.py:276-279 and parameter.py:198-205: a stored value is loaded as it is set *)
  Definition f_load (p : fparam) (x : T) : fparam * res unit := f_set_value p (Some x).

  Definition then_ok {P} (r : P * res unit) : res P := match snd r with Ok _ => Ok (fst r) | Err e => Err e end.
  (** float.py:79-91 *)
  Definition f_clone (p : fparam) : res fparam :=
    bind (float_parameter (fp_lower p) (fp_upper p) (fp_log p) (fp_fid p) (fp_default p) (fp_conf p)) (fun c =>
    match fp_value p with None => Ok c | Some x => then_ok (f_set_value c (Some x)) end).

  (** float.py:134-151; [draw] is the uniform draw between the (logarithms of the) bounds or
      the draw from the prior *)
  Definition f_sample_value (p : fparam) (draw : T) : T :=
    let x := if fp_log p then aexp A draw else draw in
    py_min (fp_upper p) (py_max (fp_lower p) x).
  (** parameter.py:271-289 *)
  Definition f_sample (p : fparam) (draw : T) : res fparam :=
    let x := f_sample_value p draw in
    bind (f_clone p) (fun c => then_ok (f_set_value c (Some x))).

  (** float.py:177-201; [draws]: the draws from the normal distribution around the value *)
  Fixpoint f_neighbour_loop (p : fparam) (n : nat) (draws : list T) : res (list fparam) :=
    match n, draws with
    | O, _ => Ok []
    | S _, [] => Err OutOfFuel
    | S n', x :: draws' =>
        if altb A x (aZ A 0) || altb A (aZ A 1) x then f_neighbour_loop p n draws'
        else bind (f_of_norm p x) (fun v =>
             bind (f_clone p) (fun c =>
             bind (then_ok (f_set_value c (Some v))) (fun q =>
             bind (f_neighbour_loop p n' draws') (fun l => Ok (q :: l)))))
    end.
  Definition f_neighbours (p : fparam) (n : nat) (draws : list T) : res (list fparam) :=
    match fp_value p with
    | None => Err AssertionError
    | Some x => bind (f_to_norm p x) (fun _ => f_neighbour_loop p n draws)
    end.

  (** Strategies of [mutate] *)
  Inductive strategy : Type := Simple | LocalSearch | OtherStrategy.
  Definition first {B} (l : list B) : res B := match l with x :: _ => Ok x | [] => Err IndexError end.
  (** numerical.py:185-211; [parent]: the value of the parent if one is given.  With "simple",
      [child.sample()] returns another object, which is dropped. *)
  Definition f_mutate (p : fparam) (parent : option fparam) (s : strategy) (draw : T) (draws : list T) : res fparam :=
    if fp_fid p then Err ValueError
    else
      let parent := match parent with Some q => q | None => p end in
      bind (match s with
            | Simple => bind (f_clone p) (fun c => bind (f_sample c draw) (fun _ => Ok c))
            | LocalSearch => bind (f_neighbours p 1 draws) first
            | OtherStrategy => Err NotImplementedError
            end) (fun child =>
      if opt_T_eqb (fp_value parent) (fp_value child) then Err ValueError else Ok child).

  (** numerical.py:214-231 *)
  Definition f_crossover (p p1 : fparam) (p2 : option fparam) (draws : list T) : res (fparam * fparam) :=
    if fp_fid p then Err ValueError
    else
      let p2 := match p2 with Some q => q | None => p end in
      match fp_value p1, fp_value p2 with
      | Some x, Some y =>
          bind (f_clone p) (fun c =>
          bind (then_ok (f_set_value c (Some (adiv A (aadd A x y) (aZ A 2))))) (fun c =>
          bind (f_neighbours c 2 draws) (fun l =>
          match l with [a; b] => Ok (a, b) | _ => Err AssertionError end)))
      | _, _ => Err AssertionError
      end.

  (** numerical.py:156-168 ([==]) *)
  Definition f_eqb (p q : fparam) : bool :=
    aeqb A (fp_lower p) (fp_lower q) && aeqb A (fp_upper p) (fp_upper q) && Bool.eqb (fp_log p) (fp_log q)
    && Bool.eqb (fp_fid p) (fp_fid q) && opt_T_eqb (fp_value p) (fp_value q)
    && opt_T_eqb (fp_default p) (fp_default q) && String.eqb (fp_score p) (fp_score q).

  (** numerical.py:172-178, 233-242: the centre of the prior *)
  Definition f_prior_centre (p : fparam) : option T := if fp_log p then fp_ld p else fp_default p.

  (** ** IntegerParameter *)
  Record iparam : Type := mkI {
    ip_lower : Z; ip_upper : Z; ip_log : bool; ip_fid : bool;
    ip_default : option Z; ip_conf : string; ip_score : string;
    ip_value : option Z; ip_norm : option T; ip_prior : bool;
    ip_ld : option T;                   (* log_default *)
    ip_float : fparam; ip_dom : domain T }.

  (** integer.py:88-89: 0.499999 *)
  Definition nearly_half : T := adiv A (aZ A 499999) (aZ A 1000000).
  (** [lower <= value <= upper] for integer bounds *)
  Definition z_within (l u : Z) (x : T) : bool := ale (aZ A l) x && ale x (aZ A u).

  Definition res_opt_map {B C} (f : B -> res C) (x : option B) : res (option C) :=
    match x with None => Ok None | Some a => bind (f a) (fun b => Ok (Some b)) end.

  (** integer.py:46-93, numerical.py:97-153 *)
  Definition integer_parameter (l u : T) (log fid : bool) (default : option T) (conf : string) : res iparam :=
    bind (round_int l) (fun lz => bind (round_int u) (fun uz =>
    if Z.leb (uz - lz + 1) 1 then Err ValueError
    else
    bind (res_opt_map round_int default) (fun dz =>
    bind (integer A (aZ A lz) (aZ A uz) log None false) (fun d =>
    if Z.leb uz lz then Err ValueError
    else if log && (Z.leb lz 0 || Z.leb uz 0) then Err ValueError
    else if match dz with Some z => negb (Z.leb lz z && Z.leb z uz) | None => false end then Err ValueError
    else if negb (known conf) then Err ValueError
    else
    bind (float_parameter (asub A (aZ A lz) nearly_half) (aadd A (aZ A uz) nearly_half) log fid default conf) (fun f =>
    Ok (mkI lz uz log fid dz conf conf None None (is_some dz)
          (if log then opt_map (fun z => aln A (aZ A z)) dz else None) f d)))))).

  Definition i_with (p : iparam) (v : option Z) (n : option T) (f : fparam) : iparam :=
    mkI (ip_lower p) (ip_upper p) (ip_log p) (ip_fid p) (ip_default p) (ip_conf p) (ip_score p) v n
        (ip_prior p) (ip_ld p) f (ip_dom p).
  (** integer.py:157-158 *)
  Definition i_to_norm (p : iparam) (z : Z) : res T := f_to_norm (ip_float p) (aZ A z).
  (** integer.py:161-162 *)
  Definition i_of_norm (p : iparam) (n : T) : res Z := bind (f_of_norm (ip_float p) n) round_int.
  (** integer.py:130-149 *)
  Definition i_set_value (p : iparam) (v : option T) : iparam * res unit :=
    match v with
    | None => (i_with p None None (fst (f_set_value (ip_float p) None)), Ok tt)
    | Some x =>
        if negb (z_within (ip_lower p) (ip_upper p) x) then (p, Err ValueError)
        else match round_int x with
             | Err e => (p, Err e)
             | Ok z =>
                 match f_set_value (ip_float p) (Some (aZ A z)) with
                 | (f, Err e) => (i_with p (ip_value p) (ip_norm p) f, Err e)
                 | (f, Ok _) =>
                     match i_to_norm (i_with p (Some z) (ip_norm p) f) z with
                     | Ok n => (i_with p (Some z) (Some n) f, Ok tt)
                     | Err e => (i_with p (Some z) (ip_norm p) f, Err e)
                     end
                 end
             end
    end.
  Definition i_set_int (p : iparam) (z : option Z) : iparam * res unit := i_set_value p (opt_map (aZ A) z).

  Definition i_with_default (p : iparam) (d : option Z) (prior : bool) (f : fparam) : iparam :=
    mkI (ip_lower p) (ip_upper p) (ip_log p) (ip_fid p) d (ip_conf p) (ip_score p) (ip_value p) (ip_norm p)
        prior (ip_ld p) f (ip_dom p).
  (** integer.py:118-127; [int(round(x))] *)
  Definition i_set_default (p : iparam) (v : option T) : iparam * res unit :=
    match v with
    | None => (i_with_default p None false (fst (f_set_default (ip_float p) None)), Ok tt)
    | Some x =>
        match round_int x with
        | Err e => (p, Err e)
        | Ok z => let '(f, r) := f_set_default (ip_float p) (Some (aZ A z)) in (i_with_default p (Some z) true f, r)
        end
    end.
  (** integer.py:165-167 *)
  Definition i_set_confidence (p : iparam) (c : string) : iparam * res unit :=
    let '(f, r) := f_set_confidence (ip_float p) c in
    match r with
    | Err e => (i_with p (ip_value p) (ip_norm p) f, Err e)
    | Ok _ => (mkI (ip_lower p) (ip_upper p) (ip_log p) (ip_fid p) (ip_default p) (ip_conf p) c (ip_value p) (ip_norm p)
                   (ip_prior p) (ip_ld p) f (ip_dom p), Ok tt)
    end.
  (** integer.py:114-115 *)
  Definition i_load (p : iparam) (x : T) : iparam * res unit :=
    match round_int x with
    | Ok z => (i_with p (Some z) (ip_norm p) (ip_float p), Ok tt)
    | Err e => (p, Err e)
    end.

  (** integer.py:99-111 *)
  Definition i_clone (p : iparam) : res iparam :=
    bind (integer_parameter (aZ A (ip_lower p)) (aZ A (ip_upper p)) (ip_log p) (ip_fid p)
            (opt_map (aZ A) (ip_default p)) (ip_conf p)) (fun c =>
    match ip_value p with None => Ok c | Some z => then_ok (i_set_int c (Some z)) end).

  (** integer.py:152-154 *)
  Definition i_sample_value (p : iparam) (draw : T) : res Z := round_int (f_sample_value (ip_float p) draw).
  (** parameter.py:271-289 *)
  Definition i_sample (p : iparam) (draw : T) : res iparam :=
    bind (i_sample_value p draw) (fun z => bind (i_clone p) (fun c => then_ok (i_set_int c (Some z)))).

  (** integer.py:170-196 *)
  Fixpoint i_neighbour_loop (p : iparam) (cur : Z) (n : nat) (draws : list T) : res (list iparam) :=
    match n, draws with
    | O, _ => Ok []
    | S _, [] => Err OutOfFuel
    | S n', x :: draws' =>
        if altb A x (aZ A 0) || altb A (aZ A 1) x then i_neighbour_loop p cur n draws'
        else bind (i_of_norm p x) (fun z =>
             if Z.eqb z cur then i_neighbour_loop p cur n draws'
             else bind (i_clone p) (fun c =>
                  bind (then_ok (i_set_int c (Some z))) (fun q =>
                  bind (i_neighbour_loop p cur n' draws') (fun l => Ok (q :: l)))))
    end.
  Definition i_neighbours (p : iparam) (n : nat) (draws : list T) : res (list iparam) :=
    match ip_value p with
    | None => Err AssertionError
    | Some z => bind (i_to_norm p z) (fun _ => i_neighbour_loop p z n draws)
    end.

  (** numerical.py:185-211 *)
  Definition i_mutate (p : iparam) (parent : option iparam) (s : strategy) (draw : T) (draws : list T) : res iparam :=
    if ip_fid p then Err ValueError
    else
      let parent := match parent with Some q => q | None => p end in
      bind (match s with
            | Simple => bind (i_clone p) (fun c => bind (i_sample c draw) (fun _ => Ok c))
            | LocalSearch => bind (i_neighbours p 1 draws) first
            | OtherStrategy => Err NotImplementedError
            end) (fun child =>
      if opt_eqb Z.eqb (ip_value parent) (ip_value child) then Err ValueError else Ok child).

  (** numerical.py:214-231; the mean of two integers is a float *)
  Definition i_crossover (p p1 : iparam) (p2 : option iparam) (draws : list T) : res (iparam * iparam) :=
    if ip_fid p then Err ValueError
    else
      let p2 := match p2 with Some q => q | None => p end in
      match ip_value p1, ip_value p2 with
      | Some x, Some y =>
          bind (i_clone p) (fun c =>
          bind (then_ok (i_set_value c (Some (adiv A (aZ A (x + y)) (aZ A 2))))) (fun c =>
          bind (i_neighbours c 2 draws) (fun l =>
          match l with [a; b] => Ok (a, b) | _ => Err AssertionError end)))
      | _, _ => Err AssertionError
      end.

  Definition i_eqb (p q : iparam) : bool :=
    Z.eqb (ip_lower p) (ip_lower q) && Z.eqb (ip_upper p) (ip_upper q) && Bool.eqb (ip_log p) (ip_log q)
    && Bool.eqb (ip_fid p) (ip_fid q) && opt_eqb Z.eqb (ip_value p) (ip_value q)
    && opt_eqb Z.eqb (ip_default p) (ip_default q) && String.eqb (ip_score p) (ip_score q).
  (** numerical.py:172-178, 233-242 *)
  Definition i_prior_centre (p : iparam) : option T :=
    if ip_log p then ip_ld p else opt_map (aZ A) (ip_default p).
End Param.
Arguments fparam T : clear implicits. Arguments iparam T : clear implicits.

(** ** CategoricalParameter *)
Record cparam : Type := mkC {
  cp_choices : list pyval;
  cp_default : option pyval; cp_default_index : option nat;
  cp_conf : string; cp_score : string;
  cp_value : option pyval; cp_index : option nat; cp_norm : option nat;
  cp_prior : bool }.

(** [l.index(v)] *)
Fixpoint index_of (v : pyval) (l : list pyval) : option nat :=
  match l with
  | [] => None
  | x :: l' => if py_eqb x v then Some O else option_map S (index_of v l')
  end.
Definition mem (v : pyval) (l : list pyval) : bool := is_some (index_of v l).
(** more_itertools.all_unique *)
Fixpoint all_unique (l : list pyval) : bool :=
  match l with [] => true | x :: l' => negb (existsb (py_eqb x) l') && all_unique l' end.
(** [isinstance(choice, float | int | str)] *)
Definition choice_type (v : pyval) : bool :=
  match v with VBool _ | VInt _ | VFloat _ | VStr _ => true | _ => false end.

(** categorical.py:55-107 *)
Definition categorical_parameter (choices : list pyval) (default : option pyval) (conf : string) : res cparam :=
  if Nat.leb (length choices) 1 then Err ValueError
  else if negb (forallb choice_type choices) then Err TypeError
  else if negb (all_unique choices) then Err ValueError
  else if match default with Some v => negb (mem v choices) | None => false end then Err ValueError
  else if negb (known conf) then Err KeyError
  else Ok (mkC choices default (match default with Some v => index_of v choices | None => None end) conf conf
             None None None (is_some default)).

(** categorical.py:264-273 *)
Definition c_set_value (p : cparam) (v : option pyval) : cparam * res unit :=
  match v with
  | None => (mkC (cp_choices p) (cp_default p) (cp_default_index p) (cp_conf p) (cp_score p) None None None (cp_prior p), Ok tt)
  | Some x =>
      match index_of x (cp_choices p) with
      | None => (mkC (cp_choices p) (cp_default p) (cp_default_index p) (cp_conf p) (cp_score p) (Some x) (cp_index p)
                     (cp_norm p) (cp_prior p), Err ValueError)
      | Some i => (mkC (cp_choices p) (cp_default p) (cp_default_index p) (cp_conf p) (cp_score p) (Some x) (Some i)
                       (Some i) (cp_prior p), Ok tt)
      end
  end.
(** categorical.py:247-261 *)
Definition c_set_default (p : cparam) (v : option pyval) : cparam * res unit :=
  match v with
  | None => (mkC (cp_choices p) None None (cp_conf p) (cp_score p) (cp_value p) (cp_index p) (cp_norm p) false, Ok tt)
  | Some x =>
      match index_of x (cp_choices p) with
      | None => (p, Err ValueError)
      | Some i => (mkC (cp_choices p) (Some x) (Some i) (cp_conf p) (cp_score p) (cp_value p) (cp_index p) (cp_norm p) true, Ok tt)
      end
  end.
(** parameter.py:251-269 *)
Definition c_set_confidence (p : cparam) (c : string) : cparam * res unit :=
  if known c then
    (mkC (cp_choices p) (cp_default p) (cp_default_index p) (cp_conf p) c (cp_value p) (cp_index p) (cp_norm p) (cp_prior p), Ok tt)
  else (p, Err ValueError).
(** categorical.py:281-283 and parameter.py:198-205 *)
Definition c_load (p : cparam) (x : pyval) : cparam * res unit := c_set_value p (Some x).
(** categorical.py:110-119 *)
Definition c_clone (p : cparam) : res cparam :=
  bind (categorical_parameter (cp_choices p) (cp_default p) (cp_conf p)) (fun c =>
  match cp_value p with None => Ok c | Some x => then_ok (c_set_value c (Some x)) end).
(** categorical.py:157-163 and parameter.py:271-289; [draw]: the index that
    [np.random.choice(indices)] gives *)
Definition c_sample (p : cparam) (draw : nat) : res cparam :=
  match nth_error (cp_choices p) draw with
  | None => Err IndexError
  | Some x => bind (c_clone p) (fun c => then_ok (c_set_value c (Some x)))
  end.
(** categorical.py:211-236; [draws]: positions in [available_neighbours] *)
Fixpoint c_neighbour_loop (p : cparam) (available draws : list nat) : res (list cparam) :=
  match draws with
  | [] => Ok []
  | k :: draws' =>
      match nth_error available k with
      | None => Err IndexError
      | Some i =>
          match nth_error (cp_choices p) i with
          | None => Err IndexError
          | Some x =>
              bind (c_clone p) (fun c => bind (then_ok (c_set_value c (Some x))) (fun q =>
              bind (c_neighbour_loop p available draws') (fun l => Ok (q :: l))))
          end
      end
  end.
Definition c_available (p : cparam) (i : nat) : list nat :=
  let indices := seq 0 (length (cp_choices p)) in firstn i indices ++ skipn (S i) indices.
Definition c_neighbours (p : cparam) (draws : list nat) : res (list cparam) :=
  match cp_index p with
  | None => Err AssertionError
  | Some i => c_neighbour_loop p (c_available p i) draws
  end.
Definition opt_py_eqb (x y : option pyval) : bool := opt_eqb py_eqb x y.
(** categorical.py:166-189 *)
Definition c_mutate (p : cparam) (parent : option cparam) (s : strategy) (draw : nat) : res cparam :=
  let parent := match parent with Some q => q | None => p end in
  bind (match s with
        | Simple => c_sample parent draw
        | LocalSearch => bind (c_neighbours p [draw]) first
        | OtherStrategy => Err NotImplementedError
        end) (fun child =>
  if opt_py_eqb (cp_value parent) (cp_value child) then Err ValueError else Ok child).
(** categorical.py:192-208 *)
Definition c_crossover (p p1 : cparam) (p2 : option cparam) : res (cparam * cparam) :=
  let p2 := match p2 with Some q => q | None => p end in
  match cp_value p1, cp_value p2 with
  | Some x, Some y =>
      bind (c_clone p1) (fun c1 => bind (then_ok (c_set_value c1 (Some y))) (fun c1 =>
      bind (c_clone p2) (fun c2 => bind (then_ok (c_set_value c2 (Some x))) (fun c2 => Ok (c1, c2)))))
  | _, _ => Err AssertionError
  end.

(** categorical.py:49-53: the scores *)
Definition c_score (c : string) : Q :=
  if String.eqb c "low" then 2%Q else if String.eqb c "medium" then inject_Z 4 else inject_Z 6.
(** categorical.py:137-143 *)
Definition c_prior_probabilities (p : cparam) : res (list Q) :=
  match cp_default_index p with
  | None => Err AssertionError
  | Some i =>
      let ps := map (fun j => if Nat.eqb j i then c_score (cp_score p) else 1%Q) (seq 0 (length (cp_choices p))) in
      let s := fold_right Qplus 0%Q ps in
      Ok (map (fun x => (x / s)%Q) ps)
  end.
(** categorical.py:121-132 ([==]) *)
Definition c_eqb (p q : cparam) : bool :=
  list_eqb py_eqb (cp_choices p) (cp_choices q) && opt_py_eqb (cp_value p) (cp_value q)
  && opt_py_eqb (cp_default p) (cp_default q) && Bool.eqb (cp_prior p) (cp_prior q)
  && String.eqb (cp_score p) (cp_score q).

(** ** ConstantParameter: constant.py:43-50, 103-127, 76-100, 129-140 *)
Record kparam : Type := mkK { kp_value : pyval; kp_default : pyval }.
Definition constant_parameter (v : pyval) : kparam := mkK v v.
Definition k_set_value (p : kparam) (v : pyval) : kparam * res unit :=
  if py_eqb v (kp_value p) then (p, Ok tt) else (p, Err ValueError).
Definition k_set_default (p : kparam) (v : pyval) : kparam * res unit :=
  if py_eqb v (kp_default p) then (p, Ok tt) else (p, Err ValueError).
Definition k_set_constant (p : kparam) (v : pyval) : kparam := mkK v v.
