(** Rungs, budgets and sizes of a successive-halving bracket.
    neps/optimizers/multi_fidelity/successive_halving.py:109-214 *)
From Coq Require Export QArith Qround.
From Verif Require Export Base.
Open Scope nat_scope.

(** The fidelity parameter: its bounds and whether it is an IntegerParameter
    (search_space.py: fidelity; numerical.py:134-135 lower, upper).
    Simplification: budgets are exact rationals instead of floats. *)
Record fidelity : Type := mkFid { f_lower : Q; f_upper : Q; f_int : bool }.

(** [int(x)]: truncation *)
Definition py_int (x : Q) : Z := if Qle_bool 0 x then Qfloor x else (- Qfloor (- x)%Q)%Z.

(** A dictionary from rungs, in the order of insertion. *)
Fixpoint nget {A} (k : nat) (l : list (nat * A)) : option A :=
  match l with
  | [] => None
  | (k', a) :: l' => if Nat.eqb k k' then Some a else nget k l'
  end.

(** [d[k]] *)
Definition ngetitem {A} (k : nat) (l : list (nat * A)) : res A :=
  match nget k l with Some a => Ok a | None => Err KeyError end.

(** A bracket: rung_map, config_map, min_rung, max_rung *)
Record bracket : Type := mkB {
  b_rungs : list (nat * Q);
  b_sizes : list (nat * nat);
  b_min : nat;
  b_max : nat
}.

Section Ladder.
(** [np.floor(np.log(q) / np.log(eta)).astype(int)] as it is computed with floats. *)
Variable lg : Q -> nat -> Z.

(** [eta**n] *)
Definition qpow (eta n : nat) : Q := inject_Z (Z.of_nat eta ^ Z.of_nat n)%Z.

(** successive_halving.py:126-128 *)
Definition stopping_rate_limit (f : fidelity) (eta : nat) : Z := lg (f_upper f / f_lower f)%Q eta.

(** successive_halving.py:178-184, 199-205 *)
Definition nrungs (f : fidelity) (eta s : nat) : nat :=
  Z.to_nat (lg (f_upper f / (f_lower f * qpow eta s))%Q eta + 1)%Z.

(** successive_halving.py:187-193: the loop over [reversed(range(nrungs))] *)
Fixpoint fill_rungs (f : fidelity) (eta s : nat) (n : nat) (b : Q) : list (nat * Q) :=
  match n with
  | O => []
  | S i => (i + s, if f_int f then inject_Z (py_int b) else b)
             :: fill_rungs f eta s i (b / inject_Z (Z.of_nat eta))%Q
  end.

(** successive_halving.py:175-194 _get_rung_map *)
Definition get_rung_map (f : fidelity) (eta s : nat) : res (list (nat * Q)) :=
  if Z.leb (Z.of_nat s) (stopping_rate_limit f eta)
  then Ok (fill_rungs f eta s (nrungs f eta s) (f_upper f))
  else Err AssertionError.

(** successive_halving.py:211-213: the loop; [i] is the next key, [n] the number of
    rungs left *)
Fixpoint fill_sizes (eta : nat) (n i size : nat) : list (nat * nat) :=
  match n with
  | O => []
  | S n' => (i, size) :: fill_sizes eta n' (S i) (size / eta)
  end.

(** successive_halving.py:196-214 _get_config_map *)
Definition get_config_map (f : fidelity) (eta s : nat) : res (list (nat * nat)) :=
  let limit := stopping_rate_limit f eta in
  if Z.leb (Z.of_nat s) limit
  then
    let s_max := Z.to_nat (limit + 1)%Z in
    let _s := Z.to_nat (limit - Z.of_nat s)%Z in
    Ok (fill_sizes eta (nrungs f eta s) s ((s_max / (_s + 1)) * eta ^ _s))
  else Err AssertionError.

(** [min(list)], [max(list)] *)
Definition list_min (l : list nat) : res nat :=
  match l with [] => Err ValueError | x :: l' => Ok (fold_left Nat.min l' x) end.
Definition list_max (l : list nat) : res nat :=
  match l with [] => Err ValueError | x :: l' => Ok (fold_left Nat.max l' x) end.

(** successive_halving.py:126-136, the part of SuccessiveHalvingBase.__init__ that
    sets up the rungs *)
Definition make_bracket (f : fidelity) (eta s : nat) : res bracket :=
  if Z.leb (Z.of_nat s) (stopping_rate_limit f eta) then
    bind (get_rung_map f eta s) (fun rungs =>
    bind (get_config_map f eta s) (fun sizes =>
    bind (list_min (map fst rungs)) (fun lo =>
    bind (list_max (map fst rungs)) (fun hi => Ok (mkB rungs sizes lo hi)))))
  else Err AssertionError.

(** successive_halving.py:168-173 _get_rung_trace, on the sorted keys *)
Definition rung_trace (b : bracket) : list nat :=
  flat_map (fun r => match nget r (b_sizes b) with Some n => repeat r n | None => [] end)
    (seq (b_min b) (S (b_max b) - b_min b)).

(** The brackets of hyperband.py:85-93: one for each s up to the highest rung. *)
Fixpoint make_brackets (f : fidelity) (eta : nat) (ss : list nat) : res (list bracket) :=
  match ss with
  | [] => Ok []
  | s :: ss' => bind (make_bracket f eta s) (fun b =>
                bind (make_brackets f eta ss') (fun bs => Ok (b :: bs)))
  end.
Definition hyperband_brackets (f : fidelity) (eta : nat) : res (bracket * list bracket) :=
  bind (make_bracket f eta 0) (fun b0 =>
  bind (make_brackets f eta (seq 0 (S (b_max b0)))) (fun bs => Ok (b0, bs))).
End Ladder.
