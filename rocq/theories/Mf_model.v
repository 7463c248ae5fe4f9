(** The table of observations of multi-fidelity optimizers.
    neps/optimizers/multi_fidelity/utils.py:11-219,
    neps/optimizers/bayesian_optimization/models/ftpfn.py:19-37 *)
From Verif Require Export Py.
Local Notation length := List.length.
Open Scope Z_scope.
Open Scope list_scope.

(** ** MFObservedData *)
(** A label of the index: (config_id, budget_id) (utils.py:46-50). *)
Notation key := (Z * Z)%type.
Definition key_eqb (a b : key) : bool := Z.eqb (fst a) (fst b) && Z.eqb (snd a) (snd b).

(** The data frame [self.df]: names of the columns, rows in order.
    Simplification: dtypes are not modelled. *)
Record frame : Type := mkFrame { f_cols : list string; f_rows : list (key * list pyval) }.

(** What pandas regards as missing. *)
Definition is_na (v : pyval) : bool :=
  match v with VNone => true | VFloat FNaN => true | _ => false end.

(** utils.py:28-54 __init__: the columns of configurations and performances are needed *)
Definition init (columns : list string) : res frame :=
  match columns with
  | _ :: _ :: _ => Ok (mkFrame columns [])
  | _ => Err IndexError
  end.

(** [self.df.index.isin(l)]: pandas cannot build an index from an empty list. *)
Definition isin (f : frame) (l : list key) : res (list bool) :=
  match l with
  | [] => Err TypeError
  | _ => Ok (map (fun r => existsb (key_eqb (fst r)) l) (f_rows f))
  end.

(** utils.py:86-89 next_config_id, with utils.py:64-66 seen_config_ids *)
Definition next_config_id (f : frame) : Z :=
  match map (fun r => fst (fst r)) (f_rows f) with
  | [] => 0
  | i :: l => fold_left Z.max l i + 1
  end.

(** [pd.DataFrame(data, columns=columns, index=index)]: shorter rows are filled up, no
    data at all gives a frame of NaNs. *)
Definition pad (n : nat) (r : list pyval) : list pyval := r ++ repeat VNone (n - length r).
Definition data_frame (columns : list string) (data : list (list pyval)) (index : list key)
  : res (list (key * list pyval)) :=
  match data with
  | [] => Ok (map (fun k => (k, repeat (VFloat FNaN) (length columns))) index)
  | _ =>
      if Nat.eqb (List.list_max (map (@length pyval) data)) (length columns)
         && Nat.eqb (length data) (length index)
      then Ok (combine index (map (pad (length columns)) data))
      else Err ValueError
  end.

(** utils.py:91-116 add_data for a list of labels; for a single label both arguments are
    put in lists of length one (102-104).  The frame afterwards, and how the call ends. *)
Definition add_data (f : frame) (data : list (list pyval)) (index : list key) (error : bool)
  : frame * res unit :=
  match isin f index with
  | Err e => (f, Err e)
  | Ok hits =>
      if negb (existsb (fun b => b) hits) then
        match data_frame (f_cols f) data index with
        | Ok rows => (mkFrame (f_cols f) (f_rows f ++ rows), Ok tt)
        | Err e => (f, Err e)
        end
      else (f, if error then Err ValueError else Ok tt)
  end.

(** utils.py:130-131: rows from a non-empty list of columns, as many as the shortest has *)
Fixpoint transpose (n : nat) (columns : list (list pyval)) : list (list pyval) :=
  match n with
  | O => []
  | S n' => map (fun c => hd VNone c) columns :: transpose n' (map (@tl pyval) columns)
  end.
Definition zip_columns (columns : list (list pyval)) : list (list pyval) :=
  match columns with
  | [] => []
  | c :: l => transpose (fold_left (fun m c' => Nat.min m (length c')) l (length c)) columns
  end.

(** [self.df.loc[index, names] = data] adds the columns that do not exist yet. *)
Definition new_columns (f : frame) (names : list string) : list string :=
  filter (fun n => negb (existsb (String.eqb n) (f_cols f))) (nodup string_dec names).
Definition with_columns (f : frame) (names : list string) : frame :=
  let extra := new_columns f names in
  mkFrame (f_cols f ++ extra)
    (map (fun r => (fst r, snd r ++ repeat (VFloat FNaN) (length extra))) (f_rows f)).

(** Positions of the rows with label [k]. *)
Fixpoint positions_from (i : nat) (k : key) (rows : list (key * list pyval)) : list nat :=
  match rows with
  | [] => []
  | r :: rows' => (if key_eqb (fst r) k then [i] else []) ++ positions_from (S i) k rows'
  end.
Definition positions := positions_from 0.

Fixpoint set_nth {A} (i : nat) (v : A) (l : list A) : list A :=
  match l, i with
  | [], _ => []
  | _ :: l', O => v :: l'
  | x :: l', S i' => x :: set_nth i' v l'
  end.

Fixpoint index_of (n : string) (l : list string) : option nat :=
  match l with
  | [] => None
  | x :: l' => if String.eqb n x then Some O else option_map S (index_of n l')
  end.

(** One row of values to the given columns of a row. *)
Definition set_cells (cols names : list string) (vals : list pyval) (r : list pyval) : list pyval :=
  fold_left (fun r nv => match index_of (fst nv) cols with
                         | Some j => set_nth j (snd nv) r
                         | None => r
                         end) (combine names vals) r.

Definition set_row (cols names : list string) (rows : list (key * list pyval)) (iv : nat * list pyval)
  : list (key * list pyval) :=
  match nth_error rows (fst iv) with
  | Some (k, r) => set_nth (fst iv) (k, set_cells cols names (snd iv) r) rows
  | None => rows
  end.

(** [self.df.loc[index, names] = data] for a list of rows: a single row is broadcast *)
Definition loc_set (f : frame) (index : list key) (names : list string) (data : list (list pyval))
  : frame * res unit :=
  let f' := with_columns f names in
  if negb (forallb (fun k => match positions k (f_rows f') with [] => false | _ => true end) index)
  then (f', Err KeyError)
  else
    let pos := flat_map (fun k => positions k (f_rows f')) index in
    let go vals := (mkFrame (f_cols f') (fold_left (set_row (f_cols f') names) (combine pos vals) (f_rows f')),
                    Ok tt) in
    if Nat.eqb (length data) (length pos) then go data
    else match data with
         | [d] => go (repeat d (length pos))
         | _ => (f', Err ValueError)
         end.

Definition count_true (l : list bool) : nat := length (filter (fun b => b) l).

(** utils.py:118-137 update_data; [data]: the items of data_dict *)
Definition update_data (f : frame) (data : list (string * list pyval)) (index : list key) (error : bool)
  : frame * res unit :=
  match isin f index with
  | Err e => (f, Err e)
  | Ok hits =>
      if Nat.eqb (count_true hits) (length index) then
        match data with
        | [] => (f, Err ValueError)           (* nothing to unpack *)
        | _ => loc_set f index (map fst data) (zip_columns (map snd data))
        end
      else (f, if error then Err ValueError else Ok tt)
  end.

(** ** The highest budgets *)
Definition key_ltb (a b : key) : bool :=
  Z.ltb (fst a) (fst b) || Z.eqb (fst a) (fst b) && Z.ltb (snd a) (snd b).

(** [self.df.sort_index()]: stable *)
Fixpoint insert_key (r : key * list pyval) (l : list (key * list pyval)) : list (key * list pyval) :=
  match l with
  | [] => [r]
  | r' :: l' => if key_ltb (fst r') (fst r) then r' :: insert_key r l' else r :: r' :: l'
  end.
Definition sort_index (l : list (key * list pyval)) : list (key * list pyval) :=
  fold_right insert_key [] l.

(** One group of [groupby(level=0)] of a sorted frame at a time: the rows with the same
    config_id as the first one, and the others *)
Definition split_group (i : Z) (l : list (key * list pyval)) :
  list (key * list pyval) * list (key * list pyval) :=
  (filter (fun r => Z.eqb (fst (fst r)) i) l, filter (fun r => negb (Z.eqb (fst (fst r)) i)) l).

(** [.last()]: for each column the last value that is not missing *)
Definition last_valid (l : list pyval) : pyval :=
  fold_left (fun acc v => if is_na v then acc else v) l (VFloat FNaN).
Definition last_budget (l : list (key * list pyval)) : Z :=
  fold_left (fun _ r => snd (fst r)) l 0.
Definition group_last (ncols : nat) (g : list (key * list pyval)) : Z * list pyval :=
  (last_budget g, map (fun j => last_valid (map (fun r => nth j (snd r) VNone) g)) (seq 0 ncols)).

Fixpoint group_all (fuel ncols : nat) (l : list (key * list pyval)) : list (Z * (Z * list pyval)) :=
  match fuel, l with
  | S fuel', ((i, _), _) :: _ =>
      let '(g, rest) := split_group i l in
      (i, group_last ncols g) :: group_all fuel' ncols rest
  | _, _ => []
  end.

(** utils.py:166-173 add_budget_column, reduce_to_max_seen_budgets: config_id, then
    budget_id and the other columns *)
Definition reduce_to_max_seen_budgets (f : frame) : list (Z * (Z * list pyval)) :=
  group_all (length (f_rows f)) (length (f_cols f)) (sort_index (f_rows f)).

(** utils.py:212-219 get_max_observed_fidelity_level_per_config: a dictionary filled in the
    order of the sorted config_ids, repeated ones overwriting *)
Definition max_budget (f : frame) (i : Z) : Z :=
  match filter (fun b => Z.eqb (fst (fst b)) i) (f_rows f) with
  | [] => 0
  | r :: l => fold_left (fun m r' => Z.max m (snd (fst r'))) l (snd (fst r))
  end.
Fixpoint insert_id (i : Z) (l : list Z) : list Z :=
  match l with
  | [] => [i]
  | j :: l' => if Z.ltb j i then j :: insert_id i l' else if Z.eqb i j then l else i :: l
  end.
Definition sorted_ids (f : frame) : list Z :=
  fold_right insert_id [] (map (fun r => fst (fst r)) (f_rows f)).
Definition max_observed_levels (f : frame) : list (Z * Z) :=
  map (fun i => (i, max_budget f i)) (sorted_ids f).

(** ** Learning curves *)
(** The column of performances is the second one (utils.py:38-39). *)
Definition perf_of (r : key * list pyval) : pyval := nth 1 (snd r) VNone.

(** utils.py:139-144 get_learning_curves: [pivot_table] averages the performances (labels
    occur once here), drops what is missing and cannot average anything but numbers.
    The entries of the table. *)
Fixpoint learning_curves (l : list (key * list pyval)) : res (list (key * fl)) :=
  match l with
  | [] => Ok []
  | r :: l' =>
      bind (learning_curves l') (fun t =>
      if is_na (perf_of r) then Ok t
      else match as_num (perf_of r) with
           | Some x => Ok ((fst r, x) :: t)
           | None => Err TypeError
           end)
  end.

(** [.min(axis=1)] / [.max(axis=1)] of the row of [i] *)
Definition fl_best (maximize : bool) (x y : fl) : fl :=
  if maximize then (if fl_ltb x y then y else x) else (if fl_ltb y x then y else x).
Definition row_best (maximize : bool) (t : list (key * fl)) (i : Z) : option fl :=
  match map snd (filter (fun e => Z.eqb (fst (fst e)) i) t) with
  | [] => None
  | x :: l => Some (fold_left (fl_best maximize) l x)
  end.
Definition curve_ids (t : list (key * fl)) : list Z :=
  fold_right insert_id [] (map (fun e => fst (fst e)) t).
Definition bests (maximize : bool) (t : list (key * fl)) : list (Z * fl) :=
  flat_map (fun i => match row_best maximize t i with Some x => [(i, x)] | None => [] end) (curve_ids t).

(** [.idxmin()] / [.idxmax()]: the first of the best *)
Definition better (maximize : bool) (x y : fl) : bool :=
  if maximize then fl_ltb y x else fl_ltb x y.
Fixpoint idx_best (maximize : bool) (best : Z * fl) (l : list (Z * fl)) : Z * fl :=
  match l with
  | [] => best
  | e :: l' => idx_best maximize (if better maximize (snd e) (snd best) then e else best) l'
  end.

(** utils.py:149-164 get_best_learning_curve_id, get_best_seen_performance (the latter
    gives NaN on an empty table) *)
Definition get_best_learning_curve_id (f : frame) (maximize : bool) : res Z :=
  bind (learning_curves (f_rows f)) (fun t =>
  match bests maximize t with
  | [] => Err ValueError
  | e :: l => Ok (fst (idx_best maximize e l))
  end).
Definition get_best_seen_performance (f : frame) (maximize : bool) : res fl :=
  bind (learning_curves (f_rows f)) (fun t =>
  match bests maximize t with
  | [] => Ok FNaN
  | e :: l => Ok (snd (idx_best maximize e l))
  end).

(** utils.py:178-199 extract_learning_curve, without a column for learning curves.
    The budgets of the table in increasing order, up to the given one. *)
Definition curve_budgets (t : list (key * fl)) : list Z :=
  fold_right insert_id [] (map (fun e => snd (fst e)) t).
Definition curve_at (t : list (key * fl)) (k : key) : fl :=
  match find (fun e => key_eqb (fst e) k) t with Some e => snd e | None => FNaN end.
Definition extract_learning_curve (f : frame) (i : Z) (budget : option Z) : res (list fl) :=
  bind (match budget with
        | Some b => Ok b
        | None => if existsb (fun r => Z.eqb (fst (fst r)) i) (f_rows f)
                  then Ok (max_budget f i + 1) else Err KeyError
        end) (fun b =>
  if Z.eqb b 0 then Ok []
  else
    bind (learning_curves (f_rows f)) (fun t =>
    if existsb (fun e => Z.eqb (fst (fst e)) i) t
    then Ok (map (fun b' => curve_at t (i, b'))
               (filter (fun b' => Z.leb b' (Z.max 0 (b - 1))) (curve_budgets t)))
    else Err KeyError)).

(** ** ftpfn.py:19-37 *)
(** A row of the tensor: id, budget, the rest.  Simplification: entries are integers
    (ids are; budgets as multiples of a smallest unit). *)
Section Keep.
Context {X : Type}.
Definition trow := (Z * Z * X)%type.
(** [torch.argsort(x[:, budget_col])] is not stable: any order of ties. *)
Variable argsort_budget : list Z -> list nat.

(** [x[idx]] *)
Definition take (x : list trow) (idx : list nat) : list trow :=
  flat_map (fun i => match nth_error x i with Some r => [r] | None => [] end) idx.

(** [torch.argsort(..., stable=True)] by id *)
Fixpoint insert_trow (r : trow) (l : list trow) : list trow :=
  match l with
  | [] => [r]
  | r' :: l' => if Z.ltb (fst (fst r')) (fst (fst r)) then r' :: insert_trow r l' else r :: r' :: l'
  end.
Definition sort_by_id (l : list trow) : list trow := fold_right insert_trow [] l.

(** [torch.unique_consecutive(ids, return_counts=True)]: the counts *)
Fixpoint runs (i : Z) (n : nat) (l : list Z) : list nat :=
  match l with
  | [] => [n]
  | j :: l' => if Z.eqb i j then runs i (S n) l' else n :: runs j 1 l'
  end.
Definition counts (l : list Z) : list nat :=
  match l with [] => [] | i :: l' => runs i 1 l' end.

(** [counts.cumsum(0) - 1] *)
Fixpoint last_positions (acc : nat) (l : list nat) : list nat :=
  match l with
  | [] => []
  | n :: l' => (acc + n - 1)%nat :: last_positions (acc + n) l'
  end.

(** ftpfn.py:19-37 _keep_highest_budget_evaluation *)
Definition keep_highest_budget (x : list trow) : list trow :=
  let i1 := take x (argsort_budget (map (fun r => snd (fst r)) x)) in
  let sorted_x := sort_by_id i1 in
  take sorted_x (last_positions 0 (counts (map (fun r => fst (fst r)) sorted_x))).
End Keep.
