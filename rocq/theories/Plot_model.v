(** Plots of runs: neps/plot/read_results.py, neps/plot/plotting.py, neps/plot/plot.py and the
    identifiers in neps/plot/plot3D.py.

    A run is the list of its stored trials.  Floats do not round.  Of a figure only what is drawn
    where is kept: the axes, the labels and, for every seed, the positions and heights of its
    curve; the mean over the seeds and its standard error (plotting.py:90-92), scales, fonts and
    colours are not modelled.  pandas and numpy are modelled as far as they are used, for numpy
    1.24 or later and pandas 2 (pyproject.toml allows numpy ^1 and pandas ^2). *)
From Coq Require Import String Ascii DecimalString.
From Verif Require Ifbo_model.
From Verif Require Import Py Trial_model Status_model Space_model.
(** [int(...)] of digits (plot3D.py:86-87) *)
Notation py_int := Ifbo_model.py_int.
Local Open Scope nat_scope.
Local Open Scope string_scope.
Local Open Scope list_scope.
Local Notation length := List.length.

(** Python's [sorted] (stable) *)
Fixpoint ins {A} (le : A -> A -> bool) (x : A) (l : list A) : list A :=
  match l with [] => [x] | y :: l' => if le x y then x :: l else y :: ins le x l' end.
Definition sorting {A} (le : A -> A -> bool) (l : list A) : list A := fold_right (ins le) [] l.

(** ** process_seed (read_results.py:13-70) *)

(** read_results.py:27-28: by text, then (stable) by length *)
Definition sorted_stats (l : list (string * stats)) : list (string * stats) :=
  sorting (fun a b => Nat.leb (String.length (fst a)) (String.length (fst b)))
    (sorting (fun a b => String.leb (fst a) (fst b)) l).

(** [min] of texts, for read_results.py:38 *)
Fixpoint least_key (k : string) (l : list string) : string :=
  match l with [] => k | x :: l' => least_key (if String.ltb x k then x else k) l' end.

(** [asdict(trial.metadata)] (status.py:54): the names of the fields, neps/state/trial.py:44-60 *)
Definition metadata_keys : list string :=
  ["id"; "location"; "previous_trial_id"; "previous_trial_location"; "sampling_worker_id"; "time_sampled";
   "evaluating_worker_id"; "evaluation_duration"; "time_submitted"; "time_started"; "time_end"].

(** [np.minimum] *)
Definition np_min (a b : fl) : fl :=
  if fl_isnan a then a else if fl_isnan b then b else if fl_ltb b a then b else a.
(** [np.minimum.accumulate] (read_results.py:70) *)
Fixpoint accumulate_from (a : fl) (l : list fl) : list fl :=
  match l with [] => [] | x :: l' => np_min a x :: accumulate_from (np_min a x) l' end.
Definition accumulate (l : list fl) : list fl := match l with [] => [] | x :: l' => x :: accumulate_from x l' end.

(** [x - y] of floats *)
Definition fl_neg (x : fl) : fl := match x with FNaN => FNaN | FPInf => FNInf | FNInf => FPInf | FZ z => FZ (- z) end.
Definition fl_sub (x y : fl) : fl := fl_add x (fl_neg y).

Section Seed.
  (** [float(v)] *)
  Variable pyfloat : pyval -> res fl.

  (** [s.result["info_dict"][key]] (read_results.py:36, 45); the result of a failed evaluation is
      the string "error", which has no entries *)
  Definition info (x : stats) (key : string) : res pyval :=
    match x_result x with
    | ResError => Err TypeError
    | ResDict d =>
        match lookup "info_dict" d with
        | None => Err KeyError
        | Some (VDict i) => match lookup key i with Some v => Ok v | None => Err KeyError end
        | Some _ => Err TypeError
        end
    end.

  (** [max(...)] (read_results.py:36): only for numbers; otherwise a TypeError *)
  Definition max_fidelity (key : string) (st : list (string * stats)) : res fl :=
    bind (mapM (fun kx => bind (info (snd kx) key) (fun v => match as_num v with Some f => Ok f | None => Err TypeError end)) st) (fun l =>
    match l with
    | [] => Err ValueError
    | x :: l' => Ok (fold_left (fun m y => if fl_ltb m y then y else m) l' x)
    end).

  (** read_results.py:40-47 get_cost *)
  Definition get_cost (key : option string) (x : stats) : res fl :=
    match key with
    | Some k => bind (info x k) pyfloat
    | None => Ok (fl_of_Z 1)
    end.

  (** read_results.py:53-63.  No entry of the metadata is called "previous_config_id"; were there
      one, the cost of that trial would be subtracted (not modelled: an AttributeError). *)
  Definition config_cost (key : option string) (continuations : bool) (workers : nat) (start : fl) (x : stats) : res fl :=
    bind (get_cost key x) (fun c =>
    if continuations then
      if Nat.eqb workers 1 then
        if existsb (String.eqb "previous_config_id") metadata_keys then Err AttributeError else Ok c
      else match m_time_end (x_meta x) with Some e => Ok (fl_sub e start) | None => Err TypeError end
    else Ok c).

  (** [config_result.result["loss"]] (read_results.py:67), a number *)
  Definition loss_entry (x : stats) : res fl :=
    match x_result x with
    | ResError => Err TypeError
    | ResDict d =>
        match lookup "loss" d with
        | None => Err KeyError
        | Some v => match as_num v with Some f => Ok f | None => Err TypeError end
        end
    end.

  (** read_results.py:13-70: incumbents, costs and max_cost *)
  Definition process_seed (key : option string) (continuations : bool) (workers : nat) (ts : list trial) : res (list fl * list fl * fl) :=
    bind (get_summary pyfloat ts) (fun s =>
    let st := sorted_stats (s_previous s) in
    bind (match key with
          | Some k => if String.eqb k "fidelity" then max_fidelity k st else Ok (fl_of_Z (-1))
          | None => Ok (fl_of_Z (-1))
          end) (fun max_cost =>
    match map fst st with
    | [] => Err ValueError
    | k :: ks =>
        match lookup (least_key k ks) st with
        | None => Err KeyError
        | Some first =>
            bind (mapM (fun kx => bind (config_cost key continuations workers (m_time_sampled (x_meta first)) (snd kx)) (fun c =>
                                  bind (loss_entry (snd kx)) (fun l => Ok (l, c)))) st) (fun ps =>
            Ok (accumulate (map fst ps), map snd ps, max_cost))
        end
    end)).

  (** ** Curves (plotting.py:119-164) *)

  (** A column of the data frame with its index: positions and heights; NaN stands for a missing
      height.  All columns of a frame have the same index, so that it is worked on column by
      column. *)
  Definition column := list (fl * fl).

  (** [np.cumsum] *)
  Fixpoint cumsum (acc : fl) (l : list fl) : list fl :=
    match l with [] => [] | x :: l' => fl_add acc x :: cumsum (fl_add acc x) l' end.

  Definition same_index (a b : list fl) : bool := list_eqb fl_eqb a b.
  Fixpoint has_duplicate (l : list fl) : bool :=
    match l with [] => false | x :: l' => existsb (fl_eqb x) l' || has_duplicate l' end.
  Definition fl_leb (a b : fl) : bool := negb (fl_ltb b a).
  (** the sorted union of the indices *)
  Fixpoint unique (l : list fl) : list fl :=
    match l with [] => [] | x :: l' => if existsb (fl_eqb x) l' then unique l' else x :: unique l' end.
  Fixpoint value_at (c : column) (x : fl) : fl :=
    match c with [] => FNaN | (y, v) :: c' => if fl_eqb x y then v else value_at c' x end.
  (** [pd.DataFrame.from_dict] of Series (plotting.py:135): equal indices are kept; otherwise all
      Series are brought to the sorted union of the indices, which fails if one of them has
      a position twice *)
  Definition from_series (cs : list column) : res (list column) :=
    match cs with
    | [] => Ok []
    | c :: cs' =>
        if forallb (fun d => same_index (map fst c) (map fst d)) cs' then Ok cs
        else if existsb (fun d => has_duplicate (map fst d)) cs then Err ValueError
        else
          let index := sorting fl_leb (unique (flat_map (map fst) cs)) in
          Ok (map (fun d => map (fun x => (x, value_at d x)) index) cs)
    end.

  (** a row of NaN at a new position, then [sort_index] (plotting.py:142-149, 160-163); rows at
      the same position are kept in order (pandas does not promise this) *)
  Definition add_row (x : fl) (c : column) : column :=
    sorting (fun a b => fl_leb (fst a) (fst b)) (c ++ [(x, FNaN)]).
  (** [fillna(method="backfill")] and [fillna(method="ffill")] (plotting.py:151, 164) *)
  Fixpoint backfill (c : column) : column :=
    match c with
    | [] => []
    | (x, v) :: c' =>
        let r := backfill c' in
        (x, if fl_isnan v then match r with (_, w) :: _ => w | [] => FNaN end else v) :: r
    end.
  Fixpoint ffill (w : fl) (c : column) : column :=
    match c with
    | [] => []
    | (x, v) :: c' => let v' := if fl_isnan v then w else v in (x, v') :: ffill v' c'
    end.
  Definition fill (c : column) : column := ffill FNaN (backfill c).

  (** plotting.py:125-128: lists of different lengths are no array *)
  Definition rectangular (l : list (list fl * list fl)) : bool :=
    match l with [] => true | a :: l' => forallb (fun b => Nat.eqb (length (fst a)) (length (fst b))) l' end.

  (** plotting.py:119-155 _interpolate_time of the incumbents and costs of all seeds; [scale]: the
      division by [scale_x], or the identity.  Without any seed the index of the empty frame
      cannot be set (plotting.py:144, 162). *)
  Definition interpolate (scale : fl -> fl) (x_range : option (list fl)) (seeds : list (list fl * list fl)) : res (list column) :=
    if negb (rectangular seeds) then Err ValueError
    else
      bind (from_series (map (fun s => combine (cumsum (FZ 0) (snd s)) (fst s)) seeds)) (fun cs =>
      let cs := map (map (fun xv => (scale (fst xv), snd xv))) cs in
      match x_range with
      | None => Ok (map fill cs)
      | Some [a; b] =>
          match cs with
          | [] => Err ValueError
          | _ => Ok (map (fun c => filter (fun xv => fl_leb a (fst xv) && fl_leb (fst xv) b) (fill (add_row b (add_row a c)))) cs)
          end
      | Some _ => Err ValueError
      end).

  (** [int(x)] of a float *)
  Definition truncate (x : fl) : res fl :=
    match x with
    | FZ z => Ok (FZ (Z.quot z fl_unit * fl_unit))
    | FNaN => Err ValueError
    | _ => Err OverflowError
    end.
  (** plotting.py:158-164 _df_to_x_range *)
  Definition to_range (x_range : option (list fl)) (cs : list column) : res (list column) :=
    bind (match x_range with None => Ok FPInf | Some r => truncate (last r FNaN) end) (fun x =>
    match cs with [] => Err ValueError | _ => Ok (map (fun c => fill (add_row x c)) cs) end).

  (** plotting.py:86-87: what _plot_incumbent draws, one column for every seed *)
  Definition curves (scale : fl -> fl) (x_range : option (list fl)) (seeds : list (list fl * list fl)) : res (list column) :=
    bind (interpolate scale x_range seeds) (to_range x_range).

  (** ** The figure (plot.py) *)

  (** plot.py:67-68 *)
  Definition n_cols (n : nat) : nat := if Nat.eqb n 1 then 1 else 2.
  Definition n_rows (n : nat) : nat := (n + (n_cols n - 1)) / n_cols n.

  (** [plt.subplots] (plotting.py:60-64): one axes, a row of axes, or a grid (a column does not
      occur) *)
  Inductive axes : Type := AOne | ARow (n : nat) | AGrid (r c : nat).
  Definition subplots (r c : nat) : res axes :=
    if Nat.eqb r 0 || Nat.eqb c 0 then Err ValueError
    else if Nat.eqb r 1 && Nat.eqb c 1 then Ok AOne
    else if Nat.eqb r 1 then Ok (ARow c)
    else Ok (AGrid r c).

  (** plotting.py:16-20 _map_axs, as row and column of the axes *)
  Definition map_axs (a : axes) (idx len ncols : nat) : res (nat * nat) :=
    if Nat.eqb len 1 then match a with AOne => Ok (0, 0) | _ => Err AttributeError end
    else if Nat.eqb len ncols then
      match a with
      | ARow n => if Nat.ltb idx n then Ok (0, idx) else Err IndexError
      | AGrid _ _ => Err AttributeError
      | AOne => Err TypeError
      end
    else
      match a with
      | AGrid r c =>
          if Nat.ltb (idx / ncols) r && Nat.ltb (idx mod ncols) c then Ok (idx / ncols, idx mod ncols) else Err IndexError
      | _ => Err TypeError
      end.

  (** plot.py:113-115, 127-128 *)
  Definition upper_char (c : ascii) : ascii :=
    let n := nat_of_ascii c in if Nat.leb 97 n && Nat.leb n 122 then ascii_of_nat (n - 32) else c.
  Fixpoint upper (s : string) : string := match s with EmptyString => EmptyString | String c r => String (upper_char c) (upper r) end.
  Definition x_label (key : option string) (n idx : nat) : option string :=
    if Nat.leb ((n_rows n - 1) * n_cols n) idx
    then Some (match key with None => "Evaluations" | Some k => upper k end) else None.
  Definition y_label (n idx : nat) : option string := if Nat.eqb (idx mod n_cols n) 0 then Some "Best error" else None.

  (** one call of _plot_incumbent (plot.py:116-133) *)
  Record drawn : Type := mkDrawn {
    d_axes : nat * nat; d_title : option string; d_xlabel : option string; d_ylabel : option string;
    d_label : string; d_curves : list column }.

  (** Where the runs are: in the root directory, or below
      benchmark=.../algorithm=.../seed/neps_root_directory *)
  Record files : Type := mkFiles {
    f_run : list trial;
    f_tree : list (string * list (string * list (string * list trial))) }.

  (** Options of [plot] (plot.py:17-31) that matter here *)
  Record options : Type := mkOptions {
    o_scientific : bool; o_key : option string; o_continuations : bool; o_workers : nat; o_range : option (list fl) }.

  (** division of the positions by the greatest fidelity (plotting.py:138) *)
  Variable divide : fl -> fl -> fl.

  (** plot.py:101-111 and 125: the seeds of one algorithm, and the scale.  [max_costs] of no
      seeds has no maximum (ValueError). *)
  Definition read_seeds (o : options) (seeds : list (list trial)) : res (list (list fl * list fl) * (fl -> fl)) :=
    bind (mapM (process_seed (o_key o) (o_continuations o) (o_workers o)) seeds) (fun l =>
    let data := map fst l in
    if match o_key o with Some k => String.eqb k "fidelity" | None => false end
    then match map snd l with
         | [] => Err ValueError
         | m :: ms => Ok (data, fun x => divide x (fold_left (fun a b => if fl_ltb a b then b else a) ms m))
         end
    else Ok (data, fun x => x)).

  (** plot.py:75-96: the runs of one benchmark and algorithm, seeds in the order of their names *)
  Definition find_seeds (o : options) (f : files) (benchmark algorithm : string) : res (list (list trial)) :=
    if o_scientific o then
      match lookup benchmark (f_tree f) with
      | None => Err FileNotFoundError
      | Some b =>
          match lookup algorithm b with
          | None => Err FileNotFoundError
          | Some a => Ok (map snd (sorting (fun x y => String.leb (fst x) (fst y)) a))
          end
      end
    else Ok [f_run f].

  (** plot.py:84-133 *)
  Definition draw (o : options) (f : files) (ax : axes) (n idx : nat) (benchmark algorithm : string) : res drawn :=
    bind (find_seeds o f benchmark algorithm) (fun seeds =>
    bind (read_seeds o seeds) (fun data =>
    bind (map_axs ax idx n (n_cols n)) (fun pos =>
    bind (curves (snd data) (o_range o) (fst data)) (fun cs =>
    Ok (mkDrawn pos (if o_scientific o then Some benchmark else None) (x_label (o_key o) n idx) (y_label n idx) algorithm cs))))).

  (** plotting.py:167-183 _set_legend: the rows for which there is a place *)
  Definition legend_rows : list nat := [1; 2; 3; 4; 5].

  (** plot.py:74-83: the directory of the benchmark is looked for even if there are no algorithms *)
  Definition benchmark_there (o : options) (f : files) (b : string) : res unit :=
    if o_scientific o then match lookup b (f_tree f) with Some _ => Ok tt | None => Err FileNotFoundError end else Ok tt.
  Fixpoint draw_all (o : options) (f : files) (ax : axes) (n idx : nat) (benchmarks algorithms : list string) : res (list drawn) :=
    match benchmarks with
    | [] => Ok []
    | b :: bs =>
        bind (benchmark_there o f b) (fun _ =>
        bind (mapM (draw o f ax n idx b) algorithms) (fun ds =>
        bind (draw_all o f ax n (S idx) bs algorithms) (fun rest => Ok (ds ++ rest))))
    end.

  (** plot.py:17-145 plot: what is in the figure that is saved; after an exception none is *)
  Definition plot (o : options) (f : files) (benchmarks algorithms : list string) : res (list drawn) :=
    let n := length benchmarks in
    bind (subplots (n_rows n) (n_cols n)) (fun ax =>
    bind (draw_all o f ax n 0 benchmarks algorithms) (fun ds =>
    if o_scientific o && negb (existsb (Nat.eqb (n_rows n)) legend_rows) then Err KeyError else Ok ds)).
End Seed.

(** ** Identifiers in Plotter3D (plot3D.py:84-89) *)

(** [index.split("_")] *)
Fixpoint split_us (s : string) : list string :=
  match s with
  | EmptyString => [EmptyString]
  | String c r =>
      if Ascii.eqb c "_"%char then EmptyString :: split_us r
      else match split_us r with [] => [String c EmptyString] | p :: ps => String c p :: ps end
  end.
(** plot3D.py:45-49 and 84-89.  [pd.read_csv] makes numbers of an index of numbers only, which
    cannot be split.  Arrays of one, three or no columns cannot be assigned to two columns, lists
    of different lengths are no array. *)
Definition prep_ids (ids : list string) : res (list (nat * nat)) :=
  match ids with
  | [] => Err ValueError
  | _ =>
      if forallb (fun i => match py_int i with Ok _ => true | Err _ => false end) ids then Err AttributeError
      else
        bind (mapM (fun i => match split_us i with [a; b] => bind (py_int a) (fun c => bind (py_int b) (fun e => Ok (c, e))) | _ => Err ValueError end) ids) (fun l =>
        Ok (if existsb (fun ce => Nat.eqb (snd ce) 0) l then map (fun ce => (fst ce, S (snd ce))) l else l))
  end.
