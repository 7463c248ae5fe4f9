(** The command line: neps/utils/cli.py (options of [neps run], the directory that is looked
    at, info-config, errors, status, results, init).

    argparse is not modelled: the arguments are given as argparse returns them.  Texts of times
    and durations are functions of the floats ([stamp], [duration], [since]), which may raise.
    Text is ASCII; directories are named by text; a command runs while nobody else writes.
    Texts with more than 4300 digits, which newer Pythons do not read as integers, are read.
    The plot itself, help texts and the content of templates are left out. *)
From Coq Require Import Ascii String.
From Verif Require Export Py Trial_model Status_model Set_model Yam_model Enc_model.
Local Open Scope string_scope.
Local Open Scope list_scope.
Local Notation length := List.length.

(** ** Options of the searcher (cli.py:143-172) *)

(** [int(s)] (CPython, Objects/longobject.c): blanks around, a sign, digits with single underscores
    between them *)
Definition int_of_string (s : string) : res Z :=
  let (g, l) := opt_char (fun c => minus c || plus c) (strip (str_list s)) in
  match no_underscores None l with
  | Some (c :: d) =>
      if forallb is_digit (c :: d)
      then Ok (match g with Some m => if minus m then (- number (c :: d))%Z else number (c :: d) | None => number (c :: d) end)
      else Err ValueError
  | _ => Err ValueError
  end.

(** [c in s] *)
Definition has_char (f : ascii -> bool) (s : string) : bool := existsb f (str_list s).

(** cli.py:146-163 convert_value *)
Definition convert_value (s : string) : pyval :=
  if String.eqb (lower s) "true" || String.eqb (lower s) "false" then VBool (String.eqb (lower s) "true")
  else if has_char dot s || has_char is_e s then
    match float_of_string s with Ok f => VFloat f | Err _ => VStr s end
  else match int_of_string s with Ok z => VInt z | Err _ => VStr s end.

(** [s.split("=", 1)] *)
Fixpoint split_eq (s : string) : option (string * string) :=
  match s with
  | EmptyString => None
  | String c s' =>
      if Ascii.eqb c "="%char then Some ("", s')
      else match split_eq s' with Some (k, v) => Some (String c k, v) | None => None end
  end.

(** cli.py:165-172 parse_kv_pairs *)
Fixpoint kv_loop (l : list string) (acc : dict) : res dict :=
  match l with
  | [] => Ok acc
  | i :: l' =>
      match split_eq i with
      | Some (k, v) => kv_loop l' (set_key k (convert_value v) acc)
      | None => Err ValueError
      end
  end.
Definition parse_kv_pairs (l : list string) : res dict := kv_loop l [].

(** ** neps run (cli.py:175-214, options: 773-893) *)

(** What argparse returns; [None]: the option is not there, its value is the default.
    The flags of argparse's [store_true] are [true] when given. *)
Record run_opts : Type := mkOpts {
  o_run_args : option string; o_run_pipeline : option string; o_pipeline_space : option string;
  o_root_directory : option string; o_overwrite : bool; o_summary : option bool;
  o_stage : option string; o_task : option string; o_total : option Z; o_per_run : option Z;
  o_continue : bool; o_cost : option fl; o_ignore : bool; o_loss_err : option fl;
  o_cost_err : option fl; o_searcher : option string; o_kwargs : option (list string) }.

(** [default=Default(d)] *)
Definition opt {A} (f : A -> pyval) (d : pyval) (o : option A) : arg :=
  match o with Some a => Given (f a) | None => Dflt d end.
Definition flag (d : bool) (given value : bool) : arg := if given then Given (VBool value) else Dflt (VBool d).

(** [s.split(":")] *)
Fixpoint split_colon (s : string) : list string :=
  match s with
  | EmptyString => [""]
  | String c s' =>
      if Ascii.eqb c ":"%char then "" :: split_colon s'
      else match split_colon s' with w :: ws => String c w :: ws | [] => [String c ""] end
  end.

(** cli.py:179-185 *)
Definition cli_pipeline (E : env) (o : option string) : res arg :=
  match o with
  | None => Ok (Dflt VNone)
  | Some s =>
      match split_colon s with
      | [path; name] => bind (e_load E (VStr path) (VStr name)) (fun f => Ok (Given f))
      | _ => Err ValueError
      end
  end.

(** cli.py:192-212: the keyword arguments of neps.run *)
Definition cli_options (a : run_opts) (p : arg) (kwargs : dict) : list (string * arg) :=
  update
    [("run_args", opt VStr VNone (o_run_args a)); ("run_pipeline", p);
     ("pipeline_space", opt VStr VNone (o_pipeline_space a));
     ("root_directory", opt VStr VNone (o_root_directory a));
     ("overwrite_working_directory", flag false (o_overwrite a) true);
     ("post_run_summary", opt VBool (VBool true) (o_summary a));
     ("development_stage_id", opt VStr VNone (o_stage a)); ("task_id", opt VStr VNone (o_task a));
     ("max_evaluations_total", opt VInt VNone (o_total a));
     ("max_evaluations_per_run", opt VInt VNone (o_per_run a));
     ("continue_until_max_evaluation_completed", flag false (o_continue a) true);
     ("max_cost_total", opt VFloat VNone (o_cost a)); ("ignore_errors", flag false (o_ignore a) true);
     ("loss_value_on_error", opt VFloat VNone (o_loss_err a));
     ("cost_value_on_error", opt VFloat VNone (o_cost_err a));
     ("searcher", opt VStr (VStr "default") (o_searcher a))]
    (map (fun kv => (fst kv, Given (snd kv))) kwargs).

(** [neps.run(...)] up to the settings (api.py:28-144), with arguments that may be [Default] objects *)
Definition plain_of (a : arg) : pyval := match a with Dflt v | Given v => v end.
Definition locals_of (kw : list (string * arg)) : res (list (string * arg)) :=
  let kwargs := filter (fun kv => negb (has_key (fst kv) Set_model.parameters)) kw in
  if has_key "working_directory" kwargs then Err ValueError
  else
    let base := map (fun kd => (fst kd, match lookup (fst kd) kw with Some a => a | None => Dflt (snd kd) end)) Set_model.parameters in
    let base := match lookup "budget" kwargs with Some a => set_key "max_cost_total" a base | None => base end in
    Ok (base ++ [("searcher_kwargs", Given (VDict (map (fun kv => (fst kv, plain_of (snd kv))) (remove_key "budget" kwargs))))]).

(** cli.py:175-214 run_optimization, up to the settings of the run *)
Definition run_optimization (E : env) (a : run_opts) : res dict :=
  bind (cli_pipeline E (o_run_pipeline a)) (fun p =>
  bind (match o_kwargs a with Some (i :: l) => parse_kv_pairs (i :: l) | _ => Ok [] end) (fun kwargs =>
  bind (locals_of (cli_options a p kwargs)) (settings_init E))).

(** ** Where results are (cli.py:31-51) *)

(** The directory of a run: the entries in it, and what reading it as a NePS state gives. *)
Record state : Type := mkState { st_trials : list trial; st_errors : list (string * string); st_info : dict }.
Record place : Type := mkPlace { pl_entries : list string; pl_state : res state }.
(** [w_config]: yaml.safe_load of run_config.yaml, if it exists; [w_files]: the files of the current
    directory; [w_dirs]: directories *)
Record world : Type := mkWorld { w_config : option (res pyval); w_files : list (string * string); w_dirs : list (string * place) }.

(** [Path(v)] *)
Definition as_path (v : pyval) : res string := match v with VStr s => Ok s | _ => Err TypeError end.

(** cli.py:31-51 get_root_directory *)
Definition get_root_directory (w : world) (arg : option string) : res string :=
  match arg with
  | Some (String c s) => Ok (String c s)
  | _ =>
      match w_config w with
      | Some r =>
          bind r (fun v =>
          match v with
          | VDict d =>
              match lookup "root_directory" d with
              | Some r => if truthy r then as_path r else Err ValueError
              | None => Err ValueError
              end
          | _ => Err AttributeError
          end)
      | None => Err ValueError
      end
  end.

(** filebased.py:504-514: directories that loading makes *)
Definition state_dirs : list string := ["configs"; ".seed_state"; ".errors"; ".optimizer_state"; ".optimizer_info"].
Definition make_dirs (p : place) : place :=
  mkPlace (pl_entries p ++ filter (fun d => negb (existsb (String.eqb d) (pl_entries p))) state_dirs) (pl_state p).

(** What all commands that show something begin with (cli.py:223-233, 270-281, 335-346, 526-537):
    the directory, then the state. *)
Inductive found : Type := NoDirectory | NoState | Loaded (s : state).
Definition look (w : world) (arg : option string) : world * res found :=
  match get_root_directory w arg with
  | Err e => (w, Err e)
  | Ok d =>
      match lookup d (w_dirs w) with
      | None => (w, Ok NoDirectory)
      | Some p =>
          (mkWorld (w_config w) (w_files w) (set_key d (make_dirs p) (w_dirs w)),
           match pl_state p with
           | Ok s => Ok (Loaded s)
           | Err VersionedResourceDoesNotExistsError => Ok NoState
           | Err e => Err e
           end)
      end
  end.

(** ** Sorting: [sorted] is stable *)
Fixpoint insert {A} (le : A -> A -> bool) (x : A) (l : list A) : list A :=
  match l with
  | [] => [x]
  | y :: l' => if le x y then x :: l else y :: insert le x l'
  end.
Definition sorted_by {A} (le : A -> A -> bool) (l : list A) : list A := fold_right (insert le) [] l.

Section Times.
(** datetime.fromtimestamp(...).strftime(...) (cli.py:311-313), str(timedelta(...)) (cli.py:316-322),
    and the latter of the time until now (cli.py:325-327) *)
Variables stamp duration since : fl -> res string.
(** [float(v)] *)
Variable pyfloat : pyval -> res fl.

(** [None] is not a time: TypeError *)
Definition of_time (f : fl -> res string) (o : option fl) : res string :=
  match o with Some x => f x | None => Err TypeError end.

(** ** info-config (cli.py:217-263) *)
Record shown : Type := mkShown {
  sh_id : string; sh_state : tstate; sh_config : dict; sh_location : string; sh_previous : option string;
  sh_sampler : string; sh_sampled : string; sh_evaluator : option string; sh_duration : string;
  sh_started : string; sh_end : string; sh_report : option (option fl * option fl * reported) }.
(** the texts printed for a trial: all of them, or the exception after some of them *)
Definition show_trial (t : trial) : res shown :=
  let m := t_meta t in
  bind (stamp (m_time_sampled m)) (fun a =>
  bind (of_time duration (m_evaluation_duration m)) (fun b =>
  bind (of_time stamp (m_time_started m)) (fun c =>
  bind (of_time stamp (m_time_end m)) (fun d =>
  Ok (mkShown (m_id m) (t_state t) (t_config t) (m_location m) (m_previous_trial_id m) (m_sampling_worker_id m)
        a (m_evaluating_worker_id m) b c d
        (match t_report t with Some r => Some (r_loss r, r_cost r, r_reported_as r) | None => None end)))))).

Inductive info_out : Type := InfoNoDirectory | InfoNoState | InfoNoTrial | Info (s : shown).
(** neps_state.py:64-66 get_trial_by_id *)
Definition find_trial (id : string) (ts : list trial) : option trial := find (fun t => String.eqb (t_id t) id) ts.
Definition info_config (w : world) (arg : option string) (id : string) : world * res info_out :=
  let (w', r) := look w arg in
  (w', bind r (fun f =>
       match f with
       | NoDirectory => Ok InfoNoDirectory
       | NoState => Ok InfoNoState
       | Loaded s =>
           match find_trial id (st_trials s) with
           | None => Ok InfoNoTrial
           | Some t => bind (show_trial t) (fun x => Ok (Info x))
           end
       end)).

(** ** errors (cli.py:266-298): trial and message of every error *)
Inductive errors_out : Type := ErrNoDirectory | ErrNoState | Errors (l : list (string * string)).
Definition errors_command (w : world) (arg : option string) : world * res errors_out :=
  let (w', r) := look w arg in
  (w', bind r (fun f => match f with NoDirectory => Ok ErrNoDirectory | NoState => Ok ErrNoState | Loaded s => Ok (Errors (st_errors s)) end)).

(** ** status (cli.py:330-464) *)
Record row : Type := mkRow { rw_sampled : string; rw_duration : string; rw_id : string; rw_worker : string; rw_state : tstate; rw_loss : option fl }.
(** cli.py:409-426 *)
Definition row_of (t : trial) : res row :=
  let m := t_meta t in
  bind (stamp (m_time_sampled m)) (fun a =>
  bind (if tstate_eqb (t_state t) PENDING || tstate_eqb (t_state t) EVALUATING then since (m_time_sampled m)
        else match m_evaluation_duration m with
             | Some x => if fl_eqb x (FZ 0) then Ok "N/A" else duration x
             | None => Ok "N/A"
             end) (fun b =>
  Ok (mkRow a b (t_id t) (m_sampling_worker_id m) (t_state t)
        (match t_report t with Some r => r_loss r | None => None end)))).

Record status_args : Type := mkSA { sa_pending : bool; sa_evaluating : bool; sa_succeeded : bool }.
(** cli.py:376-379 *)
Definition newest_first (ts : list trial) : list trial :=
  sorted_by (fun a b => negb (fl_ltb (m_time_sampled (t_meta a)) (m_time_sampled (t_meta b)))) ts.
(** cli.py:382-395 *)
Definition listed (a : status_args) (ts : list trial) : list trial :=
  let l := newest_first ts in
  if sa_pending a then filter (fun t => tstate_eqb (t_state t) PENDING) l
  else if sa_evaluating a then filter (fun t => tstate_eqb (t_state t) EVALUATING) l
  else if sa_succeeded a then filter (fun t => tstate_eqb (t_state t) SUCCESS) l
  else firstn 7 l.

Record status_shown : Type := mkStatus {
  ss_optimizer : pyval; ss_succeeded : Z; ss_failed : nat; ss_active : nat; ss_pending : nat;
  ss_with_worker : nat; ss_best_loss : fl; ss_rows : list row;
  (** without a filter: the best trial, and the optimizer's options *)
  ss_best : option (option (string * dict)); ss_options : option dict }.

Inductive status_out : Type := StNoDirectory | StNoState | Status (s : status_shown).
Definition show_status (s : state) (a : status_args) : res status_shown :=
  bind (get_summary pyfloat (st_trials s)) (fun sm =>
  bind (match lookup "searcher_alg" (st_info s) with Some v => Ok v | None => Err KeyError end) (fun alg =>
  bind (mapM row_of (listed a (st_trials s))) (fun rows =>
  let all := negb (sa_pending a) && negb (sa_evaluating a) && negb (sa_succeeded a) in
  bind (if all then
          match lookup "searcher_args" (st_info s) with
          | Some (VDict d) => Ok (Some d)
          | Some _ => Err AttributeError
          | None => Ok (Some [])
          end
        else Ok None) (fun options =>
  Ok (mkStatus alg (Z.of_nat (s_num_evaluated sm) - Z.of_nat (s_num_error sm)) (s_num_error sm)
        (length (filter (fun t => tstate_eqb (t_state t) EVALUATING) (st_trials s)))
        (s_num_pending sm) (s_num_pending_with_worker sm) (s_best_loss sm) rows
        (if all then Some (match s_best sm with Some (i, c, _) => Some (i, c) | None => None end) else None) options))))).
Definition status (w : world) (arg : option string) (a : status_args) : world * res status_out :=
  let (w', r) := look w arg in
  (w', bind r (fun f =>
       match f with
       | NoDirectory => Ok StNoDirectory
       | NoState => Ok StNoState
       | Loaded s => bind (show_status s a) (fun x => Ok (Status x))
       end)).

(** ** results (cli.py:520-572) *)

(** [sorted(trials.values(), key=lambda x: int(x.id))] (cli.py:541): all keys first *)
Definition by_id (ts : list trial) : res (list trial) :=
  bind (mapM (fun t => bind (int_of_string (t_id t)) (fun k => Ok (k, t))) ts) (fun l =>
  Ok (map snd (sorted_by (fun a b => Z.leb (fst a) (fst b)) l))).
(** cli.py:544-549; [None < inf] is a TypeError *)
Fixpoint incumbents (best : fl) (ts : list trial) : res (list trial) :=
  match ts with
  | [] => Ok []
  | t :: ts' =>
      match t_report t with
      | None => incumbents best ts'
      | Some r =>
          match r_loss r with
          | None => Err TypeError
          | Some l => if fl_ltb l best then bind (incumbents l ts') (fun is => Ok (t :: is)) else incumbents best ts'
          end
      end
  end.
(** cli.py:561-569: the lines of the table *)
Definition lines (is : list trial) : list (string * option fl * dict) :=
  map (fun t => (t_id t, match t_report t with Some r => r_loss r | None => None end, t_config t)) (rev is).
(** cli.py:471-479: the points of the plot (position, from 1, and loss) *)
Fixpoint position (id : string) (ts : list trial) (n : nat) : option nat :=
  match ts with
  | [] => None
  | t :: ts' => match position id ts' (S n) with Some k => Some k | None => if String.eqb (t_id t) id then Some n else None end
  end.
Definition plot_x (all is : list trial) : res (list nat) :=
  mapM (fun t => match position (t_id t) all 1 with Some k => Ok k | None => Err KeyError end) is.
Definition plot_y (is : list trial) : list fl :=
  flat_map (fun t => match t_report t with Some r => match r_loss r with Some l => [l] | None => [] end | None => [] end) is.

Inductive results_out : Type := ResNoDirectory | ResNoState | Table (l : list (string * option fl * dict)) | Plot (xs : list nat) (ys : list fl).
Definition show_results (ts : list trial) (plot : bool) : res results_out :=
  bind (by_id ts) (fun all =>
  bind (incumbents FPInf all) (fun is =>
  if plot then bind (plot_x all is) (fun xs => Ok (Plot xs (plot_y is))) else Ok (Table (lines is)))).
Definition results (w : world) (arg : option string) (plot : bool) : world * res results_out :=
  let (w', r) := look w arg in
  (w', bind r (fun f =>
       match f with
       | NoDirectory => Ok ResNoDirectory
       | NoState => Ok ResNoState
       | Loaded s => show_results (st_trials s) plot
       end)).

(** ** init (cli.py:54-140) and main (cli.py:729-988) *)
Inductive template : Type := Basic | Complete.
(** the templates' texts, and the text of cli.md (cli.py:653-726) *)
Variable text_of : template -> string.
Variable markdown : string.
(** Opening the file for writing fails when its directory does not exist: not modelled. *)
Definition init_config (w : world) (path : option string) (t : template) (state_machine : bool) : world :=
  let p := match path with Some (String c s) => String c s | _ => "run_config.yaml" end in
  if has_key p (w_files w) || has_key p (w_dirs w) then w
  else mkWorld (w_config w) (set_key p (text_of t) (w_files w)) (w_dirs w).
Inductive command : Type :=
| CmdInit (path : option string) (t : template) (state_machine : bool)
| CmdInfo (root : option string) (id : string)
| CmdErrors (root : option string)
| CmdStatus (root : option string) (a : status_args)
| CmdResults (root : option string) (plot : bool)
| CmdHelp.
(** cli.py:981-988: cli.md is written first.  [None]: the command ended without an exception.
    The plot of [results --plot] is saved in the directory of the run (cli.py:512-514). *)
Definition exn_of {A} (r : res A) : option exn := match r with Ok _ => None | Err e => Some e end.
Definition add_entry (d : string) (w : world) : world :=
  match lookup d (w_dirs w) with
  | Some p => mkWorld (w_config w) (w_files w)
                (set_key d (mkPlace (if existsb (String.eqb "incumbents_evolution.png") (pl_entries p) then pl_entries p
                                     else pl_entries p ++ ["incumbents_evolution.png"]) (pl_state p)) (w_dirs w))
  | None => w
  end.
Definition run_command (w : world) (c : command) : world * option exn :=
  match c with
  | CmdInit p t m => (init_config w p t m, None)
  | CmdInfo d id => let (w', r) := info_config w d id in (w', exn_of r)
  | CmdErrors d => let (w', r) := errors_command w d in (w', exn_of r)
  | CmdStatus d a => let (w', r) := status w d a in (w', exn_of r)
  | CmdResults d p =>
      let (w', r) := results w d p in
      (match r, get_root_directory w d with Ok (Plot _ _), Ok dir => add_entry dir w' | _, _ => w' end, exn_of r)
  | CmdHelp => (w, None)
  end.
Definition main (w : world) (c : command) : world * option exn :=
  run_command (mkWorld (w_config w) (set_key "cli.md" markdown (w_files w)) (w_dirs w)) c.

End Times.
