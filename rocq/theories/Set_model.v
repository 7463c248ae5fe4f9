(** Arguments of neps.run: keyword arguments, the YAML file given as run_args, their merge, and
    how the searcher is chosen and configured (neps/api.py, neps/utils/run_args.py,
    neps/utils/common.py).

    Dictionary keys are strings.  Objects that are not plain values (functions, classes, search
    spaces, optimizers) are [VObj]; what Python says about them is given by functions of [env]. *)
From Verif Require Export Py Space_model.
From Coq Require Import Ascii.
Open Scope string_scope.
Open Scope list_scope.
Local Notation length := List.length.

(** [isinstance(v, ...)] *)
Definition is_str (v : pyval) : bool := match v with VStr _ => true | _ => false end.
Definition is_dict (v : pyval) : bool := match v with VDict _ => true | _ => false end.
Definition is_bool (v : pyval) : bool := match v with VBool _ => true | _ => false end.
(** bool is a subclass of int *)
Definition is_intv (v : pyval) : bool := match v with VBool _ | VInt _ => true | _ => false end.
Definition is_floatv (v : pyval) : bool := match v with VFloat _ => true | _ => false end.
Definition is_none (v : pyval) : bool := match v with VNone => true | _ => false end.
(** [v == "None"] *)
Definition is_None_str (v : pyval) : bool := match v with VStr s => String.eqb s "None" | _ => false end.
(** [bool(v)].  Simplification: objects are true. *)
Definition truthy (v : pyval) : bool :=
  match v with
  | VNone => false
  | VBool b => b
  | VInt z => negb (Z.eqb z 0)
  | VFloat f => negb (fl_eqb f (FZ 0))
  | VStr s => negb (String.eqb s "")
  | VList l | VTuple l => negb (Nat.eqb (length l) 0)
  | VDict d => negb (Nat.eqb (length d) 0)
  | VObj _ => true
  end.
(** [d.update(e)], [{**d, **e}] *)
Definition update {V} (d e : list (string * V)) : list (string * V) := fold_left (fun d kv => set_key (fst kv) (snd kv) d) e d.

(** What is outside of the model. *)
Record env : Type := mkEnv {
  (** yaml.safe_load of the file at a path *)
  e_file : pyval -> res pyval;
  (** load_and_return_object(path, name) (run_args.py:311-373) *)
  e_load : pyval -> pyval -> res pyval;
  (** pipeline_space_from_yaml *)
  e_space : pyval -> res pyval;
  (** callable(v), isinstance(v, BaseOptimizer), issubclass(v, BaseOptimizer) *)
  e_callable : pyval -> bool; e_optimizer : pyval -> bool; e_subclass : pyval -> res bool
}.

(** ** The YAML file (run_args.py:44-446) *)

(** run_args.py:161-167 *)
Definition no_special : list (string * pyval) :=
  [("run_pipeline", VNone); ("pre_load_hooks", VNone); ("searcher", VNone); ("pipeline_space", VNone)].
(** run_args.py:147-178: the leaves of a dictionary and the special keys found so far *)
Fixpoint extract (v : pyval) (sp : dict) {struct v} : dict * dict :=
  match v with
  | VDict d =>
      (fix go (d : dict) (leaf sp : dict) {struct d} : dict * dict :=
         match d with
         | [] => (leaf, sp)
         | (k, x) :: d' =>
             if has_key k sp && negb (is_None_str x) then go d' leaf (set_key k x sp)
             else match x with
                  | VDict _ => let '(nl, sp') := extract x sp in go d' (update leaf nl) sp'
                  | VNone => go d' leaf sp
                  | _ => if is_None_str x then go d' leaf sp else go d' (set_key k x leaf) sp
                  end
         end) d [] sp
  | _ => ([], sp)
  end.
(** [d.items()] of something else than a dictionary is an AttributeError. *)
Definition extract_leaf_keys (v : pyval) : res (dict * dict) :=
  match v with VDict _ => Ok (extract v no_special) | _ => Err AttributeError end.

(** run_args.py:71-84 *)
Definition expected : list string :=
  ["root_directory"; "max_evaluations_total"; "max_cost_total"; "overwrite_working_directory"; "post_run_summary";
   "development_stage_id"; "task_id"; "max_evaluations_per_run"; "continue_until_max_evaluation_completed";
   "loss_value_on_error"; "cost_value_on_error"; "ignore_errors"].
Definition smem (k : string) (l : list string) : bool := existsb (String.eqb k) l.
(** run_args.py:92-102 *)
Fixpoint simple_settings (flat settings : dict) : res dict :=
  match flat with
  | [] => Ok settings
  | (k, v) :: flat' => if smem k expected then simple_settings flat' (set_key k v settings) else Err KeyError
  end.

Section Yaml.
  Variable E : env.
  Definition get_special (k : string) (sp : dict) : option pyval :=
    match lookup k sp with Some VNone | None => None | Some v => Some v end.
  (** [config[k]] *)
  Definition subscript (v : pyval) (k : string) : res pyval :=
    match v with
    | VDict d => match lookup k d with Some x => Ok x | None => Err KeyError end
    | _ => Err TypeError
    end.
  (** run_args.py:287-308 *)
  Definition process_run_pipeline (sp settings : dict) : res dict :=
    match get_special "run_pipeline" sp with
    | None => Ok settings
    | Some c =>
        bind (subscript c "path") (fun p => bind (subscript c "name") (fun n =>
        bind (e_load E p n) (fun f => Ok (set_key "run_pipeline" f settings))))
    end.
  (** [set(d.keys()) == {"path", "name"}], [{"path", "name"}.issubset(d.keys())] *)
  Definition has_path_name (d : dict) : bool := has_key "path" d && has_key "name" d.
  Definition only_path_name (d : dict) : bool := has_path_name d && forallb (fun kv => smem (fst kv) ["path"; "name"]) d.
  (** run_args.py:206-248 *)
  Definition process_pipeline_space (sp settings : dict) : res dict :=
    match get_special "pipeline_space" sp with
    | None => Ok settings
    | Some v =>
        bind (match v with
              | VDict d =>
                  if only_path_name d
                  then bind (subscript v "path") (fun p => bind (subscript v "name") (fun n => e_load E p n))
                  else e_space E v
              | VStr _ => e_space E v
              | _ => Err TypeError
              end) (fun s => Ok (set_key "pipeline_space" s settings))
    end.
  (** run_args.py:251-284; a path to a file in YAML is a string *)
  Definition process_searcher (sp settings : dict) : res dict :=
    match get_special "searcher" sp with
    | None => Ok settings
    | Some v =>
        match v with
        | VDict d =>
            if has_path_name d then
              bind (subscript v "path") (fun p => bind (subscript v "name") (fun n =>
              let settings := set_key "searcher_kwargs" (VDict (remove_key "name" (remove_key "path" d))) settings in
              bind (e_load E p n) (fun s => Ok (set_key "searcher" s settings))))
            else Ok (set_key "searcher" v settings)
        | VStr _ => Ok (set_key "searcher" v settings)
        | _ => Err TypeError
        end
    end.
  (** run_args.py:201-203, 376-389 *)
  Definition process_hooks (sp settings : dict) : res dict :=
    match get_special "pre_load_hooks" sp with
    | None => Ok settings
    | Some (VDict d) =>
        bind (mapM (fun kv => e_load E (snd kv) (VStr (fst kv))) d) (fun l => Ok (set_key "pre_load_hooks" (VList l) settings))
    | Some _ => Err AttributeError
    end.
  (** run_args.py:407-422 and 441: [isinstance(value, expected_types[param])] *)
  Definition type_ok (k : string) (v : pyval) : option bool :=
    if String.eqb k "run_pipeline" then Some (e_callable E v)
    else if String.eqb k "root_directory" then Some (is_str v)
    else if String.eqb k "pipeline_space" then Some (is_str v || is_dict v)
    else if smem k ["overwrite_working_directory"; "post_run_summary"; "continue_until_max_evaluation_completed"; "ignore_errors"]
    then Some (is_bool v)
    else if smem k ["max_evaluations_total"; "max_evaluations_per_run"] then Some (is_intv v)
    else if String.eqb k "max_cost_total" then Some (is_intv v || is_floatv v)
    else if smem k ["loss_value_on_error"; "cost_value_on_error"] then Some (is_floatv v)
    else if String.eqb k "searcher_kwargs" then Some (is_dict v)
    else None.
  (** run_args.py:423-446 *)
  Definition check_one (k : string) (v : pyval) : res unit :=
    if smem k ["development_stage_id"; "task_id"] then Ok tt
    else if String.eqb k "pre_load_hooks" then
      match v with
      | VList l => if forallb (e_callable E) l then Ok tt else Err TypeError
      | _ => Err TypeError
      end
    else if String.eqb k "searcher" then
      if is_str v || is_dict v then Ok tt
      else bind (e_subclass E v) (fun b => if b : bool then Ok tt else Err TypeError)
    else match type_ok k v with
         | None => Err KeyError
         | Some true => Ok tt
         | Some false => Err TypeError
         end.
  Fixpoint check_run_args (settings : dict) : res unit :=
    match settings with
    | [] => Ok tt
    | (k, v) :: settings' => bind (check_one k v) (fun _ => check_run_args settings')
    end.
  (** run_args.py:44-116, on the content of the file *)
  Definition yaml_settings (config : pyval) : res dict :=
    bind (extract_leaf_keys config) (fun '(flat, sp) =>
    bind (simple_settings flat []) (fun s =>
    bind (process_run_pipeline sp s) (fun s =>
    bind (process_pipeline_space sp s) (fun s =>
    bind (process_searcher sp s) (fun s =>
    bind (process_hooks sp s) (fun s =>
    bind (check_run_args s) (fun _ => Ok s))))))).
End Yaml.

(** ** Settings (run_args.py:504-607) *)

(** An argument: Default(v) or what the caller passed. *)
Inductive arg : Type := Dflt (v : pyval) | Given (v : pyval).
(** [**v] *)
Definition as_dict (v : pyval) : res dict := match v with VDict d => Ok d | _ => Err TypeError end.
(** run_args.py:552-570; [searcher_kwargs] is popped from the YAML settings, which are not used
    for that key again. *)
Fixpoint merge_loop (args : list (string * arg)) (yaml merged : dict) : res dict :=
  match args with
  | [] => Ok merged
  | (k, a) :: args' =>
      if String.eqb k "searcher_kwargs" then
        bind (match lookup k yaml with Some v => as_dict v | None => Ok [] end) (fun y =>
        bind (match a with Given v => as_dict v | Dflt _ => Err TypeError end) (fun f =>
        merge_loop args' (remove_key k yaml) (set_key k (VDict (update y f)) merged)))
      else match a with
           | Given v => merge_loop args' yaml (set_key k v merged)
           | Dflt v => if has_key k yaml then merge_loop args' yaml merged else merge_loop args' yaml (set_key k v merged)
           end
  end.
Definition merge (args : list (string * arg)) (yaml : dict) : res dict := merge_loop args yaml yaml.
(** run_args.py:540-545 *)
Definition plain (args : list (string * arg)) : dict :=
  fold_left (fun d kv => set_key (fst kv) (match snd kv with Dflt v | Given v => v end) d) args [].
(** run_args.py:518-534 *)
Definition attributes : list string :=
  ["run_pipeline"; "root_directory"; "pipeline_space"; "overwrite_working_directory"; "post_run_summary"; "development_stage_id";
   "task_id"; "max_evaluations_total"; "max_evaluations_per_run"; "continue_until_max_evaluation_completed"; "max_cost_total";
   "ignore_errors"; "loss_value_on_error"; "cost_value_on_error"; "pre_load_hooks"; "searcher"; "searcher_kwargs"].
(** run_args.py:572-580.  Simplification: [hasattr] also holds for the names of methods, which do
    not occur as keys. *)
Fixpoint assign_all (d : dict) (attrs : list (string * option pyval)) : res (list (string * option pyval)) :=
  match d with
  | [] => Ok attrs
  | (k, v) :: d' => if has_key k attrs then assign_all d' (set_key k (Some v) attrs) else Err AttributeError
  end.
(** run_args.py:582-588, 594-599 *)
Fixpoint all_set (attrs : list (string * option pyval)) : option dict :=
  match attrs with
  | [] => Some []
  | (k, Some v) :: a => match all_set a with Some d => Some ((k, v) :: d) | None => None end
  | (_, None) :: _ => None
  end.
(** run_args.py:449-488 *)
Definition check_essential (E : env) (st : dict) : res unit :=
  let get k := match lookup k st with Some v => v | None => VNone end in
  if negb (truthy (get "run_pipeline")) then Err ValueError
  else if negb (truthy (get "root_directory")) then Err ValueError
  else if negb (truthy (get "pipeline_space")) && negb (e_optimizer E (get "searcher")) then Err ValueError
  else if negb (truthy (get "max_evaluations_total")) && negb (truthy (get "max_cost_total")) then Err ValueError
  else Ok tt.
(** run_args.py:509-550 *)
Definition settings_init (E : env) (args : list (string * arg)) : res dict :=
  bind (match lookup "run_args" args with
        | Some (Given VNone) | Some (Dflt _) | None => Ok (plain args)
        | Some (Given p) => bind (e_file E p) (fun c => bind (yaml_settings E c) (fun y => merge args y))
        end) (fun d =>
  bind (assign_all (remove_key "run_args" d) (map (fun k => (k, None)) attributes)) (fun attrs =>
  match all_set attrs with
  | None => Err ValueError
  | Some st => bind (check_essential E st) (fun _ => Ok st)
  end)).

(** ** neps.run (api.py:28-144) *)

(** api.py:29-57: the parameters and their defaults *)
Definition parameters : list (string * pyval) :=
  [("run_pipeline", VNone); ("root_directory", VNone); ("pipeline_space", VNone); ("run_args", VNone);
   ("overwrite_working_directory", VBool false); ("post_run_summary", VBool true); ("development_stage_id", VNone);
   ("task_id", VNone); ("max_evaluations_total", VNone); ("max_evaluations_per_run", VNone);
   ("continue_until_max_evaluation_completed", VBool false); ("max_cost_total", VNone); ("ignore_errors", VBool false);
   ("loss_value_on_error", VNone); ("cost_value_on_error", VNone); ("pre_load_hooks", VNone); ("searcher", VStr "default")].
(** The arguments as [locals()] has them (api.py:128-144); [kw]: those of the call, all by name. *)
Definition local_args (kw : dict) : res (list (string * arg)) :=
  let kwargs := filter (fun kv => negb (has_key (fst kv) parameters)) kw in
  if has_key "working_directory" kwargs then Err ValueError
  else
    let base := map (fun kd => (fst kd, match lookup (fst kd) kw with Some v => Given v | None => Dflt (snd kd) end)) parameters in
    let base := match lookup "budget" kwargs with Some v => set_key "max_cost_total" (Given v) base | None => base end in
    Ok (base ++ [("searcher_kwargs", Given (VDict (remove_key "budget" kwargs)))]).
Definition run_settings (E : env) (kw : dict) : res dict := bind (local_args kw) (settings_init E).

(** ** The searcher (api.py:164-208, 258-426) *)

(** neps/optimizers/default_searchers: the files and their strategies *)
Definition default_searchers : list (string * string) :=
  [("asha", "asha"); ("asha_prior", "asha_prior"); ("bayesian_optimization", "bayesian_optimization"); ("hyperband", "hyperband");
   ("ifbo", "ifbo"); ("mobster", "mobster"); ("pibo", "pibo"); ("priorband", "priorband"); ("priorband_bo", "priorband");
   ("random_search", "random_search"); ("successive_halving", "successive_halving");
   ("successive_halving_prior", "successive_halving_prior")].
(** optimizers/__init__.py:25-42: SearcherMapping *)
Definition mapping : list string :=
  ["bayesian_optimization"; "pibo"; "random_search"; "grid_search"; "successive_halving"; "successive_halving_prior"; "asha";
   "hyperband"; "asha_prior"; "hyperband_custom_default"; "priorband"; "priorband_bo"; "priorband_asha";
   "priorband_asha_hyperband"; "mobster"; "ifbo"].
(** api.py:341-350; [has_fidelity] (search_space.py:291-294) is [self.fidelity is not None] *)
Definition decide {T} (s : space T) : string :=
  if s_prior s then match s_fidelity s with Some _ => "priorband" | None => "pibo" end
  else match s_fidelity s with Some _ => "hyperband" | None => "bayesian_optimization" end.

Section Searcher.
  (** The content of the default file of a searcher, but the strategy (get_searcher_data,
      common.py:211-237); that of a file of the user (common.py:197-208), with its name. *)
  Variable defaults : string -> dict.
  Variable user_file : pyval -> res (dict * string).
  (** [obj.__name__] *)
  Variable name_of : pyval -> res pyval.

  (** common.py:184-237 *)
  Definition searcher_data (name : string) : res (dict * string) :=
    match lookup name default_searchers with
    | None => Err FileNotFoundError
    | Some strategy => Ok (("strategy", VStr strategy) :: defaults name, name)
    end.
  (** common.py:244-255 *)
  Fixpoint get_value (v : pyval) : res pyval :=
    match v with
    | VNone | VBool _ | VInt _ | VFloat _ | VStr _ => Ok v
    | VDict d =>
        bind ((fix go (d : dict) : res dict :=
                 match d with [] => Ok [] | (k, x) :: d' => bind (get_value x) (fun y => bind (go d') (fun r => Ok ((k, y) :: r))) end) d)
             (fun d => Ok (VDict d))
    | VList l =>
        bind ((fix go (l : list pyval) : res (list pyval) :=
                 match l with [] => Ok [] | x :: l' => bind (get_value x) (fun y => bind (go l') (fun r => Ok (y :: r))) end) l)
             (fun l => Ok (VList l))
    | VTuple _ | VObj _ => name_of v
    end.
  (** Where the searcher came from: its configuration, its name, and whether NePS chose it
      (api.py:312-357); [path v]: isinstance(v, (str, Path)). *)
  Definition find_searcher {T} (s : space T) (path : pyval -> bool) (searcher : pyval) : res (dict * string * bool) :=
    let known := match searcher with VStr n => has_key n default_searchers || String.eqb n "default" | _ => false end in
    if path searcher && negb known then bind (user_file searcher) (fun '(c, n) => Ok (c, n, false))
    else
    match searcher with
    | VDict d =>
        match lookup "strategy" d with
        | None => Err KeyError
        | Some (VStr st) =>
            bind (searcher_data st) (fun '(c, n) =>
            let c := update c d in
            match lookup "name" c with
            | None => Ok (c, ("custom_" ++ n)%string, false)
            | Some (VStr n) => Ok (remove_key "name" c, n, false)
            | Some _ => Err TypeError
            end)
        | Some _ => Err TypeError
        end
    | VNone => bind (searcher_data (decide s)) (fun '(c, n) => Ok (c, n, true))
    | VStr n =>
        if String.eqb n "default" then bind (searcher_data (decide s)) (fun '(c, n) => Ok (c, n, true))
        else bind (searcher_data n) (fun '(c, n) => Ok (c, n, false))
    | _ => Err TypeError
    end.
  (** api.py:383-403 *)
  Fixpoint apply_kwargs (chosen : bool) (kwargs config : dict) : res dict :=
    match kwargs with
    | [] => Ok config
    | (k, v) :: kwargs' =>
        if chosen then apply_kwargs chosen kwargs' config
        else bind (get_value v) (fun _ =>
             let same := match lookup k config with Some w => py_eqb w v | None => false end in
             apply_kwargs chosen kwargs' (if same then config else set_key k v config))
    end.
  (** api.py:312-422: the algorithm, the arguments it is called with besides the pipeline space,
      and whether NePS chose it.  Repeated arguments, of this function or of the optimizer, are a
      TypeError. *)
  Definition run_args {T} (s : space T) (path : pyval -> bool) (searcher budget loss cost ign : pyval) (kwargs : dict)
    : res (string * dict * bool) :=
    if existsb (fun kv => smem (fst kv) ["searcher_info"; "pipeline_space"; "max_cost_total"; "ignore_errors"; "loss_value_on_error";
                                        "cost_value_on_error"; "searcher"]) kwargs then Err TypeError else
    bind (find_searcher s path searcher) (fun '(c, _, chosen) =>
    let c := match lookup "algorithm" c with Some a => set_key "strategy" a (remove_key "algorithm" c) | None => c end in
    match lookup "strategy" c with
    | None => Err KeyError
    | Some alg =>
        bind (apply_kwargs chosen kwargs (remove_key "strategy" c)) (fun c =>
        bind (get_value (VDict c)) (fun _ =>
        let c := update c [("loss_value_on_error", loss); ("cost_value_on_error", cost); ("ignore_errors", ign)] in
        match alg with
        | VStr a =>
            if smem a mapping then
              if has_key "budget" c || has_key "pipeline_space" c then Err TypeError
              else Ok (a, set_key "budget" budget c, chosen)
            else Err ValueError
        | _ => Err ValueError
        end))
    end).
  (** api.py:164-208: the optimizer of the run, an object of the user or one built by NePS.
      [isclass]: inspect.isclass; [make c space kwargs]: [c(SearchSpace( **space), **kwargs)];
      [path] also tells Path objects. *)
  Definition the_optimizer {T} (E : env) (isclass : pyval -> bool) (make : pyval -> pyval -> dict -> res pyval) (s : space T) (path : pyval -> bool)
    (pipeline_space searcher budget loss cost ign : pyval) (kwargs : dict) : res (pyval + string * dict * bool) :=
    bind (if isclass searcher then
            bind (e_subclass E searcher) (fun b => if b : bool then make searcher pipeline_space kwargs else Err TypeError)
          else Ok searcher) (fun v =>
    bind (if e_optimizer E v then Ok (inl v)
          else bind (run_args s path v budget loss cost ign kwargs) (fun r => Ok (inr r))) (fun r =>
    if e_optimizer E v || path v || is_dict v then Ok r else Err ValueError)).
End Searcher.

(** ** The directory (api.py:216-223) *)
(** [Path(root) / f"task_{id}" / f"dev_{id}"] as components; [str_of]: [str(id)]. *)
Fixpoint split_slash (s acc : string) : list string :=
  match s with
  | EmptyString => [acc]
  | String c s' => if Ascii.eqb c "/"%char then acc :: split_slash s' "" else split_slash s' (acc ++ String c "")%string
  end.
(** Path(...) drops empty components and "." *)
Definition components (s : string) : list string :=
  filter (fun c => negb (String.eqb c "" || String.eqb c ".")) (split_slash s "").
Definition run_directory (str_of : pyval -> string) (root : list string) (task dev : pyval) : list string :=
  let r := match task with VNone => root | t => root ++ components ("task_" ++ str_of t)%string end in
  match dev with VNone => r | d => r ++ components ("dev_" ++ str_of d)%string end.

(** ** Spaces of ConfigSpace (search_space.py:45-95) *)
Section ConfigSpace.
  Context {T : Type} (A : arith T).
  (** A hyperparameter; ConfigSpace gives all but constants a default value. *)
  Inductive cs_param : Type :=
  | CSConstant (v : pyval) | CSCategorical (choices : list pyval) (default : pyval) | CSOrdinal (sequence : list pyval) (default : pyval)
  | CSInteger (l u : T) (log : bool) (default : T) | CSFloat (l u : T) (log : bool) (default : T) | CSOther.
  (** search_space.py:65-93; the confidence is the constructors' default, "low" *)
  Definition cs_one (p : cs_param) : res (param T) :=
    match p with
    | CSConstant v => Ok (PK (constant_parameter v))
    | CSCategorical cs d | CSOrdinal cs d => bind (categorical_parameter cs (Some d) "low") (fun p => Ok (PC p))
    | CSInteger l u log d => bind (integer_parameter A l u log false (Some d) "low") (fun p => Ok (PI p))
    | CSFloat l u log d => bind (float_parameter A l u log false (Some d) "low") (fun p => Ok (PF p))
    | CSOther => Err ValueError
    end.
  Definition from_configspace (conditions : bool) (l : list (string * cs_param)) : res (list (string * param T)) :=
    if conditions then Err NotImplementedError
    else mapM (fun kp => bind (cs_one (snd kp)) (fun p => Ok (fst kp, p))) l.
  (** api.py:298-309: a pipeline space of parameters and ConfigSpaces; [**] makes a later entry of
      the same name replace an earlier one. *)
  Inductive entry : Type := EParam (p : param T) | EConfigSpace (conditions : bool) (l : list (string * cs_param)).
  Fixpoint gather (l : list (string * entry)) (acc : list (string * param T)) : res (list (string * param T)) :=
    match l with
    | [] => Ok acc
    | (k, EParam p) :: l' => gather l' (set_key k p acc)
    | (_, EConfigSpace c ps) :: l' => bind (from_configspace c ps) (fun ps => gather l' (update acc ps))
    end.
  Definition to_space (l : list (string * entry)) : res (space T) := bind (gather l []) search_space.
End ConfigSpace.
