(** What is expected of the arguments of neps.run. *)
From Verif Require Export Set_model.
From Coq Require Import Ascii.
Local Notation length := List.length.

(** ** Nested dictionaries *)
Definition special_name (k : string) : Prop := In k ["run_pipeline"; "pre_load_hooks"; "searcher"; "pipeline_space"].
(** No value: null or the string None. *)
Definition null (v : pyval) : Prop := v = VNone \/ v = VStr "None".
(** [v] is the value of the leaf [k] in the groups [p], none of which is a special key. *)
Inductive leaf_at : dict -> list string -> string -> pyval -> Prop :=
| leaf_here d k v : In (k, v) d -> ~ special_name k -> (forall e, v <> VDict e) -> ~ null v -> leaf_at d [] k v
| leaf_below d g e p k v : In (g, VDict e) d -> ~ special_name g -> leaf_at e p k v -> leaf_at d (g :: p) k v.
(** [v] is written for the special key [k] in the groups [p]; it may be null. *)
Inductive special_at : dict -> list string -> string -> pyval -> Prop :=
| special_here d k v : In (k, v) d -> special_name k -> v <> VStr "None" -> special_at d [] k v
| special_below d g e p k v : In (g, VDict e) d -> ~ special_name g -> special_at e p k v -> special_at d (g :: p) k v.
(** Each name is used once. *)
Definition leaves_once (d : dict) : Prop := forall p p' k v v', leaf_at d p k v -> leaf_at d p' k v' -> p = p'.
Definition specials_once (d : dict) : Prop := forall p p' k v v', special_at d p k v -> special_at d p' k v' -> p = p'.

(** ** Types in the YAML file *)
Inductive typed (E : env) : string -> pyval -> Prop :=
| ty_root s : typed E "root_directory" (VStr s)
| ty_total v : is_intv v = true -> typed E "max_evaluations_total" v
| ty_per_run v : is_intv v = true -> typed E "max_evaluations_per_run" v
| ty_cost_int v : is_intv v = true -> typed E "max_cost_total" v
| ty_cost_float f : typed E "max_cost_total" (VFloat f)
| ty_overwrite b : typed E "overwrite_working_directory" (VBool b)
| ty_summary b : typed E "post_run_summary" (VBool b)
| ty_continue b : typed E "continue_until_max_evaluation_completed" (VBool b)
| ty_ignore b : typed E "ignore_errors" (VBool b)
| ty_loss f : typed E "loss_value_on_error" (VFloat f)
| ty_cost f : typed E "cost_value_on_error" (VFloat f)
| ty_dev v : typed E "development_stage_id" v
| ty_task v : typed E "task_id" v
| ty_run v : e_callable E v = true -> typed E "run_pipeline" v
| ty_space_str s : typed E "pipeline_space" (VStr s)
| ty_space_dict d : typed E "pipeline_space" (VDict d)
| ty_hooks l : Forall (fun v => e_callable E v = true) l -> typed E "pre_load_hooks" (VList l)
| ty_searcher_str s : typed E "searcher" (VStr s)
| ty_searcher_dict d : typed E "searcher" (VDict d)
| ty_searcher_class v : e_subclass E v = Ok true -> typed E "searcher" v
| ty_kwargs d : typed E "searcher_kwargs" (VDict d).

(** ** Where settings come from *)
(** The caller gave [v] for [k]; [budget] is another name of [max_cost_total], which wins. *)
Definition given (kw : dict) (k : string) (v : pyval) : Prop :=
  if String.eqb k "max_cost_total" then
    match lookup "budget" kw with Some b => v = b | None => lookup k kw = Some v end
  else lookup k kw = Some v.
Inductive source (kw ys : dict) (k : string) : pyval -> Prop :=
| from_code v : given kw k v -> source kw ys k v
| from_yaml v : (forall w, ~ given kw k w) -> lookup k ys = Some v -> source kw ys k v
| from_default v : (forall w, ~ given kw k w) -> lookup k ys = None -> lookup k parameters = Some v -> source kw ys k v.
(** The settings of the YAML file, if there is one. *)
Inductive yaml_of (E : env) (kw : dict) : dict -> Prop :=
| no_yaml : lookup "run_args" kw = None \/ lookup "run_args" kw = Some VNone -> yaml_of E kw []
| a_yaml p c ys : lookup "run_args" kw = Some p -> p <> VNone -> e_file E p = Ok c -> yaml_settings E c = Ok ys -> yaml_of E kw ys.
(** An option for the searcher among the caller's arguments. *)
Definition option_given (kw : dict) (k : string) : option pyval :=
  if has_key k parameters || String.eqb k "budget" then None else lookup k kw.
Definition yaml_option (ys : dict) (k : string) : option pyval :=
  match lookup "searcher_kwargs" ys with Some (VDict d) => lookup k d | _ => None end.
(** The settings [st] of a run with the arguments [kw] and the YAML settings [ys]. *)
Definition settles (kw ys st : dict) : Prop :=
  map fst st = attributes /\
  (forall k, In k attributes -> k <> "searcher_kwargs" -> exists v, lookup k st = Some v /\ source kw ys k v) /\
  exists d, lookup "searcher_kwargs" st = Some (VDict d) /\
    forall k, lookup k d = match option_given kw k with Some v => Some v | None => yaml_option ys k end.

(** ** The searcher *)
(** The parameter was given a default, is a fidelity. *)
Definition some_prior {T} (l : list (string * param T)) : Prop := exists k p, In (k, p) l /\ p_prior p = true.
Definition some_fidelity {T} (l : list (string * param T)) : Prop := exists k p, In (k, p) l /\ p_fid p = true.
(** The files of NePS and the algorithms they name: all are named after their algorithm but one. *)
Definition strategy_of (n a : string) : Prop :=
  n = "priorband_bo" /\ a = "priorband" \/
  n = a /\ In n ["asha"; "asha_prior"; "bayesian_optimization"; "hyperband"; "ifbo"; "mobster"; "pibo"; "priorband"; "random_search"; "successive_halving"; "successive_halving_prior"].
(** The caller chose the searcher [v]; [look] is its configuration: of the file of NePS, of a file
    of the user, or of a dictionary, over the file of its strategy. *)
Inductive configured (defaults : string -> dict) (user_file : pyval -> res (dict * string)) (path : pyval -> bool) : pyval -> (string -> option pyval) -> Prop :=
| conf_known n : In n (map fst default_searchers) -> configured defaults user_file path (VStr n) (fun k => lookup k (defaults n))
| conf_file v c n : path v = true -> (forall n, v = VStr n -> n <> "default" /\ ~ In n (map fst default_searchers)) -> user_file v = Ok (c, n) ->
    configured defaults user_file path v (fun k => lookup k c)
| conf_dict d st : path (VDict d) = false -> NoDup (map fst d) -> lookup "strategy" d = Some (VStr st) -> In st (map fst default_searchers) ->
    configured defaults user_file path (VDict d) (fun k => match lookup k d with Some v => Some v | None => lookup k (defaults st) end).

(** ** Directories *)
(** Without "/". *)
Fixpoint slash_free (s : string) : bool := match s with EmptyString => true | String c s' => negb (Ascii.eqb c "/"%char) && slash_free s' end.
Definition plain_id (str_of : pyval -> string) (v : pyval) : Prop := v <> VNone -> slash_free (str_of v) = true.
(** The same identifier, or none. *)
Definition same_id (str_of : pyval -> string) (a b : pyval) : Prop := (a = VNone <-> b = VNone) /\ (a <> VNone -> b <> VNone -> str_of a = str_of b).
