(** Settings of a run: what holds of them, and where it fails. *)
From Verif Require Import Set_spec Py_proofs Set_flat_proofs Set_proofs Set_search_proofs Dom_spec Dom_props Param_props Space_props.
Local Notation length := List.length.
Local Notation get := Param_props.get.

(** An environment: a file run.yaml, functions and classes as objects. *)
Definition ex_yaml : dict :=
  [("run_pipeline", VDict [("path", VStr "run.py"); ("name", VStr "evaluate")]); ("pipeline_space", VDict [("lr", VInt 1)]);
   ("limits", VDict [("max_evaluations_total", VInt 20); ("more", VDict [("root_directory", VStr "results"); ("task_id", VNone)])]);
   ("searcher", VDict [("path", VStr "opt.py"); ("name", VStr "Mine"); ("eta", VInt 3); ("seed", VInt 0)]); ("ignore_errors", VBool true)].
Definition ex_env (content : pyval) : env :=
  mkEnv (fun _ => Ok content) (fun _ n => if py_eqb n (VStr "Mine") then Ok (VObj 2) else Ok (VObj 1)) (fun v => Ok v)
    (fun v => match v with VObj _ => true | _ => false end) (fun v => match v with VObj 3 => true | _ => false end)
    (fun v => match v with VObj 2 => Ok true | VObj _ => Ok false | _ => Err TypeError end).
Definition ex_e : env := ex_env (VDict ex_yaml).

(** ** C56: flattening *)
Theorem flatten_leaves : forall d leaf sp, wf_val (VDict d) -> leaves_once d -> extract_leaf_keys (VDict d) = Ok (leaf, sp) ->
  NoDup (map fst leaf) /\ forall k v, lookup k leaf = Some v <-> exists p, leaf_at d p k v.
Proof. intros d leaf sp W O H. split; [exact (proj1 (flatten_leaf_l d leaf sp H))|exact (flatten_leaf_once d leaf sp W O H)]. Qed.
Theorem flatten_specials : forall d leaf sp, wf_val (VDict d) -> specials_once d -> extract_leaf_keys (VDict d) = Ok (leaf, sp) ->
  forall k v, v <> VNone -> (get_special k sp = Some v <-> exists p, special_at d p k v).
Proof. exact flatten_special_once. Qed.
(** Names used several times: one of the values is kept, and none is invented. *)
Theorem flatten_any : forall d leaf sp, extract_leaf_keys (VDict d) = Ok (leaf, sp) ->
  NoDup (map fst leaf) /\ (forall k v, lookup k leaf = Some v -> exists p, leaf_at d p k v) /\
  (forall p k v, leaf_at d p k v -> exists w, lookup k leaf = Some w) /\
  (forall k v, get_special k sp = Some v -> exists p, special_at d p k v) /\
  (forall p k v, special_at d p k v -> exists p' w, special_at d p' k w /\ lookup k sp = Some w).
Proof.
  intros d leaf sp H. destruct (flatten_leaf_l d leaf sp H) as (A & B & C). destruct (flatten_special_l d leaf sp H) as (D & F). auto.
Qed.
Print Assumptions flatten_leaves.
Print Assumptions flatten_specials.
Print Assumptions flatten_any.
Definition ex_small : dict := [("a", VInt 1); ("g", VDict [("b", VStr "x"); ("searcher", VDict [("c", VInt 2)])]); ("n", VNone)].
Lemma ex_small_leaf p k v : leaf_at ex_small p k v <-> (p, k, v) = ([], "a", VInt 1) \/ (p, k, v) = (["g"], "b", VStr "x").
Proof.
  split.
  - intros H. inversion H as [d k0 v0 I S D N|d g e q k0 v0 I S L]; subst.
    + cbn in I. destruct I as [[= <- <-]|[[= <- <-]|[[= <- <-]|[]]]]; [auto|exfalso; eapply D; reflexivity|exfalso; apply N; left; reflexivity].
    + cbn in I. destruct I as [[=]|[[= <- <-]|[[=]|[]]]].
      inversion L as [d k0 v0 I S' D N|d g e q0 k0 v0 I S' L']; subst.
      * cbn in I. destruct I as [[= <- <-]|[[= <- <-]|[]]]; [auto|exfalso; eapply D; reflexivity].
      * cbn in I. destruct I as [[=]|[[= <- <-]|[]]]. exfalso. apply S'. cbn. auto.
  - intros [[= -> -> ->]|[= -> -> ->]].
    + apply leaf_here; [cbn; auto|cbn; intuition discriminate|discriminate|intros [?|?]; discriminate].
    + eapply leaf_below; [cbn; auto|cbn; intuition discriminate|]. apply leaf_here; [cbn; auto|cbn; intuition discriminate|discriminate|intros [?|?]; discriminate].
Qed.
Lemma ex_small_special p k v : special_at ex_small p k v <-> (p, k, v) = (["g"], "searcher", VDict [("c", VInt 2)]).
Proof.
  split.
  - intros H. inversion H as [d k0 v0 I S D|d g e q k0 v0 I S L]; subst.
    + cbn in I. destruct I as [[= <- <-]|[[= <- <-]|[[= <- <-]|[]]]]; cbn in S; intuition discriminate.
    + cbn in I. destruct I as [[=]|[[= <- <-]|[[=]|[]]]].
      inversion L as [d k0 v0 I S' D|d g e q0 k0 v0 I S' L']; subst.
      * cbn in I. destruct I as [[= <- <-]|[[= <- <-]|[]]]; [cbn in S'; intuition discriminate|reflexivity].
      * cbn in I. destruct I as [[=]|[[= <- <-]|[]]]. exfalso. apply S'. cbn. auto.
  - intros [= -> -> ->]. eapply special_below; [cbn; auto|cbn; intuition discriminate|]. apply special_here; [cbn; auto|cbn; auto|discriminate].
Qed.
Example flatten_ex : wf_val (VDict ex_small) /\ leaves_once ex_small /\ specials_once ex_small /\
  extract_leaf_keys (VDict ex_small) = Ok ([("a", VInt 1); ("b", VStr "x")],
    [("run_pipeline", VNone); ("pre_load_hooks", VNone); ("searcher", VDict [("c", VInt 2)]); ("pipeline_space", VNone)]).
Proof.
  split; [cbn; repeat split; repeat (constructor; [cbn; intuition discriminate|]); constructor|]. split; [|split; [|reflexivity]].
  - intros p p' k v v' A B. apply ex_small_leaf in A. apply ex_small_leaf in B. destruct A as [A|A], B as [B|B]; congruence.
  - intros p p' k v v' A B. apply ex_small_special in A. apply ex_small_special in B. congruence.
Qed.
(** Two groups with a leaf of the same name: the first value is lost, without an error. *)
Theorem flatten_same_name_refuted : exists d leaf sp p p' k v v', wf_val (VDict d) /\ extract_leaf_keys (VDict d) = Ok (leaf, sp) /\
  leaf_at d p k v /\ leaf_at d p' k v' /\ v <> v' /\ lookup k leaf = Some v'.
Proof.
  exists [("first", VDict [("max_cost_total", VInt 5)]); ("second", VDict [("max_cost_total", VInt 9)])], [("max_cost_total", VInt 9)], no_special,
    ["first"], ["second"], "max_cost_total", (VInt 5), (VInt 9).
  split; [cbn; repeat split; repeat (constructor; [cbn; intuition discriminate|]); constructor|]. split; [reflexivity|].
  split; [|split; [|split; [discriminate|reflexivity]]];
    (eapply leaf_below; [cbn; auto|cbn; intuition discriminate|]; apply leaf_here; [cbn; auto|cbn; intuition discriminate|discriminate|intros [?|?]; discriminate]).
Qed.
Print Assumptions flatten_same_name_refuted.

(** ** C55: code over YAML over defaults *)
Theorem settings_priority : forall E kw st, NoDup (map fst kw) -> run_settings E kw = Ok st -> exists ys, yaml_of E kw ys /\ settles kw ys st.
Proof. exact settings_l. Qed.
(** What the YAML file says is the leaves of the file. *)
Theorem yaml_values : forall E d ys, wf_val (VDict d) -> leaves_once d -> yaml_settings E (VDict d) = Ok ys ->
  forall k v, In k expected -> (lookup k ys = Some v <-> exists p, leaf_at d p k v).
Proof. exact yaml_simple_once. Qed.
Theorem yaml_options : forall E d ys, wf_val (VDict d) -> specials_once d -> yaml_settings E (VDict d) = Ok ys ->
  forall o, lookup "searcher_kwargs" ys = Some o <-> exists p e x y, special_at d p "searcher" (VDict e) /\ lookup "path" e = Some x /\ lookup "name" e = Some y /\
    o = VDict (remove_key "name" (remove_key "path" e)).
Proof. exact yaml_kwargs_l. Qed.
(** Every argument of the run but run_args itself can be given in the file. *)
Theorem yaml_names : forall k, In k (map fst parameters) <-> k = "run_args" \/ special_name k \/ In k expected.
Proof. intros k. unfold special_name. cbn. split; intuition (subst; auto 30). Qed.
(** An unknown name in the YAML file is an error. *)
Theorem yaml_unknown_rejected : forall E d p k v, leaf_at d p k v -> ~ In k expected -> yaml_settings E (VDict d) = Err KeyError.
Proof. exact yaml_unknown_l. Qed.
(** The settings of a YAML file that is accepted have their types, and well-typed settings are accepted. *)
Theorem yaml_typed : forall E c ys k v, yaml_settings E c = Ok ys -> In (k, v) ys -> typed E k v.
Proof. exact yaml_typed_l. Qed.
Theorem yaml_typed_accepted : forall E k v, typed E k v -> check_one E k v = Ok tt.
Proof. exact type_ok_typed. Qed.
(** The necessary arguments are there. *)
Theorem settings_essential : forall E kw st, run_settings E kw = Ok st ->
  (exists v, lookup "run_pipeline" st = Some v /\ truthy v = true) /\ (exists v, lookup "root_directory" st = Some v /\ truthy v = true) /\
  (exists v, (lookup "pipeline_space" st = Some v /\ truthy v = true) \/ (lookup "searcher" st = Some v /\ e_optimizer E v = true) \/ (lookup "searcher" st = None /\ e_optimizer E VNone = true)) /\
  (exists v, (lookup "max_evaluations_total" st = Some v \/ lookup "max_cost_total" st = Some v) /\ truthy v = true).
Proof. exact essential_l. Qed.
Print Assumptions settings_priority.
Print Assumptions yaml_values.
Print Assumptions yaml_options.
Print Assumptions yaml_names.
Print Assumptions yaml_unknown_rejected.
Print Assumptions yaml_typed.
Print Assumptions yaml_typed_accepted.
Print Assumptions settings_essential.
(** The file gives most settings, the code the number of evaluations and an option. *)
Definition ex_kw : dict := [("run_args", VStr "run.yaml"); ("max_evaluations_total", VInt 5); ("eta", VInt 4); ("budget", VInt 7)].
Definition ex_st : dict :=
  [("run_pipeline", VObj 1); ("root_directory", VStr "results"); ("pipeline_space", VDict [("lr", VInt 1)]); ("overwrite_working_directory", VBool false);
   ("post_run_summary", VBool true); ("development_stage_id", VNone); ("task_id", VNone); ("max_evaluations_total", VInt 5); ("max_evaluations_per_run", VNone);
   ("continue_until_max_evaluation_completed", VBool false); ("max_cost_total", VInt 7); ("ignore_errors", VBool true); ("loss_value_on_error", VNone);
   ("cost_value_on_error", VNone); ("pre_load_hooks", VNone); ("searcher", VObj 2); ("searcher_kwargs", VDict [("eta", VInt 4); ("seed", VInt 0)])].
Example settings_ex : NoDup (map fst ex_kw) /\ run_settings ex_e ex_kw = Ok ex_st /\ wf_val (VDict ex_yaml).
Proof.
  split; [cbn; repeat (constructor; [cbn; intuition discriminate|]); constructor|]. split; [lazy; reflexivity|].
  cbn; repeat split; repeat (constructor; [cbn; intuition discriminate|]); constructor.
Qed.
Example yaml_unknown_ex : leaf_at [("limits", VDict [("max_evals", VInt 3)])] ["limits"] "max_evals" (VInt 3) /\ ~ In "max_evals" expected.
Proof.
  split; [|cbn; intuition discriminate]. eapply leaf_below; [cbn; auto|cbn; intuition discriminate|].
  apply leaf_here; [cbn; auto|cbn; intuition discriminate|discriminate|intros [?|?]; discriminate].
Qed.
Definition ex_flat : dict := [("a", VDict [("max_evaluations_total", VInt 3)]); ("searcher", VDict [("path", VStr "p"); ("name", VStr "Mine"); ("eta", VInt 2)])].
Example yaml_values_ex : wf_val (VDict ex_flat) /\ leaves_once ex_flat /\ specials_once ex_flat /\
  yaml_settings ex_e (VDict ex_flat) = Ok [("max_evaluations_total", VInt 3); ("searcher_kwargs", VDict [("eta", VInt 2)]); ("searcher", VObj 2)].
Proof.
  split; [cbn; repeat split; repeat (constructor; [cbn; intuition discriminate|]); constructor|]. split; [|split; [|lazy; reflexivity]].
  - assert (L : forall p k v, leaf_at ex_flat p k v -> p = ["a"]).
    { intros p k v H. inversion H as [d k0 v0 I S D N|d g e q k0 v0 I S L]; subst; cbn in I.
      - destruct I as [[= <- <-]|[[= <- <-]|[]]]; exfalso; eapply D; reflexivity.
      - destruct I as [[= <- <-]|[[= <- <-]|[]]]; [|exfalso; apply S; cbn; auto]. inversion L as [d k0 v0 I S' D N|d g e q0 k0 v0 I S' L']; subst; [reflexivity|].
        cbn in I. destruct I as [[=]|[]]. }
    intros p p' k v v' A B. apply L in A. apply L in B. congruence.
  - assert (L : forall p k v, special_at ex_flat p k v -> p = []).
    { intros p k v H. inversion H as [d k0 v0 I S D|d g e q k0 v0 I S L]; subst; [reflexivity|]. cbn in I.
      destruct I as [[= <- <-]|[[= <- <-]|[]]]; [|exfalso; apply S; cbn; auto]. inversion L as [d k0 v0 I S' D|d g e q0 k0 v0 I S' L']; subst; cbn in I; destruct I as [[= <- <-]|[]].
      cbn in S'. intuition discriminate. }
    intros p p' k v v' A B. apply L in A. apply L in B. congruence.
Qed.
Example yaml_typed_ex : typed ex_e "max_cost_total" (VInt 3) /\ typed ex_e "searcher" (VObj 2) /\ ~ typed ex_e "ignore_errors" (VInt 1).
Proof. split; [apply ty_cost_int; reflexivity|]. split; [apply ty_searcher_class; reflexivity|]. intros H. inversion H. Qed.

(** Options written in the YAML file for one searcher are given to another one, chosen in the code. *)
Theorem yaml_options_leak_refuted : exists E kw d st, lookup "run_args" kw = Some (VStr "run.yaml") /\ e_file E (VStr "run.yaml") = Ok (VDict d) /\
  run_settings E kw = Ok st /\
  special_at d [] "searcher" (VDict [("path", VStr "opt.py"); ("name", VStr "Mine"); ("eta", VInt 3); ("seed", VInt 0)]) /\
  lookup "searcher" kw = Some (VStr "random_search") /\ lookup "searcher" st = Some (VStr "random_search") /\
  lookup "searcher_kwargs" st = Some (VDict [("eta", VInt 3); ("seed", VInt 0)]).
Proof.
  exists ex_e, [("run_args", VStr "run.yaml"); ("searcher", VStr "random_search")], ex_yaml. eexists.
  split; [reflexivity|]. split; [reflexivity|]. split; [lazy; reflexivity|]. split; [apply special_here; [cbn; auto 10|cbn; auto|discriminate]|]. repeat split.
Qed.
(** A misspelt name without a value is accepted. *)
Theorem yaml_unknown_null_refuted : exists E d ys, In ("max_evals", VNone) d /\ yaml_settings E (VDict d) = Ok ys.
Proof. exists ex_e, [("max_evals", VNone); ("ignore_errors", VBool true)], [("ignore_errors", VBool true)]. split; [cbn; auto|lazy; reflexivity]. Qed.
(** A misspelt keyword of the call is accepted as an option of the searcher; if NePS picks the
    searcher it has no effect. *)
Theorem unknown_keyword_refuted : exists E kw st (s : space (option Q)) defaults user_file name_of path r, In "max_evaluation_total" (map fst kw) /\ ~ In "max_evaluation_total" attributes /\
  run_settings E kw = Ok st /\ lookup "searcher" st = Some (VStr "default") /\
  run_args defaults user_file name_of s path (VStr "default") VNone VNone VNone (VBool false) [("max_evaluation_total", VInt 5)] = Ok r /\
  run_args defaults user_file name_of s path (VStr "default") VNone VNone VNone (VBool false) [] = Ok r.
Proof.
  exists ex_e, [("run_pipeline", VObj 1); ("root_directory", VStr "r"); ("pipeline_space", VDict [("lr", VInt 1)]); ("max_cost_total", VInt 9); ("max_evaluation_total", VInt 5)].
  eexists. exists ex_s, (fun _ => []), (fun _ => Err FileNotFoundError), (fun v => Ok v), (fun v => match v with VStr _ => true | _ => false end). eexists.
  split; [cbn; auto 10|]. split; [cbn; intuition discriminate|]. split; [lazy; reflexivity|]. split; [reflexivity|]. split; lazy; reflexivity.
Qed.
(** A whole number as the loss of a failed configuration is accepted from the code, but not from the YAML file. *)
Theorem yaml_integer_loss_refuted : exists E z, (exists kw st, In ("loss_value_on_error", VInt z) kw /\ run_settings E kw = Ok st) /\
  yaml_settings E (VDict [("loss_value_on_error", VInt z)]) = Err TypeError.
Proof.
  exists ex_e, 10%Z. split; [|lazy; reflexivity].
  exists [("run_pipeline", VObj 1); ("root_directory", VStr "r"); ("pipeline_space", VDict [("lr", VInt 1)]); ("max_cost_total", VInt 9); ("loss_value_on_error", VInt 10)].
  eexists. split; [cbn; auto 10|]. lazy. reflexivity.
Qed.
(** A limit of zero evaluations counts as no limit. *)
Theorem zero_evaluations_refuted : exists E kw, In ("max_evaluations_total", VInt 0) kw /\ run_settings E kw = Err ValueError /\
  exists st, run_settings E (set_key "max_evaluations_total" (VInt 1) kw) = Ok st.
Proof.
  exists ex_e, [("run_pipeline", VObj 1); ("root_directory", VStr "r"); ("pipeline_space", VDict [("lr", VInt 1)]); ("max_evaluations_total", VInt 0)].
  split; [cbn; auto 10|]. split; [lazy; reflexivity|]. eexists. lazy. reflexivity.
Qed.
Print Assumptions yaml_options_leak_refuted.
Print Assumptions yaml_unknown_null_refuted.
Print Assumptions unknown_keyword_refuted.
Print Assumptions yaml_integer_loss_refuted.
Print Assumptions zero_evaluations_refuted.

(** ** C57: the searcher NePS picks *)
Theorem default_searcher : forall T (l : list (string * param T)) s, search_space l = Ok s ->
  (some_prior l -> some_fidelity l -> decide s = "priorband") /\ (some_prior l -> ~ some_fidelity l -> decide s = "pibo") /\
  (~ some_prior l -> some_fidelity l -> decide s = "hyperband") /\ (~ some_prior l -> ~ some_fidelity l -> decide s = "bayesian_optimization").
Proof. exact @decide_l. Qed.
(** It runs with the settings of its file, and those of the run; further options have no effect. *)
Theorem default_searcher_runs : forall defaults user_file name_of T (s : space T) path v budget loss cost ign kwargs a c ch,
  v = VNone \/ v = VStr "default" -> path VNone = false -> (forall n, lookup "algorithm" (defaults n) = None) -> NoDup (map fst kwargs) ->
  run_args defaults user_file name_of s path v budget loss cost ign kwargs = Ok (a, c, ch) ->
  ch = true /\ a = decide s /\
  lookup "budget" c = Some budget /\ lookup "loss_value_on_error" c = Some loss /\ lookup "cost_value_on_error" c = Some cost /\ lookup "ignore_errors" c = Some ign /\
  forall k, ~ In k ["budget"; "loss_value_on_error"; "cost_value_on_error"; "ignore_errors"; "strategy"; "algorithm"] -> lookup k c = lookup k (defaults a).
Proof. exact @default_l. Qed.
Theorem default_searcher_known : forall T (s : space T), lookup (decide s) default_searchers = Some (decide s) /\ In (decide s) mapping.
Proof. exact @decide_known. Qed.
Print Assumptions default_searcher.
Print Assumptions default_searcher_runs.
Print Assumptions default_searcher_known.
Definition ex_path (v : pyval) : bool := is_str v.
Definition ex_defaults (n : string) : dict := if String.eqb n "hyperband" then [("eta", VInt 3)] else [("pool", VStr "default")].
Definition ex_lr : param (option Q) := PF (get no_f (float_parameter PA (Some 0%Q) (Some 1%Q) false false (Some (Some (1 # 2)%Q)) "low")).
Definition ex_free : param (option Q) := PF (get no_f (float_parameter PA (Some 0%Q) (Some 1%Q) false false None "low")).
(** A prior, without and with a fidelity; neither. *)
Example default_searcher_ex : some_prior [("lr", ex_lr)] /\ ~ some_fidelity [("lr", ex_lr)] /\ search_space [("lr", ex_lr)] = Ok [("lr", ex_lr)] /\
  some_fidelity [("lr", ex_lr); ("epochs", PI ex_fid)] /\ search_space [("lr", ex_lr); ("epochs", PI ex_fid)] = Ok [("epochs", PI ex_fid); ("lr", ex_lr)] /\
  ~ some_prior [("lr", ex_free)] /\ ~ some_fidelity [("lr", ex_free)] /\ search_space [("lr", ex_free)] = Ok [("lr", ex_free)].
Proof.
  split; [exists "lr", ex_lr; split; [cbn; auto|reflexivity]|].
  split; [intros (k & p & [E|[]] & X); injection E as <- <-; discriminate|]. split; [reflexivity|].
  split; [exists "epochs", (PI ex_fid); split; [cbn; auto|reflexivity]|]. split; [reflexivity|].
  split; [intros (k & p & [E|[]] & X); injection E as <- <-; discriminate|]. split; [intros (k & p & [E|[]] & X); injection E as <- <-; discriminate|]. reflexivity.
Qed.
Example default_searcher_runs_ex : (forall n, lookup "algorithm" (ex_defaults n) = None) /\ NoDup (map fst [("eta", VInt 9)]) /\
  run_args ex_defaults (fun _ => Err FileNotFoundError) (fun _ => Err AttributeError) [("lr", ex_lr)] ex_path (VStr "default") (VInt 7) VNone VNone (VBool true) [("eta", VInt 9)] =
  Ok ("pibo", [("pool", VStr "default"); ("loss_value_on_error", VNone); ("cost_value_on_error", VNone); ("ignore_errors", VBool true); ("budget", VInt 7)], true).
Proof.
  split; [intros n; unfold ex_defaults; destruct (String.eqb n "hyperband"); reflexivity|]. split; [constructor; [intros []|constructor]|]. lazy. reflexivity.
Qed.
(** Parameters of ConfigSpace always have a default: priors that nobody stated. *)
Theorem configspace_prior : forall T (A : arith T) conditions l ps s, from_configspace A conditions l = Ok ps -> search_space ps = Ok s ->
  (exists k p, In (k, p) l /\ forall v, p <> CSConstant v) -> decide s = "pibo" \/ decide s = "priorband".
Proof. exact @configspace_l. Qed.
Example configspace_prior_ex : exists ps, from_configspace PA false [("lr", CSFloat (Some 1%Q) (Some 3%Q) false (Some 2%Q)); ("k", CSConstant (VInt 1))] = Ok ps /\ search_space ps = Ok [("k", PK (constant_parameter (VInt 1))); ("lr", snd (hd ("", ex_lr) ps))].
Proof. eexists. split; [lazy; reflexivity|]. lazy. reflexivity. Qed.
(** Nothing of a pipeline space gets lost: false when parameters share a name. *)
Theorem pipeline_space_name_refuted : exists (l : list (string * Set_model.entry (T := option Q))) ps, NoDup (map fst l) /\ gather PA l [] = Ok ps /\
  In ("lr", EParam ex_free) l /\ ~ In ("lr", ex_free) ps.
Proof.
  exists [("lr", EParam ex_free); ("more", EConfigSpace false [("lr", CSConstant (VInt 1))])], [("lr", PK (constant_parameter (VInt 1)))].
  split; [repeat (constructor; [cbn; intuition discriminate|]); constructor|]. split; [lazy; reflexivity|]. split; [cbn; auto|]. intros [H|[]]. discriminate.
Qed.
Print Assumptions configspace_prior.
Print Assumptions pipeline_space_name_refuted.

(** ** C95: directories *)
Theorem run_directories_distinct : forall str_of root task dev task' dev', plain_id str_of task -> plain_id str_of dev -> plain_id str_of task' -> plain_id str_of dev' ->
  run_directory str_of root task dev = run_directory str_of root task' dev' -> same_id str_of task task' /\ same_id str_of dev dev'.
Proof. exact run_directory_l. Qed.
(** The run stays below the root. *)
Theorem run_directory_below : forall str_of root task dev, exists more, run_directory str_of root task dev = root ++ more.
Proof.
  intros str_of root task dev. unfold run_directory. assert (A : exists m, match task with VNone => root | t => root ++ components ("task_" ++ str_of t)%string end = root ++ m).
  { destruct task; try (eexists; reflexivity). exists []. rewrite app_nil_r. reflexivity. }
  destruct A as (m & ->). destruct dev; try (rewrite <- app_assoc; eexists; reflexivity). eauto.
Qed.
Definition ex_str (v : pyval) : string := match v with VStr s => s | VInt _ => "1" | _ => "" end.
Example run_directories_ex : plain_id ex_str (VStr "a") /\ plain_id ex_str (VInt 1) /\ run_directory ex_str ["results"] (VStr "a") (VInt 1) = ["results"; "task_a"; "dev_1"].
Proof. split; [intros _; reflexivity|]. split; [intros _; reflexivity|]. lazy. reflexivity. Qed.
(** With a slash in an identifier two runs may share a directory. *)
Theorem run_directories_refuted : exists str_of root task dev task' dev', ~ same_id str_of task task' /\ run_directory str_of root task dev = run_directory str_of root task' dev'.
Proof.
  exists ex_str, ["results"], (VStr "a/dev_b"), VNone, (VStr "a"), (VStr "b"). split; [|lazy; reflexivity]. intros (_ & H). specialize (H ltac:(discriminate) ltac:(discriminate)). discriminate.
Qed.
(** An identifier can also lead out of the directory of its task: ".." is kept. *)
Theorem run_directory_escapes_refuted : exists str_of root task, run_directory str_of root task VNone = root ++ ["task_a"; ".."; ".."; "other"].
Proof. exists ex_str, ["results"], (VStr "a/../../other"). lazy. reflexivity. Qed.
Print Assumptions run_directories_distinct.
Print Assumptions run_directory_below.
Print Assumptions run_directories_refuted.
Print Assumptions run_directory_escapes_refuted.

(** ** C96: the arguments of a searcher that was chosen *)
Theorem chosen_searcher_arguments : forall defaults user_file name_of T (s : space T) path v look budget loss cost ign kwargs a c ch,
  configured defaults user_file path v look -> NoDup (map fst kwargs) ->
  run_args defaults user_file name_of s path v budget loss cost ign kwargs = Ok (a, c, ch) ->
  ch = false /\ In a mapping /\
  lookup "budget" c = Some budget /\ lookup "loss_value_on_error" c = Some loss /\ lookup "cost_value_on_error" c = Some cost /\ lookup "ignore_errors" c = Some ign /\
  forall k, ~ In k ["budget"; "loss_value_on_error"; "cost_value_on_error"; "ignore_errors"; "strategy"; "algorithm"; "name"] ->
    match lookup k kwargs with
    | Some x => exists w, lookup k c = Some w /\ (w = x \/ look k = Some w /\ py_eqb w x = true)
    | None => lookup k c = look k
    end.
Proof. exact @explicit_l. Qed.
(** The searchers of NePS can be asked for by the names of their files. *)
Theorem named_searchers_run : forall defaults user_file name_of T (s : space T) path n a budget loss cost ign, strategy_of n a -> lookup "algorithm" (defaults n) = None ->
  (exists w, get_value name_of (VDict (remove_key "strategy" (defaults n))) = Ok w) -> (forall k, k = "budget" \/ k = "pipeline_space" -> lookup k (defaults n) = None) ->
  exists c, run_args defaults user_file name_of s path (VStr n) budget loss cost ign [] = Ok (a, c, false).
Proof. exact @named_l. Qed.
Example named_searchers_ex : strategy_of "priorband_bo" "priorband" /\ strategy_of "asha" "asha" /\ lookup "algorithm" (ex_defaults "asha") = None /\
  get_value (fun _ => Err AttributeError) (VDict (remove_key "strategy" (ex_defaults "asha"))) = Ok (VDict [("pool", VStr "default")]) /\
  (forall k, k = "budget" \/ k = "pipeline_space" -> lookup k (ex_defaults "asha") = None).
Proof. split; [left; auto|]. split; [right; split; [reflexivity|cbn; auto]|]. split; [reflexivity|]. split; [lazy; reflexivity|]. intros k [-> | ->]; reflexivity. Qed.
(** An optimizer of the user is used as it is; a class of the user is called with the options. *)
Theorem own_optimizer : forall defaults user_file name_of T E isclass make (s : space T) path pipeline_space v budget loss cost ign kwargs,
  isclass v = false -> e_optimizer E v = true ->
  the_optimizer defaults user_file name_of E isclass make s path pipeline_space v budget loss cost ign kwargs = Ok (inl v).
Proof. intros. unfold the_optimizer. rewrite H. cbn [bind]. rewrite H0. cbn [bind orb]. reflexivity. Qed.
Theorem own_class : forall defaults user_file name_of T E isclass make (s : space T) path pipeline_space v o budget loss cost ign kwargs,
  isclass v = true -> e_subclass E v = Ok true -> make v pipeline_space kwargs = Ok o -> e_optimizer E o = true ->
  the_optimizer defaults user_file name_of E isclass make s path pipeline_space v budget loss cost ign kwargs = Ok (inl o).
Proof. intros. unfold the_optimizer. rewrite H, H0. cbn [bind]. rewrite H1. cbn [bind]. rewrite H2. cbn [bind orb]. reflexivity. Qed.
Print Assumptions chosen_searcher_arguments.
Print Assumptions named_searchers_run.
Print Assumptions own_optimizer.
Print Assumptions own_class.
Definition ex_run (v : pyval) (kwargs : dict) : res (string * dict * bool) :=
  run_args ex_defaults (fun _ => Err FileNotFoundError) (fun _ => Err AttributeError) [("lr", ex_free)] ex_path v (VInt 7) VNone VNone (VBool true) kwargs.
Example chosen_searcher_ex : configured ex_defaults (fun _ => Err FileNotFoundError) ex_path (VDict [("strategy", VStr "hyperband"); ("eta", VInt 5)]) (fun k => match lookup k [("strategy", VStr "hyperband"); ("eta", VInt 5)] with Some v => Some v | None => lookup k (ex_defaults "hyperband") end) /\
  ex_run (VDict [("strategy", VStr "hyperband"); ("eta", VInt 5)]) [("seed", VInt 1)] =
  Ok ("hyperband", [("eta", VInt 5); ("seed", VInt 1); ("loss_value_on_error", VNone); ("cost_value_on_error", VNone); ("ignore_errors", VBool true); ("budget", VInt 7)], false).
Proof.
  split; [|lazy; reflexivity]. apply conf_dict; [reflexivity| |reflexivity|cbn; auto 20]. repeat (constructor; [cbn; intuition discriminate|]); constructor.
Qed.
Definition ex_make (c : pyval) (space : pyval) (kwargs : dict) : res pyval := Ok (VObj 3).
Definition ex_class (v : pyval) : bool := match v with VObj 2 => true | _ => false end.
Example own_class_ex : ex_class (VObj 2) = true /\ e_subclass ex_e (VObj 2) = Ok true /\ e_optimizer ex_e (VObj 3) = true /\ ex_class (VObj 3) = false.
Proof. repeat split. Qed.
(** [searcher=None] is documented by the code as the choice of NePS, but ends in an error. *)
Theorem searcher_none_refuted : exists E defaults user_file name_of isclass make (s : space (option Q)) path pipeline_space budget loss cost ign r,
  run_args defaults user_file name_of s path VNone budget loss cost ign [] = Ok r /\
  the_optimizer defaults user_file name_of E isclass make s path pipeline_space VNone budget loss cost ign [] = Err ValueError.
Proof.
  exists ex_e, ex_defaults, (fun _ => Err FileNotFoundError), (fun _ => Err AttributeError), ex_class, ex_make, [("lr", ex_free)], ex_path, VNone, (VInt 7), VNone, VNone, (VBool true).
  eexists. split; lazy; reflexivity.
Qed.
(** The cost limit of the run does not reach an optimizer class of the user. *)
Theorem own_class_budget_refuted : exists E defaults user_file name_of isclass make (s : space (option Q)) path pipeline_space v o,
  isclass v = true /\ forall budget, the_optimizer defaults user_file name_of E isclass make s path pipeline_space v budget VNone VNone (VBool false) [] = Ok (inl o).
Proof.
  exists ex_e, ex_defaults, (fun _ => Err FileNotFoundError), (fun _ => Err AttributeError), ex_class, ex_make, [("lr", ex_free)], ex_path, VNone, (VObj 2), (VObj 3).
  split; [reflexivity|]. intros budget. lazy. reflexivity.
Qed.
(** A dictionary with the old key alone, and options that are tuples or objects, are errors. *)
Theorem searcher_algorithm_refuted : exists st, In st mapping /\ ex_run (VDict [("algorithm", VStr st)]) [] = Err KeyError /\ is_ok (ex_run (VDict [("strategy", VStr st)]) []) = true.
Proof. exists "hyperband". split; [cbn; auto 20|]. split; lazy; reflexivity. Qed.
Theorem searcher_tuple_option_refuted : exists l, ex_run (VStr "hyperband") [("bounds", VTuple l)] = Err AttributeError /\ is_ok (ex_run (VStr "hyperband") [("bounds", VList l)]) = true.
Proof. exists [VInt 1; VInt 2]. split; lazy; reflexivity. Qed.
(** Some searchers of NePS cannot be asked for by name. *)
Theorem searcher_by_name_refuted : exists n, In n mapping /\ ex_run (VStr n) [] = Err FileNotFoundError.
Proof. exists "grid_search". split; [cbn; auto 20|]. lazy. reflexivity. Qed.
Print Assumptions searcher_none_refuted.
Print Assumptions own_class_budget_refuted.
Print Assumptions searcher_algorithm_refuted.
Print Assumptions searcher_tuple_option_refuted.
Print Assumptions searcher_by_name_refuted.
