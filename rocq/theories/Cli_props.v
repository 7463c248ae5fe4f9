(** C106-C110: the command line. *)
From Coq Require Import Ascii String Sorting Permutation.
From Verif Require Import Py Py_proofs Trial_model Eval_model Limit_spec Status_model Status_spec Set_model Yam_model
  Yam_spec Yam_round_proofs Yam_text_proofs Cli_model Cli_spec Cli_text_proofs Cli_proofs Cli_show_proofs Set_props.
Local Open Scope string_scope.
Local Open Scope list_scope.
Local Notation length := List.length.

(** Trials for the examples: [ex_done id time loss], sampled at [time]. *)
Definition ex_done (i : string) (time : Z) (loss : option fl) : trial :=
  let (t, r) := set_complete (set_evaluating (trial_new i [("x", VInt time)] ("/r/configs/config_" ++ i)%string None None (FZ time) "w") (FZ (time + 1)) "w")
                  (match loss with Some _ => RSuccess | None => RCrashed end) (FZ (time + 5)) loss None None None None None (Some (FZ 4)) in
  attach_report t r.
Definition ex_waiting (i : string) (time : Z) : trial := trial_new i [("x", VInt time)] ("/r/configs/config_" ++ i)%string None None (FZ time) "w".
Definition ex_stamp (x : fl) : res string := match x with FZ _ => Ok "time" | _ => Err ValueError end.

(** ** C106: results *)
(** The table: the trials that were better than all before them (in the order of their numbers), newest first. *)
Theorem results_are_incumbents : forall w arg d p s, asked w arg d -> lookup d (w_dirs w) = Some p -> pl_state p = Ok s ->
  numbered (st_trials s) -> all_losses (st_trials s) ->
  exists rows is, snd (results w arg false) = Ok (Table rows) /\ Forall2 row_for is rows /\
    (forall t, In t is <-> incumbent (st_trials s) t) /\ StronglySorted later is.
Proof.
  intros w arg d p s A L P N AL. unfold results. rewrite snd_let, (look_ok w arg d p s A L P). cbn [bind]. apply results_table; assumption.
Qed.
(** The plot: at every incumbent's rank among all trials, its loss. *)
Theorem results_plotted : forall w arg d p s, asked w arg d -> lookup d (w_dirs w) = Some p -> pl_state p = Ok s ->
  numbered (st_trials s) -> all_losses (st_trials s) ->
  exists xs ys is, snd (results w arg true) = Ok (Plot xs ys) /\ Forall2 (rank (st_trials s)) is xs /\ Forall2 has_loss is ys /\
    (forall t, In t is <-> incumbent (st_trials s) t) /\ StronglySorted (fun a b => later b a) is.
Proof.
  intros w arg d p s A L P N AL. unfold results. rewrite snd_let, (look_ok w arg d p s A L P). cbn [bind]. apply results_plot; assumption.
Qed.
(** The order in which the trials are listed makes no difference. *)
Theorem results_any_order : forall ts ts' plot, numbered ts -> Permutation ts ts' -> show_results ts plot = show_results ts' plot.
Proof. exact results_order. Qed.
(** The command fails exactly when some report has no loss. *)
Theorem results_fail : forall ts plot, numbered ts ->
  ((exists t r, In t ts /\ t_report t = Some r /\ r_loss r = None) <-> show_results ts plot = Err TypeError).
Proof. exact results_none. Qed.
Print Assumptions results_are_incumbents.
Print Assumptions results_plotted.
Print Assumptions results_any_order.
Print Assumptions results_fail.
Definition ex_ts : list trial :=
  [ex_done "10" 40 (Some (FZ 2)); ex_done "2" 20 (Some (FZ 7)); ex_waiting "11" 45; ex_done "1" 10 (Some (FZ 9)); ex_done "3" 30 (Some (FZ 8))].
Lemma ex_id i ds t : t_id t = i -> ds <> [] -> Forall (fun d => d < 10)%nat ds -> list_ascii_of_string i = map digit_char ds -> id_number t (digits_value ds).
Proof. intros <- N F E. exists ds. split; [split; assumption|]. split; [exact E|reflexivity]. Qed.
Ltac ex_num ds := eexists; eapply (ex_id _ ds); [reflexivity|discriminate|repeat (constructor; [lia|]); constructor|reflexivity].
Lemma ex_numbered : numbered ex_ts.
Proof.
  assert (ID : forall t, In t ex_ts -> exists n, id_number t n).
  { intros t I. destruct I as [<-|[<-|[<-|[<-|[<-|[]]]]]]; [ex_num [1; 0]|ex_num [2]|ex_num [1; 1]|ex_num [1]|ex_num [3]]. }
  split; [exact ID|]. split.
  - intros t u n I J T U. apply id_int in T, U.
    destruct I as [<-|[<-|[<-|[<-|[<-|[]]]]]]; destruct J as [<-|[<-|[<-|[<-|[<-|[]]]]]]; try reflexivity; lazy in T, U; congruence.
  - lazy. repeat constructor; cbn; intuition discriminate.
Qed.
Lemma ex_losses : all_losses ex_ts.
Proof. intros t r I R. destruct I as [<-|[<-|[<-|[<-|[<-|[]]]]]]; try discriminate R; injection R as <-; eexists; reflexivity. Qed.
Definition ex_info : dict := [("searcher_alg", VStr "random_search"); ("searcher_args", VDict [("seed", VInt 1)])].
Definition ex_world (entries : list string) (ts : list trial) : world :=
  mkWorld (Some (Ok (VDict [("root_directory", VStr "results"); ("task_id", VStr "a")]))) [("run.py", "...")]
    [("results", mkPlace entries (Ok (mkState ts [] ex_info)))].
Lemma ex_asked entries ts : asked (ex_world entries ts) None "results".
Proof. split; [discriminate|]. right. split; [reflexivity|]. eexists. split; reflexivity. Qed.
Example results_ex : numbered ex_ts /\ all_losses ex_ts /\ asked (ex_world state_dirs ex_ts) None "results" /\
  snd (results (ex_world state_dirs ex_ts) None false) =
    Ok (Table [("10", Some (FZ 2), [("x", VInt 40)]); ("2", Some (FZ 7), [("x", VInt 20)]); ("1", Some (FZ 9), [("x", VInt 10)])]) /\
  snd (results (ex_world state_dirs ex_ts) (Some "results") true) = Ok (Plot [1; 2; 4] [FZ 9; FZ 7; FZ 2]) /\
  Permutation ex_ts (rev ex_ts).
Proof.
  split; [exact ex_numbered|]. split; [exact ex_losses|]. split; [apply ex_asked|]. split; [lazy; reflexivity|]. split; [lazy; reflexivity|apply Permutation_rev].
Qed.
(** An evaluation that failed, without a loss for errors, makes the command fail. *)
Theorem results_crashed_refuted : exists pyfloat t0 o tb drv dur te t r,
  evaluate_trial pyfloat t0 o tb drv dur te = Ok (t, r) /\ numbered [attach_report t r; ex_done "1" 10 (Some (FZ 9))] /\
  show_results [attach_report t r; ex_done "1" 10 (Some (FZ 9))] false = Err TypeError.
Proof.
  exists (fun _ => Err TypeError), (ex_waiting "2" 5), (FnRaises "no memory"), "", (mkDRV None None None None LCNone), (FZ 1), (FZ 9).
  do 2 eexists. split; [reflexivity|]. split; [|lazy; reflexivity]. split; [|split].
  - intros t I. destruct I as [<-|[<-|[]]]; [ex_num [2]|ex_num [1]].
  - intros t u n I J T U. apply id_int in T, U. destruct I as [<-|[<-|[]]]; destruct J as [<-|[<-|[]]]; try reflexivity; lazy in T, U; congruence.
  - lazy. repeat constructor; cbn; intuition discriminate.
Qed.
(** Identifiers of algorithms with several fidelities, [config_rung]: [int] ignores the underscore.
    Two trials may have the same number: then the order of listing decides. *)
Theorem results_same_number_refuted : exists ts ts', NoDup (map t_id ts) /\ plain_trials ts /\ Permutation ts ts' /\
  show_results ts false <> show_results ts' false.
Proof.
  exists [ex_done "0_10" 10 (Some (FZ 5)); ex_done "1_0" 20 (Some (FZ 3))], [ex_done "1_0" 20 (Some (FZ 3)); ex_done "0_10" 10 (Some (FZ 5))].
  assert (ND : NoDup (map t_id [ex_done "0_10" 10 (Some (FZ 5)); ex_done "1_0" 20 (Some (FZ 3))])) by (lazy; repeat constructor; cbn; intuition discriminate).
  split; [exact ND|]. split; [split; [exact ND|]|].
  - intros t r I R _. destruct I as [<-|[<-|[]]]; injection R as <-; (split; [discriminate|]); (split; [reflexivity|]); (split; [constructor|intros v H; discriminate H]).
  - split; [apply perm_swap|]. lazy. discriminate.
Qed.
(** A trial that was sampled later, and is worse, is shown as an incumbent. *)
Theorem results_later_refuted : exists ts t u lt lu, In t ts /\ In u ts /\ newer t u /\ has_loss t lt /\ has_loss u lu /\ fl_lt lu lt /\
  exists rows c, show_results ts false = Ok (Table rows) /\ In (t_id t, Some lt, c) rows.
Proof.
  exists [ex_done "2_0" 20 (Some (FZ 1)); ex_done "1_1" 30 (Some (FZ 3))], (ex_done "1_1" 30 (Some (FZ 3))), (ex_done "2_0" 20 (Some (FZ 1))), (FZ 3), (FZ 1).
  split; [right; left; reflexivity|]. split; [left; reflexivity|]. split; [apply ltb_iff; reflexivity|].
  split; [eexists; split; reflexivity|]. split; [eexists; split; reflexivity|]. split; [apply ltb_iff; reflexivity|].
  exists [("2_0", Some (FZ 1), [("x", VInt 20)]); ("1_1", Some (FZ 3), [("x", VInt 30)])], [("x", VInt 30)]. split; [lazy; reflexivity|right; left; reflexivity].
Qed.
Print Assumptions results_crashed_refuted.
Print Assumptions results_same_number_refuted.
Print Assumptions results_later_refuted.

(** ** C107: neps run *)
(** --searcher-kwargs: what the items mean. *)
Theorem kwargs_values : forall s v, reads s v -> convert_value s = v.
Proof. exact convert_reads. Qed.
Theorem kwargs_pairs : forall items, (forall i, In i items -> exists k v, pair_text i k v) ->
  exists d, parse_kv_pairs items = Ok d /\ NoDup (map fst d) /\
    forall k x, lookup k d = Some x <-> exists v, last_for items k v /\ x = convert_value v.
Proof. exact kv_parsed. Qed.
Theorem kwargs_errors : forall items e, parse_kv_pairs items = Err e <-> e = ValueError /\ exists i, In i items /\ no_eq i.
Proof. exact kv_err. Qed.
Theorem kwargs_text : forall s v, convert_value s = VStr v -> v = s.
Proof.
  intros s v. unfold convert_value. destruct (String.eqb (lower s) "true" || String.eqb (lower s) "false"); [discriminate|].
  destruct (has_char dot s || has_char is_e s); [destruct (float_of_string s)|destruct (int_of_string s)]; intros [=]; auto.
Qed.
(** The command is the call of neps.run with the options that are there; the others have the defaults of neps.run. *)
Theorem command_is_call : forall E a fn kwargs, names_pipeline E (o_run_pipeline a) fn -> gives_kwargs (o_kwargs a) kwargs ->
  (forall k, In k (map fst kwargs) -> ~ In k (map fst Set_model.parameters)) ->
  run_optimization E a = run_settings E (call_of a fn kwargs).
Proof. exact cli_call. Qed.
Print Assumptions kwargs_values.
Print Assumptions kwargs_pairs.
Print Assumptions kwargs_errors.
Print Assumptions kwargs_text.
Print Assumptions command_is_call.
Definition ex_opts (root : option string) (kw : option (list string)) : run_opts :=
  mkOpts None (Some "run.py:evaluate") (Some "space.yaml") root false (Some false) None (Some "a") (Some 20%Z) None true None false None (Some (FZ 0)) (Some "hyperband") kw.
Example kwargs_ex : reads "TRUE" (VBool true) /\ reads "-12" (VInt (-12)) /\ reads "0.25" (VFloat (FZ (2 ^ 1072))) /\ reads "expected" (VStr "expected") /\
  pair_text "a=b=c" "a" "b=c" /\ parse_kv_pairs ["eta=3"; "a=b=c"; "eta=2.5"; "use_priors=True"] =
    Ok [("eta", VFloat (FZ (5 * 2 ^ 1073))); ("a", VStr "b=c"); ("use_priors", VBool true)] /\
  parse_kv_pairs ["eta=3"; "eta"] = Err ValueError.
Proof.
  split; [apply rd_true, spells_iff; lazy; reflexivity|]. split.
  { apply rd_int. exists Minus, [1; 2]. split; [split; [discriminate|repeat constructor]|]. split; reflexivity. }
  split.
  { apply (rd_point _ 25 100). - exists NoSign, [0], [2; 5]. split; [split; [discriminate|repeat constructor]|]. split; [reflexivity|]. split; reflexivity.
    - replace (FZ (2 ^ 1072)) with (round64 25 100) by (lazy; reflexivity). apply round64_nearest; lia. }
  split.
  { apply rd_text; [rewrite <- spells_iff by reflexivity; lazy; discriminate|rewrite <- spells_iff by reflexivity; lazy; discriminate|]. intros (d & L & I). do 10 (destruct d as [|d]; [lazy in I; intuition discriminate|]). lia. }
  split; [split; [intros I; lazy in I; intuition discriminate|reflexivity]|]. split; lazy; reflexivity.
Qed.
Example command_ex : names_pipeline ex_e (o_run_pipeline (ex_opts (Some "out") (Some ["eta=3"]))) (Some (VObj 1)) /\ gives_kwargs (Some ["eta=3"]) [("eta", VInt 3)] /\
  match run_optimization ex_e (ex_opts (Some "out") (Some ["eta=3"])) with Ok d => lookup "searcher_kwargs" d | Err _ => None end = Some (VDict [("eta", VInt 3)]).
Proof.
  split.
  - exists "run.py", "evaluate", (VObj 1). split; [reflexivity|]. repeat split; try reflexivity; intros I; lazy in I; intuition discriminate.
  - split; lazy; reflexivity.
Qed.
(** Values that have no spelling: [inf], [nan] and [None] stay texts. *)
Theorem kwargs_inf_refuted : exists s f, float_of_string s = Ok f /\ f = FPInf /\ convert_value s = VStr s.
Proof. exists "inf", FPInf. lazy. auto. Qed.
Theorem kwargs_none_refuted : exists s, s = "None" /\ convert_value s <> VNone /\ convert_value s = VStr s.
Proof. exists "None". split; [reflexivity|]. split; [lazy; discriminate|lazy; reflexivity]. Qed.
(** A searcher argument with the name of a parameter of neps.run replaces the option. *)
Theorem kwargs_replace_refuted : exists E a d, o_root_directory a = Some "out" /\ run_optimization E a = Ok d /\ lookup "root_directory" d = Some (VStr "elsewhere").
Proof. exists ex_e, (ex_opts (Some "out") (Some ["root_directory=elsewhere"])). eexists. split; [reflexivity|]. split; lazy; reflexivity. Qed.
Print Assumptions kwargs_inf_refuted.
Print Assumptions kwargs_none_refuted.
Print Assumptions kwargs_replace_refuted.

(** ** C108: info-config *)
(** A trial that was evaluated is shown with its data. *)
Theorem info_of_evaluated : forall stamp duration pyfloat w arg d p s t0 now worker o tb drv dur te t r a b c e,
  asked w arg d -> lookup d (w_dirs w) = Some p -> pl_state p = Ok s -> NoDup (map t_id (st_trials s)) ->
  evaluate_trial pyfloat (set_evaluating t0 now worker) o tb drv dur te = Ok (t, r) -> In (attach_report t r) (st_trials s) ->
  stamp (m_time_sampled (t_meta t0)) = Ok a -> duration dur = Ok b -> stamp now = Ok c -> stamp te = Ok e ->
  exists x, snd (info_config stamp duration w arg (t_id t0)) = Ok (Info x) /\
    sh_id x = t_id t0 /\ sh_config x = t_config t0 /\ sh_location x = m_location (t_meta t0) /\ sh_previous x = m_previous_trial_id (t_meta t0) /\
    sh_sampler x = m_sampling_worker_id (t_meta t0) /\ sh_evaluator x = Some worker /\
    sh_sampled x = a /\ sh_duration x = b /\ sh_started x = c /\ sh_end x = e /\
    sh_state x = state_of_reported (r_reported_as r) /\ sh_report x = Some (r_loss r, r_cost r, r_reported_as r).
Proof.
  intros stamp duration pyfloat w arg d p s t0 now worker o tb drv dur te t r a b c e A L P ND EV I S1 S2 S3 S4. unfold info_config.
  rewrite snd_let, (look_ok w arg d p s A L P). cbn [bind].
  assert (M : t_id t = t_id t0 /\ t_config t = t_config t0 /\ m_location (t_meta t) = m_location (t_meta t0) /\ m_previous_trial_id (t_meta t) = m_previous_trial_id (t_meta t0) /\
    m_sampling_worker_id (t_meta t) = m_sampling_worker_id (t_meta t0) /\ m_evaluating_worker_id (t_meta t) = Some worker /\ m_time_sampled (t_meta t) = m_time_sampled (t_meta t0) /\
    m_evaluation_duration (t_meta t) = Some dur /\ m_time_started (t_meta t) = Some now /\ m_time_end (t_meta t) = Some te /\ t_state t = state_of_reported (r_reported_as r)).
  { unfold evaluate_trial in EV. destruct o as [v|ex]; [destruct (parse_user_result _ v _ _) as [[[[lo co] lc] ex]|]; [|discriminate]|]; injection EV as <- <-; repeat split; reflexivity. }
  destruct M as (M1 & M2 & M3 & M4 & M5 & M6 & M7 & M8 & M9 & M10 & M11).
  rewrite (proj1 (find_ok (t_id t0) (st_trials s) ND) (attach_report t r) I M1).
  destruct (show_ok stamp duration (attach_report t r) a b c e) as (x & X & X1 & X2 & X3 & X4 & X5 & X6 & X7 & X8 & X9 & X10 & X11 & X12).
  - cbn. rewrite M7. exact S1.
  - cbn. rewrite M8. exact S2.
  - cbn. rewrite M9. exact S3.
  - cbn. rewrite M10. exact S4.
  - rewrite X. exists x. split; [reflexivity|]. unfold t_id in *. cbn in X1, X2, X3, X4, X5, X6, X7, X12. repeat split; congruence.
Qed.
(** An identifier that no trial has. *)
Theorem info_of_unknown : forall stamp duration w arg d p s id, asked w arg d -> lookup d (w_dirs w) = Some p -> pl_state p = Ok s -> NoDup (map t_id (st_trials s)) ->
  (snd (info_config stamp duration w arg id) = Ok InfoNoTrial <-> ~ In id (map t_id (st_trials s))).
Proof.
  intros stamp duration w arg d p s id A L P ND. unfold info_config. rewrite snd_let, (look_ok w arg d p s A L P). cbn [bind].
  rewrite <- (proj2 (find_ok id (st_trials s) ND)). destruct (find_trial id (st_trials s)) as [t|]; [|tauto]. split; [|discriminate]. destruct (show_trial stamp duration t); discriminate.
Qed.
Print Assumptions info_of_evaluated.
Print Assumptions info_of_unknown.
Example info_ex : asked (ex_world state_dirs ex_ts) None "results" /\ NoDup (map t_id ex_ts) /\
  evaluate_trial (fun v => match v with VFloat f => Ok f | _ => Err TypeError end) (set_evaluating (ex_waiting "2" 20) (FZ 21) "w") (FnReturns (VFloat (FZ 7))) "" (mkDRV None None None None LCNone) (FZ 4) (FZ 25)
    = Ok (set_complete (set_evaluating (ex_waiting "2" 20) (FZ 21) "w") RSuccess (FZ 25) (Some (FZ 7)) None None None None (Some []) (Some (FZ 4))) /\
  In (ex_done "2" 20 (Some (FZ 7))) ex_ts /\
  snd (info_config ex_stamp ex_stamp (ex_world state_dirs ex_ts) None "2") =
    Ok (Info (mkShown "2" SUCCESS [("x", VInt 20)] "/r/configs/config_2" None "w" "time" (Some "w") "time" "time" "time" (Some (Some (FZ 7), None, RSuccess)))) /\
  snd (info_config ex_stamp ex_stamp (ex_world state_dirs ex_ts) None "7") = Ok InfoNoTrial.
Proof. split; [apply ex_asked|]. split; [apply ex_numbered|]. split; [lazy; reflexivity|]. split; [right; left; reflexivity|]. split; lazy; reflexivity. Qed.
(** A trial without duration, or start or end time, is shown only in part: then the command fails. *)
Theorem info_of_unfinished : forall stamp duration w arg d p s t, asked w arg d -> lookup d (w_dirs w) = Some p -> pl_state p = Ok s -> NoDup (map t_id (st_trials s)) ->
  In t (st_trials s) -> m_evaluation_duration (t_meta t) = None -> (exists x, stamp (m_time_sampled (t_meta t)) = Ok x) ->
  snd (info_config stamp duration w arg (t_id t)) = Err TypeError.
Proof.
  intros stamp duration w arg d p s t A L P ND I N (x & X). unfold info_config. rewrite snd_let, (look_ok w arg d p s A L P). cbn [bind].
  rewrite (proj1 (find_ok (t_id t) (st_trials s) ND) t I eq_refl). unfold show_trial. rewrite X, N. reflexivity.
Qed.
Print Assumptions info_of_unfinished.
Theorem info_of_waiting_refuted : exists w t u, asked w None "results" /\
  (exists p s, lookup "results" (w_dirs w) = Some p /\ pl_state p = Ok s /\ st_trials s = [t; u]) /\ t_state t = PENDING /\ t_state u = EVALUATING /\
  snd (info_config ex_stamp ex_stamp w None (t_id t)) = Err TypeError /\ snd (info_config ex_stamp ex_stamp w None (t_id u)) = Err TypeError.
Proof.
  exists (ex_world state_dirs [ex_waiting "1" 3; set_evaluating (ex_waiting "2" 4) (FZ 5) "w"]), (ex_waiting "1" 3), (set_evaluating (ex_waiting "2" 4) (FZ 5) "w").
  split; [apply ex_asked|]. split; [do 2 eexists; split; [reflexivity|split; reflexivity]|]. split; [reflexivity|]. split; [reflexivity|]. split; reflexivity.
Qed.
Print Assumptions info_of_waiting_refuted.

(** ** C109: status *)
Theorem status_shown_right : forall stamp duration since pyfloat, (forall f, pyfloat (VFloat f) = Ok f) -> forall w arg d p s a alg options,
  asked w arg d -> lookup d (w_dirs w) = Some p -> pl_state p = Ok s ->
  plain_trials (st_trials s) -> times (st_trials s) -> writes stamp duration since (st_trials s) ->
  lookup "searcher_alg" (st_info s) = Some alg -> lookup "searcher_args" (st_info s) = Some (VDict options) ->
  exists o n l, snd (status stamp duration since pyfloat w arg a) = Ok (Status o) /\ ss_optimizer o = alg /\
    ss_succeeded o = Z.of_nat n /\ number_of (fun t => exists l, succeeded t l) (st_trials s) n /\
    number_of erroneous (st_trials s) (ss_failed o) /\ number_of (fun t => t_state t = EVALUATING) (st_trials s) (ss_active o) /\
    (forall t l, In t (st_trials s) -> succeeded t l -> l <> FNaN -> fl_le (ss_best_loss o) l) /\
    ((ss_best_loss o = FPInf /\ forall b, ss_best o = Some b -> b = None) \/
     (fl_lt (ss_best_loss o) FPInf /\ exists t, In t (st_trials s) /\ succeeded t (ss_best_loss o) /\
        forall b, ss_best o = Some b -> b = Some (t_id t, t_config t))) /\
    lists_as a (st_trials s) l /\ Forall2 (shows stamp duration since) l (ss_rows o) /\
    (a = mkSA false false false -> ss_best o <> None /\ ss_options o = Some options).
Proof.
  intros stamp duration since pyfloat F w arg d p s a alg options A L P PL T W AL OP. unfold status. rewrite snd_let, (look_ok w arg d p s A L P). cbn [bind].
  destruct (status_ok stamp duration since pyfloat F s a alg options PL T W AL OP) as (o & n & l & E & H1 & H2 & H3 & H4 & H5 & H6 & H7 & H8 & H9 & H10 & _).
  exists o, n, l. rewrite E. cbn [bind]. auto 20.
Qed.
Print Assumptions status_shown_right.
Definition ex_ts2 : list trial := set_evaluating (ex_waiting "12" 50) (FZ 51) "w" :: ex_ts.
Lemma ex_plain : plain_trials ex_ts2.
Proof.
  split; [lazy; repeat constructor; cbn; intuition discriminate|].
  intros t r I R _. destruct I as [<-|[<-|[<-|[<-|[<-|[<-|[]]]]]]]; try discriminate R; injection R as <-; (split; [discriminate|]); (split; [reflexivity|]); (split; [constructor|intros v H; discriminate H]).
Qed.
Lemma ex_times : times ex_ts2 /\ writes ex_stamp ex_stamp ex_stamp ex_ts2.
Proof.
  split.
  - intros t I. destruct I as [<-|[<-|[<-|[<-|[<-|[<-|[]]]]]]]; discriminate.
  - intros t I. destruct I as [<-|[<-|[<-|[<-|[<-|[<-|[]]]]]]]; (split; [eexists; reflexivity|]); (split; [eexists; reflexivity|]); intros d E; try discriminate E; injection E as <-; eexists; reflexivity.
Qed.
Definition ex_float (v : pyval) : res fl := match v with VFloat f => Ok f | VInt z => Ok (fl_of_Z z) | _ => Err TypeError end.
Example status_ex : plain_trials ex_ts2 /\ times ex_ts2 /\ writes ex_stamp ex_stamp ex_stamp ex_ts2 /\
  match snd (status ex_stamp ex_stamp ex_stamp ex_float (ex_world state_dirs ex_ts2) None (mkSA false false false)) with
  | Ok (Status o) => ss_succeeded o = 4%Z /\ ss_active o = 1 /\ map rw_id (ss_rows o) = ["12"; "11"; "10"; "3"; "2"; "1"] /\ ss_best o = Some (Some ("10", [("x", VInt 40)]))
  | _ => False
  end /\
  match snd (status ex_stamp ex_stamp ex_stamp ex_float (ex_world state_dirs ex_ts2) None (mkSA true false false)) with
  | Ok (Status o) => map rw_id (ss_rows o) = ["11"] /\ ss_best o = None | _ => False end.
Proof. split; [exact ex_plain|]. split; [apply ex_times|]. split; [apply ex_times|]. split; lazy; auto. Qed.
(** Both numbers of pending trials are 0, whatever is pending. *)
Theorem status_pending_refuted : exists w s o, (exists p, lookup "results" (w_dirs w) = Some p /\ pl_state p = Ok s) /\ plain_trials (st_trials s) /\
  snd (status ex_stamp ex_stamp ex_stamp ex_float w None (mkSA true false false)) = Ok (Status o) /\
  number_of (fun t => t_state t = PENDING) (st_trials s) 1 /\ length (ss_rows o) = 1 /\ ss_pending o = 0.
Proof.
  exists (ex_world state_dirs ex_ts2). do 2 eexists. split; [eexists; split; reflexivity|]. split; [exact ex_plain|]. split; [lazy; reflexivity|]. split; [|split; reflexivity].
  exact (number_state PENDING ex_ts2).
Qed.
Print Assumptions status_pending_refuted.

(** ** C110: the directory, and what commands leave alone *)
Theorem root_directory_chosen : forall w arg d, asked w arg d -> get_root_directory w arg = Ok d.
Proof. exact asked_ok. Qed.
(** Without a directory and without one in the file there is a ValueError. *)
Theorem root_directory_missing : forall w, w_config w = None \/ (exists x, w_config w = Some (Ok (VDict x)) /\ lookup "root_directory" x = None) ->
  get_root_directory w None = Err ValueError.
Proof. intros w [H|(x & H & L)]; unfold get_root_directory; rewrite H; cbn [bind]; [reflexivity|]. rewrite L. reflexivity. Qed.
(** In directories that runs have made, commands change nothing but cli.md and the picture of the plot. *)
Theorem commands_only_read : forall stamp duration since pyfloat text_of markdown w c,
  (forall d p, lookup d (w_dirs w) = Some p -> made_by_run p) -> (forall p t m, c <> CmdInit p t m) ->
  let w' := fst (main stamp duration since pyfloat text_of markdown w c) in
  w_config w' = w_config w /\ (forall f, f <> "cli.md" -> lookup f (w_files w') = lookup f (w_files w)) /\
  forall d, match lookup d (w_dirs w) with
            | None => lookup d (w_dirs w') = None
            | Some p => exists p', lookup d (w_dirs w') = Some p' /\ pl_state p' = pl_state p /\ incl (pl_entries p) (pl_entries p') /\
                forall e, In e (pl_entries p') -> In e (pl_entries p) \/ (e = "incumbents_evolution.png" /\ exists r, c = CmdResults r true)
            end.
Proof. exact commands_read. Qed.
(** init: a file that is there is kept, cli.md excepted; otherwise it is written. *)
Theorem init_keeps_files : forall stamp duration since pyfloat text_of markdown w path t m f,
  let w' := fst (main stamp duration since pyfloat text_of markdown w (CmdInit path t m)) in
  w_dirs w' = w_dirs w /\ (forall x, lookup f (w_files w) = Some x -> f <> "cli.md" -> lookup f (w_files w') = Some x) /\
  (path = Some f -> f <> "" -> f <> "cli.md" -> lookup f (w_files w) = None -> lookup f (w_dirs w) = None -> lookup f (w_files w') = Some (text_of t)).
Proof. exact init_keeps. Qed.
Print Assumptions root_directory_chosen.
Print Assumptions root_directory_missing.
Print Assumptions commands_only_read.
Print Assumptions init_keeps_files.
Definition ex_main := main ex_stamp ex_stamp ex_stamp ex_float (fun _ => "template") "help".
Example commands_ex : asked (ex_world state_dirs ex_ts) (Some "other") "other" /\ asked (ex_world state_dirs ex_ts) None "results" /\
  (forall d p, lookup d (w_dirs (ex_world state_dirs ex_ts)) = Some p -> made_by_run p) /\
  snd (ex_main (ex_world state_dirs ex_ts) (CmdResults None true)) = None /\
  map fst (w_files (fst (ex_main (ex_world state_dirs ex_ts) (CmdInit (Some "b.yaml") Basic false)))) = ["run.py"; "cli.md"; "b.yaml"] /\
  lookup "run.py" (w_files (fst (ex_main (ex_world state_dirs ex_ts) (CmdInit (Some "run.py") Basic false)))) = Some "...".
Proof.
  split; [split; [discriminate|left; reflexivity]|]. split; [apply ex_asked|]. split.
  - intros d p H. apply lookup_In in H. destruct H as [H|[]]. injection H as _ <-. apply incl_refl.
  - split; [lazy; reflexivity|]. split; lazy; reflexivity.
Qed.
(** An empty run_config.yaml is not a missing directory. *)
Theorem empty_config_refuted : exists w, w_config w = Some (Ok VNone) /\ get_root_directory w None = Err AttributeError.
Proof. exists (mkWorld (Some (Ok VNone)) [] []). split; reflexivity. Qed.
(** task_id in run_config.yaml: the results are in a directory below, which is not looked at. *)
Theorem task_directory_refuted : exists w x s, w_config w = Some (Ok (VDict x)) /\
  run_directory (fun v => match v with VStr s => s | _ => "" end) ["results"] (match lookup "task_id" x with Some v => v | None => VNone end) VNone = ["results"; "task_a"] /\
  lookup "root_directory" x = Some (VStr "results") /\ (exists p, lookup "results/task_a" (w_dirs w) = Some p /\ pl_state p = Ok s) /\
  snd (look w None) = Ok NoState.
Proof.
  exists (mkWorld (Some (Ok (VDict [("root_directory", VStr "results"); ("task_id", VStr "a")]))) []
    [("results", mkPlace ["task_a"] (Err VersionedResourceDoesNotExistsError)); ("results/task_a", mkPlace state_dirs (Ok (mkState [] [] ex_info)))]).
  do 2 eexists. split; [reflexivity|]. split; [lazy; reflexivity|]. split; [reflexivity|]. split; [eexists; split; reflexivity|]. lazy. reflexivity.
Qed.
(** In any other directory, a command that shows something makes directories. *)
Theorem showing_makes_directories_refuted : exists w d p p', lookup d (w_dirs w) = Some p /\ pl_entries p = ["photo.jpg"] /\
  snd (ex_main w (CmdStatus (Some d) (mkSA false false false))) = None /\ lookup d (w_dirs (fst (ex_main w (CmdStatus (Some d) (mkSA false false false))))) = Some p' /\
  pl_entries p' = "photo.jpg" :: state_dirs.
Proof.
  exists (mkWorld None [] [("home", mkPlace ["photo.jpg"] (Err VersionedResourceDoesNotExistsError))]), "home". do 2 eexists. split; [reflexivity|]. split; [reflexivity|].
  split; [lazy; reflexivity|]. split; lazy; reflexivity.
Qed.
(** Every command overwrites cli.md, even the printing of the help. *)
Theorem cli_md_refuted : exists w x, lookup "cli.md" (w_files w) = Some x /\ lookup "cli.md" (w_files (fst (ex_main w CmdHelp))) <> Some x.
Proof. exists (mkWorld None [("cli.md", "my notes")] []), "my notes". split; [reflexivity|]. lazy. discriminate. Qed.
Print Assumptions empty_config_refuted.
Print Assumptions task_directory_refuted.
Print Assumptions showing_makes_directories_refuted.
Print Assumptions cli_md_refuted.
