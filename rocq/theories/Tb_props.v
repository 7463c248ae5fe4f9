(** C111 - C113: the logger for TensorBoard. *)
From Coq Require Import Ascii String.
From Verif Require Import Py Py_proofs Trial_model Limit_spec Status_spec Eval_model Status_model Chain_model Chain_spec Chain_props
  Tb_model Tb_spec Tb_proofs.
Local Open Scope string_scope.
Local Open Scope list_scope.
Local Notation length := List.length.

(** ** C111 *)
(** A call during an evaluation, whatever this process and others did before: it goes to "tbevents" in
    the directory of the first trial of the chain; the records are those asked for, with the
    configuration of the trial, and nothing else; it fails exactly if something is to be written
    for a continued trial whose first trial has no such directory. *)
Theorem log_in_evaluation : forall pyfloat root before es c a,
  one_process root before es ->
  let w := trun pyfloat tstart (before ++ TChain NewProcess :: es) in
  p_current (w_proc w) = Some c -> enabled true es = true -> good_counters a ->
  exists t u pre, In t (repo_of (w_proc w) root) /\ t_id t = t_id c /\ first_of (repo_of (w_proc w) root) t u /\
  (pre = t_id c \/ pre = ("config_" ++ t_id u)%string) /\
  let d := to_path (m_location (t_meta u)) ++ ["tbevents"] in
  ((~ asks a \/ m_previous_trial_id (t_meta c) = None \/ In d (w_tb w)) ->
     snd (log a w) = Ok tt /\ w_events (fst (log a w)) = w_events w ++ map (pair d) (entries pre (t_config c) a)) /\
  ((asks a /\ m_previous_trial_id (t_meta c) <> None /\ ~ In d (w_tb w)) ->
     snd (log a w) = Err FileNotFoundError /\ w_events (fst (log a w)) = w_events w).
Proof. intros pyfloat root before es c a OP. exact (log_in_evaluation_p pyfloat root before es OP c a). Qed.
Print Assumptions log_in_evaluation.

(** The tags of the first call of an evaluation that writes something: below the name of the directory
    of the first trial. *)
Theorem first_call_tags : forall pyfloat root before es1 es2 c a,
  one_process root before (es1 ++ es2) ->
  p_current (w_proc (trun pyfloat tstart (before ++ TChain NewProcess :: es1))) = None -> no_log es2 ->
  let w := trun pyfloat tstart (before ++ TChain NewProcess :: es1 ++ es2) in
  p_current (w_proc w) = Some c -> enabled true (es1 ++ es2) = true -> good_counters a -> asks a ->
  snd (log a w) = Ok tt ->
  exists t u, In t (repo_of (w_proc w) root) /\ t_id t = t_id c /\ first_of (repo_of (w_proc w) root) t u /\
  w_events (fst (log a w)) = w_events w ++
    map (pair (to_path (m_location (t_meta u)) ++ ["tbevents"])) (entries ("config_" ++ t_id u) (t_config c) a).
Proof. exact first_tags_p. Qed.
Print Assumptions first_call_tags.

(** Those of the calls that follow in the same evaluation: below the identifier of the trial itself. *)
Theorem later_call_tags : forall pyfloat root before es1 a es2 c1 c b,
  one_process root before (es1 ++ TLog a :: es2) ->
  let w1 := trun pyfloat tstart (before ++ TChain NewProcess :: es1) in
  p_current (w_proc w1) = Some c1 -> enabled true es1 = true -> good_counters a -> asks a -> snd (log a w1) = Ok tt ->
  same_process es2 -> no_finish es2 ->
  let w := trun pyfloat tstart (before ++ TChain NewProcess :: es1 ++ TLog a :: es2) in
  p_current (w_proc w) = Some c -> enabled true (es1 ++ TLog a :: es2) = true -> good_counters b -> asks b ->
  snd (log b w) = Ok tt ->
  exists t u, In t (repo_of (w_proc w) root) /\ t_id t = t_id c /\ first_of (repo_of (w_proc w) root) t u /\
  w_events (fst (log b w)) = w_events w ++
    map (pair (to_path (m_location (t_meta u)) ++ ["tbevents"])) (entries (t_id c) (t_config c) b).
Proof. exact later_tags_p. Qed.
Print Assumptions later_call_tags.

(** No call changes trials, checkpoints, or what the process is evaluating, whatever it raises. *)
Theorem log_leaves_run_alone : forall a w, let w' := fst (log a w) in
  p_repos (w_proc w') = p_repos (w_proc w) /\ p_files (w_proc w') = p_files (w_proc w) /\
  p_state (w_proc w') = p_state (w_proc w) /\ p_current (w_proc w') = p_current (w_proc w) /\
  p_inside (w_proc w') = p_inside (w_proc w).
Proof. exact log_leaves_p. Qed.
Print Assumptions log_leaves_run_alone.

(** While the logger is disabled a call does nothing at all: whatever happened in this process before. *)
Theorem disabled_call : forall pyfloat before es a, enabled true es = false ->
  let w := trun pyfloat tstart (before ++ TChain NewProcess :: es) in log a w = (w, Ok tt).
Proof. exact disabled_call_p. Qed.
Print Assumptions disabled_call.

(** *** Examples *)
Definition tb_root : string := "/r/configs".
Definition tb_args (n : Z) : log_args :=
  mkLA (FZ 5) n true true false [("acc", XScalar (FZ 7)); ("pictures", XImage 2); ("note", XOther)].
(** 0_0 logs at epochs 0 and 1; 0_1, which continues it, begins *)
Definition tb_two : list tevent :=
  [TChain (NewRun tb_root); TChain (ex_sample tb_root "0_0" None); TChain (Enter "0_0"); TLog (tb_args 0); TLog (tb_args 1);
   TChain ex_ok; TChain (ex_sample tb_root "0_1" (Some "0_0")); TChain (Enter "0_1")].
Definition tb_w : tworld := Eval lazy in trun ex_float tstart ([] ++ TChain NewProcess :: tb_two).
Definition tb_d : path := ["r"; "configs"; "config_0_0"; "tbevents"].

Ltac in_all := repeat match goal with H : _ \/ _ |- _ => destruct H as [H|H] end; try contradiction.
Lemma tb_plain es : forallb (fun e => match e with
    | TChain (Move _ _) => false
    | TChain (NewRun r) => String.eqb r tb_root
    | TChain (Sample _ id _ _ _ _) => String.eqb id "0_0" || String.eqb id "0_1" || String.eqb id "1_0"
    | _ => true end) es = true -> one_process tb_root [] es.
Proof.
  intros H. rewrite forallb_forall in H. split; [|split].
  - intros a b I. apply H in I. discriminate.
  - intros r id prev cfg time w I. apply H in I. cbn in I. rewrite !orb_true_iff, !String.eqb_eq in I.
    destruct I as [[->| ->]| ->]; cbn; intuition discriminate.
  - intros r I. apply H in I. cbn in I. now apply String.eqb_eq in I.
Qed.
Example log_in_evaluation_example :
  one_process tb_root [] tb_two /\ enabled true tb_two = true /\ option_map t_id (p_current (w_proc tb_w)) = Some "0_1" /\
  good_counters (tb_args 2) /\ asks (tb_args 2) /\
  let w' := fst (log (tb_args 2) tb_w) in
  snd (log (tb_args 2) tb_w) = Ok tt /\
  skipn (length (w_events tb_w)) (w_events w') =
    [(tb_d, Scalar "config_0_0/Loss" (FZ 5) 2); (tb_d, Hparams [("x", VInt 1)] (FZ 5) 2);
     (tb_d, Scalar "config_0_0/acc" (FZ 7) 2); (tb_d, Image "config_0_0/pictures" 2)].
Proof.
  split; [now apply tb_plain|]. split; [reflexivity|]. split; [reflexivity|]. split.
  { intros k n H. cbn in H. in_all; congruence. }
  split; [now left|]. lazy. auto.
Qed.
Example first_call_tags_example :
  p_current (w_proc (trun ex_float tstart ([] ++ TChain NewProcess :: firstn 6 tb_two))) = None /\ no_log (skipn 6 tb_two) /\
  asks (tb_args 3) /\ snd (log (tb_args 3) tb_w) = Ok tt.
Proof. split; [reflexivity|]. split; [intros a H; cbn in H; in_all; discriminate|]. split; [now left|reflexivity]. Qed.
Example later_call_tags_example :
  one_process tb_root [] (tb_two ++ TLog (tb_args 3) :: [TEnable]) /\ same_process [TEnable] /\ no_finish [TEnable] /\
  let w := trun ex_float tb_w [TLog (tb_args 3); TEnable] in
  snd (log (tb_args 4) w) = Ok tt /\
  skipn (length (w_events w)) (w_events (fst (log (tb_args 4) w))) =
    [(tb_d, Scalar "0_1/Loss" (FZ 5) 4); (tb_d, Hparams [("x", VInt 1)] (FZ 5) 4);
     (tb_d, Scalar "0_1/acc" (FZ 7) 4); (tb_d, Image "0_1/pictures" 4)].
Proof.
  split; [now apply tb_plain|]. split; [intros H; cbn in H; in_all; discriminate|].
  split; [intros o tb drv du te cb H; cbn in H; in_all; discriminate|]. lazy. auto.
Qed.
Example log_leaves_run_alone_example :
  p_current (w_proc (fst (log (tb_args 2) tb_w))) <> None /\ map fst (p_repos (w_proc (fst (log (tb_args 2) tb_w)))) = [tb_root].
Proof. split; [discriminate|reflexivity]. Qed.

Example disabled_call_example :
  enabled true (tb_two ++ [TLog (tb_args 2); TDisable]) = false /\
  length (w_events (trun ex_float tb_w [TLog (tb_args 2); TDisable; TLog (tb_args 3)])) = 4 + length (w_events tb_w).
Proof. split; reflexivity. Qed.

(** *** Refutations *)
(** One evaluation, two calls: the losses are written under two different tags, so that there are two
    curves instead of one. *)
Theorem one_curve_per_trial_refuted : exists es t1 t2,
  one_process tb_root [] es /\
  let w := trun ex_float tstart ([] ++ TChain NewProcess :: es) in
  es = [TChain (NewRun tb_root); TChain (ex_sample tb_root "0_0" None); TChain (Enter "0_0");
        TLog (mkLA (FZ 5) 0 true false false []); TLog (mkLA (FZ 4) 1 true false false [])] /\
  w_events w = [(tb_d, Scalar t1 (FZ 5) 0); (tb_d, Scalar t2 (FZ 4) 1)] /\ t1 <> t2.
Proof.
  eexists _, "config_0_0/Loss", "0_0/Loss". split; [|split; [reflexivity|split; [lazy; reflexivity|discriminate]]].
  now apply tb_plain.
Qed.
Print Assumptions one_curve_per_trial_refuted.

(** A run that uses the logger only from some moment on (or whose first trial failed before the first
    call): a call in a continued trial raises FileNotFoundError, in the user's function. *)
Theorem logging_never_fails_refuted : exists es c a,
  one_process tb_root [] es /\ enabled true es = true /\ good_counters a /\
  let w := trun ex_float tstart ([] ++ TChain NewProcess :: es) in
  p_current (w_proc w) = Some c /\ In tb_root (map fst (p_repos (w_proc w))) /\
  snd (log a w) = Err FileNotFoundError.
Proof.
  exists [TChain (NewRun tb_root); TDisable; TChain (ex_sample tb_root "0_0" None); TChain (Enter "0_0"); TLog (tb_args 0);
          TChain ex_ok; TEnable; TChain (ex_sample tb_root "0_1" (Some "0_0")); TChain (Enter "0_1")].
  eexists _, (tb_args 1). split; [now apply tb_plain|]. split; [reflexivity|].
  split; [intros k n H; cbn in H; in_all; congruence|]. lazy. auto.
Qed.
Print Assumptions logging_never_fails_refuted.

(** ** C112 *)
(** The record of the incumbent, at the end of an evaluation: made if and only if the last call asked for it; the number
    of reported trials and the smallest loss among them, as stored when the evaluation ends, in the directory "summary" of the run. *)
Theorem incumbent_records : forall pyfloat dir before es1 a es2 c o tb drv du te,
  (forall f, pyfloat (VFloat f) = Ok f) ->
  let root := (dir ++ "/configs")%string in
  one_process root before (es1 ++ TLog a :: es2) ->
  p_current (w_proc (trun pyfloat tstart (before ++ TChain NewProcess :: es1))) <> None -> enabled true es1 = true ->
  no_log es2 -> same_process es2 ->
  let w := trun pyfloat tstart (before ++ TChain NewProcess :: es1 ++ TLog a :: es2) in
  p_current (w_proc w) = Some c -> p_inside (w_proc w) = true -> reportable pyfloat drv o -> plain_trials (repo_of (w_proc w) root) ->
  let w' := do_tevent pyfloat w (TChain (Finish o tb drv du te true)) in
  p_current (w_proc w') = None /\
  exists best n, incumbent_of (repo_of (w_proc w) root) best n /\
    w_events w' = w_events w ++ (if la_incumbent a then [(to_path dir ++ ["summary"], Incumbent best n)] else []).
Proof. exact incumbent_p. Qed.
Print Assumptions incumbent_records.

Definition tb_inc : log_args := mkLA (FZ 5) 0 true false true [].
Definition tb_store (id : string) (loss : fl) : list tevent :=
  [TChain (Update tb_root id (UComplete RSuccess (FZ 2) (Some loss) None None None None None (Some (FZ 1))));
   TChain (Update tb_root id (UReport (mkReport id (Some loss) None None [] None None RSuccess (Some (FZ 1)))))].
(** 0_0 is evaluated and its loss 3 stored; 1_0 is being evaluated, and makes a call *)
Definition tb_first : list tevent :=
  [TChain (NewRun tb_root); TChain (ex_sample tb_root "0_0" None); TChain (Enter "0_0"); TLog tb_inc; TChain ex_ok].
Definition tb_second : list tevent :=
  tb_first ++ tb_store "0_0" (FZ 3) ++ [TChain (ex_sample tb_root "1_0" None); TChain (Enter "1_0")].
Definition tb_w2 : tworld := Eval lazy in trun ex_float tstart ([] ++ TChain NewProcess :: tb_second ++ TLog tb_inc :: []).
Definition tb_s : path := ["r"; "summary"].

Example incumbent_records_example :
  one_process "/r/configs" [] (tb_second ++ TLog tb_inc :: []) /\
  p_current (w_proc (trun ex_float tstart ([] ++ TChain NewProcess :: tb_second))) <> None /\ enabled true tb_second = true /\
  option_map t_id (p_current (w_proc tb_w2)) = Some "1_0" /\ p_inside (w_proc tb_w2) = true /\
  reportable ex_float ex_drv (FnReturns (VFloat (FZ 1))) /\ plain_trials (repo_of (w_proc tb_w2) "/r/configs") /\
  (let w' := do_tevent ex_float tb_w2 (TChain (Finish (FnReturns (VFloat (FZ 1))) "" ex_drv (FZ 1) (FZ 2) true)) in
   skipn (length (w_events tb_w2)) (w_events w') = [(tb_s, Incumbent (FZ 3) 1)]).
Proof.
  split; [now apply tb_plain|]. split; [discriminate|]. split; [reflexivity|]. split; [reflexivity|]. split; [reflexivity|].
  split; [reflexivity|]. split; [|lazy; reflexivity]. split.
  - lazy. repeat constructor; cbn; intuition discriminate.
  - intros t r H R. lazy in H. in_all; subst t; cbn in R; [discriminate|]. injection R as <-. intros _. cbn.
    split; [discriminate|]. split; [reflexivity|]. split; [constructor|discriminate].
Qed.

(** The trial that ends is not counted, since its report is stored after the record is made: with one
    evaluation, whose loss is 3, the only record has no trial and the loss inf. *)
Theorem incumbent_includes_trial_refuted : exists es id,
  one_process tb_root [] (es ++ tb_store id (FZ 3)) /\
  let w := trun ex_float tstart ([] ++ TChain NewProcess :: es ++ tb_store id (FZ 3)) in
  es = [TChain (NewRun tb_root); TChain (ex_sample tb_root id None); TChain (Enter id); TLog tb_inc;
        TChain (Finish (FnReturns (VFloat (FZ 3))) "" ex_drv (FZ 1) (FZ 2) true)] /\
  incumbent_of (repo_of (w_proc w) tb_root) (FZ 3) 1 /\
  filter (fun x => path_eqb (fst x) tb_s) (w_events w) = [(tb_s, Incumbent FPInf 0)].
Proof.
  eexists _, "0_0". split; [|split; [reflexivity|split; [|lazy; reflexivity]]].
  - now apply tb_plain.
  - set (w := trun _ _ _). assert (E : exists t, repo_of (w_proc w) tb_root = [t] /\ succeeded t (FZ 3)).
    { eexists. split; [lazy; reflexivity|]. eexists. split; [reflexivity|]. split; reflexivity. }
    destruct E as (t & -> & S). split; [|split].
    + apply no_yes; [|constructor]. destruct S as (r & S & _). intros H. congruence.
    + intros t' l [<-|[]] S' _. destruct S as (r & S1 & _ & S2), S' as (r' & S3 & _ & S4).
      assert (r' = r) by congruence. subst r'. assert (l = FZ 3) by congruence. subst l. lazy. now constructor.
    + right. exists t. split; [now left|exact S].
Qed.
Print Assumptions incumbent_includes_trial_refuted.

(** A disabled logger still makes the record, at the end of a trial that makes no call. *)
Theorem disabled_writes_nothing_refuted : exists es e,
  one_process tb_root [] (es ++ [TDisable; TChain (ex_sample tb_root "1_0" None); TChain (Enter "1_0"); e]) /\
  let w := trun ex_float tstart ([] ++ TChain NewProcess :: es ++ [TDisable; TChain (ex_sample tb_root "1_0" None); TChain (Enter "1_0")]) in
  lg_disabled (w_log w) = true /\ length (w_events (do_tevent ex_float w e)) = S (length (w_events w)).
Proof.
  exists (tb_first ++ tb_store "0_0" (FZ 3)), (TChain ex_ok). split; [now apply tb_plain|]. lazy. auto.
Qed.
Print Assumptions disabled_writes_nothing_refuted.

(** A second run of the process, in another directory: its incumbent goes to the summary of the first. *)
Theorem incumbent_second_run_refuted : exists es a es2 e,
  let w := trun ex_float tstart (es ++ [TChain (NewRun "/s/configs"); TChain (ex_sample "/s/configs" "0_0" None); TChain (Enter "0_0"); TLog a] ++ es2) in
  p_state (w_proc w) = Some "/s/configs" /\ repo_of (w_proc w) "/s/configs" <> [] /\ la_incumbent a = true /\
  skipn (length (w_events w)) (w_events (do_tevent ex_float w e)) = [(["r"; "summary"], Incumbent FPInf 0)].
Proof.
  exists tb_first, tb_inc, [], (TChain ex_ok). lazy. repeat split; auto. discriminate.
Qed.
Print Assumptions incumbent_second_run_refuted.

(** ** C113 *)
(** Grids of at least one image: all images are in the grid, in full size, and no two overlap. *)
Theorem image_grid : forall nrow batch height width, 0 < nrow -> 0 < batch ->
  exists h w places, make_grid nrow batch height width = Ok (h, w, places) /\ length places = batch /\
  (forall k p, nth_error places k = Some p -> inside h w p /\ gp_bottom p = gp_top p + height /\ gp_right p = gp_left p + width) /\
  (forall j k p q, j <> k -> nth_error places j = Some p -> nth_error places k = Some q -> apart p q).
Proof. exact grid_p. Qed.
Print Assumptions image_grid.
Example image_grid_example : make_grid 3 5 4 6 =
  Ok (14, 26, [mkGP 2 6 2 8; mkGP 2 6 10 16; mkGP 2 6 18 24; mkGP 8 12 2 8; mkGP 8 12 10 16]).
Proof. reflexivity. Qed.
(** No image at all: an error instead of an empty grid. *)
Theorem empty_grid_refuted : exists e, forall nrow height width, make_grid nrow 0 height width = Err e.
Proof. exists RuntimeError. intros nrow height width. unfold make_grid, grid_columns. now rewrite Nat.min_0_r. Qed.
Print Assumptions empty_grid_refuted.
