(** C60, C104, C105: chains of trials, checkpoints, and what a process keeps. *)
From Coq Require Import Ascii String.
From Verif Require Import Py Py_proofs Trial_model Eval_model Chain_model Chain_spec Chain_proofs.
Local Open Scope string_scope.
Local Open Scope list_scope.

(** ** C60 *)
(** A process whose runs all use one directory: whatever happened before the process
    was started and whatever it and other workers do, the initial directory of a trial
    (named by its directory) is that of the first trial of its chain.  In particular the
    search along the chain ends. *)
Theorem initial_directory_found : forall pyfloat root before es t d,
  no_move before -> no_move es -> only_runs root es ->
  let p := run pyfloat start (before ++ NewProcess :: es) in
  p_state p = Some root -> In t (repo_of p root) -> ~ occurs "/"%char (t_id t) ->
  to_path d = to_path (m_location (t_meta t)) ->
  exists u c, first_of (repo_of p root) t u /\
    get_initial_directory p (Some d) = Ok (to_path (m_location (t_meta u)), c).
Proof. intros pyfloat root before es t d N1 N2 R. exact (initial_by_directory_p pyfloat root before es N1 N2 R t d). Qed.

(** Spellings of a directory that make no difference: slashes and "." components. *)
Theorem directory_spellings : forall a b,
  to_path (a ++ "/")%string = to_path a /\ to_path (a ++ "/.")%string = to_path a /\
  to_path (a ++ "//" ++ b)%string = to_path (a ++ "/" ++ b)%string /\
  to_path (a ++ "/./" ++ b)%string = to_path (a ++ "/" ++ b)%string /\
  to_path (a ++ "/" ++ b)%string = to_path a ++ to_path b.
Proof. exact spellings_p. Qed.

(** The same for the trial being evaluated. *)
Theorem initial_directory_in_progress : forall pyfloat root before es c,
  no_move before -> no_move es -> only_runs root es ->
  let p := run pyfloat start (before ++ NewProcess :: es) in
  p_state p = Some root -> p_current p = Some c ->
  exists t u x, In t (repo_of p root) /\ t_id t = t_id c /\ first_of (repo_of p root) t u /\
    get_initial_directory p None = Ok (to_path (m_location (t_meta u)), x).
Proof. intros pyfloat root before es c N1 N2 R. exact (initial_in_progress_p pyfloat root before es N1 N2 R c). Qed.

(** The location of a trial is its directory in the run it belongs to. *)
Theorem trial_locations : forall pyfloat es root t,
  no_move es -> In t (repo_of (run pyfloat start es) root) ->
  m_location (t_meta t) = (root ++ "/config_" ++ t_id t)%string.
Proof. exact locations_p. Qed.

(** With any number of runs in the process: right for continued trials, provided no run
    has a first trial with the identifier of the trial asked for. *)
Theorem initial_directory_continued_partial : forall pyfloat es root t d,
  no_move es -> let p := run pyfloat start es in
  p_state p = Some root -> In t (repo_of p root) -> ~ occurs "/"%char (t_id t) ->
  (forall root' t', In t' (repo_of p root') -> t_id t' = t_id t -> m_previous_trial_id (t_meta t') <> None) ->
  to_path d = to_path (m_location (t_meta t)) ->
  exists u c, first_of (repo_of p root) t u /\
    get_initial_directory p (Some d) = Ok (to_path (m_location (t_meta u)), c).
Proof. exact initial_of_continued_p. Qed.

(** *** Examples *)
Definition ex_float (v : pyval) : res fl := match as_num v with Some f => Ok f | None => Err ValueError end.
Definition ex_drv : default_report_values := mkDRV None None None None LCLoss.
Definition ex_ok : event := Finish (FnReturns (VFloat (FZ 3))) "" ex_drv (FZ 1) (FZ 2) true.
Definition ex_sample (root id : string) (prev : option string) : event := Sample root id prev [("x", VInt 1)] (FZ 0) "w".
Definition ex_chain : list event :=
  [NewRun "/r/configs"; ex_sample "/r/configs" "0_0" None; Enter "0_0"; Lookup None; ex_ok;
   ex_sample "/r/configs" "1_0" None; ex_sample "/r/configs" "0_1" (Some "0_0");
   Update "/r/configs" "0_1" (UEvaluating (FZ 4) "w"); ex_sample "/r/configs" "0_2" (Some "0_1"); Enter "0_2"].
Definition ex_p : proc := Eval lazy in run ex_float start ([] ++ NewProcess :: ex_chain).

Example initial_directory_found_example :
  (p_state ex_p, map t_id (repo_of ex_p "/r/configs")) = (Some "/r/configs", ["0_2"; "0_1"; "1_0"; "0_0"]) /\
  map (fun d => option_map fst (match get_initial_directory ex_p d with Ok x => Some x | Err _ => None end))
    [Some "/r/configs/config_0_1"; Some "/r//configs/./config_1_0/"; None; Some "/r/configs/config_0_0"] =
  [Some ["r"; "configs"; "config_0_0"]; Some ["r"; "configs"; "config_1_0"];
   Some ["r"; "configs"; "config_0_0"]; Some ["r"; "configs"; "config_0_0"]].
Proof. lazy. auto. Qed.
Example directory_spellings_example :
  to_path "/r//configs/./config_1_0/." = ["r"; "configs"; "config_1_0"].
Proof. reflexivity. Qed.
Example initial_directory_in_progress_example :
  no_move ex_chain /\ only_runs "/r/configs" ex_chain /\ option_map t_id (p_current ex_p) = Some "0_2".
Proof.
  split; [|split; [|reflexivity]].
  - intros a b H. repeat destruct H as [H|H]; try discriminate; destruct H.
  - intros r H. repeat (destruct H as [H|H]; [try discriminate H; try (injection H as <-; reflexivity)|]); destruct H.
Qed.
Example trial_locations_example :
  map (fun t => m_location (t_meta t)) (repo_of ex_p "/r/configs") =
  ["/r/configs/config_0_2"; "/r/configs/config_0_1"; "/r/configs/config_1_0"; "/r/configs/config_0_0"].
Proof. reflexivity. Qed.
(** a second run in another directory: the continued trial is found there *)
Definition ex_two : proc := Eval lazy in
  run ex_float ex_p [ex_ok; NewRun "/s/configs"; ex_sample "/s/configs" "0_0" None; ex_sample "/s/configs" "0_1" (Some "0_0")].
Example initial_directory_continued_example :
  map t_id (repo_of ex_two "/s/configs") = ["0_1"; "0_0"] /\
  option_map fst (match get_initial_directory ex_two (Some "/s/configs/config_0_1") with Ok x => Some x | Err _ => None end)
  = Some ["s"; "configs"; "config_0_0"].
Proof. lazy. auto. Qed.

(** *** Refutations *)
(** A second run in the same process, in another directory: for a first trial of the
    same identifier as one looked up before, the directory of the first run is returned. *)
Theorem initial_directory_two_runs_refuted : exists es c x,
  no_move es /\
  let p := run ex_float start es in
  p_state p = Some "/s/configs" /\ p_current p = Some c /\ In c (repo_of p "/s/configs") /\
  m_location (t_meta c) = "/s/configs/config_0" /\ m_previous_trial_id (t_meta c) = None /\
  get_initial_directory p None = Ok (["r"; "configs"; "config_0"], x).
Proof.
  exists [NewRun "/r/configs"; ex_sample "/r/configs" "0" None; Enter "0"; Lookup None; ex_ok;
          NewRun "/s/configs"; ex_sample "/s/configs" "0" None; Enter "0"].
  eexists _, _. split.
  { intros a b H. repeat destruct H as [H|H]; try discriminate; destruct H. }
  cbv zeta. lazy. repeat split; auto.
Qed.

(** Results that have been moved: the initial directory returned is the old place, where
    there is nothing; and a continued trial finds no checkpoint though there is one. *)
Theorem moved_results_refuted : exists es c x d,
  let p := run ex_float start (es ++ [Move "/r/configs" "/s/configs"; NewProcess; NewRun "/s/configs"; Enter "0_1"]) in
  p_current p = Some c /\ m_previous_trial_id (t_meta c) = Some "0_0" /\
  get_initial_directory p None = Ok (["r"; "configs"; "config_0_0"], x) /\
  ~ In ["r"; "configs"; "config_0_0"] (p_dirs p) /\ In ["s"; "configs"; "config_0_0"] (p_dirs p) /\
  find_file (p_files p) ["s"; "configs"; "config_0_0"; "checkpoint.pth"] = Some d /\
  load_checkpoint p None "checkpoint" true true = Ok nothing_loaded.
Proof.
  exists [NewRun "/r/configs"; ex_sample "/r/configs" "0_0" None; Enter "0_0"; Save None "checkpoint" (Some [("epoch", VInt 3)]) None None;
          ex_ok; ex_sample "/r/configs" "0_1" (Some "0_0")].
  eexists _, _, _. cbv zeta. lazy. repeat split.
  - intros H. repeat destruct H as [H|H]; try discriminate; destruct H.
  - right. left. reflexivity.
Qed.

(** ** C104 *)
(** The place of the previous trial that a trial records is the location of the trial
    it continues. *)
Theorem previous_location : forall pyfloat es root t,
  no_move es -> In t (repo_of (run pyfloat start es) root) ->
  match m_previous_trial_id (t_meta t) with
  | None => m_previous_trial_location (t_meta t) = None
  | Some id => exists q, In q (repo_of (run pyfloat start es) root) /\ t_id q = id /\
      m_previous_trial_location (t_meta t) = Some (m_location (t_meta q))
  end.
Proof. exact previous_location_p. Qed.

(** What a trial saved last under a name is what a trial that continues it loads under
    that name: all values of the user, and the states of model and optimizer unless a
    value has their key; and these are put into model and optimizer. *)
Theorem checkpoint_continued : forall pyfloat before t n values m o es b t' n' with_model with_optimizer,
  no_move before -> let p := run pyfloat start before in
  p_current p = Some t -> simple_name n -> base_name n b ->
  NoDup (map fst (match values with Some v => v | None => [] end)) ->
  let p1 := do_event pyfloat p (Save None n values m o) in
  undisturbed pyfloat p1 es (to_path (m_location (t_meta t))) b ->
  let p2 := run pyfloat p1 es in
  p_current p2 = Some t' -> m_previous_trial_location (t_meta t') = Some (m_location (t_meta t)) ->
  simple_name n' -> base_name n' b ->
  exists c, load_checkpoint p2 None n' with_model with_optimizer = Ok (mkLoaded (Some c)
    (if with_model then lookup "model_state_dict" c else None)
    (if with_optimizer then lookup "optimizer_state_dict" c else None)) /\
    forall k, lookup k c =
      match match values with Some v => lookup k v | None => None end with
      | Some x => Some x
      | None => if String.eqb k "model_state_dict" then m else if String.eqb k "optimizer_state_dict" then o else None
      end.
Proof.
  intros pyfloat before t n values m o es b t' n' wm wo N p C S B D.
  apply checkpoint_continued_p; auto. now apply trial_directory_exists_p.
Qed.

(** Nothing is loaded if nothing was saved there, or there is no previous trial. *)
Theorem checkpoint_absent : forall pyfloat es b t n with_model with_optimizer d,
  let p := run pyfloat start es in
  p_current p = Some t -> m_previous_trial_location (t_meta t) = Some d ->
  simple_name n -> base_name n b -> undisturbed pyfloat start es (to_path d) b ->
  load_checkpoint p None n with_model with_optimizer = Ok nothing_loaded.
Proof. exact load_nothing_p. Qed.
Theorem checkpoint_first : forall p t n with_model with_optimizer,
  p_current p = Some t -> m_previous_trial_location (t_meta t) = None ->
  load_checkpoint p None n with_model with_optimizer = Ok nothing_loaded.
Proof. intros p t n wm wo C L. unfold load_checkpoint, load_directory, get_in_progress_trial. now rewrite C; cbn; rewrite L. Qed.

(** Checkpoints of Lightning: the only file [*.ckpt] of the directory; FileNotFoundError
    if there is none, ValueError if there are several. *)
Theorem lightning_checkpoint : forall p dir t d,
  p_current p = Some t -> m_previous_trial_location (t_meta t) = Some d -> NoDup (p_files p) ->
  let ckpt x := In x (p_files p) /\ exists n, fst x = to_path dir ++ [(n ++ ".ckpt")%string] in
  ((forall x, ~ ckpt x) -> load_lightning_checkpoint p dir None = Err FileNotFoundError) /\
  (forall x, ckpt x -> (forall y, ckpt y -> y = x) -> load_lightning_checkpoint p dir None = Ok (Some x)) /\
  (forall x y, ckpt x -> ckpt y -> x <> y -> load_lightning_checkpoint p dir None = Err ValueError).
Proof.
  intros p dir t d C L N ckpt. unfold load_lightning_checkpoint, load_directory, get_in_progress_trial. rewrite C. cbn [bind]. rewrite L. cbn [bind option_map].
  assert (K : forall x, In x (ckpt_files (p_files p) (to_path dir)) <-> ckpt x) by (intros x; apply ckpt_files_iff).
  assert (M : NoDup (ckpt_files (p_files p) (to_path dir))) by now apply NoDup_filter.
  set (l := ckpt_files _ _) in *. clearbody l. split; [|split].
  - intros H. destruct l as [|x l]; [reflexivity|]. destruct (H x). apply K. now left.
  - intros x X Y. apply K in X. destruct l as [|a [|b l]]; [destruct X| |].
    + destruct X as [->|[]]. reflexivity.
    + exfalso. inversion M as [|? ? M1 _]; subst. apply M1. left.
      rewrite (Y a), (Y b); [reflexivity|apply K; right; now left|apply K; now left].
  - intros x y X Y D. apply K in X, Y. destruct l as [|a [|b l]]; [destruct X| |reflexivity].
    destruct X as [<-|[]], Y as [<-|[]]. now destruct D.
Qed.
Theorem lightning_first : forall p dir t,
  p_current p = Some t -> m_previous_trial_location (t_meta t) = None ->
  load_lightning_checkpoint p dir None = Ok None.
Proof. intros p dir t C L. unfold load_lightning_checkpoint, load_directory, get_in_progress_trial. now rewrite C; cbn; rewrite L. Qed.

(** *** Examples *)
Definition ex_first : list event :=
  [NewRun "/r/configs"; ex_sample "/r/configs" "0_0" None; Enter "0_0"].
Definition ex_next : list event :=
  [ex_ok; NewProcess; NewRun "/r/configs"; ex_sample "/r/configs" "1_0" None; Enter "1_0";
   Save None "run.pth" (Some [("epoch", VInt 9)]) None None; ex_ok;
   ex_sample "/r/configs" "0_1" (Some "0_0"); Enter "0_1"; Save None "run" (Some [("epoch", VInt 4)]) None None].
Definition ex_saved : event := Save None "run" (Some [("epoch", VInt 3)]) (Some (VStr "weights")) (Some (VStr "momentum")).
Definition ex_p1 : proc := Eval lazy in do_event ex_float (run ex_float start ex_first) ex_saved.
Definition ex_p2 : proc := Eval lazy in run ex_float ex_p1 ex_next.
Lemma run_name : simple_name "run" /\ simple_name "run.pth" /\ base_name "run" "run" /\ base_name "run.pth" "run".
Proof.
  assert (S : simple_name "run" /\ simple_name "run.pth").
  { split; (split; [discriminate|]; split; [discriminate|]; cbn; intuition discriminate). }
  repeat split; try apply S; now apply base_is.
Qed.
Example checkpoint_continued_example :
  undisturbed ex_float ex_p1 ex_next ["r"; "configs"; "config_0_0"] "run" /\
  option_map (fun t => (t_id t, m_previous_trial_location (t_meta t))) (p_current ex_p2) = Some ("0_1", Some "/r/configs/config_0_0") /\
  load_checkpoint ex_p2 None "run.pth" true true =
    Ok (mkLoaded (Some [("model_state_dict", VStr "weights"); ("optimizer_state_dict", VStr "momentum"); ("epoch", VInt 3)])
          (Some (VStr "weights")) (Some (VStr "momentum"))).
Proof.
  split; [|split; lazy; reflexivity].
  assert (SV : forall p e, (forall d n v m o, e <> Save d n v m o) -> ~ saves_to p e ["r"; "configs"; "config_0_0"] "run").
  { intros p e H (d & n & v & m & o & -> & _). now apply (H d n v m o). }
  assert (SD : forall p n v m o t, p_current p = Some t -> to_path (m_location (t_meta t)) <> ["r"; "configs"; "config_0_0"] ->
             ~ saves_to p (Save None n v m o) ["r"; "configs"; "config_0_0"] "run").
  { intros p n v m o t C D (d & n' & v' & m' & o' & E & H & _). injection E as <- <- <- <- <-. destruct H as (t' & T1 & T2). congruence. }
  pose proof run_name as (N1 & N2 & _).
  cbn [undisturbed ex_next ex_ok ex_sample].
  repeat (split; [first [apply SV; intros; discriminate | eapply SD; [lazy; reflexivity|lazy; discriminate]]|];
          split; [intros ? ? ? ? ? E; try discriminate E; injection E as <- <- <- <- <-; assumption|];
          split; [intros; discriminate|]; split; [intros; discriminate|]).
  exact Logic.I.
Qed.
Example previous_location_example :
  map (fun t => (m_previous_trial_id (t_meta t), m_previous_trial_location (t_meta t))) (repo_of ex_p2 "/r/configs") =
  [(Some "0_0", Some "/r/configs/config_0_0"); (None, None); (None, None)].
Proof. reflexivity. Qed.
Example checkpoint_absent_example :
  load_checkpoint ex_p2 None "best" true false = Ok nothing_loaded.
Proof. lazy. reflexivity. Qed.
Example checkpoint_first_example :
  option_map (fun t => m_previous_trial_location (t_meta t)) (p_current ex_p1) = Some None /\
  load_checkpoint ex_p1 None "run" true true = Ok nothing_loaded.
Proof. lazy. auto. Qed.
Definition ex_p3 : proc := Eval lazy in run ex_float ex_p2 [Write ["l"; "a.ckpt"] [("epoch", VInt 1)]; Write ["l"; "a.txt"] []].
Example lightning_checkpoint_example :
  load_lightning_checkpoint ex_p3 "/l" None = Ok (Some (["l"; "a.ckpt"], [("epoch", VInt 1)])) /\
  load_lightning_checkpoint ex_p3 "/m" None = Err FileNotFoundError /\
  load_lightning_checkpoint (run ex_float ex_p3 [Write ["l"; "b.ckpt"] []]) "/l" None = Err ValueError.
Proof. lazy. auto. Qed.
Example lightning_first_example : load_lightning_checkpoint ex_p1 "/l" None = Ok None.
Proof. lazy. reflexivity. Qed.

(** *** Refutations *)
(** Different names of checkpoints may share a file: after saving "epoch.1" and "epoch.2",
    loading "epoch.1" gives what was saved as "epoch.2". *)
Theorem checkpoint_names_refuted : exists es n1 n2 v1 v2 d1 d2,
  n1 <> n2 /\ simple_name n1 /\ simple_name n2 /\ v1 <> v2 /\
  let p := run ex_float start (es ++ [Save (Some d1) n1 (Some v1) None None; Save (Some d2) n2 (Some v2) None None]) in
  to_path d1 = to_path d2 /\
  load_checkpoint p (Some d1) n1 false false = Ok (mkLoaded (Some v2) None None).
Proof.
  exists ex_first, "epoch.1", "epoch.2", [("epoch", VInt 1)], [("epoch", VInt 2)], "/r/configs/config_0_0", "/r/configs/config_0_0".
  split; [discriminate|]. split; [|split; [|split; [discriminate|]]].
  - split; [discriminate|]. split; [discriminate|]. cbn. intuition discriminate.
  - split; [discriminate|]. split; [discriminate|]. cbn. intuition discriminate.
  - lazy. auto.
Qed.

(** A value of the user named "model_state_dict" silently replaces the model's state. *)
Theorem model_state_replaced_refuted : exists es values m,
  let p := run ex_float start (es ++ [Save (Some "/r/configs/config_0_0") "run" (Some values) (Some m) None]) in
  exists l, load_checkpoint p (Some "/r/configs/config_0_0") "run" true false = Ok l /\ l_checkpoint l <> None /\ l_model l <> Some m.
Proof.
  exists ex_first, [("model_state_dict", VNone)], (VStr "weights"). cbv zeta. eexists. split; [lazy; reflexivity|].
  split; discriminate.
Qed.

(** The documentation of load_lightning_checkpoint promises (None, None) if there are no
    checkpoint files, and the latest of several: both raise. *)
Theorem lightning_documented_refuted : exists p t,
  p_current p = Some t /\ m_previous_trial_location (t_meta t) <> None /\
  load_lightning_checkpoint p "/none" None = Err FileNotFoundError /\
  load_lightning_checkpoint p "/two" None = Err ValueError.
Proof.
  exists (run ex_float ex_p2 [Write ["two"; "a.ckpt"] []; Write ["two"; "b.ckpt"] []]).
  eexists. split; [lazy; reflexivity|]. split; [lazy; discriminate|]. lazy. auto.
Qed.

(** ** C105 *)
(** An evaluation that ends in a report leaves the process ready for the next one, in the
    same or any other run. *)
Theorem evaluation_ends_clean : forall pyfloat p t o tb drv duration time_end,
  p_current p = Some t -> p_inside p = true -> reportable pyfloat drv o ->
  exists p', finish pyfloat p o tb drv duration time_end true = Ok p' /\
    do_event pyfloat p (Finish o tb drv duration time_end true) = p' /\
    p_current p' = None /\
    forall root r id, In id (map t_id r) -> repo_of p' root = r ->
      is_ok (enter (do_event pyfloat p' (NewRun root)) id) = true.
Proof. exact finish_clean_p. Qed.

(** After an evaluation that did not end in a report (an unreadable result, a failing
    callback, an interrupt), no evaluation of any run can begin in the process. *)
Theorem escaped_evaluation_blocks : forall pyfloat p t o tb drv duration time_end cb es root id,
  p_current p = Some t -> p_inside p = true -> ~ (reportable pyfloat drv o /\ cb = true) -> ~ In NewProcess es ->
  let p' := run pyfloat (do_event pyfloat p (Finish o tb drv duration time_end cb)) es in
  p_state p' = Some root -> In id (map t_id (repo_of p' root)) ->
  enter p' id = Err NePSError.
Proof.
  intros pyfloat p t o tb drv du te cb es root id C I H N p' S Hid.
  destruct (escape_stuck_p pyfloat p t o tb drv du te cb C H) as [K|K]; [|congruence].
  apply (stuck_enter p' t id root); auto. now apply stuck_all.
Qed.
Theorem interrupted_evaluation_blocks : forall pyfloat p t es root id,
  p_current p = Some t -> ~ In NewProcess es ->
  let p' := run pyfloat (do_event pyfloat p Interrupt) es in
  p_state p' = Some root -> In id (map t_id (repo_of p' root)) ->
  enter p' id = Err NePSError.
Proof.
  intros pyfloat p t es root id C N p' S Hid. apply (stuck_enter p' t id root); auto. apply stuck_all; [exact N|]. now split.
Qed.
(** A run inside an evaluation cannot evaluate anything. *)
Theorem nested_run_fails : forall pyfloat p t root id,
  p_current p = Some t -> In id (map t_id (repo_of p root)) ->
  enter (do_event pyfloat p (NewRun root)) id = Err NePSError.
Proof.
  intros pyfloat p t root id C H. unfold enter. cbn [do_event get_workers_neps_state p_state bind].
  assert (E : forall e, get_trial_by_id (repo_of p root) id <> Err e) by (intros e G; now apply get_by_id_err in G).
  change (repo_of (mkProc (p_repos p) (p_dirs p) (p_files p) (Some root) (p_current p) (p_inside p) (p_cache p)) root) with (repo_of p root).
  destruct (get_trial_by_id (repo_of p root) id) as [u|e]; [|now destruct (E e)]. cbn [bind p_current]. now rewrite C.
Qed.

(** *** Examples *)
Definition ex_inside : proc := Eval lazy in run ex_float start ex_first.
Definition ex_bad : fn_outcome := FnReturns (VStr "3 percent").
Definition ex_later : list event := [NewRun "/s/configs"; ex_sample "/s/configs" "0" None].
Example evaluation_ends_clean_example :
  option_map t_id (p_current ex_inside) = Some "0_0" /\ p_inside ex_inside = true /\
  reportable ex_float ex_drv (FnRaises "boom") /\
  is_ok (enter (run ex_float ex_inside (ex_ok :: ex_later)) "0") = true.
Proof. lazy. auto. Qed.
Example escaped_evaluation_blocks_example :
  ~ (reportable ex_float ex_drv ex_bad /\ true = true) /\
  enter (run ex_float (do_event ex_float ex_inside (Finish ex_bad "" ex_drv (FZ 1) (FZ 2) true)) ex_later) "0" = Err NePSError.
Proof. split; [intros [H _]; discriminate|lazy; reflexivity]. Qed.
Example interrupted_evaluation_blocks_example :
  enter (run ex_float (do_event ex_float ex_inside Interrupt) ex_later) "0" = Err NePSError.
Proof. lazy. reflexivity. Qed.
Example nested_run_fails_example :
  enter (run ex_float ex_inside ex_later) "0" = Err NePSError.
Proof. lazy. reflexivity. Qed.

(** A later run in a process is not independent of earlier ones: the same run works in a
    new process and fails, before calling the function, after an unreadable result. *)
Theorem later_run_refuted : exists es later id,
  is_ok (enter (run ex_float start (es ++ NewProcess :: later)) id) = true /\
  enter (run ex_float start (es ++ later)) id = Err NePSError.
Proof.
  exists (ex_first ++ [Finish ex_bad "" ex_drv (FZ 1) (FZ 2) true]), ex_later, "0". lazy. auto.
Qed.

Print Assumptions initial_directory_found.
Print Assumptions directory_spellings.
Print Assumptions initial_directory_in_progress.
Print Assumptions trial_locations.
Print Assumptions initial_directory_continued_partial.
Print Assumptions initial_directory_two_runs_refuted.
Print Assumptions moved_results_refuted.
Print Assumptions previous_location.
Print Assumptions checkpoint_continued.
Print Assumptions checkpoint_absent.
Print Assumptions checkpoint_first.
Print Assumptions lightning_checkpoint.
Print Assumptions lightning_first.
Print Assumptions checkpoint_names_refuted.
Print Assumptions model_state_replaced_refuted.
Print Assumptions lightning_documented_refuted.
Print Assumptions evaluation_ends_clean.
Print Assumptions escaped_evaluation_blocks.
Print Assumptions interrupted_evaluation_blocks.
Print Assumptions nested_run_fails.
Print Assumptions later_run_refuted.
