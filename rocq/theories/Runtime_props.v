(** Properties of concurrently running workers.  Parameters everywhere: [pyfloat]
    Python's float(), [tid] and [wname] names, [conf] each worker's settings, [ask] the
    optimizer. *)
From Verif Require Import Py Trial_model Eval_model Init_model Runtime_model Runtime_spec
  Runtime_world Runtime_proofs Claim_proofs Once_proofs Each_proofs Share_proofs Seed_proofs
  Overshoot_proofs.

(** Inputs and schedules of the examples: worker 2 samples trial 0 and pauses; the others
    find it pending. *)
Definition x31 : input nat := gives (loss_and_cost 3 1).
Definition sampled : list (event nat) := steps 4 2 x31.

Section Props.
Context {R : Type}.
Variable pyfloat : pyval -> res fl.
Variable tid wname : nat -> string.
Variable conf : nat -> worker_settings.
Variable ask : R -> list trial -> res (dict * R).
Notation step := (step pyfloat tid wname conf ask).
Notation run := (run pyfloat tid wname conf ask).
Notation evaluated := (evaluated pyfloat tid wname conf ask).
Notation evaluated_by := (evaluated_by pyfloat tid wname conf ask).
Notation no_late_refetch := (no_late_refetch pyfloat tid wname conf ask).
Notation attempts := (attempts pyfloat tid wname conf ask).
Notation costs := (costs pyfloat tid wname conf ask).
Notation stored_reports := (stored_reports pyfloat tid wname conf ask).
Notation charged_reports := (charged_reports pyfloat tid wname conf ask).
Notation dumped_reports := (dumped_reports pyfloat tid wname conf ask).
Notation error_entries := (error_entries pyfloat tid wname conf ask).

(** C04.  Full statement: [NoDup (evaluated (start cs b errs r n) es)] for all
    schedules; it is refuted below.  Holds when no trial is re-read after another
    worker took it. *)
Theorem evaluated_at_most_once_partial : forall cs b errs (r : R) n es,
  good_cells cs n -> no_late_refetch (start cs b errs r n) es ->
  NoDup (evaluated (start cs b errs r n) es).
Proof.
  intros. apply (o_nodup _ _ (once_run pyfloat tid wname conf ask es _ [] (once_start tid wname conf ask cs b errs r n H) H0)).
Qed.

Example evaluated_at_most_once_example :
  let es := sampled ++ steps 9 0 x31 ++ steps 9 1 x31 in
  good_cells [] 1 /\
  Runtime_spec.no_late_refetch w_float w_tid w_name w_conf w_ask (w_start []) es /\
  w_evals w_conf (w_start []) es = [0; 1].
Proof. split; [intros c []|]. vm_compute. repeat split; try (intros c H; inversion H; reflexivity). Qed.

(** C04: what always holds: each worker evaluates a trial at most once, so [W] workers
    evaluate it at most [W] times. *)
Theorem each_worker_evaluates_once : forall cs b errs (r : R) n es,
  good_cells cs n -> NoDup (evaluated_by (start cs b errs r n) es).
Proof.
  intros. apply (e_nodup _ _ (each_run pyfloat tid wname conf ask es _ [] (each_start tid wname conf ask cs b errs r n H))).
Qed.
Example each_worker_evaluates_once_example :
  Runtime_spec.evaluated_by w_float w_tid w_name w_conf w_ask (w_start [])
    (sampled ++ steps 4 0 x31 ++ steps 8 1 x31 ++ steps 3 0 x31) = [(1, 0); (0, 0)].
Proof. vm_compute. reflexivity. Qed.

(** C04: in particular a single worker. *)
Theorem single_worker_evaluates_once : forall cs b errs (r : R) n es k,
  good_cells cs n -> (forall e, In e es -> actor e = k) ->
  NoDup (evaluated (start cs b errs r n) es).
Proof.
  intros cs b errs r n es k G A. assert (N := each_worker_evaluates_once cs b errs r n es G).
  revert N. generalize (start cs b errs r n). clear G cs b errs r n.
  assert (M : forall es s, (forall e, In e es -> actor e = k) ->
            evaluated_by s es = map (pair k) (evaluated s es)).
  { clear es A. induction es as [|e es IH]; intros s A; [reflexivity|].
    unfold Runtime_spec.evaluated_by, Runtime_spec.evaluated. simpl. rewrite map_app. f_equal.
    - unfold see_evaluation_by, see_evaluation, at_pc. assert (X := A e (or_introl eq_refl)).
      destruct e as [k' x|k' x|k' x]; simpl in X; subst k'; auto.
      destruct (w_pc (s_work s k)); reflexivity.
    - apply IH. intros. apply A. right. auto. }
  intros s N. rewrite M in N by auto. clear M A. induction (evaluated s es) as [|i l IH]; [constructor|].
  inversion N; subst. constructor; [|auto]. intro I. apply H1. apply in_map. exact I.
Qed.
Example single_worker_evaluates_once_example :
  w_evals w_conf (w_start []) (steps 30 0 x31) = [0; 1; 2].
Proof. vm_compute. reflexivity. Qed.

(** C05 *)
Theorem first_claim_wins : forall cs b errs (r : R) n es0,
  good_cells cs n ->
  let s := run (start cs b errs r n) es0 in
  forall k i h c x,
  w_pc (s_work s k) = PClaim i -> w_cache (s_work s k) i = Some h ->
  nth_error (cells s) i = Some c -> h_ver h = c_ver c ->
  (* the first to claim gets it and is named in the stored trial *)
  w_pc (s_work (step s k x) k) = PEval i /\
  (exists t, trial_at (step s k x) i = Some t /\ t_state t = EVALUATING /\
             m_evaluating_worker_id (t_meta t) = Some (wname k)) /\
  (* every other one that fetched the same version is rejected, whenever it tries *)
  (forall k' h' es x', k' <> k -> w_pc (s_work s k') = PClaim i ->
     w_cache (s_work s k') i = Some h' -> h_ver h' = h_ver h ->
     (forall e, In e es -> actor e <> k') ->
     let s2 := run (step s k x) es in
     cells (step s2 k' x') = cells s2 /\ w_pc (s_work (step s2 k' x') k') <> PEval i).
Proof.
  intros cs b errs r n es0 G s k i h c x P H C V.
  assert (VS : versions_ok s) by (apply run_versions; now apply (start_versions tid wname conf ask)).
  destruct (claim_wins pyfloat tid wname conf ask s k i h c x P H C V) as [A B].
  split; [exact A|]. split.
  - exists (set_evaluating (h_trial h) (in_time x) (wname k)). unfold trial_at. rewrite B. auto.
  - intros k' h' es x' N P' H' _ AC.
    exact (claim_exclusive pyfloat tid wname conf ask s k k' i h h' c x es x' VS N P H C V P' H' AC).
Qed.

Example first_claim_wins_example :
  let s := w_run w_conf (w_start []) (sampled ++ steps 5 0 x31 ++ steps 5 1 x31) in
  w_pc (s_work s 0) = PClaim 0 /\ w_pc (s_work s 1) = PClaim 0 /\ w_pc (s_work s 2) = PClaim 0 /\
  map (fun k => option_map h_ver (w_cache (s_work s k) 0)) [0; 1; 2] = [Some 1; Some 1; Some 1] /\
  map c_ver (cells s) = [1].
Proof. vm_compute. repeat split; try discriminate; reflexivity. Qed.

(** C06.  Full statement: a rejected worker goes on ([PStart]) unless this was the 10th
    rejection in a row.  Refuted below for workers that never had an attempt accepted;
    here is what happens in all cases. *)
Theorem rejected_claim_partial : forall cs b errs (r : R) n es k i x,
  good_cells cs n ->
  let s := run (start cs b errs r n) es in
  let before := attempts k [] (start cs b errs r n) es in
  w_pc (s_work s k) = PClaim i -> w_pc (s_work (step s k x) k) <> PEval i ->
  w_pc (s_work (step s k x) k) =
    if existsb (fun a => a) before
    then if Z.ltb (rejected_in_a_row before + 1) 10 then PStart
         else PRaised WorkerFailedToGetPendingTrialsError
    else PRaised UnboundLocalError.
Proof.
  intros cs b errs r n es k i x G s before P NP.
  assert (HH : has_handle s) by (apply run_has_handle; apply start_has_handle).
  assert (VS : versions_ok s) by (apply run_versions; now apply (start_versions tid wname conf ask)).
  assert (C : w_nset (s_work s k) = counter_of before)
    by (apply counter_run; [apply start_has_handle|reflexivity]).
  destruct (w_cache (s_work s k) i) as [h|] eqn:H; [|exfalso; apply (HH k i); auto].
  assert (L : i < List.length (cells s)) by (apply (proj2 VS k i h H)).
  destruct (nth_error (cells s) i) as [c|] eqn:N; [|apply nth_error_None in N; lia].
  destruct (Nat.eq_dec (h_ver h) (c_ver c)) as [V|V].
  - destruct (claim_wins pyfloat tid wname conf ask s k i h c x P H N V) as [A _]. contradiction.
  - destruct (claim_loses pyfloat tid wname conf ask s k i h c x P H N V) as [_ A]. rewrite A, C.
    unfold counter_of. destruct (existsb (fun b0 => b0) before); auto.
    unfold N_FAILED_SET. rewrite Z.geb_leb, Z.leb_antisym. destruct (Z.ltb _ 10); reflexivity.
Qed.

Example rejected_claim_example :
  (* worker 0 evaluated config_0, then worker 1 is faster in claiming config_1 *)
  let es := steps 8 0 x31 ++ steps 5 1 x31 ++ steps 6 0 x31 ++ steps 1 1 x31 in
  let s := w_run w_conf (w_start []) es in
  w_pc (s_work s 0) = PClaim 1 /\
  Runtime_spec.attempts w_float w_tid w_name w_conf w_ask 0 [] (w_start []) es = [true] /\
  w_pc (s_work (Runtime_model.step w_float w_tid w_name w_conf w_ask s 0 x31) 0) = PStart.
Proof. vm_compute. repeat split; try discriminate; reflexivity. Qed.

(** C07.  Full statement: the same without [no_late_refetch]; refuted below. *)
Theorem reported_is_final_partial : forall cs b errs (r : R) n es es' i t,
  good_cells cs n -> no_late_refetch (start cs b errs r n) (es ++ es') ->
  trial_at (run (start cs b errs r n) es) i = Some t -> t_report t <> None ->
  final (t_state t) /\ trial_at (run (start cs b errs r n) (es ++ es')) i = Some t.
Proof.
  intros cs b errs r n es es' i t G N T RP.
  assert (N' : forall es s, no_late_refetch s (es ++ es') -> no_late_refetch s es /\ no_late_refetch (run s es) es').
  { induction es0 as [|e es0 IH]; simpl; intros s X; [auto|].
    destruct X as [X1 X2]. apply IH in X2. tauto. }
  destruct (N' es _ N) as [N1 N2].
  assert (J := once_run pyfloat tid wname conf ask es _ [] (once_start tid wname conf ask cs b errs r n G) N1).
  unfold trial_at in *. destruct (nth_error (cells (run (start cs b errs r n) es)) i) as [c|] eqn:C; [|discriminate].
  injection T as <-. split.
  - eapply (o_final _ _ J); eauto.
  - rewrite run_app. erewrite reported_run; eauto. reflexivity.
Qed.

Example reported_is_final_example :
  let es := sampled ++ steps 9 0 x31 in
  Runtime_spec.no_late_refetch w_float w_tid w_name w_conf w_ask (w_start []) (es ++ steps 9 1 x31) /\
  option_map t_state (trial_at (w_run w_conf (w_start []) es) 0) = Some SUCCESS.
Proof. vm_compute. repeat split; try (intros c H; inversion H; reflexivity). Qed.

(** C07: and a finished evaluation's report is never rejected.  Full statement: for all
    schedules; refuted below. *)
Theorem report_never_rejected_partial : forall cs b errs (r : R) n es k i rp x,
  good_cells cs n -> no_late_refetch (start cs b errs r n) es ->
  let s := run (start cs b errs r n) es in
  w_pc (s_work s k) = PReport i rp ->
  w_pc (s_work (step s k x) k) = PAccount i rp /\
  exists t, trial_at (step s k x) i = Some t /\ t_report t = Some rp /\
            t_state t = state_of_reported (r_reported_as rp).
Proof.
  intros cs b errs r n es k i rp x G N s P.
  assert (J := once_run pyfloat tid wname conf ask es _ [] (once_start tid wname conf ask cs b errs r n G) N).
  fold s in J. split; [eapply report_accepted; eauto|].
  destruct (o_busy _ _ J k i) as (h & c & X1 & X2 & X3 & _); [right; eauto|].
  exists (attach_report (h_trial h) rp). unfold trial_at, Runtime_model.step. rewrite P.
  unfold report_step. rewrite X1. unfold put_trial. rewrite X1, X2, X3, Nat.eqb_refl. simpl.
  rewrite nth_error_set_nth_eq by (eapply nth_error_lt; eauto). split; auto. split; auto.
  apply (o_rep _ _ J _ _ _ _ P X1).
Qed.

Example report_never_rejected_example :
  let es := sampled ++ steps 7 0 x31 in
  Runtime_spec.no_late_refetch w_float w_tid w_name w_conf w_ask (w_start []) es /\
  exists rp, w_pc (s_work (w_run w_conf (w_start []) es) 0) = PReport 0 rp.
Proof. split; [vm_compute; repeat split; try (intros c H; inversion H; reflexivity)|]. eexists. vm_compute. reflexivity. Qed.

(** C08 *)
Theorem used_cost_is_sum_of_charged : forall cs b errs (r : R) n es,
  s_budget (run (start cs b errs r n) es) =
    match b with
    | None => None
    | Some b0 => Some (mkBudget (b_max_cost b0)
                        (fold_left fl_add (costs (start cs b errs r n) es) (b_used_cost b0))
                        (b_max_evals b0) (b_used_evals b0))
    end.
Proof.
  intros. rewrite (budget_run pyfloat tid wname conf ask es). unfold charge_all. simpl.
  destruct b; reflexivity.
Qed.

Example used_cost_example :
  let es := steps 7 0 x31 ++ steps 8 1 fails ++ steps 2 0 x31 ++ steps 3 1 fails in
  Runtime_spec.costs w_float w_tid w_name w_conf w_ask (w_start []) es = [FZ 1; FZ 5] /\
  option_map b_used_cost (s_budget (w_run w_conf (w_start []) es)) = Some (FZ 6).
Proof. split; reflexivity. Qed.

(** C08: every stored report is charged exactly once, unless its worker is killed or
    has not come to it yet. *)
Theorem stored_reports_are_charged_once : forall cs b errs (r : R) n es k,
  undisturbed k es ->
  stored_reports k (start cs b errs r n) es =
  charged_reports k (start cs b errs r n) es ++
  match w_pc (s_work (run (start cs b errs r n) es) k) with PAccount _ rp => [rp] | _ => [] end.
Proof. intros. exact (stored_run pyfloat tid wname conf ask es (start cs b errs r n) k H). Qed.

Example stored_reports_example :
  let es := steps 16 0 x31 in
  undisturbed 0 es /\
  List.length (Runtime_spec.stored_reports w_float w_tid w_name w_conf w_ask 0 (w_start []) es) = 2 /\
  List.length (Runtime_spec.charged_reports w_float w_tid w_name w_conf w_ask 0 (w_start []) es) = 1.
Proof. split; [vm_compute; intros e H; intuition (subst; auto)|vm_compute; split; reflexivity]. Qed.

(** C09 *)
Theorem error_log_is_complete : forall cs b errs (r : R) n es,
  s_errs (run (start cs b errs r n) es) = errs ++ error_entries (start cs b errs r n) es.
Proof. intros. exact (errs_run pyfloat tid wname conf ask es (start cs b errs r n)). Qed.

Example error_log_example :
  let es := steps 8 0 fails ++ steps 8 1 fails ++ steps 3 1 fails ++ steps 2 0 fails in
  map (fun e => (e_trial e, e_worker e, e_text e)) (s_errs (w_run w_conf (w_start []) es)) =
  [("config_1", "worker_1", "boom"); ("config_0", "worker_0", "boom")]%string.
Proof. vm_compute. reflexivity. Qed.

(** C09: every stored report with an error is logged exactly once, the others are not,
    unless its worker is killed or has not come to it yet. *)
Theorem stored_errors_are_logged_once : forall cs b errs (r : R) n es k,
  undisturbed k es ->
  filter (fun rp => match r_err rp with Some _ => true | None => false end)
    (stored_reports k (start cs b errs r n) es) =
  dumped_reports k (start cs b errs r n) es ++
  match w_pc (s_work (run (start cs b errs r n) es) k) with
  | PAccount _ rp => match r_err rp with Some _ => [rp] | None => [] end
  | PErrDump _ rp => [rp]
  | _ => []
  end.
Proof.
  intros. assert (D := dumped_run pyfloat tid wname conf ask es (start cs b errs r n) k H).
  simpl in D. unfold has_err in D. etransitivity; [exact D|].
  unfold err_in_flight, dumped_reports. f_equal.
  destruct (w_pc _); auto. unfold has_err. destruct (r_err r0); auto.
Qed.

Example stored_errors_example :
  let es := steps 10 0 fails ++ steps 30 0 x31 in
  undisturbed 0 es /\
  List.length (Runtime_spec.stored_reports w_float w_tid w_name w_conf w_ask 0 (w_start []) es) = 4 /\
  List.length (Runtime_spec.dumped_reports w_float w_tid w_name w_conf w_ask 0 (w_start []) es) = 1.
Proof. split; [vm_compute; intros e H; intuition (subst; auto)|vm_compute; split; reflexivity]. Qed.

(** C12 *)
Theorem overshoot_of_total_evaluations : forall W n cs b errs (r : R) m es,
  good_cells cs m -> 0 < W ->
  (forall k, k < W -> max_evaluations_total (conf k) = Some n) ->
  (forall e, In e es -> actor e < W) ->
  (Z.of_nat (reported_count (run (start cs b errs r m) es)) <=
   Z.max (Z.of_nat (reported_count (start cs b errs r m))) (n + Z.of_nat W - 1))%Z.
Proof. intros. apply overshoot; auto. Qed.

(** the bound is attained: two workers, limit 1, 2 = 1 + 2 - 1 evaluations *)
Example overshoot_attained_example :
  let conf := fun _ : nat => w_total IGNORE 1 in
  let es := steps 2 0 x31 ++ steps 2 1 x31 ++ steps 9 0 x31 ++ steps 10 1 x31 ++ steps 20 0 x31 ++ steps 20 1 x31 in
  let s := w_run conf (w_start []) es in
  reported_count s = 2 /\ w_pc (s_work s 0) = PStopped /\ w_pc (s_work s 1) = PStopped.
Proof. vm_compute. repeat split; try discriminate; reflexivity. Qed.

(** C16 (concurrent part): configuration, id, sampling time and sampling worker of a
    stored trial never change. *)
Theorem trial_identity_never_changes : forall cs b errs (r : R) n es es' i t,
  good_cells cs n ->
  trial_at (run (start cs b errs r n) es) i = Some t ->
  exists t', trial_at (run (start cs b errs r n) (es ++ es')) i = Some t' /\
    t_config t' = t_config t /\ t_id t' = t_id t /\
    m_time_sampled (t_meta t') = m_time_sampled (t_meta t) /\
    m_sampling_worker_id (t_meta t') = m_sampling_worker_id (t_meta t).
Proof.
  intros cs b errs r n es es' i t G T. rewrite run_app. revert T.
  assert (I : versions_ok (run (start cs b errs r n) es) /\ same_ident (run (start cs b errs r n) es)).
  { apply (run_ind pyfloat tid wname conf ask (fun s => versions_ok s /\ same_ident s)).
    - intros s e s' [A B] E. split; [eapply versions_ok_effect; eauto|].
      apply (same_ident_effect pyfloat tid wname conf ask s e s'); auto.
    - split; [apply (start_versions tid wname conf ask); auto|apply start_ident]. }
  revert I. revert t. generalize (run (start cs b errs r n) es). clear es.
  induction es' as [|e es' IH]; intros s t [V SI] T.
  - exists t. auto.
  - assert (E := event_effect pyfloat tid wname conf ask s e).
    unfold trial_at in *. destruct (nth_error (cells s) i) as [c|] eqn:C; [|discriminate].
    injection T as <-.
    destruct (ident_cells pyfloat tid wname conf ask s e _ i c SI E C) as (c' & C' & Q).
    destruct (IH (do_event pyfloat tid wname conf ask s e) (c_trial c')) as (t' & T' & Q').
    + split; [eapply versions_ok_effect; eauto|].
      apply (same_ident_effect pyfloat tid wname conf ask s e _); auto.
    + rewrite C'. reflexivity.
    + exists t'. split; [exact T'|]. unfold ident in Q. unfold t_id in *. injection Q as Q1 Q2 Q3 Q4.
      intuition congruence.
Qed.

Example trial_identity_example :
  let s := w_run w_conf (w_start []) (sampled ++ steps 9 0 x31 ++ steps 9 1 x31) in
  map (fun c => (t_config (c_trial c), t_id (c_trial c), m_sampling_worker_id (t_meta (c_trial c)),
                 t_state (c_trial c))) (cells s) =
  [([("x", VInt 0)], "config_0", "worker_2", SUCCESS);
   ([("x", VInt 1)], "config_1", "worker_1", SUCCESS)]%string.
Proof. vm_compute. reflexivity. Qed.

End Props.

(** C15: two runs of different workers, with different settings, schedules, evaluation
    results and private random states, that started from the same configurations and
    the same stored random state, sampled the same configurations (as far as both got). *)
Theorem sampling_is_reproducible :
  forall (R : Type) (ask : R -> list trial -> res (dict * R)),
  (forall r ts ts', List.length ts = List.length ts' -> ask r ts = ask r ts') ->
  forall (r : R)
    pyfloat1 tid1 wname1 conf1 cs1 b1 errs1 n1 es1
    pyfloat2 tid2 wname2 conf2 cs2 b2 errs2 n2 es2,
  good_cells cs1 n1 -> good_cells cs2 n2 ->
  map (fun c => t_config (c_trial c)) cs1 = map (fun c => t_config (c_trial c)) cs2 ->
  (forall k x, ~ In (KilledSampling k x) es1 /\ ~ In (KilledSampling k x) es2) ->
  let s1 := run pyfloat1 tid1 wname1 conf1 ask (start cs1 b1 errs1 r n1) es1 in
  let s2 := run pyfloat2 tid2 wname2 conf2 ask (start cs2 b2 errs2 r n2) es2 in
  List.length (cells s1) = List.length (cells s2) ->
  configs s1 = configs s2 /\ s_rng s1 = s_rng s2.
Proof.
  intros R ask A r pf1 td1 wn1 cf1 cs1 b1 e1 n1 es1 pf2 td2 wn2 cf2 cs2 b2 e2 n2 es2 G1 G2 EQ K s1 s2 L.
  set (f := fun r n => ask r (repeat (trial_new "" [] "" None None FNaN "") n)).
  assert (AF : forall r ts, ask r ts = f r (List.length ts)).
  { intros. unfold f. apply A. now rewrite repeat_length. }
  assert (KK : forall es, (forall k x, ~ In (KilledSampling k x) es) ->
               forallb (fun e => negb (@is_kill R e)) es = true).
  { intros es H. apply forallb_forall. intros e I. destruct e as [k x|k x|k b]; auto.
    exfalso. eapply H; eauto. }
  assert (LN : List.length cs1 = List.length cs2).
  { apply (f_equal (@List.length _)) in EQ. now rewrite !map_length in EQ. }
  destruct (gen_run pf1 td1 wn1 cf1 ask f es1 (start cs1 b1 e1 r n1) (List.length cs1) r
              (map (fun c => t_config (c_trial c)) cs1) 0) as (m1 & C1 & M1 & R1); auto;
    try (now apply (start_versions td1 wn1 cf1 ask)); try apply start_ident.
  { apply KK. intros k x. apply (K k x). }
  { apply map_length. }
  { unfold configs. simpl. now rewrite app_nil_r. }
  destruct (gen_run pf2 td2 wn2 cf2 ask f es2 (start cs2 b2 e2 r n2) (List.length cs1) r
              (map (fun c => t_config (c_trial c)) cs1) 0) as (m2 & C2 & M2 & R2); auto;
    try (now apply (start_versions td2 wn2 cf2 ask)); try apply start_ident.
  { apply KK. intros k x. apply (K k x). }
  { apply map_length. }
  { unfold configs. simpl. now rewrite app_nil_r. }
  fold s1 in C1, R1. fold s2 in C2, R2.
  assert (m1 = m2).
  { unfold configs in C1, C2. apply (f_equal (@List.length _)) in C1. apply (f_equal (@List.length _)) in C2.
    rewrite map_length, app_length in C1, C2. lia. }
  subst m2. split; congruence.
Qed.

Example sampling_is_reproducible_example :
  let s1 := w_run w_conf (w_start []) (steps 25 0 x31) in
  let s2 := w_run (fun _ => w_total RAISE_ANY_ERROR 5) (w_start [])
              (steps 6 3 x31 ++ steps 2 1 fails ++ steps 1 3 fails ++ steps 15 4 x31 ++ steps 15 1 x31) in
  List.length (cells s1) = 3 /\ map c_ver (cells s1) <> map c_ver (cells s2) /\ configs s1 = configs s2.
Proof. vm_compute. repeat split; try discriminate; reflexivity. Qed.

(** * Counterexamples, all from an empty result directory *)

(** C04: workers 0 and 1 list config_0 as pending, worker 1 evaluates and reports it,
    then worker 0 reads it again, claims it successfully and evaluates it again. *)
Theorem evaluated_at_most_once_refuted :
  exists es : list (event nat),
  ~ NoDup (evaluated w_float w_tid w_name w_conf w_ask (start [] None [] 0 0) es).
Proof.
  exists (sampled ++ steps 4 0 x31 ++ steps 8 1 x31 ++ steps 3 0 x31).
  replace (evaluated _ _ _ _ _ _ _) with [0; 0] by (vm_compute; reflexivity).
  intro N. inversion N; subst. apply H1. left. reflexivity.
Qed.

(** C06: workers 0 and 1 try to claim config_0, the second to do so has had no attempt
    before and dies with an UnboundLocalError. *)
Theorem rejected_claim_refuted :
  exists (es : list (event nat)) k i x,
  let s := run w_float w_tid w_name w_conf w_ask (start [] None [] 0 0) es in
  attempts w_float w_tid w_name w_conf w_ask k [] (start [] None [] 0 0) es = [] /\
  w_pc (s_work s k) = PClaim i /\
  w_pc (s_work (step w_float w_tid w_name w_conf w_ask s k x) k) = PRaised UnboundLocalError.
Proof.
  exists (sampled ++ steps 5 0 x31 ++ steps 6 1 x31), 0, 0, x31.
  vm_compute. repeat split; reflexivity.
Qed.

(** C07: in the situation of C04 the successful trial becomes "evaluating" again. *)
Theorem reported_is_final_refuted :
  exists (es es' : list (event nat)) i t t',
  trial_at (run w_float w_tid w_name w_conf w_ask (start [] None [] 0 0) es) i = Some t /\
  t_report t <> None /\ t_state t = SUCCESS /\
  trial_at (run w_float w_tid w_name w_conf w_ask (start [] None [] 0 0) (es ++ es')) i = Some t' /\
  t_state t' = EVALUATING.
Proof.
  exists (sampled ++ steps 4 0 x31 ++ steps 8 1 x31), (steps 2 0 x31), 0.
  do 2 eexists. split; [vm_compute; reflexivity|]. split; [discriminate|]. split; [reflexivity|].
  split; [vm_compute; reflexivity|reflexivity].
Qed.

(** C07: and a worker whose trial was taken over in this way dies when it stores its
    report. *)
Theorem report_never_rejected_refuted :
  exists (es : list (event nat)) k i rp x,
  let s := run w_float w_tid w_name w_conf w_ask (start [] None [] 0 0) es in
  w_pc (s_work s k) = PReport i rp /\
  w_pc (s_work (step w_float w_tid w_name w_conf w_ask s k x) k) = PRaised VersionMismatchError.
Proof.
  exists (sampled ++ steps 4 0 x31 ++ steps 7 1 x31 ++ steps 2 0 x31), 1, 0. eexists. exists x31.
  split; vm_compute; reflexivity.
Qed.

(** C62: a worker killed between storing a sampled trial and storing the random state
    makes the next worker sample the same configuration again, also when the optimizer
    never repeats itself. *)
Theorem never_sampled_twice_refuted :
  exists (es : list (event nat)),
  (forall r r' c c' r1 r1' ts ts', w_ask r ts = Ok (c, r1) -> w_ask r' ts' = Ok (c', r1') ->
     r <> r' -> c <> c') /\
  ~ NoDup (configs (run w_float w_tid w_name w_conf w_ask (start [] None [] 0 0) es)).
Proof.
  exists (steps 3 0 x31 ++ [KilledSampling 0 x31] ++ steps 20 1 x31). split.
  - intros r r' c c' r1 r1' ts ts' A B N X. injection A as <- <-. injection B as <- <-.
    injection X as X. apply N. now apply Nat2Z.inj.
  - intro N. vm_compute in N. inversion N; subst. apply H1. left. reflexivity.
Qed.

Print Assumptions evaluated_at_most_once_partial.
Print Assumptions each_worker_evaluates_once.
Print Assumptions single_worker_evaluates_once.
Print Assumptions first_claim_wins.
Print Assumptions rejected_claim_partial.
Print Assumptions reported_is_final_partial.
Print Assumptions report_never_rejected_partial.
Print Assumptions used_cost_is_sum_of_charged.
Print Assumptions stored_reports_are_charged_once.
Print Assumptions error_log_is_complete.
Print Assumptions stored_errors_are_logged_once.
Print Assumptions overshoot_of_total_evaluations.
Print Assumptions trial_identity_never_changes.
Print Assumptions sampling_is_reproducible.
Print Assumptions evaluated_at_most_once_refuted.
Print Assumptions rejected_claim_refuted.
Print Assumptions reported_is_final_refuted.
Print Assumptions report_never_rejected_refuted.
Print Assumptions never_sampled_twice_refuted.
