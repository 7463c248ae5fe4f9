(** When workers stop: limits, cost overshoot, errors (C10, C11, C13, C14, C25). *)
From Verif Require Import Py Trial_model Eval_model Eval_proofs Init_model Runtime_model Runtime_spec
  Runtime_world Runtime_proofs Claim_proofs Once_proofs Each_proofs Share_proofs Solo_proofs
  Limit_spec Limit_proofs Cost_proofs Error_proofs.

(** C10.  A worker goes on exactly when nothing stops it; it raises only for errors and
    only in the raising modes. *)
Theorem stopping_decision : forall st err count cost time elapsed errs ts,
  let oe := own_error st err in
  let ol := own_limit st count cost time elapsed in
  let se := shared_error st errs in
  let tl := total_limit st ts in
  match check_if_should_stop st err count cost time elapsed errs ts with
  | VGo => ~ oe /\ ~ ol /\ ~ se /\ ~ tl
  | VRaise e => e = WorkerRaiseError /\
      (oe /\ (on_error st = RAISE_WORKER_ERROR \/ on_error st = RAISE_ANY_ERROR) \/
       ~ oe /\ ~ ol /\ se /\ on_error st = RAISE_ANY_ERROR)
  | VStop => oe /\ (on_error st = STOP_WORKER_ERROR \/ on_error st = STOP_ANY_ERROR) \/
       ~ oe /\ (ol \/ se /\ on_error st = STOP_ANY_ERROR \/ ~ se /\ tl)
  end.
Proof. exact check_spec. Qed.

(** A limit of 3 evaluations, reached with three, not reached with two. *)
Example stopping_decision_example :
  let st := mkSettings STOP_WORKER_ERROR w_drv None false (Some (FZ 10)) None (Some 3%Z) None None None in
  check_if_should_stop st None 3 (FZ 0) (FZ 0) (FZ 0) [] [] = VStop /\
  check_if_should_stop st None 2 (FZ 0) (FZ 0) (FZ 0) [] [] = VGo /\
  check_if_should_stop st (Some "boom"%string) 2 (FZ 0) (FZ 0) (FZ 0) [] [] = VStop.
Proof. vm_compute. auto. Qed.

(** the number of evaluations is determined by the trials *)
Theorem evaluations_counted : forall b ts, exists n, evaluations b ts n /\
  forall m, evaluations b ts m -> m = n.
Proof.
  intros b ts. exists (count_trials b ts). split; [apply evaluations_spec; auto|].
  intros m H. apply evaluations_spec in H. auto.
Qed.
Example evaluations_counted_example :
  evaluations true [set_evaluating (trial_new "config_0" [] "" None None (FZ 1) "w") (FZ 2) "w";
                    trial_new "config_1" [] "" None None (FZ 1) "w"] 1.
Proof. apply evaluations_spec. reflexivity. Qed.

Section Props.
Context {R : Type}.
Variable pyfloat : pyval -> res fl.
Variable tid wname : nat -> string.
Variable conf : nat -> worker_settings.
Variable ask : R -> list trial -> res (dict * R).
Notation step := (step pyfloat tid wname conf ask).
Notation run := (run pyfloat tid wname conf ask).
Notation evaluated := (evaluated pyfloat tid wname conf ask).
Notation evaluated_by := (evaluated_by pyfloat tid wname conf ask).
Notation reported_trials := (reported_trials pyfloat tid wname conf ask).

Lemma reach_inv : forall cs b errs (r : R) n es, good_cells cs n -> inv (run (start cs b errs r n) es).
Proof.
  intros cs b errs r n es G. apply run_ind; [|apply start_inv; auto].
  intros s0 e s1 [A B] E. split; [eapply versions_ok_effect|eapply fresh_effect]; eauto.
Qed.

Lemma readable_ok : forall (conf : nat -> worker_settings) k (xi : nat -> input R),
  (forall j, readable pyfloat (drv (conf k)) (in_out (xi j))) ->
  forall j t, exists t' r, evaluate_trial pyfloat t (in_out (xi j)) (in_tb (xi j)) (drv (conf k))
     (in_duration (xi j)) (in_time (xi j)) = Ok (t', r).
Proof.
  intros cf k xi H j t. specialize (H j). unfold readable in H. unfold evaluate_trial.
  destruct (in_out (xi j)) as [v|m].
  - destruct H as ([[[l c] x] e] & H). rewrite H. simpl. destruct (set_complete _ _ _ _ _ _ _ _ _ _). eauto.
  - destruct (set_complete _ _ _ _ _ _ _ _ _ _). eauto.
Qed.

(** C10, C25: a worker that is alone, at the top of its loop in any reachable state,
    decides by the stored trials and errors; it ends in the decided way without an
    evaluation, or makes exactly one, whose trial then has a report and a final status,
    and is back at the top of the loop. *)
Theorem every_evaluation_reported_partial : forall cs b errs (r : R) n es k xi,
  good_cells cs n ->
  (forall r ts, exists c r', ask r ts = Ok (c, r')) ->
  (forall j, readable pyfloat (drv (conf k)) (in_out (xi j))) ->
  let s := run (start cs b errs r n) es in
  let w := s_work s k in
  w_pc w = PStart -> w_global w = false ->
  exists m, let s' := run s (alone k xi m) in
    match check_if_should_stop (conf k) (w_err w) (w_count w) (w_cost w) (w_time w)
            (in_elapsed (xi 0)) (s_errs s) (map c_trial (cells s)) with
    | VStop => evaluated s (alone k xi m) = [] /\ w_pc (s_work s' k) = PStopped
    | VRaise e => evaluated s (alone k xi m) = [] /\ w_pc (s_work s' k) = PRaised e
    | VGo => exists i t rep, evaluated s (alone k xi m) = [i] /\
        trial_at s' i = Some t /\ t_report t = Some rep /\
        (t_state t = SUCCESS /\ r_reported_as rep = RSuccess \/
         t_state t = CRASHED /\ r_reported_as rep = RCrashed) /\
        w_pc (s_work s' k) = PStart /\ w_global (s_work s' k) = false /\
        w_count (s_work s' k) = (w_count w + 1)%Z
    end.
Proof.
  intros cs b errs r n es k xi G AO RD s w P W.
  assert (I : inv s) by (apply reach_inv; auto).
  destruct (iteration_solo pyfloat tid wname conf ask k xi s 0 I AO (readable_ok conf k xi RD) P W) as (m & s' & H).
  exists m. unfold the_check, trials in H. fold w in H.
  destruct (check_if_should_stop _ _ _ _ _ _ _ _).
  - destruct H as ([X Y] & _ & Z). unfold evts in X. unfold alone. cbv zeta. rewrite X. auto.
  - destruct H as ([X Y] & _ & Z). unfold evts in X. unfold alone. cbv zeta. rewrite X. auto.
  - destruct H as (i & rep & [X Y] & (base & t0 & t & tm & x & x' & O & N & EV & _ & T & _ & _ & AE)).
    unfold evts in X. unfold alone. cbv zeta. rewrite X.
    exists i, (attach_report t rep), rep. split; [exact Y|].
    split.
    { unfold trial_at. unfold trials in T.
      rewrite <- nth_error_map, T. apply nth_error_set_nth_eq. apply nth_error_Some. congruence. }
    split; [reflexivity|]. assert (EV' := EV). apply evaluate_keeps_report in EV. destruct EV as (_ & ST & _).
    split.
    + simpl. rewrite ST. unfold evaluate_trial in EV'. destruct (in_out x) as [v|msg].
      * destruct (parse_user_result _ _ _ _) as [[[[? ?] ?] ?]|]; [|discriminate]. simpl in EV'.
        injection EV' as _ <-. left. auto.
      * injection EV' as _ <-. right. auto.
    + destruct AE as (A1 & A2 & _ & _ & _ & A6). auto.
Qed.

(** C11.  A single worker with only a total limit makes exactly the missing
    evaluations, and then stops for good. *)
Theorem single_worker_total : forall n n0 cs b errs (r : R) nv k xi d in_progress,
  good_cells cs nv ->
  conf k = mkSettings IGNORE d (Some n) in_progress None None None None None None ->
  (forall r ts, exists c r', ask r ts = Ok (c, r')) ->
  (forall j, readable pyfloat d (in_out (xi j))) ->
  evaluations in_progress (map c_trial cs) n0 ->
  let s := start cs b errs r nv in
  exists m, forall m', m <= m' ->
    w_pc (s_work (run s (alone k xi m')) k) = PStopped /\
    Z.of_nat (List.length (evaluated s (alone k xi m'))) = Z.max 0 (n - n0).
Proof.
  intros n n0 cs b errs r nv k xi d fl0 G CF AO RD EV s.
  destruct (total_evaluations pyfloat tid wname conf ask k xi AO) with
    (n0 := n0) (n := n) (cs := cs) (b := b) (errs := errs) (r := r) (nv := nv) as (m & H); auto.
  - apply readable_ok. rewrite CF. auto.
  - eauto.
  - rewrite CF. apply evaluations_spec in EV. auto.
  - exists m. intros m' L. destruct (H m' L) as [X Y]. split; [exact X|].
    unfold alone, s. unfold evts in Y. rewrite Y. lia.
Qed.

(** C11.  With a limit per worker it makes exactly that many, whatever is stored. *)
Theorem single_worker_own : forall n cs b errs (r : R) nv k xi d in_progress,
  good_cells cs nv ->
  conf k = mkSettings IGNORE d None in_progress None None (Some n) None None None ->
  (forall r ts, exists c r', ask r ts = Ok (c, r')) ->
  (forall j, readable pyfloat d (in_out (xi j))) ->
  let s := start cs b errs r nv in
  exists m, forall m', m <= m' ->
    w_pc (s_work (run s (alone k xi m')) k) = PStopped /\
    Z.of_nat (List.length (evaluated s (alone k xi m'))) = Z.max 0 n.
Proof.
  intros n cs b errs r nv k xi d fl0 G CF AO RD s.
  destruct (worker_evaluations pyfloat tid wname conf ask k xi AO) with
    (n := n) (cs := cs) (b := b) (errs := errs) (r := r) (nv := nv) as (m & H); auto.
  - apply readable_ok. rewrite CF. auto.
  - eauto.
  - exists m. intros m' L. destruct (H m' L) as [X Y]. split; [exact X|].
    unfold alone, s. unfold evts in Y. rewrite Y. lia.
Qed.

(** C13.  Single worker with a total cost limit: at any moment, without the trial whose
    report was stored last, the stored costs are below the limit (whatever was stored
    before the run, if anything was evaluated at all). *)
Theorem cost_overshoot : forall cs b errs (r : R) nv k c es l i,
  good_cells cs nv -> max_cost_total (conf k) = Some c ->
  (forall e, In e es -> actor e = k) ->
  let s := start cs b errs r nv in
  let s' := run s es in
  reported_trials s es = l ++ [i] ->
  exists t, trial_at s' i = Some t /\
    total r_cost (map c_trial (cells s')) = fl_add (total r_cost [t]) (total r_cost (all_but s' i)) /\
    ~ fl_le c (total r_cost (all_but s' i)) /\
    (c <> FNaN -> total r_cost (all_but s' i) <> FNaN -> fl_lt (total r_cost (all_but s' i)) c).
Proof.
  intros cs b errs r nv k c es l i G LIM A s s' RT.
  assert (J := cost_run pyfloat tid wname conf ask k c LIM es s [] A (cost_start tid k c cs b errs r nv G)).
  simpl in J. fold s' in J. destruct (k_last _ _ _ _ J i l RT) as [L F].
  unfold trial_at. destruct (nth_error (cells s') i) as [cc|] eqn:N; [|apply nth_error_None in N; lia].
  exists (c_trial cc). split; [reflexivity|]. split.
  - unfold all_but. rewrite <- total_app. apply total_perm.
    rewrite <- (firstn_skipn i (cells s')) at 1. rewrite map_app.
    replace (skipn i (cells s')) with (cc :: skipn (S i) (cells s')).
    + simpl. symmetry. apply Permutation.Permutation_middle.
    + clear - N. revert i N. induction (cells s') as [|x l IH]; intros [|i] N; simpl in *; try discriminate.
      * injection N as ->. auto.
      * apply IH. auto.
  - assert (NL : ~ fl_le c (total r_cost (all_but s' i))).
    { intro X. apply fl_geb_le in X. congruence. }
    split; auto. intros C1 C2. split; auto.
    destruct c as [| | |z]; destruct (total r_cost (all_but s' i)) as [| | |z']; try congruence;
      try (constructor; discriminate); try (exfalso; apply NL; constructor; discriminate).
    constructor. destruct (Z_le_gt_dec z' z); auto. exfalso. apply NL. constructor. lia.
Qed.

(** C14.  A raising function gives a crashed trial with the configured default values. *)
Theorem crash_is_recorded : forall s k x i h e,
  w_pc (s_work s k) = PEval i -> w_cache (s_work s k) i = Some h -> w_global (s_work s k) = false ->
  in_out x = FnRaises e ->
  exists rep, w_pc (s_work (step s k x) k) = PReport i rep /\ r_reported_as rep = RCrashed /\
    r_loss rep = loss_value_on_error (drv (conf k)) /\ r_cost rep = cost_value_on_error (drv (conf k)) /\
    r_learning_curve rep = learning_curve_on_error (drv (conf k)) /\ r_err rep = Some e.
Proof.
  intros s k x i h e P H W O. unfold Runtime_model.step. rewrite P. unfold eval_step. rewrite H, W, O. simpl.
  unfold upd. rewrite Nat.eqb_refl. simpl. eexists. split; [reflexivity|]. auto 10.
Qed.

(** C14.  With ignored errors, errors play no part in the decision to stop. *)
Theorem ignored_errors : forall st err err' count cost time elapsed errs errs' ts,
  on_error st = IGNORE ->
  check_if_should_stop st err count cost time elapsed errs ts =
  check_if_should_stop st err' count cost time elapsed errs' ts.
Proof.
  intros st err err' count cost time elapsed errs errs' ts E.
  unfold check_if_should_stop, check_local, check_errors. rewrite E. simpl.
  destruct err, err'; reflexivity.
Qed.

(** C14.  Otherwise a worker whose evaluation raised never evaluates again; unless the
    report could not be stored (C07) the error is on the shared log before the worker
    looks whether to go on, and then it raises (or stops, in the modes that say so). *)
Theorem own_error_ends_worker : forall cs b errs (r : R) n es es' k m,
  let s := run (start cs b errs r n) es in
  on_error (conf k) <> IGNORE ->
  w_err (s_work s k) = Some m -> (forall b, ~ In (Restart k b) es') ->
  (forall i, ~ In (k, i) (evaluated_by s es')) /\
  (w_pc (s_work s k) = PStart ->
     (exists x, In x (s_errs s) /\ e_worker x = wname k /\ e_text x = m) /\
     forall x, w_pc (s_work (step s k x) k) =
       if raising (on_error (conf k)) then PRaised WorkerRaiseError else PStopped).
Proof.
  intros cs b errs r n es es' k m s NI W NR.
  assert (J : err_inv wname conf s) by (apply err_inv_run; apply err_inv_start).
  split; [eapply no_more_evaluations; eauto|].
  intro P. split.
  - destruct (J k m NI W) as [(i & rr & _ & [X|[X|X]])|[[X _]|[X|X]]]; auto; congruence.
  - intro x. unfold Runtime_model.step. rewrite P, W, own_error_check by auto.
    destruct (raising _); simpl; unfold upd; rewrite Nat.eqb_refl; reflexivity.
Qed.

(** C14.  In RAISE_ANY_ERROR mode every other worker raises at its next check once an
    error is on the shared log, unless one of its own limits lets it stop. *)
Theorem any_error_ends_others : forall s k x1 x2 es,
  on_error (conf k) = RAISE_ANY_ERROR -> s_errs s <> [] -> w_pc (s_work s k) = PStart ->
  (forall e, In e es -> actor e <> k) ->
  let w := s_work s k in
  let s1 := step s k x1 in
  let s2 := step (run s1 es) k x2 in
  w_pc (s_work s1 k) = PRaised WorkerRaiseError \/
  w_pc (s_work s1 k) = PStopped /\
    own_limit (conf k) (w_count w) (w_cost w) (w_time w) (in_elapsed x1) \/
  w_pc (s_work s1 k) = PErrs /\ w_pc (s_work s2 k) = PRaised WorkerRaiseError.
Proof. exact (others_raise pyfloat tid wname conf ask). Qed.

End Props.

(** * Examples *)

Lemma w_ask_total : forall r ts, exists c r', w_ask r ts = Ok (c, r').
Proof. intros. eexists _, _. reflexivity. Qed.

Example every_evaluation_reported_example :
  let s := w_run w_conf (w_start []) (alone 0 (fun _ => fails) 9) in
  w_pc (s_work s 0) = PStart /\
  w_evals w_conf (w_start []) (alone 0 (fun _ => fails) 9) = [0] /\
  option_map t_state (trial_at s 0) = Some CRASHED.
Proof. vm_compute. auto. Qed.

(** two evaluations are missing to four, one of the stored trials is reported *)
Definition w_xi (j : nat) : input nat :=
  if Nat.even j then gives (loss_and_cost 3 4) else fails.
Definition two_stored : list cell := Eval vm_compute in
  cells (w_run w_conf (w_start []) (alone 0 (fun _ => fails) 9 ++ alone 0 w_xi 5)).
Example single_worker_total_example :
  good_cells two_stored 9 /\ evaluations false (map c_trial two_stored) 1 /\
  (forall j, readable w_float w_drv (in_out (w_xi j))) /\
  let s := start two_stored None [] 5 9 in
  w_pc (s_work (w_run (fun _ => w_total IGNORE 3) s (alone 0 w_xi 40)) 0) = PStopped /\
  w_evals (fun _ => w_total IGNORE 3) s (alone 0 w_xi 40) = [1; 2].
Proof.
  split.
  { intros c H. vm_compute in H.
    destruct H as [<-|[<-|[]]]; (split; cbn; [lia|intro; unfold final; auto; congruence]). }
  split; [apply evaluations_spec; reflexivity|].
  split; [intro j; unfold w_xi; destruct (Nat.even j); cbn; eauto|].
  vm_compute. auto.
Qed.
Example single_worker_own_example :
  let conf (_ : nat) := mkSettings IGNORE w_drv None false None None (Some 2%Z) None None None in
  let s := start two_stored None [] 5 9 in
  w_pc (s_work (w_run conf s (alone 0 w_xi 40)) 0) = PStopped /\
  List.length (w_evals conf s (alone 0 w_xi 40)) = 2.
Proof. vm_compute. auto. Qed.

(** limit 10, costs of 4: 8 before the last one, 12 in the end *)
Definition w_cost10 (_ : nat) := mkSettings IGNORE w_drv None false (Some (FZ 10)) None None None None None.
Example cost_overshoot_example :
  let es := alone 0 (fun _ => gives (loss_and_cost 3 4)) 60 in
  let s' := w_run w_cost10 (w_start []) es in
  Limit_spec.reported_trials w_float w_tid w_name w_cost10 w_ask (w_start []) es = [0; 1] ++ [2] /\
  total r_cost (all_but s' 2) = FZ 8 /\ total r_cost (map c_trial (cells s')) = FZ 12 /\
  w_pc (s_work s' 0) = PStopped.
Proof. vm_compute. auto. Qed.

(** C13 needs numbers: one NaN cost disables the limit for ever. *)
Definition nan_cost : pyval := VDict [("loss"%string, VFloat (FZ 1)); ("cost"%string, VFloat FNaN)].
Theorem nan_cost_refuted : exists (cs : list cell) (es : list (event nat)) i l,
  let s' := w_run w_cost10 (w_start cs) es in
  good_cells cs 1 /\ (forall e, In e es -> actor e = 0) /\
  Limit_spec.reported_trials w_float w_tid w_name w_cost10 w_ask (w_start cs) es = l ++ [i] /\
  ~ fl_lt (total r_cost (all_but s' i)) (FZ 10) /\
  exists t r, In t (all_but s' i) /\ t_report t = Some r /\ r_cost r = Some (FZ 100).
Proof.
  exists [], (steps 9 0 (gives nan_cost) ++ steps 24 0 (gives (loss_and_cost 3 100))), 2, [0; 1].
  cbv zeta. split; [intros c []|]. split.
  { intros e H. apply in_app_or in H. destruct H as [H|H]; apply repeat_spec in H; subst; reflexivity. }
  split; [vm_compute; reflexivity|]. split.
  - match goal with |- ~ fl_lt ?v _ => assert (E : v = FNaN) by (vm_compute; reflexivity); rewrite E end.
    intros [H _]. inversion H; congruence.
  - vm_compute. eexists _, _. split; [right; left; reflexivity|]. auto.
Qed.

(** the evaluation of trial 0 crashes with the defaults loss 9, cost 5 *)
Example crash_is_recorded_example :
  let s := w_run w_conf (w_start []) (steps 5 0 fails) in
  w_pc (s_work s 0) = PEval 0 /\ w_cache (s_work s 0) 0 <> None /\ w_global (s_work s 0) = false /\
  in_out fails = FnRaises "boom" /\
  exists rep, w_pc (s_work (w_run w_conf s (steps 1 0 fails)) 0) = PReport 0 rep /\
    r_loss rep = Some (FZ 9) /\ r_cost rep = Some (FZ 5).
Proof. vm_compute. repeat (split; [auto; discriminate|]). eexists. auto. Qed.

Example ignored_errors_example :
  check_if_should_stop (w_total IGNORE 3) (Some "boom"%string) 1 (FZ 0) (FZ 0) (FZ 0)
    [mkErr "config_0" "worker_0" "ValueError" "boom" None] [] = VGo.
Proof. reflexivity. Qed.

(** worker 0 crashes on trial 0 while worker 1 evaluates trial 1; both then raise *)
Definition raise_any (_ : nat) := w_free RAISE_ANY_ERROR.
Definition both_busy : list (event nat) :=
  steps 6 0 fails ++ steps 8 1 (gives (loss_and_cost 3 4)) ++ steps 4 0 fails.
Example own_error_ends_worker_example :
  let s := w_run raise_any (w_start []) both_busy in
  w_err (s_work s 0) = Some "boom"%string /\ w_pc (s_work s 0) = PStart /\
  w_pc (s_work (w_run raise_any s (steps 1 0 fails)) 0) = PRaised WorkerRaiseError.
Proof. vm_compute. auto. Qed.
Example any_error_ends_others_example :
  let s := w_run raise_any (w_start []) (both_busy ++ steps 2 1 fails) in
  s_errs s <> [] /\ w_pc (s_work s 1) = PStart /\ w_err (s_work s 1) = None /\
  w_pc (s_work (w_run raise_any s (steps 2 1 fails)) 1) = PRaised WorkerRaiseError.
Proof. vm_compute. split; [discriminate|auto]. Qed.

(** C14 as first stated fails: a worker that has reached a limit of its own stops
    without raising, although an error of another worker is on the log. *)
Definition raise_own1 (k : nat) := mkSettings RAISE_ANY_ERROR w_drv None false None None
  (if Nat.eqb k 1 then Some 1%Z else None) None None None.
Theorem any_error_raises_refuted : exists es : list (event nat),
  let s := w_run raise_own1 (w_start []) es in
  on_error (raise_own1 1) = RAISE_ANY_ERROR /\ s_errs s <> [] /\ w_pc (s_work s 1) = PStart /\
  forall x es', w_pc (s_work (w_run raise_own1 s (Step 1 x :: map (Step 1) es')) 1) = PStopped.
Proof.
  exists (both_busy ++ steps 2 1 (gives (loss_and_cost 3 4))). cbv zeta.
  split; [reflexivity|]. split; [vm_compute; discriminate|]. split; [vm_compute; reflexivity|].
  intros x es'. set (s := w_run raise_own1 (w_start []) _).
  assert (P : w_pc (s_work s 1) = PStart) by (vm_compute; reflexivity).
  assert (C : w_count (s_work s 1) = 1%Z) by (vm_compute; reflexivity).
  assert (E : w_err (s_work s 1) = None) by (vm_compute; reflexivity).
  clearbody s. unfold w_run in *.
  rewrite (run_cons w_float w_tid w_name raise_own1 w_ask s).
  assert (Q : w_pc (s_work (do_event w_float w_tid w_name raise_own1 w_ask s (Step 1 x)) 1) = PStopped).
  { simpl. unfold Runtime_model.step. rewrite P, C, E. reflexivity. }
  revert Q. generalize (do_event w_float w_tid w_name raise_own1 w_ask s (Step 1 x)). clear.
  induction es' as [|y es' IH]; intros s Q; [exact Q|].
  simpl map. rewrite (run_cons w_float w_tid w_name raise_own1 w_ask s). apply IH.
  simpl. unfold Runtime_model.step. rewrite Q. exact Q.
Qed.

(** C25 refuted: a function that returns a string ends the worker; the trial stays
    EVALUATING without a report, and a later run in the same process fails with
    NePSError at its first evaluation. *)
Theorem evaluation_always_reported_refuted : exists (x y : input nat),
  let s := w_run w_conf (w_start []) (steps 6 0 x) in
  w_evals w_conf (w_start []) (steps 6 0 x) = [0] /\
  w_pc (s_work s 0) = PRaised ValueError /\
  option_map t_state (trial_at s 0) = Some EVALUATING /\
  option_map t_report (trial_at s 0) = Some None /\
  readable w_float w_drv (in_out y) /\
  let s' := w_run w_conf s (Restart 0 true :: steps 7 0 y) in
  w_pc (s_work s' 0) = PRaised NePSError.
Proof.
  exists (gives (VStr "3 percent")), (gives (loss_and_cost 1 1)). cbv zeta.
  split; [vm_compute; reflexivity|]. split; [vm_compute; reflexivity|].
  split; [vm_compute; reflexivity|]. split; [vm_compute; reflexivity|].
  split; [eexists; vm_compute; reflexivity|]. vm_compute. reflexivity.
Qed.

Print Assumptions stopping_decision.
Print Assumptions evaluations_counted.
Print Assumptions every_evaluation_reported_partial.
Print Assumptions single_worker_total.
Print Assumptions single_worker_own.
Print Assumptions cost_overshoot.
Print Assumptions crash_is_recorded.
Print Assumptions ignored_errors.
Print Assumptions own_error_ends_worker.
Print Assumptions any_error_ends_others.
Print Assumptions nan_cost_refuted.
Print Assumptions any_error_raises_refuted.
Print Assumptions evaluation_always_reported_refuted.
