(** When a worker stops: the check itself, and runs of a single worker. *)
From Verif Require Import Py Trial_model Eval_model Init_model Runtime_model Runtime_spec
  Runtime_proofs Claim_proofs Once_proofs Each_proofs Solo_proofs Limit_spec.
From Coq Require Import Permutation.

(** * The check *)
Lemma fl_geb_le : forall v n, fl_geb v n = true <-> fl_le n v.
Proof.
  intros v n. unfold fl_geb. split.
  - intro H. apply Bool.orb_true_iff in H. destruct H as [H|H].
    + destruct n as [| | |a], v as [| | |b]; simpl in H; try discriminate; constructor; try discriminate.
      apply Z.ltb_lt in H. lia.
    + destruct n as [| | |a], v as [| | |b]; simpl in H; try discriminate; constructor; try discriminate.
      apply Z.eqb_eq in H. lia.
  - intro H. inversion H; subst.
    + simpl. rewrite Bool.orb_true_iff, Z.ltb_lt, Z.eqb_eq. lia.
    + destruct v; simpl; auto; congruence.
    + destruct n; simpl; auto; congruence.
Qed.

Lemma reached_Z_limit : forall l v, reached_Z l v = true <-> at_limit_Z l v.
Proof.
  intros [n|] v; unfold at_limit_Z; simpl.
  - rewrite Z.geb_le. split; [eauto|]. intros (m & X & Y). injection X as <-. auto.
  - split; [discriminate|]. intros (m & X & Y). discriminate.
Qed.

Lemma reached_fl_limit : forall l v, reached_fl l v = true <-> at_limit l v.
Proof.
  intros [n|] v; unfold at_limit; simpl.
  - rewrite fl_geb_le. split; [eauto|]. intros (m & X & Y). injection X as <-. auto.
  - split; [discriminate|]. intros (m & X & Y). discriminate.
Qed.

Lemma counted_spec : forall b t, counted b t = true <-> is_evaluation b t.
Proof.
  intros b t. unfold counted, is_evaluation. destruct (t_report t).
  - split; auto. intros _. left. discriminate.
  - rewrite Bool.andb_true_iff, Bool.orb_true_iff. split.
    + intros [X Y]. right. split; auto. destruct (t_state t); simpl in Y; intuition discriminate.
    + intros [X|[-> [-> | ->]]]; [congruence|auto|auto].
Qed.

Lemma evaluations_spec : forall b ts n, evaluations b ts n <-> n = count_trials b ts.
Proof.
  intros b. unfold count_trials. induction ts as [|t ts IH]; simpl; intros n.
  - split; [intro H; inversion H; auto|intros ->; constructor].
  - split.
    + intro H. inversion H; subst.
      * apply counted_spec in H2. rewrite H2. simpl List.length. apply IH in H4. lia.
      * destruct (counted b t) eqn:C; [apply counted_spec in C; contradiction|]. apply IH; auto.
    + intros ->. destruct (counted b t) eqn:C.
      * simpl List.length. rewrite Nat2Z.inj_succ. unfold Z.succ. constructor.
        -- now apply counted_spec.
        -- now apply IH.
      * constructor; [|now apply IH]. rewrite <- counted_spec. congruence.
Qed.

Lemma fl_add_0 : forall a, fl_add (FZ 0) a = a.
Proof. intros [| | |a]; reflexivity. Qed.

Lemma fold_add_acc : forall l a, fold_left fl_add l a = fl_add a (fold_left fl_add l (FZ 0)).
Proof.
  induction l as [|b l IH]; cbn [fold_left]; intro a.
  - rewrite fl_add_comm, fl_add_0. auto.
  - rewrite fl_add_0, (IH (fl_add a b)), (IH b), fl_add_assoc. reflexivity.
Qed.

Lemma total_costs : forall ts, total r_cost ts = fl_sum (flat_map cost_of ts).
Proof.
  unfold fl_sum. induction ts as [|t ts IH]; simpl; auto.
  unfold cost_of at 1. rewrite IH. destruct (t_report t) as [r|]; auto. destruct (r_cost r) as [c|]; auto.
  cbn [app fold_left]. rewrite (fold_add_acc _ (fl_add (FZ 0) c)), fl_add_0. reflexivity.
Qed.

Lemma total_durations : forall ts, total r_evaluation_duration ts = fl_sum (flat_map duration_of ts).
Proof.
  unfold fl_sum. induction ts as [|t ts IH]; simpl; auto.
  unfold duration_of at 1. rewrite IH. destruct (t_report t) as [r|]; auto.
  destruct (r_evaluation_duration r) as [c|]; auto.
  cbn [app fold_left]. rewrite (fold_add_acc _ (fl_add (FZ 0) c)), fl_add_0. reflexivity.
Qed.

Lemma check_local_spec : forall st err count cost time elapsed,
  match check_local st err count cost time elapsed with
  | VGo => ~ own_error st err /\ ~ own_limit st count cost time elapsed
  | VRaise e => e = WorkerRaiseError /\ own_error st err /\
                (on_error st = RAISE_WORKER_ERROR \/ on_error st = RAISE_ANY_ERROR)
  | VStop => own_error st err /\ (on_error st = STOP_WORKER_ERROR \/ on_error st = STOP_ANY_ERROR) \/
             ~ own_error st err /\ own_limit st count cost time elapsed
  end.
Proof.
  intros st err count cost time elapsed. unfold check_local.
  destruct (match err with Some _ => own_error_matters (on_error st) | None => false end) eqn:E.
  - assert (O : own_error st err).
    { unfold own_error. destruct err; [|discriminate]. split; [discriminate|].
      intro X. rewrite X in E. discriminate. }
    destruct (raising (on_error st)) eqn:RS.
    + split; auto. split; auto. destruct (on_error st); simpl in RS; try discriminate; auto.
    + left. split; auto. destruct O as [_ O]. destruct (on_error st); simpl in RS; try discriminate; auto; congruence.
  - assert (O : ~ own_error st err).
    { unfold own_error. intros [A B]. destruct err; [|congruence]. destruct (on_error st); simpl in E; try discriminate; congruence. }
    assert (L : own_limit st count cost time elapsed <->
      reached_Z (max_evaluations_for_worker st) count = true \/
      reached_fl (max_cost_for_worker st) cost = true \/
      reached_fl (max_wallclock_time_for_worker st) elapsed = true \/
      reached_fl (max_evaluation_time_for_worker st) time = true).
    { unfold own_limit. rewrite reached_Z_limit, !reached_fl_limit. tauto. }
    destruct (reached_Z (max_evaluations_for_worker st) count); [right; tauto|].
    destruct (reached_fl (max_cost_for_worker st) cost); [right; tauto|].
    destruct (reached_fl (max_wallclock_time_for_worker st) elapsed); [right; tauto|].
    destruct (reached_fl (max_evaluation_time_for_worker st) time); [right; tauto|].
    split; auto. rewrite L. intuition discriminate.
Qed.

Lemma check_errors_spec : forall st errs,
  match check_errors st errs with
  | VGo => ~ shared_error st errs
  | VRaise e => e = WorkerRaiseError /\ shared_error st errs /\ on_error st = RAISE_ANY_ERROR
  | VStop => shared_error st errs /\ on_error st = STOP_ANY_ERROR
  end.
Proof.
  intros st errs. unfold check_errors, shared_error.
  destruct (on_error st); simpl; try (intros [[X|X] _]; discriminate);
    destruct errs; intuition (try discriminate).
Qed.

Lemma check_totals_spec : forall st ts,
  match check_totals st ts with
  | VGo => ~ total_limit st ts
  | VRaise _ => False
  | VStop => total_limit st ts
  end.
Proof.
  intros st ts. unfold check_totals.
  assert (C : (exists n, evaluations (include_in_progress st) ts n /\ at_limit_Z (max_evaluations_total st) n) <->
    reached_Z (max_evaluations_total st) (count_trials (include_in_progress st) ts) = true).
  { rewrite reached_Z_limit. split.
    - intros (n & A & B). apply evaluations_spec in A. now subst.
    - intro H. exists (count_trials (include_in_progress st) ts). split; auto. now apply evaluations_spec. }
  assert (T : total_limit st ts <->
     reached_Z (max_evaluations_total st) (count_trials (include_in_progress st) ts) = true \/
     reached_fl (max_cost_total st) (fl_sum (flat_map cost_of ts)) = true \/
     reached_fl (max_evaluation_time_total st) (fl_sum (flat_map duration_of ts)) = true).
  { unfold total_limit. rewrite total_costs, total_durations, !reached_fl_limit, C. tauto. }
  destruct (reached_Z (max_evaluations_total st) _); [tauto|].
  destruct (reached_fl (max_cost_total st) _); [tauto|].
  destruct (reached_fl (max_evaluation_time_total st) _); [tauto|].
  rewrite T. intuition discriminate.
Qed.

Lemma no_total : forall st ts, no_total_limit st = true -> ~ total_limit st ts.
Proof.
  intros st ts H. unfold total_limit, at_limit, at_limit_Z. unfold no_total_limit in H.
  destruct (max_evaluations_total st), (max_cost_total st), (max_evaluation_time_total st); try discriminate.
  intros [(n & _ & m & X & _)|[(m & X & _)|(m & X & _)]]; discriminate.
Qed.

Lemma check_spec : forall st err count cost time elapsed errs ts,
  let oe := own_error st err in
  let ol := own_limit st count cost time elapsed in
  let se := shared_error st errs in
  let tl := total_limit st ts in
  match check_if_should_stop st err count cost time elapsed errs ts with
  | VGo => ~ oe /\ ~ ol /\ ~ se /\ ~ tl
  | VRaise e => e = WorkerRaiseError /\
      (oe /\ (on_error st = RAISE_WORKER_ERROR \/ on_error st = RAISE_ANY_ERROR) \/
       ~ oe /\ ~ ol /\ se /\ on_error st = RAISE_ANY_ERROR)
  | VStop => oe /\ (on_error st = STOP_WORKER_ERROR \/ on_error st = STOP_ANY_ERROR) \/
       ~ oe /\ (ol \/ se /\ on_error st = STOP_ANY_ERROR \/ ~ se /\ tl)
  end.
Proof.
  intros. unfold check_if_should_stop.
  assert (L := check_local_spec st err count cost time elapsed).
  assert (E := check_errors_spec st errs). assert (T := check_totals_spec st ts).
  assert (N := no_total st ts).
  destruct (check_local st err count cost time elapsed); [tauto|tauto|].
  destruct (check_errors st errs); [tauto|tauto|].
  destruct (no_total_limit st); [specialize (N eq_refl); tauto|].
  destruct (check_totals st ts); tauto.
Qed.

(** * Runs of a single worker *)
Section Runs.
Context {R : Type}.
Variable pyfloat : pyval -> res fl.
Variable tid wname : nat -> string.
Variable conf : nat -> worker_settings.
Variable ask : R -> list trial -> res (dict * R).
Variable k : nat.
Variable xi : nat -> input R.
Notation run := (run pyfloat tid wname conf ask).
Notation step := (step pyfloat tid wname conf ask).
Notation evaluated := (evaluated pyfloat tid wname conf ask).
Notation goes := (goes pyfloat tid wname conf ask k xi).
Notation iterated := (iterated pyfloat tid wname conf k xi).
Notation the_check := (the_check conf k).
Implicit Types s : sys R.

Hypothesis AO : forall r ts, exists c r', ask r ts = Ok (c, r').
Hypothesis EO : forall j t, exists t' r, evaluate_trial pyfloat t (in_out (xi j)) (in_tb (xi j)) (drv (conf k))
     (in_duration (xi j)) (in_time (xi j)) = Ok (t', r).

Definition reports_final s : Prop := forall t, In t (trials s) -> t_report t <> None -> final (t_state t).

Lemma base_reports : forall ts base i, offers tid wname k ts base i ->
  (forall t, In t ts -> t_report t <> None -> final (t_state t)) ->
  forall t, In t base -> t_report t <> None -> final (t_state t).
Proof.
  intros ts base i [_ O] H t I RP. destruct O as [-> |(_ & _ & c & tm & ->)]; [auto|].
  apply in_app_or in I. destruct I as [I|[<-|[]]]; auto. simpl in RP. congruence.
Qed.

Lemma iterated_reports : forall s s' i r, iterated s s' i r -> reports_final s -> reports_final s'.
Proof.
  intros s s' i r (base & t0 & t & tm & x & x' & O & N & EV & _ & T & _) F t1 I RP.
  rewrite T in I. apply In_set_nth in I. destruct I as [->|I].
  - simpl. apply evaluate_keeps_report in EV. destruct EV as (_ & -> & _).
    unfold final. destruct (r_reported_as r); simpl; auto.
  - eapply base_reports; eauto.
Qed.

Lemma count_set : forall b l i t0 t1, nth_error l i = Some t0 ->
  counted b t0 = false -> counted b t1 = true ->
  count_trials b (set_nth l i t1) = (count_trials b l + 1)%Z.
Proof.
  unfold count_trials. induction l as [|t l IH]; intros [|i] t0 t1 N A B; simpl in *; try discriminate.
  - injection N as ->. rewrite A, B. simpl List.length. lia.
  - specialize (IH i t0 t1 N A B). destruct (counted b t); simpl List.length in *; lia.
Qed.

Lemma iterated_count : forall b s s' i r, iterated s s' i r -> reports_final s ->
  count_trials b (trials s') = (count_trials b (trials s) + 1)%Z.
Proof.
  intros b s s' i r (base & t0 & t & tm & x & x' & O & N & EV & _ & T & _) F.
  rewrite T. assert (O' := O). destruct O' as [(t0' & N' & PD) O'].
  rewrite N in N'. injection N' as <-.
  assert (RP : t_report t0 = None).
  { destruct (t_report t0) eqn:X; auto. exfalso.
    apply (final_not_pending (t_state t0)); auto. eapply base_reports; eauto.
    - eapply nth_error_In; eauto.
    - congruence. }
  rewrite (count_set b base i t0) ; auto.
  - f_equal. destruct O' as [-> |(_ & _ & c & tm' & ->)]; auto.
    unfold count_trials. rewrite filter_app, app_length. simpl.
    replace (counted b _) with false; [simpl; lia|]. unfold counted. simpl. destruct b; reflexivity.
  - unfold counted. rewrite RP, PD. destruct b; reflexivity.
Qed.

Lemma countdown : forall (I : sys R -> Prop) (f : sys R -> Z) n,
  (forall s x, I s -> the_check s x = if Z.geb (f s) n then VStop else VGo) ->
  (forall s s' i r, I s -> iterated s s' i r -> f s' = (f s + 1)%Z /\ I s') ->
  forall d s j, d = Z.to_nat (n - f s) -> inv s -> I s ->
  w_pc (s_work s k) = PStart -> w_global (s_work s k) = false ->
  exists m s' evs, goes j s m s' evs /\ w_pc (s_work s' k) = PStopped /\ List.length evs = d.
Proof.
  intros I f n CK IT. induction d as [|d IH]; intros s j D IV II P W;
    destruct (iteration_solo pyfloat tid wname conf ask k xi s j IV AO EO P W) as (m & s' & X);
    rewrite CK in X by auto; destruct (Z.geb (f s) n) eqn:G.
  - exists m, s', []. intuition.
  - exfalso. rewrite Z.geb_leb, Z.leb_gt in G. lia.
  - exfalso. rewrite Z.geb_leb, Z.leb_le in G. lia.
  - destruct X as (i & r & X & Y). destruct (IT _ _ _ _ II Y) as [F II'].
    destruct (IH s' (j + m)) as (m' & s2 & evs & Z1 & Z2 & Z3).
    + lia.
    + eapply inv_goes; eauto.
    + auto.
    + destruct Y as (base & t0 & t & tm & x & x' & _ & _ & _ & _ & _ & _ & _ & Y). apply Y.
    + destruct Y as (base & t0 & t & tm & x & x' & _ & _ & _ & _ & _ & _ & _ & Y). apply Y.
    + exists (m + m'), s2, ([i] ++ evs). split; [|split]; auto.
      * eapply goes_trans; eauto.
      * simpl. congruence.
Qed.

Lemma stopped_stays : forall m j s, w_pc (s_work s k) = PStopped -> goes j s m s [].
Proof.
  induction m as [|m IH]; intros j s P; [split; reflexivity|].
  assert (G : goes j s 1 s []).
  { assert (X := goes_step pyfloat tid wname conf ask k xi j s).
    replace (step s k (xi j)) with s in X by (unfold Runtime_model.step; now rewrite P).
    apply X. intros. congruence. }
  change [] with (@nil nat ++ []). change (S m) with (1 + m). eapply goes_trans; eauto.
Qed.

Lemma start_inv : forall cs b errs (r : R) n, good_cells cs n -> inv (start cs b errs r n).
Proof.
  intros cs b errs r n G. split.
  - split; simpl; [|discriminate]. intros i c C. apply nth_error_In in C. apply G in C. tauto.
  - intros k0 i h c H. simpl in H. discriminate.
Qed.

Lemma start_reports : forall cs b errs (r : R) n, good_cells cs n -> reports_final (start cs b errs r n).
Proof.
  intros cs b errs r n G t I RP. unfold trials in I. simpl in I. apply in_map_iff in I.
  destruct I as (c & <- & I). apply (G c I). auto.
Qed.

Lemma finishes : forall s j m s' evs N, goes j s m s' evs -> w_pc (s_work s' k) = PStopped ->
  List.length evs = N ->
  exists m0, forall m', m0 <= m' ->
    w_pc (s_work (run s (evts k xi j m')) k) = PStopped /\
    List.length (evaluated s (evts k xi j m')) = N.
Proof.
  intros s j m s' evs N G P L. exists m. intros m' LE.
  destruct (goes_trans pyfloat tid wname conf ask k xi j s m s' evs (m' - m) s' [] G (stopped_stays _ _ _ P)) as [A B].
  replace (m + (m' - m)) with m' in * by lia. rewrite A, B, app_nil_r. auto.
Qed.

Lemma total_evaluations : forall n0 n cs b errs (r : R) nv,
  good_cells cs nv ->
  (exists d flag, conf k = mkSettings IGNORE d (Some n) flag None None None None None None) ->
  n0 = count_trials (include_in_progress (conf k)) (map c_trial cs) ->
  exists m0, forall m', m0 <= m' ->
    w_pc (s_work (run (start cs b errs r nv) (evts k xi 0 m')) k) = PStopped /\
    List.length (evaluated (start cs b errs r nv) (evts k xi 0 m')) = Z.to_nat (n - n0).
Proof.
  intros n0 n cs b errs r nv G (d & flag & CF) ->.
  destruct (countdown reports_final (fun s => count_trials flag (trials s)) n) with
    (d := Z.to_nat (n - count_trials (include_in_progress (conf k)) (map c_trial cs)))
    (s := start cs b errs r nv) (j := 0) as (m & s' & evs & X & Y & Z); auto.
  - intros s x _. unfold Solo_proofs.the_check. rewrite CF. unfold check_if_should_stop, check_local, check_errors. simpl.
    replace (match w_err (s_work s k) with Some _ => false | None => false end) with false by (destruct (w_err _); auto).
    simpl. unfold check_totals. simpl. destruct (Z.geb _ _); auto.
  - intros s s' i r' F IT. split; [eapply iterated_count; eauto|eapply iterated_reports; eauto].
  - rewrite CF. reflexivity.
  - apply start_inv; auto.
  - apply start_reports; auto.
  - eapply finishes; eauto.
Qed.

Lemma worker_evaluations : forall n cs b errs (r : R) nv,
  good_cells cs nv ->
  (exists d flag, conf k = mkSettings IGNORE d None flag None None (Some n) None None None) ->
  exists m0, forall m', m0 <= m' ->
    w_pc (s_work (run (start cs b errs r nv) (evts k xi 0 m')) k) = PStopped /\
    List.length (evaluated (start cs b errs r nv) (evts k xi 0 m')) = Z.to_nat n.
Proof.
  intros n cs b errs r nv G (d & flag & CF).
  destruct (countdown (fun _ => True) (fun s => w_count (s_work s k)) n) with
    (d := Z.to_nat n) (s := start cs b errs r nv) (j := 0) as (m & s' & evs & X & Y & Z); auto.
  - intros s x _. unfold Solo_proofs.the_check. rewrite CF. unfold check_if_should_stop, check_local, check_errors. simpl.
    replace (match w_err (s_work s k) with Some _ => false | None => false end) with false by (destruct (w_err _); auto).
    simpl. destruct (Z.geb _ _); auto.
  - intros s s' i r' _ IT. split; auto.
    destruct IT as (base & t0 & t & tm & x & x' & _ & _ & _ & _ & _ & _ & _ & AE). apply AE.
  - simpl. lia.
  - apply start_inv; auto.
  - eapply finishes; eauto.
Qed.

End Runs.
