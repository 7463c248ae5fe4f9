(** A worker running on its own: what one iteration of its loop does. *)
From Verif Require Import Py Trial_model Eval_model Init_model Runtime_model Runtime_spec
  Runtime_proofs Claim_proofs Once_proofs Each_proofs.
From Coq Require Import Permutation.

(** * Sums and counts do not depend on the order *)
Lemma fl_add_comm : forall a b, fl_add a b = fl_add b a.
Proof. intros [| | |a] [| | |b]; simpl; auto. f_equal. lia. Qed.
Lemma fl_add_assoc : forall a b c, fl_add a (fl_add b c) = fl_add (fl_add a b) c.
Proof. intros [| | |a] [| | |b] [| | |c]; simpl; auto. f_equal. lia. Qed.

Lemma fold_add_perm : forall l l', Permutation l l' -> forall a, fold_left fl_add l a = fold_left fl_add l' a.
Proof.
  induction 1; simpl; intros a; auto.
  - f_equal. rewrite <- !fl_add_assoc. f_equal. apply fl_add_comm.
  - rewrite IHPermutation1. auto.
Qed.

Lemma flat_map_perm : forall A B (f : A -> list B) l l', Permutation l l' ->
  Permutation (flat_map f l) (flat_map f l').
Proof.
  induction 1; simpl; auto.
  - apply Permutation_app_head. auto.
  - rewrite !app_assoc. apply Permutation_app_tail. apply Permutation_app_comm.
  - eapply Permutation_trans; eauto.
Qed.

Lemma count_perm : forall b l l', Permutation l l' -> count_trials b l = count_trials b l'.
Proof.
  intros b l l' P. unfold count_trials. f_equal. induction P; simpl; auto.
  - destruct (counted b x); simpl; auto.
  - destruct (counted b x), (counted b y); simpl; auto.
  - congruence.
Qed.

Lemma check_totals_perm : forall st l l', Permutation l l' -> check_totals st l = check_totals st l'.
Proof.
  intros st l l' P. unfold check_totals, fl_sum.
  rewrite (count_perm _ _ _ P).
  rewrite (fold_add_perm _ _ (flat_map_perm _ _ cost_of _ _ P)).
  rewrite (fold_add_perm _ _ (flat_map_perm _ _ duration_of _ _ P)). reflexivity.
Qed.

Lemma oldest_none : forall l, oldest l = None -> l = [].
Proof.
  intros [|[i t] l]; auto. simpl. destruct (oldest l) as [[j u]|]; [destruct (fl_ltb u t)|]; discriminate.
Qed.

Section Solo.
Context {R : Type}.
Variable pyfloat : pyval -> res fl.
Variable tid wname : nat -> string.
Variable conf : nat -> worker_settings.
Variable ask : R -> list trial -> res (dict * R).
Variable k : nat.
Variable xi : nat -> input R.
Notation do_event := (do_event pyfloat tid wname conf ask).
Notation run := (run pyfloat tid wname conf ask).
Notation step := (step pyfloat tid wname conf ask).
Notation effect := (effect pyfloat tid wname conf ask).
Notation evaluated := (evaluated pyfloat tid wname conf ask).
Implicit Types s : sys R.

Definition evts (j m : nat) : list (event R) := map (fun j => Step k (xi j)) (seq j m).
Definition goes (j : nat) s (m : nat) s' (evs : list nat) : Prop :=
  run s (evts j m) = s' /\ evaluated s (evts j m) = evs.

Lemma goes_0 : forall j s, goes j s 0 s [].
Proof. intros. split; reflexivity. Qed.

Lemma goes_trans : forall j s m s1 e1 m' s2 e2,
  goes j s m s1 e1 -> goes (j + m) s1 m' s2 e2 -> goes j s (m + m') s2 (e1 ++ e2).
Proof.
  intros j s m s1 e1 m' s2 e2 [A1 A2] [B1 B2]. unfold goes, evts in *.
  rewrite seq_app, map_app, run_app. unfold Runtime_spec.evaluated in *. rewrite observe_app.
  rewrite A1, A2, B1, B2. auto.
Qed.

Lemma goes_step : forall j s,
  (forall i, w_pc (s_work s k) <> PEval i) -> goes j s 1 (step s k (xi j)) [].
Proof.
  intros j s H. split; [reflexivity|]. unfold evts, Runtime_spec.evaluated. simpl.
  unfold see_evaluation, at_pc. destruct (w_pc (s_work s k)); auto. exfalso. eapply H; eauto.
Qed.

Lemma goes_eval : forall j s i, w_pc (s_work s k) = PEval i -> goes j s 1 (step s k (xi j)) [i].
Proof.
  intros j s i H. split; [reflexivity|]. unfold evts, Runtime_spec.evaluated. simpl.
  unfold see_evaluation, at_pc. rewrite H. auto.
Qed.

Definition inv s : Prop := versions_ok s /\ fresh s.
Lemma inv_goes : forall j s m s' evs, inv s -> goes j s m s' evs -> inv s'.
Proof.
  intros j s m s' evs I [<- _]. apply run_ind; auto.
  intros s0 e s1 [A B] E. split; [eapply versions_ok_effect|eapply fresh_effect]; eauto.
Qed.

(** Nothing happened except to the worker's position and cache. *)
Definition quietly s s' : Prop :=
  cells s' = cells s /\ s_budget s' = s_budget s /\ s_errs s' = s_errs s /\ s_rng s' = s_rng s /\
  same_counters (s_work s k) (s_work s' k).
Lemma quietly_refl : forall s, quietly s s.
Proof. intro s. unfold quietly, same_counters. tauto. Qed.
Lemma quietly_trans : forall a b c, quietly a b -> quietly b c -> quietly a c.
Proof. unfold quietly, same_counters. intros. intuition congruence. Qed.

Ltac opn := do 2 (unfold upd in *; rewrite ?Nat.eqb_refl in *; simpl in *); unfold upd in *; rewrite ?Nat.eqb_refl in *.

Lemma quietly_pc : forall s w p, same_counters (s_work s k) w -> quietly s (with_worker s k (set_pc w p)).
Proof.
  intros s w p S. unfold quietly, same_counters in *. opn. tauto.
Qed.

Lemma read : forall s i c, inv s -> (forall r, w_pc (s_work s k) <> PReport i r) ->
  nth_error (cells s) i = Some c ->
  sync_one s (s_work s k) i =
    Some (set_handle (s_work s k) i (sync_handle (w_cache (s_work s k) i) c), c_trial c).
Proof.
  intros s i c [V F] P C. unfold sync_one. rewrite C. do 2 f_equal.
  destruct (sync_handle_trial (w_cache (s_work s k) i) c) as [X|(h & X1 & X2 & X3)]; auto.
  rewrite X3. destruct (F k i h c X1 C X2) as [Y|(r & Y & _)]; auto. exfalso. eapply P; eauto.
Qed.

Definition trials s : list trial := map c_trial (cells s).
Definition trials_at s (ids : list nat) : list trial :=
  flat_map (fun i => match nth_error (cells s) i with Some c => [c_trial c] | None => [] end) ids.

Lemma trials_at_seq : forall (l0 l : list cell),
  flat_map (fun i => match nth_error (l0 ++ l) i with Some c => [c_trial c] | None => [] end)
    (seq (List.length l0) (List.length l)) = map c_trial l.
Proof.
  intros l0 l. revert l0. induction l as [|c l IH]; intros l0; auto. simpl.
  rewrite nth_error_app2, Nat.sub_diag by lia. simpl. f_equal.
  rewrite <- (IH (l0 ++ [c])). rewrite app_length. simpl. rewrite Nat.add_1_r. rewrite <- app_assoc. reflexivity.
Qed.

Lemma trials_at_all : forall s ord, Permutation (trials_at s (listing (List.length (cells s)) ord)) (trials s).
Proof.
  intros. eapply Permutation_trans; [apply flat_map_perm, listing_perm|].
  unfold trials. rewrite <- (trials_at_seq [] (cells s)). reflexivity.
Qed.

Lemma sweep : forall todo seen s j, inv s -> w_pc (s_work s k) = PSweep todo seen ->
  (forall i, In i todo -> i < List.length (cells s)) ->
  exists s', goes j s (List.length todo) s' [] /\ quietly s s' /\
    w_pc (s_work s' k) = PSweep [] (seen ++ trials_at s todo).
Proof.
  induction todo as [|i todo IH]; intros seen s j I P L.
  - exists s. split; [apply goes_0|]. split; [apply quietly_refl|]. simpl. rewrite app_nil_r. auto.
  - assert (Hi : i < List.length (cells s)) by (apply L; left; auto).
    destruct (nth_error (cells s) i) as [c|] eqn:C; [|apply nth_error_None in C; lia].
    assert (G : goes j s 1 (step s k (xi j)) []) by (apply goes_step; intros; congruence).
    assert (I1 := inv_goes _ _ _ _ _ I G).
    assert (RD : sync_one s (s_work s k) i = Some (set_handle (s_work s k) i (sync_handle (w_cache (s_work s k) i) c), c_trial c))
      by (apply read; auto; intros; congruence).
    assert (P1 : w_pc (s_work (step s k (xi j)) k) = PSweep todo (seen ++ [c_trial c])).
    { unfold Runtime_model.step. rewrite P, RD. opn. reflexivity. }
    assert (Q1 : quietly s (step s k (xi j))).
    { unfold Runtime_model.step. rewrite P, RD. apply quietly_pc. unfold same_counters. simpl. tauto. }
    destruct (IH (seen ++ [c_trial c]) (step s k (xi j)) (j + 1)) as (s' & G' & Q' & P'); auto.
    { intros i' X. replace (cells (step s k (xi j))) with (cells s) by (symmetry; apply Q1). apply L. right. auto. }
    exists s'. split; [|split].
    + simpl List.length. change (S (List.length todo)) with (1 + List.length todo).
      change (@nil nat) with (@nil nat ++ []). eapply goes_trans; eauto.
    + eapply quietly_trans; eauto.
    + rewrite P'. unfold trials_at. simpl flat_map. rewrite C. simpl.
      destruct Q1 as [-> _]. rewrite <- app_assoc. reflexivity.
Qed.

Definition pendings s (ids : list nat) : list (nat * fl) :=
  flat_map (fun i => match nth_error (cells s) i with
    | Some c => if tstate_eqb (t_state (c_trial c)) PENDING then [(i, m_time_sampled (t_meta (c_trial c)))] else []
    | None => [] end) ids.

Lemma pend : forall todo seen s j, inv s -> w_pc (s_work s k) = PPend todo seen ->
  (forall i, In i todo -> i < List.length (cells s)) ->
  exists s', goes j s (List.length todo) s' [] /\ quietly s s' /\
    w_pc (s_work s' k) = PPend [] (seen ++ pendings s todo).
Proof.
  induction todo as [|i todo IH]; intros seen s j I P L.
  - exists s. split; [apply goes_0|]. split; [apply quietly_refl|]. simpl. rewrite app_nil_r. auto.
  - assert (Hi : i < List.length (cells s)) by (apply L; left; auto).
    destruct (nth_error (cells s) i) as [c|] eqn:C; [|apply nth_error_None in C; lia].
    assert (G : goes j s 1 (step s k (xi j)) []) by (apply goes_step; intros; congruence).
    assert (I1 := inv_goes _ _ _ _ _ I G).
    assert (RD : sync_one s (s_work s k) i = Some (set_handle (s_work s k) i (sync_handle (w_cache (s_work s k) i) c), c_trial c))
      by (apply read; auto; intros; congruence).
    assert (P1 : w_pc (s_work (step s k (xi j)) k) = PPend todo (if tstate_eqb (t_state (c_trial c)) PENDING
             then seen ++ [(i, m_time_sampled (t_meta (c_trial c)))] else seen)).
    { unfold Runtime_model.step. rewrite P, RD. opn. reflexivity. }
    assert (Q1 : quietly s (step s k (xi j))).
    { unfold Runtime_model.step. rewrite P, RD. apply quietly_pc. unfold same_counters. simpl. tauto. }
    destruct (IH _ (step s k (xi j)) (j + 1) I1 P1) as (s' & G' & Q' & P'); auto.
    { intros i' X. replace (cells (step s k (xi j))) with (cells s) by (symmetry; apply Q1). apply L. right. auto. }
    exists s'. split; [|split].
    + simpl List.length. change (S (List.length todo)) with (1 + List.length todo).
      change (@nil nat) with (@nil nat ++ []). eapply goes_trans; eauto.
    + eapply quietly_trans; eauto.
    + rewrite P'. unfold pendings. simpl flat_map. rewrite C. simpl.
      destruct Q1 as [-> _]. destruct (tstate_eqb _ _); [rewrite <- app_assoc|]; reflexivity.
Qed.

(** ** The check at the top of the loop *)
Definition the_check s (x : input R) : verdict :=
  let w := s_work s k in
  check_if_should_stop (conf k) (w_err w) (w_count w) (w_cost w) (w_time w) (in_elapsed x)
    (s_errs s) (trials s).

Definition pc_of (v : verdict) : wpc :=
  match v with VStop => PStopped | VRaise e => PRaised e | VGo => PGet end.

Lemma totals : forall s j, inv s ->
  w_pc (s_work s k) = PSweep (listing (List.length (cells s)) (in_order (xi (j - 1)))) [] ->
  exists m s', goes j s m s' [] /\ quietly s s' /\
    w_pc (s_work s' k) = pc_of (check_totals (conf k) (trials s)).
Proof.
  intros s j I P. set (ids := listing _ _) in *.
  destruct (sweep ids [] s j I P) as (s1 & G & Q & P1).
  { intros i X. now apply listing_in in X. }
  exists (List.length ids + 1), (step s1 k (xi (j + List.length ids))).
  assert (CT : check_totals (conf k) (trials_at s ids) = check_totals (conf k) (trials s)).
  { apply check_totals_perm. apply trials_at_all. }
  split; [|split].
  - change (@nil nat) with (@nil nat ++ []). eapply goes_trans; eauto. apply goes_step. intros; congruence.
  - eapply quietly_trans; eauto. unfold Runtime_model.step. rewrite P1. simpl app. rewrite CT. clear CT.
    destruct (check_totals (conf k) (trials s)); simpl; apply quietly_pc; apply same_refl.
  - unfold Runtime_model.step. rewrite P1. simpl app. rewrite CT. clear CT.
    destruct (check_totals (conf k) (trials s)); opn; reflexivity.
Qed.

Lemma after_errors : forall s s0 j, inv s -> quietly s0 s ->
  let s1 := enter_totals conf s k (s_work s k) (xi j) in
  goes j s 1 s1 [] ->
  exists m s', goes j s (1 + m) s' [] /\ quietly s0 s' /\
    w_pc (s_work s' k) =
      pc_of (if no_total_limit (conf k) then VGo else check_totals (conf k) (trials s0)).
Proof.
  intros s s0 j I Q s1 G. assert (I1 := inv_goes _ _ _ _ _ I G).
  unfold enter_totals in s1. destruct (no_total_limit (conf k)).
  - exists 0, s1. split; [auto|]. split.
    + eapply quietly_trans; eauto. apply quietly_pc. apply same_refl.
    + subst s1. opn. reflexivity.
  - assert (Q1 : quietly s s1) by (apply quietly_pc; apply same_refl).
    destruct (totals s1 (j + 1) I1) as (m & s' & G' & Q' & P').
    { replace (cells s1) with (cells s) by (symmetry; apply Q1).
      rewrite Nat.add_sub. subst s1. opn. reflexivity. }
    exists m, s'. split; [|split].
    + change (@nil nat) with (@nil nat ++ []). eapply goes_trans; eauto.
    + eapply quietly_trans; eauto. eapply quietly_trans; eauto.
    + rewrite P'. do 2 f_equal. unfold trials. destruct Q1 as [-> _]. destruct Q as [-> _]. reflexivity.
Qed.

Theorem check_solo : forall s j, inv s -> w_pc (s_work s k) = PStart ->
  exists m s', goes j s m s' [] /\ quietly s s' /\
    w_pc (s_work s' k) = pc_of (the_check s (xi j)).
Proof.
  intros s j I P. unfold the_check, check_if_should_stop.
  assert (G : goes j s 1 (step s k (xi j)) []) by (apply goes_step; intros; congruence).
  assert (I1 := inv_goes _ _ _ _ _ I G).
  destruct (check_local (conf k) (w_err (s_work s k)) (w_count (s_work s k)) (w_cost (s_work s k))
              (w_time (s_work s k)) (in_elapsed (xi j))) eqn:CL.
  - exists 1, (step s k (xi j)). split; auto. unfold Runtime_model.step. rewrite P, CL. simpl.
    split; [apply quietly_pc; apply same_refl|]. opn. reflexivity.
  - exists 1, (step s k (xi j)). split; auto. unfold Runtime_model.step. rewrite P, CL. simpl.
    split; [apply quietly_pc; apply same_refl|]. opn. reflexivity.
  - unfold check_errors. destruct (any_error (on_error (conf k))) eqn:A.
    + assert (P1 : w_pc (s_work (step s k (xi j)) k) = PErrs).
      { unfold Runtime_model.step. rewrite P, CL, A. opn. reflexivity. }
      assert (Q1 : quietly s (step s k (xi j))).
      { unfold Runtime_model.step. rewrite P, CL, A. apply quietly_pc. apply same_refl. }
      set (s1 := step s k (xi j)) in *.
      assert (G1 : goes (j + 1) s1 1 (step s1 k (xi (j + 1))) []) by (apply goes_step; intros; congruence).
      assert (ER : s_errs s1 = s_errs s) by apply Q1.
      destruct (s_errs s) as [|er errs] eqn:ES.
      * destruct (after_errors s1 s (j + 1) I1 Q1) as (m & s' & G' & Q' & P').
        { revert G1. unfold Runtime_model.step at 1. rewrite P1. unfold check_errors. rewrite A, ER. auto. }
        exists (1 + (1 + m)), s'. split; [|split]; auto.
        change (@nil nat) with (@nil nat ++ []). eapply goes_trans; eauto.
      * exists (1 + 1), (step s1 k (xi (j + 1))). split; [|split].
        -- change (@nil nat) with (@nil nat ++ []). eapply goes_trans; eauto.
        -- eapply quietly_trans; eauto. unfold Runtime_model.step. rewrite P1. unfold check_errors.
           rewrite A, ER. destruct (on_error (conf k)); simpl in A; try discriminate; apply quietly_pc; apply same_refl.
        -- unfold Runtime_model.step. rewrite P1. unfold check_errors. rewrite A, ER.
           destruct (on_error (conf k)); simpl in A; try discriminate; opn; reflexivity.
    + destruct (after_errors s s j I (quietly_refl s)) as (m & s' & G' & Q' & P').
      { revert G. unfold Runtime_model.step at 1. rewrite P, CL, A. auto. }
      exists (1 + m), s'. auto.
Qed.

(** ** Getting a trial *)
(** [base]: the stored trials when the trial is claimed; [i] is among them, pending, and
    either was there before or has just been sampled because nothing was pending. *)
Definition offers (ts base : list trial) (i : nat) : Prop :=
  (exists t, nth_error base i = Some t /\ t_state t = PENDING) /\
  (base = ts \/
   (forall t, In t ts -> t_state t <> PENDING) /\ i = List.length ts /\
   exists c tm, base = ts ++ [trial_new (tid i) c "" None None tm (wname k)]).

Lemma get_solo : forall s j, inv s ->
  (forall r ts, exists c r', ask r ts = Ok (c, r')) ->
  w_pc (s_work s k) = PGet ->
  exists m s' i c h, goes j s m s' [] /\
    s_budget s' = s_budget s /\ s_errs s' = s_errs s /\
    same_counters (s_work s k) (s_work s' k) /\
    w_pc (s_work s' k) = PClaim i /\
    offers (trials s) (trials s') i /\ nth_error (cells s') i = Some c /\
    w_cache (s_work s' k) i = Some h /\ h_ver h = c_ver c /\ h_trial h = c_trial c.
Proof.
  intros s j I AO P.
  assert (G : goes j s 1 (step s k (xi j)) []) by (apply goes_step; intros; congruence).
  assert (I1 := inv_goes _ _ _ _ _ I G).
  set (ids := listing (List.length (cells s)) (in_order (xi j))).
  assert (P1 : w_pc (s_work (step s k (xi j)) k) = PPend ids []).
  { unfold Runtime_model.step. rewrite P. opn. reflexivity. }
  assert (Q1 : quietly s (step s k (xi j))).
  { unfold Runtime_model.step. rewrite P. apply quietly_pc. apply same_refl. }
  set (s1 := step s k (xi j)) in *.
  destruct (pend ids [] s1 (j + 1) I1 P1) as (s2 & G2 & Q2 & P2).
  { intros i X. replace (cells s1) with (cells s) by (symmetry; apply Q1). now apply listing_in in X. }
  simpl app in P2.
  assert (I2 := inv_goes _ _ _ _ _ I1 G2).
  assert (Q02 := quietly_trans _ _ _ Q1 Q2).
  assert (G02 : goes j s (1 + List.length ids) s2 []).
  { change (@nil nat) with (@nil nat ++ []). eapply goes_trans; eauto. }
  assert (PE : pendings s1 ids = pendings s ids).
  { unfold pendings. destruct Q1 as [-> _]. reflexivity. }
  rewrite PE in P2. clear PE.
  assert (G3 : goes (j + (1 + List.length ids)) s2 1 (step s2 k (xi (j + (1 + List.length ids)))) [])
    by (apply goes_step; intros; congruence).
  set (j3 := j + (1 + List.length ids)) in *.
  assert (I3 := inv_goes _ _ _ _ _ I2 G3).
  destruct (oldest (pendings s ids)) as [[i tm]|] eqn:O.
  - (* a pending trial *)
    assert (P3 : w_pc (s_work (step s2 k (xi j3)) k) = PRefetch i).
    { unfold Runtime_model.step. rewrite P2, O. opn. reflexivity. }
    assert (Q3 : quietly s2 (step s2 k (xi j3))).
    { unfold Runtime_model.step. rewrite P2, O. apply quietly_pc. apply same_refl. }
    set (s3 := step s2 k (xi j3)) in *.
    assert (Q03 := quietly_trans _ _ _ Q02 Q3).
    apply oldest_in in O. apply in_map_iff in O. destruct O as ([i' tm'] & X & O). simpl in X. subst i'.
    unfold pendings in O. apply in_flat_map in O. destruct O as (i' & LI & O).
    destruct (nth_error (cells s) i') as [c|] eqn:C; [|contradiction].
    destruct (tstate_eqb (t_state (c_trial c)) PENDING) eqn:T; [|contradiction].
    destruct O as [O|[]]. injection O as -> _.
    assert (C3 : nth_error (cells s3) i = Some c) by (destruct Q03 as [-> _]; auto).
    assert (RD : sync_one s3 (s_work s3 k) i = Some (set_handle (s_work s3 k) i (sync_handle (w_cache (s_work s3 k) i) c), c_trial c))
      by (apply read; auto; intros; congruence).
    assert (G4 : goes (j3 + 1) s3 1 (step s3 k (xi (j3 + 1))) []) by (apply goes_step; intros; congruence).
    assert (ST : step s3 k (xi (j3 + 1)) = with_worker s3 k (got (set_handle (s_work s3 k) i (sync_handle (w_cache (s_work s3 k) i) c)) i)).
    { unfold Runtime_model.step. rewrite P3, RD. reflexivity. }
    exists ((1 + List.length ids) + (1 + 1)), (step s3 k (xi (j3 + 1))), i, c, (sync_handle (w_cache (s_work s3 k) i) c).
    split; [change (@nil nat) with (@nil nat ++ []); eapply goes_trans; eauto;
            change (@nil nat) with (@nil nat ++ []); eapply goes_trans; eauto|].
    rewrite ST.
    destruct Q03 as (QA & QB & QC & QD & QE).
    split; [simpl; auto|]. split; [simpl; auto|].
    split. { unfold same_counters in *. opn. tauto. }
    split. { opn. reflexivity. }
    split. { assert (TE : trials (with_worker s3 k (got (set_handle (s_work s3 k) i (sync_handle (w_cache (s_work s3 k) i) c)) i)) = trials s).
      { unfold trials. simpl. rewrite QA. reflexivity. }
      rewrite TE. split; [|left; reflexivity]. exists (c_trial c). split.
      - unfold trials. apply map_nth_error. auto.
      - destruct (t_state (c_trial c)); simpl in T; try discriminate; auto. }
    split; [simpl; auto|]. split; [opn; reflexivity|].
    split; [apply sync_handle_ver|].
    unfold sync_one in RD. rewrite C3 in RD. injection RD as RD. auto.
  - (* nothing pending: sample *)
    assert (P3 : w_pc (s_work (step s2 k (xi j3)) k) = PSample).
    { unfold Runtime_model.step. rewrite P2, O. opn. reflexivity. }
    assert (Q3 : quietly s2 (step s2 k (xi j3))).
    { unfold Runtime_model.step. rewrite P2, O. apply quietly_pc. apply same_refl. }
    set (s3 := step s2 k (xi j3)) in *.
    assert (Q03 := quietly_trans _ _ _ Q02 Q3).
    apply oldest_none in O.
    assert (NP : forall t, In t (trials s) -> t_state t <> PENDING).
    { intros t X Y. unfold trials in X. apply in_map_iff in X. destruct X as (c & <- & X).
      apply In_nth_error in X. destruct X as (i & X).
      assert (Z : In (i, m_time_sampled (t_meta (c_trial c))) (pendings s ids)).
      { unfold pendings. apply in_flat_map. exists i. split.
        - apply listing_in. eapply nth_error_lt; eauto.
        - rewrite X, Y. simpl. auto. }
      rewrite O in Z. contradiction. }
    assert (G4 : goes (j3 + 1) s3 1 (step s3 k (xi (j3 + 1))) []) by (apply goes_step; intros; congruence).
    destruct (sync_all s3 (s_work s3 k) (listing (List.length (cells s3)) (in_order (xi (j3 + 1))))) as [w1 ts] eqn:SA.
    destruct (AO (s_rng s3) ts) as (cfg & r' & AK).
    set (i := List.length (cells s3)).
    set (t := trial_new (tid i) cfg "" None None (in_time (xi (j3 + 1))) (wname k)).
    assert (ST : step s3 k (xi (j3 + 1)) =
      with_worker (mkSys (cells s3 ++ [mkCell (s_next s3) t]) (s_budget s3) (s_errs s3) r' (S (s_next s3)) (s_work s3)) k
        (got (set_handle w1 i (mkH (s_next s3) t)) i)).
    { unfold Runtime_model.step. rewrite P3. unfold sample_step. rewrite SA, AK. reflexivity. }
    apply sync_all_synced in SA. destruct SA as (_ & SC & _).
    exists ((1 + List.length ids) + (1 + 1)), (step s3 k (xi (j3 + 1))), i, (mkCell (s_next s3) t), (mkH (s_next s3) t).
    split; [change (@nil nat) with (@nil nat ++ []); eapply goes_trans; eauto;
            change (@nil nat) with (@nil nat ++ []); eapply goes_trans; eauto|].
    rewrite ST.
    destruct Q03 as (QA & QB & QC & QD & QE).
    assert (LI : i = List.length (trials s)). { unfold i, trials. rewrite map_length, QA. reflexivity. }
    split; [simpl; auto|]. split; [simpl; auto|].
    split. { unfold same_counters in *. opn. intuition congruence. }
    split. { opn. reflexivity. }
    split. { assert (TE : trials (with_worker (mkSys (cells s3 ++ [mkCell (s_next s3) t]) (s_budget s3) (s_errs s3) r' (S (s_next s3)) (s_work s3)) k
        (got (set_handle w1 i (mkH (s_next s3) t)) i)) = trials s ++ [t]).
      { unfold trials. simpl. rewrite map_app, QA. reflexivity. }
      rewrite TE. split.
      - exists t. split; [|reflexivity]. rewrite LI. rewrite nth_error_app2, Nat.sub_diag by lia. reflexivity.
      - right. split; auto. split; auto. exists cfg, (in_time (xi (j3 + 1))). reflexivity. }
    split. { simpl. rewrite nth_error_app2 by (unfold i; lia). unfold i. rewrite Nat.sub_diag. reflexivity. }
    split; [opn; reflexivity|]. split; reflexivity.
Qed.

Lemma map_set_nth : forall A B (f : A -> B) l i x, map f (set_nth l i x) = set_nth (map f l) i (f x).
Proof. induction l; destruct i; simpl; intros; f_equal; auto. Qed.

Lemma set_nth_twice : forall A (l : list A) i x y, set_nth (set_nth l i x) i y = set_nth l i y.
Proof. induction l; destruct i; simpl; intros; f_equal; auto. Qed.

(** ** Evaluating and reporting *)
Definition entry_of (i : nat) (r : report) (x : input R) : list errent :=
  match r_err r with Some _ => [err_entry tid wname k i r (in_errtype x)] | None => [] end.

Definition after_eval (w : worker) (dur : fl) (r : report) (w' : worker) : Prop :=
  w_pc w' = PStart /\ w_count w' = (w_count w + 1)%Z /\
  w_cost w' = match r_cost r with Some c => fl_add (w_cost w) c | None => w_cost w end /\
  w_time w' = fl_add (w_time w) dur /\
  w_err w' = match r_err r with Some e => Some e | None => w_err w end /\ w_global w' = false.

Lemma evaluate_solo : forall s j i c h, inv s ->
  w_pc (s_work s k) = PClaim i -> nth_error (cells s) i = Some c ->
  w_cache (s_work s k) i = Some h -> h_ver h = c_ver c -> h_trial h = c_trial c ->
  w_global (s_work s k) = false ->
  (forall j t, exists t' r, evaluate_trial pyfloat t (in_out (xi j)) (in_tb (xi j)) (drv (conf k))
     (in_duration (xi j)) (in_time (xi j)) = Ok (t', r)) ->
  exists m s' j1 t r x', goes j s m s' [i] /\
    evaluate_trial pyfloat (set_evaluating (c_trial c) (in_time (xi j)) (wname k)) (in_out (xi j1))
      (in_tb (xi j1)) (drv (conf k)) (in_duration (xi j1)) (in_time (xi j1)) = Ok (t, r) /\
    trials s' = set_nth (trials s) i (attach_report t r) /\
    s_budget s' = charge (s_budget s) r /\ s_errs s' = s_errs s ++ entry_of i r x' /\
    s_rng s' = s_rng s /\
    after_eval (s_work s k) (in_duration (xi j1)) r (s_work s' k).
Proof.
  intros s j i c h I P C H V T W EO.
  assert (L := nth_error_lt _ _ _ _ C).
  set (t0 := set_evaluating (c_trial c) (in_time (xi j)) (wname k)).
  (* claim *)
  assert (G : goes j s 1 (step s k (xi j)) []) by (apply goes_step; intros; congruence).
  assert (S1 : step s k (xi j) = with_worker (put_cells s i t0) k
     (let w := s_work s k in mkWorker (PEval i) (upd (w_cache w) i (Some (mkH (s_next s) t0))) (w_count w) (w_cost w)
            (w_time w) (w_err w) (w_nget w) (Some 0%Z) (w_global w))).
  { unfold Runtime_model.step. rewrite P. unfold claim_step. rewrite H. unfold put_trial.
    rewrite H, C, V, Nat.eqb_refl. rewrite T. reflexivity. }
  set (s1 := step s k (xi j)) in *.
  assert (P1 : w_pc (s_work s1 k) = PEval i) by (rewrite S1; opn; reflexivity).
  assert (H1 : w_cache (s_work s1 k) i = Some (mkH (s_next s) t0)) by (rewrite S1; opn; reflexivity).
  assert (C1 : nth_error (cells s1) i = Some (mkCell (s_next s) t0)).
  { rewrite S1. simpl. apply nth_error_set_nth_eq; auto. }
  assert (K1 : w_count (s_work s1 k) = w_count (s_work s k) /\ w_cost (s_work s1 k) = w_cost (s_work s k) /\
    w_time (s_work s1 k) = w_time (s_work s k) /\ w_err (s_work s1 k) = w_err (s_work s k) /\
    w_global (s_work s1 k) = false).
  { rewrite S1. opn. auto. }
  assert (T1 : trials s1 = set_nth (trials s) i t0).
  { rewrite S1. unfold trials. simpl. rewrite map_set_nth. reflexivity. }
  assert (B1 : s_budget s1 = s_budget s /\ s_errs s1 = s_errs s /\ s_rng s1 = s_rng s) by (rewrite S1; auto).
  clearbody s1. clear S1.
  (* evaluate *)
  assert (G1 : goes (j + 1) s1 1 (step s1 k (xi (j + 1))) [i]) by (apply goes_eval; auto).
  destruct (EO (j + 1) t0) as (t & r & EV).
  assert (S2 : step s1 k (xi (j + 1)) = with_worker s1 k (let w := s_work s1 k in
       (mkWorker (PReport i r) (upd (w_cache w) i (Some (mkH (s_next s) t)))
               (w_count w + 1)
               (match r_cost r with Some c => fl_add (w_cost w) c | None => w_cost w end)
               (fl_add (w_time w) (in_duration (xi (j + 1))))
               (match r_err r with Some e => Some e | None => w_err w end)
               (w_nget w) (w_nset w) false))).
  { unfold Runtime_model.step. rewrite P1. unfold eval_step. rewrite H1.
    destruct K1 as (_ & _ & _ & _ & ->). simpl h_trial. rewrite EV. reflexivity. }
  set (s2 := step s1 k (xi (j + 1))) in *.
  assert (P2 : w_pc (s_work s2 k) = PReport i r) by (rewrite S2; opn; reflexivity).
  assert (H2 : w_cache (s_work s2 k) i = Some (mkH (s_next s) t)) by (rewrite S2; opn; reflexivity).
  assert (C2 : cells s2 = cells s1) by (rewrite S2; reflexivity).
  assert (K2 : w_count (s_work s2 k) = (w_count (s_work s k) + 1)%Z /\
    w_cost (s_work s2 k) = match r_cost r with Some c => fl_add (w_cost (s_work s k)) c | None => w_cost (s_work s k) end /\
    w_time (s_work s2 k) = fl_add (w_time (s_work s k)) (in_duration (xi (j + 1))) /\
    w_err (s_work s2 k) = match r_err r with Some e => Some e | None => w_err (s_work s k) end /\
    w_global (s_work s2 k) = false).
  { destruct K1 as (-> & -> & -> & -> & _) || idtac. rewrite S2.
    destruct K1 as (E1 & E2 & E3 & E4 & E5). opn. rewrite E1, E2, E3, E4. auto. }
  assert (B2 : s_budget s2 = s_budget s /\ s_errs s2 = s_errs s /\ s_rng s2 = s_rng s) by (rewrite S2; auto).
  clearbody s2. clear S2.
  (* report *)
  assert (G2 : goes (j + 2) s2 1 (step s2 k (xi (j + 2))) []) by (apply goes_step; intros; congruence).
  assert (S3 : step s2 k (xi (j + 2)) = with_worker (put_cells s2 i (attach_report t r)) k
     (set_pc (set_handle (s_work s2 k) i (mkH (s_next s2) (attach_report t r))) (PAccount i r))).
  { unfold Runtime_model.step. rewrite P2. unfold report_step. rewrite H2. unfold put_trial.
    rewrite H2, C2, C1. simpl h_ver. simpl c_ver. rewrite Nat.eqb_refl. simpl h_trial. unfold put_cells. rewrite C2. reflexivity. }
  set (s3 := step s2 k (xi (j + 2))) in *.
  assert (P3 : w_pc (s_work s3 k) = PAccount i r) by (rewrite S3; opn; reflexivity).
  assert (K3 : w_count (s_work s3 k) = w_count (s_work s2 k) /\ w_cost (s_work s3 k) = w_cost (s_work s2 k) /\
    w_time (s_work s3 k) = w_time (s_work s2 k) /\ w_err (s_work s3 k) = w_err (s_work s2 k) /\
    w_global (s_work s3 k) = w_global (s_work s2 k)) by (rewrite S3; opn; auto).
  assert (T3 : trials s3 = set_nth (trials s) i (attach_report t r)).
  { rewrite S3. unfold trials. simpl. rewrite map_set_nth. rewrite C2. fold (trials s1). rewrite T1.
    simpl. apply set_nth_twice. }
  assert (B3 : s_budget s3 = s_budget s /\ s_errs s3 = s_errs s /\ s_rng s3 = s_rng s) by (rewrite S3; auto).
  clearbody s3. clear S3.
  (* account *)
  assert (G3 : goes (j + 3) s3 1 (step s3 k (xi (j + 3))) []) by (apply goes_step; intros; congruence).
  set (s4 := step s3 k (xi (j + 3))) in *.
  assert (S4 : s4 = account_step s3 k (s_work s3 k) i r).
  { subst s4. unfold Runtime_model.step. rewrite P3. reflexivity. }
  assert (K4 : w_count (s_work s4 k) = w_count (s_work s3 k) /\ w_cost (s_work s4 k) = w_cost (s_work s3 k) /\
    w_time (s_work s4 k) = w_time (s_work s3 k) /\ w_err (s_work s4 k) = w_err (s_work s3 k) /\
    w_global (s_work s4 k) = w_global (s_work s3 k) /\
    w_pc (s_work s4 k) = match r_err r with Some _ => PErrDump i r | None => PStart end)
    by (rewrite S4; unfold account_step; opn; intuition).
  assert (T4 : trials s4 = trials s3) by (rewrite S4; reflexivity).
  assert (B4 : s_budget s4 = charge (s_budget s) r /\ s_errs s4 = s_errs s /\ s_rng s4 = s_rng s).
  { rewrite S4. simpl. destruct B3 as (-> & -> & ->). auto. }
  clearbody s4. clear S4.
  assert (G04 : goes j s 4 s4 [i]).
  { assert (X : goes j s (1 + 1) s2 ([] ++ [i])) by (eapply goes_trans; eauto).
    assert (Y : goes j s (2 + 1) s3 ([i] ++ [])) by (eapply goes_trans; eauto).
    exact (goes_trans _ _ _ _ _ 1 _ _ Y G3). }
  destruct (r_err r) as [er|] eqn:ER.
  - assert (P4 : w_pc (s_work s4 k) = PErrDump i r) by tauto.
    assert (G4 : goes (j + 4) s4 1 (step s4 k (xi (j + 4))) []) by (apply goes_step; intros; congruence).
    exists (4 + 1), (step s4 k (xi (j + 4))), (j + 1), t, r, (xi (j + 4)).
    assert (S5 : step s4 k (xi (j + 4)) = errdump_step tid wname s4 k (s_work s4 k) i r (xi (j + 4))).
    { unfold Runtime_model.step. rewrite P4. reflexivity. }
    split; [exact (goes_trans _ _ _ _ _ 1 _ _ G04 G4)|].
    rewrite S5. split; [exact EV|]. unfold errdump_step, entry_of. rewrite ER.
    assert (TT : trials (with_worker
        (mkSys (cells s4) (s_budget s4) (s_errs s4 ++ [err_entry tid wname k i r (in_errtype (xi (j + 4)))])
           (s_rng s4) (s_next s4) (s_work s4)) k (set_pc (s_work s4 k) PStart)) = trials s4) by reflexivity.
    rewrite TT, T4, T3. split; auto. unfold after_eval. opn. rewrite ER. intuition congruence.
  - exists 4, s4, (j + 1), t, r, (xi j). split; auto. split; auto. split; [congruence|].
    unfold entry_of, after_eval. rewrite ER, app_nil_r. intuition congruence.
Qed.

(** ** One iteration *)
Definition iterated s s' (i : nat) (r : report) : Prop :=
  exists base t0 t tm x x' , offers (trials s) base i /\ nth_error base i = Some t0 /\
    evaluate_trial pyfloat (set_evaluating t0 tm (wname k)) (in_out x) (in_tb x) (drv (conf k))
      (in_duration x) (in_time x) = Ok (t, r) /\ (exists j, x = xi j) /\
    trials s' = set_nth base i (attach_report t r) /\
    s_budget s' = charge (s_budget s) r /\ s_errs s' = s_errs s ++ entry_of i r x' /\
    after_eval (s_work s k) (in_duration x) r (s_work s' k).

Theorem iteration_solo : forall s j, inv s ->
  (forall r ts, exists c r', ask r ts = Ok (c, r')) ->
  (forall j t, exists t' r, evaluate_trial pyfloat t (in_out (xi j)) (in_tb (xi j)) (drv (conf k))
     (in_duration (xi j)) (in_time (xi j)) = Ok (t', r)) ->
  w_pc (s_work s k) = PStart -> w_global (s_work s k) = false ->
  exists m s',
    match the_check s (xi j) with
    | VStop => goes j s m s' [] /\ quietly s s' /\ w_pc (s_work s' k) = PStopped
    | VRaise e => goes j s m s' [] /\ quietly s s' /\ w_pc (s_work s' k) = PRaised e
    | VGo => exists i r, goes j s m s' [i] /\ iterated s s' i r
    end.
Proof.
  intros s j I AO EO P W.
  destruct (check_solo s j I P) as (m1 & s1 & G1 & Q1 & P1).
  destruct (the_check s (xi j)); simpl in P1; [exists m1, s1; auto|exists m1, s1; auto|].
  assert (I1 := inv_goes _ _ _ _ _ I G1).
  destruct (get_solo s1 (j + m1) I1 AO P1) as (m2 & s2 & i & c & h & G2 & B2 & E2 & K2 & P2 & O2 & C2 & H2 & V2 & T2).
  assert (I2 := inv_goes _ _ _ _ _ I1 G2).
  destruct (evaluate_solo s2 (j + m1 + m2) i c h I2 P2 C2 H2 V2 T2) as
    (m3 & s3 & j1 & t & r & x' & G3 & EV & TR & BU & ER & RN & AE); auto.
  { unfold same_counters in K2. destruct Q1 as (_ & _ & _ & _ & Q1). unfold same_counters in Q1. intuition congruence. }
  exists (m1 + (m2 + m3)), s3, i, r. split.
  - change [i] with ([] ++ ([] ++ [i])). eapply goes_trans; eauto. eapply goes_trans; eauto.
  - destruct Q1 as (QA & QB & QC & QD & QE).
    assert (TS : trials s1 = trials s) by (unfold trials; now rewrite QA).
    exists (trials s2), (c_trial c), t, (in_time (xi (j + m1 + m2))), (xi j1), x'.
    split; [rewrite <- TS; auto|]. split; [unfold trials; apply map_nth_error; auto|].
    split; auto. split; [eauto|]. split; auto.
    split; [congruence|]. split; [congruence|].
    unfold after_eval, same_counters in *.
    destruct K2 as (K1 & K2 & K3 & K4 & _ & K5). destruct QE as (L1 & L2 & L3 & L4 & _ & L5).
    rewrite K1, K2, K3, K4, L1, L2, L3, L4 in AE. exact AE.
Qed.

End Solo.
