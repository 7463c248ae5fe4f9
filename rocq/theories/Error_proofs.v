(** What an error in an evaluation does to its worker and to the others. *)
From Verif Require Import Py Trial_model Eval_model Init_model Runtime_model Runtime_spec
  Runtime_proofs Claim_proofs Once_proofs Each_proofs Share_proofs Limit_spec Limit_proofs.

Section Error.
Context {R : Type}.
Variable pyfloat : pyval -> res fl.
Variable tid wname : nat -> string.
Variable conf : nat -> worker_settings.
Variable ask : R -> list trial -> res (dict * R).
Notation do_event := (do_event pyfloat tid wname conf ask).
Notation run := (run pyfloat tid wname conf ask).
Notation step := (step pyfloat tid wname conf ask).
Notation effect := (effect pyfloat tid wname conf ask).
Notation evaluated_by := (evaluated_by pyfloat tid wname conf ask).
Implicit Types s : sys R.
Implicit Types e : event R.

Ltac opn := do 2 (unfold upd in *; rewrite ?Nat.eqb_refl in *; simpl in *); unfold upd in *; rewrite ?Nat.eqb_refl in *.

Definition logged s k m : Prop := exists x, In x (s_errs s) /\ e_worker x = wname k /\ e_text x = m.

(** where a worker that saw an error can be *)
Definition seen_error s k m : Prop :=
  (exists i r, r_err r = Some m /\ (w_pc (s_work s k) = PReport i r \/
      w_pc (s_work s k) = PAccount i r \/ w_pc (s_work s k) = PErrDump i r)) \/
  logged s k m /\ (w_pc (s_work s k) = PStart \/ w_pc (s_work s k) = PStopped \/
                   w_pc (s_work s k) = PRaised WorkerRaiseError) \/
  w_pc (s_work s k) = PRaised VersionMismatchError \/ w_pc (s_work s k) = PRaised TrialNotFoundError.

Definition err_inv s : Prop := forall k m,
  on_error (conf k) <> IGNORE -> w_err (s_work s k) = Some m -> seen_error s k m.

Lemma logged_mono : forall s s' k m l, s_errs s' = s_errs s ++ l -> logged s k m -> logged s' k m.
Proof. intros s s' k m l E (x & I & X). exists x. rewrite E. split; auto. apply in_or_app. auto. Qed.

Lemma errs_grow : forall s e s', effect s e s' -> exists l, s_errs s' = s_errs s ++ l.
Proof.
  intros s e s' E. inversion E; subst; simpl; try (exists []; now rewrite app_nil_r). eauto.
Qed.

Lemma own_error_check : forall st m count cost time elapsed, on_error st <> IGNORE ->
  check_local st (Some m) count cost time elapsed = if raising (on_error st) then VRaise WorkerRaiseError else VStop.
Proof. intros. unfold check_local. destruct (on_error st); simpl; auto; congruence. Qed.

Lemma err_inv_event : forall s e, err_inv s -> err_inv (do_event s e).
Proof.
  intros s e J k m NI W. assert (E := event_effect pyfloat tid wname conf ask s e).
  destruct (errs_grow _ _ _ E) as (l & G).
  destruct (Nat.eq_dec k (actor e)) as [A|N].
  2:{ assert (O := others_untouched _ _ _ _ _ _ _ _ _ E N). unfold seen_error. rewrite O in *.
      destruct (J k m NI W) as [X|[[X Y]|X]]; auto. right. left. split; auto. eapply logged_mono; eauto. }
  destruct e as [k0 x|k0 x|k0 b]; simpl in A; subst k0.
  - simpl in *.
    destruct (w_pc (s_work s k)) as [| |todo seen| |todo seen|j| |j|j|j r|j r|j r| |ex] eqn:P.
    + (* start *) destruct (w_err (s_work s k)) as [m0|] eqn:WE.
      * assert (H := J k m0 NI WE). assert (LG : logged s k m0).
        { destruct H as [(i & r & _ & [X|[X|X]])|[[X _]|[X|X]]]; auto; congruence. }
        revert W. unfold Runtime_model.step. rewrite P. unfold apply_verdict. rewrite WE.
        rewrite own_error_check by auto.
        destruct (raising (on_error (conf k))); opn; intro W; rewrite WE in W; injection W as ->;
          right; left; (split; [exact LG|]); opn; auto.
      * exfalso. revert W. unfold Runtime_model.step. rewrite P. unfold apply_verdict, enter_totals.
        destruct (check_local _ _ _ _ _ _); [| |destruct (any_error _); [|destruct (no_total_limit _)]]; opn; congruence.
    + exfalso. assert (WE : w_err (s_work s k) = Some m).
      { revert W. unfold Runtime_model.step. rewrite P. unfold apply_verdict, enter_totals.
        destruct (check_errors _ _); [| |destruct (no_total_limit _)]; opn; auto. }
      destruct (J k m NI WE) as [(i & r & _ & [X|[X|X]])|[[_ [X|[X|X]]]|[X|X]]]; congruence.
    + exfalso. assert (WE : w_err (s_work s k) = Some m).
      { revert W. unfold Runtime_model.step. rewrite P. destruct todo as [|i todo].
        - unfold apply_verdict. destruct (check_totals _ _); opn; auto.
        - unfold sync_one. destruct (nth_error (cells s) i); opn; auto. }
      destruct (J k m NI WE) as [(i & r & _ & [X|[X|X]])|[[_ [X|[X|X]]]|[X|X]]]; congruence.
    + exfalso. assert (WE : w_err (s_work s k) = Some m).
      { revert W. unfold Runtime_model.step. rewrite P. opn. auto. }
      destruct (J k m NI WE) as [(i & r & _ & [X|[X|X]])|[[_ [X|[X|X]]]|[X|X]]]; congruence.
    + exfalso. assert (WE : w_err (s_work s k) = Some m).
      { revert W. unfold Runtime_model.step. rewrite P. destruct todo as [|i todo].
        - destruct (oldest seen) as [[? ?]|]; opn; auto.
        - unfold sync_one, get_failed. destruct (nth_error (cells s) i); [|destruct (Z.geb _ _)]; opn; auto. }
      destruct (J k m NI WE) as [(i & r & _ & [X|[X|X]])|[[_ [X|[X|X]]]|[X|X]]]; congruence.
    + exfalso. assert (WE : w_err (s_work s k) = Some m).
      { revert W. unfold Runtime_model.step. rewrite P.
        unfold sync_one, get_failed. destruct (nth_error (cells s) j); [|destruct (Z.geb _ _)]; opn; auto. }
      destruct (J k m NI WE) as [(i & r & _ & [X|[X|X]])|[[_ [X|[X|X]]]|[X|X]]]; congruence.
    + exfalso. assert (WE : w_err (s_work s k) = Some m).
      { revert W. unfold Runtime_model.step. rewrite P. unfold sample_step.
        destruct (sync_all _ _ _) as [w1 ts] eqn:SA. apply sync_all_synced in SA.
        destruct SA as (_ & (_ & _ & _ & SE & _) & _).
        unfold get_failed. destruct (ask (s_rng s) ts) as [[? ?]|]; [|destruct (Z.geb _ _)]; opn; congruence. }
      destruct (J k m NI WE) as [(i & r & _ & [X|[X|X]])|[[_ [X|[X|X]]]|[X|X]]]; congruence.
    + exfalso. assert (WE : w_err (s_work s k) = Some m).
      { revert W. unfold Runtime_model.step. rewrite P. unfold claim_step.
        destruct (w_cache (s_work s k) j) as [h|] eqn:H; [|opn; auto].
        unfold put_trial. rewrite H. destruct (nth_error (cells s) j); [destruct (Nat.eqb _ _)|]; simpl; opn; auto;
        destruct (w_nset (s_work s k)); opn; auto. }
      destruct (J k m NI WE) as [(i & r & _ & [X|[X|X]])|[[_ [X|[X|X]]]|[X|X]]]; congruence.
    + (* eval *)
      assert (WN : w_err (s_work s k) = None).
      { destruct (w_err (s_work s k)) as [m0|] eqn:WE; auto. exfalso.
        destruct (J k m0 NI WE) as [(i & r & _ & [X|[X|X]])|[[_ [X|[X|X]]]|[X|X]]]; congruence. }
      revert W. unfold seen_error, Runtime_model.step. rewrite P. unfold eval_step.
      destruct (w_cache (s_work s k) j) as [h|] eqn:H; [|opn; congruence].
      destruct (w_global (s_work s k)); [opn; congruence|].
      destruct (evaluate_trial _ _ _ _ _ _ _) as [[t r]|ex]; [|opn; congruence].
      opn. rewrite WN. destruct (r_err r) as [m0|] eqn:RE; [|discriminate]. intro X. injection X as ->.
      left. exists j, r. auto.
    + (* report *)
      assert (WE : w_err (s_work s k) = Some m).
      { revert W. unfold Runtime_model.step. rewrite P. unfold report_step.
        destruct (w_cache (s_work s k) j) as [h|] eqn:H; [|opn; auto].
        unfold put_trial. rewrite H. destruct (nth_error (cells s) j); [destruct (Nat.eqb _ _)|]; simpl; opn; auto. }
      assert (RE : r_err r = Some m).
      { destruct (J k m NI WE) as [(i & r' & R1 & [X|[X|X]])|[[_ [X|[X|X]]]|[X|X]]]; congruence. }
      unfold seen_error, Runtime_model.step. rewrite P. unfold report_step.
      destruct (w_cache (s_work s k) j) as [h|] eqn:H; [|opn; auto].
      unfold put_trial. rewrite H. destruct (nth_error (cells s) j); [destruct (Nat.eqb _ _)|]; simpl; opn; auto.
      left. exists j, r. auto.
    + (* account *)
      assert (WE : w_err (s_work s k) = Some m).
      { revert W. unfold Runtime_model.step. rewrite P. unfold account_step. opn. auto. }
      assert (RE : r_err r = Some m).
      { destruct (J k m NI WE) as [(i & r' & R1 & [X|[X|X]])|[[_ [X|[X|X]]]|[X|X]]]; congruence. }
      left. exists j, r. split; auto. unfold Runtime_model.step. rewrite P. unfold account_step. opn. rewrite RE. auto.
    + (* dump *)
      assert (WE : w_err (s_work s k) = Some m).
      { revert W. unfold Runtime_model.step. rewrite P. unfold errdump_step. opn. auto. }
      assert (RE : r_err r = Some m).
      { destruct (J k m NI WE) as [(i & r' & R1 & [X|[X|X]])|[[_ [X|[X|X]]]|[X|X]]]; congruence. }
      right. left. unfold logged, Runtime_model.step. rewrite P. unfold errdump_step. opn. split; auto.
      eexists. split; [apply in_or_app; right; left; reflexivity|]. simpl. rewrite RE. auto.
    + unfold Runtime_model.step in *. rewrite P in *. auto.
    + unfold Runtime_model.step in *. rewrite P in *. auto.
  - simpl in *. destruct (w_pc (s_work s k)) eqn:P; try (apply J; auto; fail).
    exfalso. assert (WE : w_err (s_work s k) = Some m).
    { revert W. unfold sample_step. destruct (sync_all _ _ _) as [w1 ts] eqn:SA. apply sync_all_synced in SA.
      destruct SA as (_ & (_ & _ & _ & SE & _) & _). destruct (ask (s_rng s) ts) as [[? ?]|]; opn; congruence. }
    destruct (J k m NI WE) as [(i & r & _ & [X|[X|X]])|[[_ [X|[X|X]]]|[X|X]]]; congruence.
  - simpl in W. opn. discriminate.
Qed.

Lemma err_inv_run : forall es s, err_inv s -> err_inv (run s es).
Proof.
  induction es as [|e es IH]; intros s J; auto. rewrite (run_cons _ _ _ _ _ s e es). apply IH. apply err_inv_event. auto.
Qed.

Lemma err_inv_start : forall cs b errs (r : R) n, err_inv (start cs b errs r n).
Proof. intros cs b errs r n k m _ W. simpl in W. discriminate. Qed.

(** once seen, never forgotten, unless the worker is started anew *)
Lemma w_err_kept : forall s e k m, on_error (conf k) <> IGNORE -> err_inv s ->
  (forall b, e <> Restart k b) -> w_err (s_work s k) = Some m ->
  w_err (s_work (do_event s e) k) = Some m.
Proof.
  intros s e k m NI J NR W. assert (E := event_effect pyfloat tid wname conf ask s e).
  assert (NE : forall i, w_pc (s_work s k) <> PEval i).
  { intros i X. destruct (J k m NI W) as [(j & r & _ & [Y|[Y|Y]])|[[_ [Y|[Y|Y]]]|[Y|Y]]]; congruence. }
  destruct (Nat.eq_dec k (actor e)) as [A|N].
  2:{ now rewrite (others_untouched _ _ _ _ _ _ _ _ _ E N). }
  revert E. generalize (do_event s e). intros s' E. inversion E; subst; cbn [actor] in *; subst; opn; auto;
    try (unfold same_counters in *; intuition congruence; fail);
    try (exfalso; eapply NE; eauto; fail).
  - apply sync_all_synced in H0. destruct H0 as (_ & (_ & _ & _ & SE & _) & _). congruence.
  - exfalso. eapply NR. reflexivity.
Qed.

Lemma no_more_evaluations : forall es s k m, on_error (conf k) <> IGNORE -> err_inv s ->
  (forall b, ~ In (Restart k b) es) -> w_err (s_work s k) = Some m ->
  w_err (s_work (run s es) k) = Some m /\ forall i, ~ In (k, i) (evaluated_by s es).
Proof.
  induction es as [|e es IH]; intros s k m NI J NR W.
  - split; auto.
  - rewrite (run_cons _ _ _ _ _ s e es). unfold Runtime_spec.evaluated_by. simpl.
    destruct (IH (do_event s e) k m NI) as [A B].
    + apply err_inv_event; auto.
    + intros b X. eapply NR. right. eauto.
    + apply w_err_kept; auto. intros b X. apply (NR b). left. auto.
    + split; auto. intros i X. apply in_app_or in X. destruct X as [X|X]; [|eapply B; eauto].
      unfold see_evaluation_by, at_pc in X. destruct e as [k0 x|k0 x|k0 b]; simpl in X; auto.
      destruct (w_pc (s_work s k0)) eqn:P; simpl in X; auto. destruct X as [X|[]]. injection X as -> ->.
      destruct (J k m NI W) as [(j & r & _ & [Y|[Y|Y]])|[[_ [Y|[Y|Y]]]|[Y|Y]]]; congruence.
Qed.

Lemma others_raise : forall s k x1 x2 es,
  on_error (conf k) = RAISE_ANY_ERROR -> s_errs s <> [] -> w_pc (s_work s k) = PStart ->
  (forall e, In e es -> actor e <> k) ->
  let w := s_work s k in
  let s1 := step s k x1 in
  let s2 := step (run s1 es) k x2 in
  w_pc (s_work s1 k) = PRaised WorkerRaiseError \/
  w_pc (s_work s1 k) = PStopped /\
    own_limit (conf k) (w_count w) (w_cost w) (w_time w) (in_elapsed x1) \/
  w_pc (s_work s1 k) = PErrs /\ w_pc (s_work s2 k) = PRaised WorkerRaiseError.
Proof.
  intros s k x1 x2 es RA NE P AC w s1 s2.
  assert (L := check_local_spec (conf k) (w_err w) (w_count w) (w_cost w) (w_time w) (in_elapsed x1)).
  fold w in P. subst s2. subst s1. unfold Runtime_model.step at 1 2 3. fold w. rewrite P.
  destruct (check_local (conf k) (w_err w) (w_count w) (w_cost w) (w_time w) (in_elapsed x1)) eqn:CL.
  - right. left. opn. split; auto. destruct L as [[_ [X|X]]|[_ X]]; auto; congruence.
  - left. destruct L as (-> & _). opn. reflexivity.
  - right. right. unfold apply_verdict. rewrite RA. simpl any_error. cbv iota.
    set (s1 := with_worker s k (set_pc w PErrs)).
    split; [subst s1; opn; reflexivity|].
    assert (SW : step s k x1 = s1).
    { unfold Runtime_model.step. fold w. rewrite P, CL. unfold apply_verdict. rewrite RA. reflexivity. }
    rewrite SW. clear SW.
    assert (O : s_work (run s1 es) k = s_work s1 k) by (apply others_run; auto).
    assert (G : s_errs (run s1 es) <> []).
    { rewrite (errs_run pyfloat tid wname conf ask es s1). subst s1. simpl. destruct (s_errs s); [congruence|discriminate]. }
    unfold Runtime_model.step. rewrite O. subst s1. opn.
    unfold check_errors. rewrite RA. simpl any_error. cbv iota.
    destruct (s_errs (run _ es)); [congruence|]. opn. reflexivity.
Qed.

End Error.
