(** Each worker evaluates a trial at most once, under every schedule. *)
From Verif Require Import Py Trial_model Eval_model Init_model Runtime_model Runtime_spec
  Runtime_proofs Claim_proofs Once_proofs.

Lemma oldest_in : forall l i t, oldest l = Some (i, t) -> In i (map fst l).
Proof.
  induction l as [|[j u] l IH]; simpl; intros i t H; [discriminate|].
  destruct (oldest l) as [[j' u']|] eqn:O.
  - destruct (fl_ltb u' u); injection H as <- <-; eauto.
  - injection H as <- <-. auto.
Qed.

Section Each.
Context {R : Type}.
Variable pyfloat : pyval -> res fl.
Variable tid wname : nat -> string.
Variable conf : nat -> worker_settings.
Variable ask : R -> list trial -> res (dict * R).
Notation do_event := (do_event pyfloat tid wname conf ask).
Notation run := (run pyfloat tid wname conf ask).
Notation step := (step pyfloat tid wname conf ask).
Notation effect := (effect pyfloat tid wname conf ask).
Notation evaluated_by := (evaluated_by pyfloat tid wname conf ask).
Implicit Types s : sys R.
Implicit Types e : event R.

Definition taken s i : Prop :=
  exists c, nth_error (cells s) i = Some c /\ t_state (c_trial c) <> PENDING.

Definition aims (p : wpc) (i : nat) : Prop :=
  match p with
  | PPend _ seen => In i (map fst seen)
  | PRefetch j | PClaim j | PEval j => j = i
  | _ => False
  end.

Record each_inv s (evs : list (nat * nat)) : Prop := mkEach {
  e_ver : versions_ok s;
  e_fresh : fresh s;
  e_rep : forall k i r h, w_pc (s_work s k) = PReport i r -> w_cache (s_work s k) i = Some h ->
              t_state (h_trial h) = state_of_reported (r_reported_as r);
  e_busy : forall k i, w_pc (s_work s k) = PEval i -> taken s i;
  e_evs : forall k i, In (k, i) evs -> taken s i /\ ~ aims (w_pc (s_work s k)) i;
  e_nodup : NoDup evs }.

Ltac opn := do 2 (unfold upd in *; rewrite ?Nat.eqb_refl in *; simpl in *); unfold upd in *; rewrite ?Nat.eqb_refl in *.
Ltac at_actor k0 k := destruct (Nat.eqb k0 k) eqn:?Q;
  [apply Nat.eqb_eq in Q; subst k0|apply Nat.eqb_neq in Q].

Lemma taken_effect : forall s e s' i,
  (forall k i r h, w_pc (s_work s k) = PReport i r -> w_cache (s_work s k) i = Some h ->
              t_state (h_trial h) = state_of_reported (r_reported_as r)) ->
  effect s e s' -> taken s i -> taken s' i.
Proof.
  intros s e s' i RP E (c & C & P). unfold taken.
  inversion E; subst; simpl; eauto.
  - rewrite nth_error_app1 by (eapply nth_error_lt; eauto). eauto.
  - destruct (Nat.eq_dec i0 i) as [->|N].
    + rewrite nth_error_set_nth_eq by (eapply nth_error_lt; eauto). eexists. split; eauto.
      simpl. discriminate.
    + rewrite nth_error_set_nth_neq by auto. eauto.
  - destruct (Nat.eq_dec i0 i) as [->|N].
    + rewrite nth_error_set_nth_eq by (eapply nth_error_lt; eauto). eexists. split; eauto.
      simpl. rewrite (RP _ _ _ _ H H0). destruct (r_reported_as r); discriminate.
    + rewrite nth_error_set_nth_neq by auto. eauto.
  - rewrite nth_error_app1 by (eapply nth_error_lt; eauto). eauto.
Qed.

(** Where a worker's aims come from. *)
Lemma aims_from : forall s k x i,
  quiet_from (w_pc (s_work s k)) -> aims (w_pc (s_work (step s k x) k)) i ->
  aims (w_pc (s_work s k)) i \/
  exists c, nth_error (cells s) i = Some c /\
    t_state (h_trial (sync_handle (w_cache (s_work s k) i) c)) = PENDING \/
    w_pc (s_work s k) = PSample /\ i = List.length (cells s).
Proof.
  intros s k x i Q A. unfold Runtime_model.step in A.
  destruct (w_pc (s_work s k)) as [| |todo seen| |todo seen|j| |j|j|j r|j r|j r| |ex] eqn:P;
    simpl in Q; try contradiction.
  - exfalso. unfold apply_verdict, enter_totals in A.
    destruct (check_local _ _ _ _ _ _); opn; auto.
    destruct (any_error _); [|destruct (no_total_limit _)]; opn; auto.
  - exfalso. unfold apply_verdict, enter_totals in A.
    destruct (check_errors _ _); opn; auto.
    destruct (no_total_limit _); opn; auto.
  - exfalso. destruct todo as [|j todo].
    + unfold apply_verdict in A. destruct (check_totals _ _); opn; auto.
    + destruct (sync_one s (s_work s k) j) as [[w' t]|]; opn; auto.
  - exfalso. opn. auto.
  - destruct todo as [|j todo].
    + destruct (oldest seen) as [[j t]|] eqn:O; opn; [|contradiction].
      subst j. left. eapply oldest_in; eauto.
    + unfold sync_one in A. destruct (nth_error (cells s) j) as [c|] eqn:C.
      * opn. destruct (tstate_eqb _ _) eqn:T; [|auto].
        rewrite map_app in A. apply in_app_or in A. destruct A as [A|[A|[]]]; auto.
        simpl in A. subst j. right. exists c. left. split; auto.
        destruct (t_state _); simpl in T; try discriminate; auto.
      * exfalso. unfold get_failed in A. destruct (Z.geb _ _); opn; auto.
  - left. unfold sync_one in A. destruct (nth_error (cells s) j) as [c|] eqn:C; opn; auto.
    exfalso. unfold get_failed in A. destruct (Z.geb _ _); opn; auto.
  - unfold sample_step in A. destruct (sync_all _ _ _) as [w1 ts].
    destruct (ask (s_rng s) ts) as [[cfg r']|ex]; opn.
    + right. exists (mkCell 0 (trial_new "" [] "" None None FNaN "")). auto.
    + exfalso. unfold get_failed in A. destruct (Z.geb _ _); opn; auto.
Qed.

Lemma aims_actor : forall s e evs k i,
  each_inv s evs -> In (k, i) evs -> k = actor e ->
  aims (w_pc (s_work (do_event s e) k)) i -> False.
Proof.
  intros s e evs k i J I -> A. destruct (e_evs _ _ J _ _ I) as [(c & C & T) NA].
  destruct e as [k x|k x|k b]; simpl in *.
  - destruct (w_pc (s_work s k)) as [| |todo seen| |todo seen|j| |j|j|j r|j r|j r| |ex] eqn:P.
    1-7: assert (QF : quiet_from (w_pc (s_work s k))) by (rewrite P; exact Logic.I);
      destruct (aims_from s k x i QF A) as [B|(c' & [[C' B]|[B1 B2]])];
      [rewrite P in B; auto
      |rewrite C in C'; injection C' as <-;
       destruct (sync_handle_trial (w_cache (s_work s k) i) c) as [X|(h' & X1 & X2 & X3)];
       [congruence|];
       rewrite X3 in B; destruct (e_fresh _ _ J k i h' c) as [Y|(r & Y & _)]; auto; congruence
      |apply nth_error_lt in C; lia].
    + (* claim *) unfold Runtime_model.step in A. rewrite P in A. unfold claim_step in A.
      destruct (w_cache (s_work s k) j) as [h|] eqn:H; opn; auto.
      unfold put_trial in A. rewrite H in A.
      destruct (nth_error (cells s) j) as [c'|]; [destruct (Nat.eqb (h_ver h) (c_ver c'))|]; simpl in A; opn; auto.
      * destruct (w_nset (s_work s k)); opn; auto. destruct (Z.geb _ _); auto.
      * destruct (w_nset (s_work s k)); opn; auto. destruct (Z.geb _ _); auto.
    + unfold Runtime_model.step in A. rewrite P in A. unfold eval_step in A.
      destruct (w_cache (s_work s k) j) as [h|]; opn; auto.
      destruct (w_global (s_work s k)); opn; auto.
      destruct (evaluate_trial _ _ _ _ _ _ _) as [[t r]|ex]; opn; auto.
    + unfold Runtime_model.step in A. rewrite P in A. unfold report_step in A.
      destruct (w_cache (s_work s k) j) as [h|] eqn:H; opn; auto.
      unfold put_trial in A. rewrite H in A.
      destruct (nth_error (cells s) j) as [c'|]; [destruct (Nat.eqb (h_ver h) (c_ver c'))|]; simpl in A; opn; auto.
    + unfold Runtime_model.step in A. rewrite P in A. unfold account_step in A. opn.
      destruct (r_err r); auto.
    + unfold Runtime_model.step in A. rewrite P in A. unfold errdump_step in A. opn. auto.
    + unfold Runtime_model.step in A. rewrite P in A. rewrite P in A. auto.
    + unfold Runtime_model.step in A. rewrite P in A. rewrite P in A. auto.
  - destruct (w_pc (s_work s k)) eqn:P; try (rewrite P in A; auto; fail).
    unfold sample_step in A. destruct (sync_all _ _ _) as [w1 ts].
    destruct (ask (s_rng s) ts) as [[cfg r']|ex]; opn; auto.
  - opn. auto.
Qed.

Lemma each_effect : forall s e evs,
  each_inv s evs -> each_inv (do_event s e) (evs ++ see_evaluation_by s e (do_event s e)).
Proof.
  intros s e evs J. assert (E := event_effect pyfloat tid wname conf ask s e).
  assert (RP : forall k i r h, w_pc (s_work (do_event s e) k) = PReport i r ->
     w_cache (s_work (do_event s e) k) i = Some h ->
     t_state (h_trial h) = state_of_reported (r_reported_as r)).
  { intros k i r h P H. destruct (Nat.eq_dec k (actor e)) as [->|N].
    2:{ rewrite (others_untouched _ _ _ _ _ _ _ _ _ E N) in *. eapply (e_rep _ _ J); eauto. }
    revert P H. revert E. generalize (do_event s e). intros s' E. inversion E; subst; cbn [actor] in *; intros P HH; opn; try discriminate.
    - eapply (e_rep _ _ J); eauto.
    - destruct (w_pc w'); simpl in *; try contradiction; discriminate.
    - destruct (w_nset (s_work s k)); [destruct (Z.geb _ _)|]; congruence.
    - injection P as -> ->. rewrite Nat.eqb_refl in HH. injection HH as <-. simpl.
      apply evaluate_keeps_report in H2. tauto.
    - congruence.
    - destruct (r_err r0); discriminate.
    - congruence. }
  constructor; auto.
  - eapply versions_ok_effect; eauto. apply (e_ver _ _ J).
  - eapply fresh_effect; eauto; apply J.
  - intros k i P. destruct (Nat.eq_dec k (actor e)) as [->|N].
    2:{ rewrite (others_untouched _ _ _ _ _ _ _ _ _ E N) in P.
        eapply taken_effect; [|eauto|eapply (e_busy _ _ J); eauto]. apply (e_rep _ _ J). }
    assert (BS := e_busy _ _ J).
    revert P. revert E. generalize (do_event s e). intros s' E. inversion E; subst; cbn [actor] in *; intros P; opn; try discriminate.
    + eauto.
    + destruct (w_pc w'); simpl in *; try contradiction; discriminate.
    + injection P as ->. unfold taken. simpl.
      rewrite nth_error_set_nth_eq by (eapply nth_error_lt; eauto). eexists. split; eauto. discriminate.
    + destruct (w_nset (s_work s k)); [destruct (Z.geb _ _)|]; congruence.
    + congruence.
    + destruct (r_err r); discriminate.
    + congruence.
  - intros k i I.
    assert (T : forall i, taken s i -> taken (do_event s e) i).
    { intros i0. apply taken_effect with (e := e); auto. apply (e_rep _ _ J). }
    apply in_app_or in I. destruct I as [I|I].
    + split; [apply T; apply (e_evs _ _ J k i I)|].
      intro A. destruct (Nat.eq_dec k (actor e)) as [Q|N].
      * eapply aims_actor; eauto.
      * rewrite (others_untouched _ _ _ _ _ _ _ _ _ E N) in A. apply (e_evs _ _ J k i I). auto.
    + unfold see_evaluation_by, at_pc in I. destruct e as [k' x|k' x|k' b]; simpl in I; try contradiction.
      destruct (w_pc (s_work s k')) eqn:P; simpl in I; try contradiction. destruct I as [I|[]].
      injection I as -> ->. split; [apply T; eapply (e_busy _ _ J); eauto|].
      simpl. unfold Runtime_model.step. rewrite P. unfold eval_step. intro A.
      destruct (w_cache (s_work s k) i) as [h|]; opn; auto.
      destruct (w_global (s_work s k)); opn; auto.
      destruct (evaluate_trial _ _ _ _ _ _ _) as [[t r]|ex]; opn; auto.
  - unfold see_evaluation_by, at_pc. destruct e as [k' x|k' x|k' b]; simpl; try (rewrite app_nil_r; apply J).
    destruct (w_pc (s_work s k')) eqn:P; simpl; try (rewrite app_nil_r; apply J).
    apply NoDup_app_cons; [apply J|]. intro I. apply (e_evs _ _ J) in I. rewrite P in I. simpl in I. tauto.
Qed.

Lemma each_run : forall es s evs,
  each_inv s evs -> each_inv (run s es) (evs ++ evaluated_by s es).
Proof.
  induction es as [|e es IH]; intros s evs J; simpl.
  - rewrite app_nil_r. auto.
  - unfold Runtime_spec.evaluated_by. simpl. rewrite app_assoc.
    change (each_inv (run (do_event s e) es)
      ((evs ++ see_evaluation_by s e (do_event s e)) ++ evaluated_by (do_event s e) es)).
    apply IH. apply each_effect; auto.
Qed.

Lemma each_start : forall cs b errs r n, good_cells cs n -> each_inv (start cs b errs r n) [].
Proof.
  intros cs b errs r n G. constructor; simpl; try (intros; discriminate); try contradiction.
  - split; simpl; [|discriminate]. intros i c C. apply nth_error_In in C. apply G in C. tauto.
  - constructor.
Qed.

End Each.
