(** Competing claims, cost and error accounting, reproducible sampling. *)
From Verif Require Import Py Trial_model Eval_model Init_model Runtime_model Runtime_spec
  Runtime_proofs Claim_proofs.
From Coq Require Import Permutation.

Section Share.
Context {R : Type}.
Variable pyfloat : pyval -> res fl.
Variable tid wname : nat -> string.
Variable conf : nat -> worker_settings.
Variable ask : R -> list trial -> res (dict * R).
Notation do_event := (do_event pyfloat tid wname conf ask).
Notation run := (run pyfloat tid wname conf ask).
Notation step := (step pyfloat tid wname conf ask).
Notation effect := (effect pyfloat tid wname conf ask).
Notation attempts := (attempts pyfloat tid wname conf ask).
Notation observe := (observe pyfloat tid wname conf ask).
Notation run_ind := (run_ind pyfloat tid wname conf ask).
Notation event_effect := (event_effect pyfloat tid wname conf ask).
Implicit Types s : sys R.
Implicit Types e : event R.

Ltac opn := do 2 (unfold upd in *; rewrite ?Nat.eqb_refl in *; simpl in *); unfold upd in *; rewrite ?Nat.eqb_refl in *.
Ltac at_actor k0 k := destruct (Nat.eqb k0 k) eqn:?Q;
  [apply Nat.eqb_eq in Q; subst k0|apply Nat.eqb_neq in Q].

Lemma start_versions : forall cs b errs (r : R) n, good_cells cs n -> versions_ok (start cs b errs r n).
Proof.
  intros. split; simpl; [|discriminate]. intros i c C. apply nth_error_In in C. apply H in C. tauto.
Qed.

Lemma run_versions : forall es s, versions_ok s -> versions_ok (run s es).
Proof. apply run_ind. intros. eapply versions_ok_effect; eauto. Qed.

Lemma others_run : forall k es s, (forall e, In e es -> actor e <> k) -> s_work (run s es) k = s_work s k.
Proof.
  induction es as [|e es IH]; intros s H; auto.
  change (run s (e :: es)) with (run (do_event s e) es).
  rewrite IH by (intros; apply H; simpl; auto).
  eapply others_untouched; [apply event_effect|]. intro X. apply (H e); simpl; auto.
Qed.

(** * Claims *)
Lemma claim_wins : forall s k i h c x,
  w_pc (s_work s k) = PClaim i -> w_cache (s_work s k) i = Some h ->
  nth_error (cells s) i = Some c -> h_ver h = c_ver c ->
  w_pc (s_work (step s k x) k) = PEval i /\
  nth_error (cells (step s k x)) i =
    Some (mkCell (s_next s) (set_evaluating (h_trial h) (in_time x) (wname k))).
Proof.
  intros s k i h c x P H C V. unfold Runtime_model.step. rewrite P. unfold claim_step. rewrite H.
  unfold put_trial. rewrite H, C, V, Nat.eqb_refl. opn. split; auto.
  apply nth_error_set_nth_eq. eapply nth_error_lt; eauto.
Qed.

Lemma claim_loses : forall s k i h c x,
  w_pc (s_work s k) = PClaim i -> w_cache (s_work s k) i = Some h ->
  nth_error (cells s) i = Some c -> h_ver h <> c_ver c ->
  cells (step s k x) = cells s /\
  w_pc (s_work (step s k x) k) =
    match w_nset (s_work s k) with
    | None => PRaised UnboundLocalError
    | Some n => if Z.geb (n + 1) N_FAILED_SET
                then PRaised WorkerFailedToGetPendingTrialsError else PStart
    end.
Proof.
  intros s k i h c x P H C V. unfold Runtime_model.step. rewrite P. unfold claim_step. rewrite H.
  unfold put_trial. rewrite H, C. apply Nat.eqb_neq in V. rewrite V. simpl.
  destruct (w_nset (s_work s k)); opn; split; auto; simpl; rewrite ?Nat.eqb_refl; auto.
Qed.

Lemma claim_exclusive : forall s k k' i h h' c x es x',
  versions_ok s -> k' <> k ->
  w_pc (s_work s k) = PClaim i -> w_cache (s_work s k) i = Some h ->
  nth_error (cells s) i = Some c -> h_ver h = c_ver c ->
  w_pc (s_work s k') = PClaim i -> w_cache (s_work s k') i = Some h' ->
  (forall e, In e es -> actor e <> k') ->
  let s2 := run (step s k x) es in
  cells (step s2 k' x') = cells s2 /\ w_pc (s_work (step s2 k' x') k') <> PEval i.
Proof.
  intros s k k' i h h' c x es x' V N P H C E P' H' A s2.
  destruct (claim_wins _ _ _ _ _ x P H C E) as [_ C1].
  destruct (cells_run pyfloat tid wname conf ask es _ _ _ C1) as (c2 & C2 & D).
  assert (S1 : s_work (step s k x) k' = s_work s k').
  { apply (others_untouched pyfloat tid wname conf ask s (Step k x)); auto. apply step_effect. }
  assert (S2 : s_work s2 k' = s_work s k').
  { unfold s2. rewrite others_run; auto. }
  assert (V2 : h_ver h' < s_next s) by (destruct V as [_ V]; apply V in H'; tauto).
  assert (NX : s_next s <= s_next (step s k x)).
  { eapply next_effect. apply (step_effect pyfloat tid wname conf ask s k x). }
  assert (NV : h_ver h' <> c_ver c2).
  { destruct D as [->|D]; simpl in *; lia. }
  destruct (claim_loses s2 k' i h' c2 x') as [L1 L2]; auto; try (rewrite S2; auto; fail).
  split; auto. rewrite L2. destruct (w_nset (s_work s2 k')) as [n|]; [|discriminate].
  destruct (Z.geb (n + 1) N_FAILED_SET); discriminate.
Qed.

(** a worker about to claim, evaluate or report has the trial in its cache *)
Definition has_handle s : Prop := forall k i,
  (w_pc (s_work s k) = PClaim i \/ w_pc (s_work s k) = PEval i \/
   exists r, w_pc (s_work s k) = PReport i r) -> w_cache (s_work s k) i <> None.

Lemma has_handle_effect : forall s e s', has_handle s -> effect s e s' -> has_handle s'.
Proof.
  intros s e s' V E k0 i0 P.
  destruct (Nat.eq_dec k0 (actor e)) as [->|N].
  2:{ rewrite (others_untouched _ _ _ _ _ _ _ _ _ E N) in *. auto. }
  inversion E; subst; simpl in *.
  - destruct e; simpl in *; auto. 
  - opn. exfalso. destruct (w_pc w'); simpl in *; try contradiction;
      destruct P as [P|[P|(r & P)]]; discriminate.
  - opn. destruct P as [P|[P|(r & P)]]; try discriminate. injection P as <-. opn. discriminate.
  - opn. destruct P as [P|[P|(r & P)]]; try discriminate. injection P as <-. opn. discriminate.
  - opn. destruct P as [P|[P|(r & P)]]; try discriminate. injection P as <-. opn. discriminate.
  - opn. exfalso. destruct (w_nset (s_work s k)) as [n|]; injection H8 as X _; rewrite X in P;
      [destruct (Z.geb (n + 1) N_FAILED_SET)|]; destruct P as [P|[P|(r & P)]]; discriminate.
  - opn. destruct P as [P|[P|(r & P)]]; discriminate.
  - opn. destruct P as [P|[P|(r' & P)]]; try discriminate. injection P as <- <-. opn. discriminate.
  - opn. destruct P as [P|[P|(r & P)]]; discriminate.
  - opn. destruct P as [P|[P|(r' & P)]]; discriminate.
  - opn. rewrite H3 in P. destruct P as [P|[P|(r' & P)]]; discriminate.
  - opn. destruct (r_err r); destruct P as [P|[P|(r' & P)]]; discriminate.
  - opn. destruct P as [P|[P|(r' & P)]]; discriminate.
  - opn. destruct P as [P|[P|(r & P)]]; discriminate.
  - opn. rewrite H1 in P. destruct P as [P|[P|(r' & P)]]; discriminate.
  - opn. destruct P as [P|[P|(r & P)]]; discriminate.
Qed.

Lemma start_has_handle : forall cs b errs (r : R) n, has_handle (start cs b errs r n).
Proof. intros cs b errs r n k i [P|[P|(r' & P)]]; discriminate. Qed.

Lemma run_has_handle : forall es s, has_handle s -> has_handle (run s es).
Proof. apply run_ind. intros. eapply has_handle_effect; eauto. Qed.

(** the failure counter counts rejections in a row *)
Definition counter_of (a : list bool) : option Z :=
  if existsb (fun b => b) a then Some (rejected_in_a_row a) else None.

Lemma counter_effect : forall s e s' k a,
  has_handle s -> effect s e s' -> w_nset (s_work s k) = counter_of a ->
  w_nset (s_work s' k) = counter_of (see_attempt k a s e s').
Proof.
  intros s e s' k a HH E C.
  destruct (Nat.eq_dec k (actor e)) as [->|N].
  2:{ rewrite (others_untouched _ _ _ _ _ _ _ _ _ E N). unfold see_attempt.
      destruct e as [k1 x|k1 x|k1 b1]; simpl in N; auto;
      rewrite (proj2 (Nat.eqb_neq k1 k)) by auto; auto. }
  unfold see_attempt. inversion E; subst; simpl in *.
  - destruct e as [k x|k x|k b]; simpl in *; auto.
    + rewrite Nat.eqb_refl. destruct (H _ _ eq_refl) as [X|(ex & X)]; rewrite X; auto.
    + exfalso. eapply H0; eauto.
  - opn. destruct H2 as (_ & _ & _ & _ & X & _). rewrite X.
    destruct (w_pc (s_work s k)); simpl in *; auto; contradiction.
  - opn. rewrite H. auto.
  - opn. rewrite H. destruct H4 as (_ & _ & _ & _ & X & _). rewrite X. auto.
  - opn. rewrite H. reflexivity.
  - opn. rewrite H. rewrite C in H8. unfold counter_of in *. cbn -[Z.add].
    destruct (existsb (fun b => b) a) eqn:X; injection H8 as X1 X2; rewrite X1, X2.
    + destruct (Z.geb (rejected_in_a_row a + 1) N_FAILED_SET); cbn -[Z.add]; rewrite ?X; f_equal; lia.
    + simpl. rewrite ?X. auto.
  - exfalso. destruct H as (i & H & H0). apply HH in H. auto.
  - opn. rewrite H. auto.
  - opn. rewrite H. auto.
  - opn. rewrite H. auto.
  - opn. rewrite H. destruct H4 as (_ & _ & _ & _ & X & _). congruence.
  - opn. rewrite H. auto.
  - opn. rewrite H. auto.
  - opn. destruct (sync_all_synced _ _ _ _ _ H0) as (_ & (_ & _ & _ & _ & X & _) & _). congruence.
  - opn. destruct H2 as (_ & _ & _ & _ & X & _). congruence.
  - opn. reflexivity.
Qed.

Lemma counter_run : forall es s k a,
  has_handle s -> w_nset (s_work s k) = counter_of a ->
  w_nset (s_work (run s es) k) = counter_of (attempts k a s es).
Proof.
  induction es as [|e es IH]; intros s k a HH C; auto. simpl.
  change (run s (e :: es)) with (run (do_event s e) es).
  apply IH.
  - eapply has_handle_effect; eauto. apply event_effect.
  - apply counter_effect; auto. apply event_effect.
Qed.

(** * Cost accounting *)
Definition charge_all (b : option budget) (cs : list fl) : option budget :=
  match b with
  | None => None
  | Some b => Some (mkBudget (b_max_cost b) (fold_left fl_add cs (b_used_cost b)) (b_max_evals b)
                      (b_used_evals b))
  end.

Lemma charge_all_nil : forall b, charge_all b [] = b.
Proof. intros [[]|]; reflexivity. Qed.

Lemma charge_all_app : forall b l l', charge_all b (l ++ l') = charge_all (charge_all b l) l'.
Proof. intros [b|] l l'; simpl; auto. rewrite fold_left_app. reflexivity. Qed.

Lemma budget_effect : forall s e s', effect s e s' ->
  s_budget s' = charge_all (s_budget s) (see_cost s e s').
Proof.
  intros s e s' E. unfold see_cost, at_pc.
  inversion E; subst; simpl; try (rewrite ?H; symmetry; apply charge_all_nil).
  - destruct e as [k x|k x|k b]; try (symmetry; apply charge_all_nil).
    destruct (H _ _ eq_refl) as [X|(ex & X)]; rewrite X; symmetry; apply charge_all_nil.
  - destruct (w_pc (s_work s k)); simpl in H; try contradiction; symmetry; apply charge_all_nil.
  - destruct H as (i & [H|[H|(r & H)]] & _); rewrite H; symmetry; apply charge_all_nil.
  - rewrite H. unfold charge. destruct (s_budget s) as [b|]; simpl; auto.
    destruct (r_cost r); auto. destruct b; auto.
Qed.

Lemma budget_run : forall es s,
  s_budget (run s es) = charge_all (s_budget s) (observe see_cost s es).
Proof.
  induction es as [|e es IH]; intros s.
  - simpl. now rewrite charge_all_nil.
  - change (run s (e :: es)) with (run (do_event s e) es). rewrite IH. simpl.
    rewrite charge_all_app. f_equal. apply budget_effect. apply event_effect.
Qed.

Definition in_flight (p : wpc) : list report :=
  match p with PAccount _ r => [r] | _ => [] end.

Definition calm (k : nat) e : Prop := match e with Step _ _ => True | _ => actor e <> k end.

Lemma stored_effect : forall s e s' k, effect s e s' -> calm k e ->
  in_flight (w_pc (s_work s k)) ++ see_stored k s e s' =
  see_charged k s e s' ++ in_flight (w_pc (s_work s' k)).
Proof.
  intros s e s' k E C.
  destruct (Nat.eq_dec k (actor e)) as [->|N].
  2:{ rewrite (others_untouched _ _ _ _ _ _ _ _ _ E N). unfold see_stored, see_charged, at_pc.
      destruct e as [k1 x|k1 x|k1 b1]; simpl in N; rewrite ?app_nil_r; auto.
      rewrite (proj2 (Nat.eqb_neq k1 k)) by auto.
      destruct (w_pc (s_work s k1)); rewrite ?app_nil_r; auto.
      destruct (w_pc (s_work s' k1)); rewrite ?app_nil_r; auto. }
  unfold see_stored, see_charged, at_pc. inversion E; subst; simpl in *; try contradiction.
  - destruct e as [k x|k x|k b]; simpl in *; try contradiction.
    destruct (H _ _ eq_refl) as [X|(ex & X)]; rewrite X; auto.
  - opn. destruct (w_pc (s_work s k)); simpl in *; try contradiction;
      destruct (w_pc w'); simpl in *; try contradiction; auto.
  - opn. rewrite H. auto.
  - opn. rewrite H. auto.
  - opn. rewrite H. auto.
  - opn. rewrite H. simpl. destruct (w_nset (s_work s k)) as [n|]; injection H8 as X _; rewrite X; auto.
    destruct (Z.geb (n + 1) N_FAILED_SET); auto.
  - opn. destruct H as (i & [H|[H|(r & H)]] & _); rewrite H; auto.
  - opn. rewrite H. auto.
  - opn. rewrite H. auto.
  - opn. rewrite H. auto.
  - opn. rewrite H, H3. auto.
  - opn. rewrite H. simpl. destruct (r_err r); auto.
  - opn. rewrite H. auto.
Qed.

Lemma stored_run : forall es s k, undisturbed k es ->
  in_flight (w_pc (s_work s k)) ++ observe (see_stored k) s es =
  observe (see_charged k) s es ++ in_flight (w_pc (s_work (run s es) k)).
Proof.
  induction es as [|e es IH]; intros s k U; simpl.
  - now rewrite app_nil_r.
  - rewrite app_assoc, (stored_effect s e (do_event s e)); [|apply event_effect|apply U; simpl; auto].
    rewrite <- !app_assoc. f_equal. apply IH. intros e' H. apply U. simpl. auto.
Qed.

(** * The error log *)
Lemma errs_effect : forall s e s', effect s e s' ->
  s_errs s' = s_errs s ++ see_error tid wname s e s'.
Proof.
  intros s e s' E. unfold see_error.
  inversion E; subst; simpl; try (rewrite ?H; rewrite app_nil_r; reflexivity).
  - destruct e as [k x|k x|k b]; try (rewrite app_nil_r; reflexivity).
    destruct (H _ _ eq_refl) as [X|(ex & X)]; rewrite X; rewrite app_nil_r; reflexivity.
  - destruct (w_pc (s_work s k)); simpl in H; try contradiction; rewrite app_nil_r; reflexivity.
  - destruct H as (i & [H|[H|(r & H)]] & _); rewrite H; rewrite app_nil_r; reflexivity.
  - rewrite H. reflexivity.
Qed.

Lemma errs_run : forall es s,
  s_errs (run s es) = s_errs s ++ observe (see_error tid wname) s es.
Proof.
  induction es as [|e es IH]; intros s.
  - simpl. now rewrite app_nil_r.
  - change (run s (e :: es)) with (run (do_event s e) es). rewrite IH. simpl.
    rewrite app_assoc. f_equal. apply errs_effect. apply event_effect.
Qed.

Definition has_err (r : report) : bool := match r_err r with Some _ => true | None => false end.
Definition err_in_flight (p : wpc) : list report :=
  match p with
  | PAccount _ r => if has_err r then [r] else []
  | PErrDump _ r => [r]
  | _ => []
  end.

Lemma dumped_effect : forall s e s' k, effect s e s' -> calm k e ->
  err_in_flight (w_pc (s_work s k)) ++ filter has_err (see_stored k s e s') =
  see_dumped k s e s' ++ err_in_flight (w_pc (s_work s' k)).
Proof.
  intros s e s' k E C.
  destruct (Nat.eq_dec k (actor e)) as [->|N].
  2:{ rewrite (others_untouched _ _ _ _ _ _ _ _ _ E N). unfold see_stored, see_dumped, at_pc.
      destruct e as [k1 x|k1 x|k1 b1]; simpl in N; simpl; rewrite ?app_nil_r; auto.
      rewrite (proj2 (Nat.eqb_neq k1 k)) by auto.
      destruct (w_pc (s_work s k1)); simpl; rewrite ?app_nil_r; auto.
      destruct (w_pc (s_work s' k1)); simpl; rewrite ?app_nil_r; auto. }
  unfold see_stored, see_dumped, at_pc. inversion E; subst; simpl in *; try contradiction.
  - destruct e as [k x|k x|k b]; simpl in *; try contradiction.
    destruct (H _ _ eq_refl) as [X|(ex & X)]; rewrite X; auto.
  - opn. destruct (w_pc (s_work s k)); simpl in *; try contradiction;
      destruct (w_pc w'); simpl in *; try contradiction; auto.
  - opn. rewrite H. auto.
  - opn. rewrite H. auto.
  - opn. rewrite H. auto.
  - opn. rewrite H. simpl. destruct (w_nset (s_work s k)) as [n|]; injection H8 as X _; rewrite X; auto.
    destruct (Z.geb (n + 1) N_FAILED_SET); auto.
  - opn. destruct H as (i & [H|[H|(r & H)]] & _); rewrite H; auto.
  - opn. rewrite H. auto.
  - opn. rewrite H. auto.
  - opn. rewrite H. simpl. destruct (has_err r); auto.
  - opn. rewrite H, H3. auto.
  - opn. rewrite H. simpl. unfold has_err. destruct (r_err r); auto.
  - opn. rewrite H. auto.
Qed.

Lemma dumped_run : forall es s k, undisturbed k es ->
  err_in_flight (w_pc (s_work s k)) ++ filter has_err (observe (see_stored k) s es) =
  observe (see_dumped k) s es ++ err_in_flight (w_pc (s_work (run s es) k)).
Proof.
  induction es as [|e es IH]; intros s k U; simpl.
  - now rewrite app_nil_r.
  - rewrite filter_app, app_assoc, (dumped_effect s e (do_event s e)); [|apply event_effect|apply U; simpl; auto].
    rewrite <- !app_assoc. f_equal. apply IH. intros e' H. apply U. simpl. auto.
Qed.

(** * What never changes about a trial *)
Definition ident (t : trial) := (t_config t, m_id (t_meta t), m_time_sampled (t_meta t), m_sampling_worker_id (t_meta t)).

Definition same_ident s : Prop := forall k i h c,
  w_cache (s_work s k) i = Some h -> nth_error (cells s) i = Some c ->
  ident (h_trial h) = ident (c_trial c).

Lemma evaluate_ident : forall t o tb d dur tm t' r,
  evaluate_trial pyfloat t o tb d dur tm = Ok (t', r) -> ident t' = ident t.
Proof.
  intros t o tb d dur tm t' r E. unfold evaluate_trial in E. destruct o as [v|e].
  - destruct (parse_user_result _ _ _ _) as [[[[l c] lc] ex]|]; simpl in E; try discriminate.
    injection E as <- <-. auto.
  - injection E as <- <-. auto.
Qed.

Lemma ident_cells : forall s e s' i c, same_ident s -> effect s e s' ->
  nth_error (cells s) i = Some c ->
  exists c', nth_error (cells s') i = Some c' /\ ident (c_trial c') = ident (c_trial c).
Proof.
  intros s e s' i c SI E C. inversion E; subst; simpl; eauto.
  - exists c. rewrite nth_error_app1 by (eapply nth_error_lt; eauto). auto.
  - destruct (Nat.eq_dec i0 i) as [->|N].
    + rewrite nth_error_set_nth_eq by (eapply nth_error_lt; eauto). eexists. split; eauto.
      simpl. unfold ident. simpl. apply (SI k i h c H0 C).
    + rewrite nth_error_set_nth_neq by auto. eauto.
  - destruct (Nat.eq_dec i0 i) as [->|N].
    + rewrite nth_error_set_nth_eq by (eapply nth_error_lt; eauto). eexists. split; eauto.
      simpl. unfold ident. simpl. apply (SI k i h c H0 C).
    + rewrite nth_error_set_nth_neq by auto. eauto.
  - exists c. rewrite nth_error_app1 by (eapply nth_error_lt; eauto). auto.
Qed.
End Share.
