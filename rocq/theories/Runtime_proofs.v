(** What a single event can do, and the invariants of stored versions and caches. *)
From Verif Require Import Py Trial_model Eval_model Init_model Runtime_model Runtime_spec.
From Coq Require Import Permutation.

(** * Lists *)
Lemma nth_error_set_nth_eq : forall A (l : list A) i x,
  i < List.length l -> nth_error (set_nth l i x) i = Some x.
Proof. induction l; destruct i; simpl; intros; try lia; auto. apply IHl. lia. Qed.

Lemma nth_error_set_nth_neq : forall A (l : list A) i j x,
  i <> j -> nth_error (set_nth l i x) j = nth_error l j.
Proof. induction l; destruct i, j; simpl; intros; try lia; auto. Qed.

Lemma length_set_nth : forall A (l : list A) i x, List.length (set_nth l i x) = List.length l.
Proof. induction l; destruct i; simpl; auto. Qed.

Lemma In_set_nth : forall A (l : list A) i x y, In y (set_nth l i x) -> y = x \/ In y l.
Proof.
  induction l; destruct i; simpl; intros; auto.
  - destruct H; auto.
  - destruct H; auto. apply IHl in H. tauto.
Qed.

Lemma listing_perm : forall n ord, Permutation (listing n ord) (seq 0 n).
Proof.
  intros. unfold listing.
  destruct (Nat.eqb (List.length ord) n) eqn:L; simpl; [|reflexivity].
  destruct (forallb _ (seq 0 n)) eqn:F; [|reflexivity].
  apply Nat.eqb_eq in L. symmetry. apply NoDup_Permutation_bis.
  - apply seq_NoDup.
  - rewrite seq_length. lia.
  - intros k K. rewrite forallb_forall in F. apply F in K.
    apply existsb_exists in K. destruct K as (y & Y & E). apply Nat.eqb_eq in E. now subst.
Qed.

Lemma listing_in : forall n ord i, In i (listing n ord) <-> i < n.
Proof.
  intros. split; intro H.
  - apply Permutation_in with (l' := seq 0 n) in H; [|apply listing_perm].
    apply in_seq in H. lia.
  - apply Permutation_in with (l := seq 0 n); [symmetry; apply listing_perm|].
    apply in_seq. lia.
Qed.

Section Proofs.
Context {R : Type}.
Variable pyfloat : pyval -> res fl.
Variable tid wname : nat -> string.
Variable conf : nat -> worker_settings.
Variable ask : R -> list trial -> res (dict * R).
Notation do_event := (do_event pyfloat tid wname conf ask).
Notation run := (run pyfloat tid wname conf ask).
Notation step := (step pyfloat tid wname conf ask).
Implicit Types s : sys R.
Implicit Types e : event R.

(** * Effects *)
Definition synced_cache s (w w' : worker) : Prop :=
  forall i, w_cache w' i = w_cache w i \/
    exists c, nth_error (cells s) i = Some c /\
              w_cache w' i = Some (sync_handle (w_cache w i) c).

Definition quiet_from (p : wpc) : Prop :=
  match p with
  | PStart | PErrs | PSweep _ _ | PGet | PPend _ _ | PSample | PRefetch _ => True
  | _ => False
  end.
Definition quiet_to (p : wpc) : Prop :=
  match p with
  | PStart | PErrs | PSweep _ _ | PGet | PPend _ _ | PSample | PRefetch _ | PStopped | PRaised _ => True
  | _ => False
  end.

Definition same_counters (w w' : worker) : Prop :=
  w_count w' = w_count w /\ w_cost w' = w_cost w /\ w_time w' = w_time w /\ w_err w' = w_err w /\
  w_nset w' = w_nset w /\ w_global w' = w_global w.

(** the cells changed by a put *)
Definition put_cells s i t :=
  mkSys (set_nth (cells s) i (mkCell (s_next s) t)) (s_budget s) (s_errs s) (s_rng s)
    (S (s_next s)) (s_work s).

Inductive effect s : event R -> sys R -> Prop :=
| Eff_idle : forall e, (forall k x, e = Step k x -> w_pc (s_work s k) = PStopped \/ exists ex, w_pc (s_work s k) = PRaised ex) ->
    (forall k b, e <> Restart k b) -> effect s e s
| Eff_move : forall k x w',
    quiet_from (w_pc (s_work s k)) -> quiet_to (w_pc w') ->
    synced_cache s (s_work s k) w' -> same_counters (s_work s k) w' ->
    effect s (Step k x) (with_worker s k w')
| Eff_refetch : forall k x i c w',
    w_pc (s_work s k) = PRefetch i -> nth_error (cells s) i = Some c ->
    w' = got (set_handle (s_work s k) i (sync_handle (w_cache (s_work s k) i) c)) i ->
    effect s (Step k x) (with_worker s k w')
| Eff_sample : forall k x w1 ts config r' t,
    w_pc (s_work s k) = PSample ->
    sync_all s (s_work s k) (listing (List.length (cells s)) (in_order x)) = (w1, ts) ->
    ask (s_rng s) ts = Ok (config, r') ->
    t = trial_new (tid (List.length (cells s))) config "" None None (in_time x) (wname k) ->
    synced_cache s (s_work s k) w1 -> same_counters (s_work s k) w1 ->
    effect s (Step k x)
      (with_worker (mkSys (cells s ++ [mkCell (s_next s) t]) (s_budget s) (s_errs s) r'
                      (S (s_next s)) (s_work s)) k
         (got (set_handle w1 (List.length (cells s)) (mkH (s_next s) t)) (List.length (cells s))))
| Eff_claim_ok : forall k x i h c t,
    w_pc (s_work s k) = PClaim i -> w_cache (s_work s k) i = Some h ->
    nth_error (cells s) i = Some c -> h_ver h = c_ver c ->
    t = set_evaluating (h_trial h) (in_time x) (wname k) ->
    effect s (Step k x)
      (with_worker (put_cells s i t) k
         (let w := s_work s k in
          mkWorker (PEval i) (upd (w_cache w) i (Some (mkH (s_next s) t))) (w_count w) (w_cost w)
            (w_time w) (w_err w) (w_nget w) (Some 0%Z) (w_global w)))
| Eff_claim_lost : forall k x i h w',
    w_pc (s_work s k) = PClaim i -> w_cache (s_work s k) i = Some h ->
    (forall c, nth_error (cells s) i = Some c -> h_ver h <> c_ver c) ->
    (forall j, w_cache w' j = w_cache (s_work s k) j \/
       j = i /\ exists c, nth_error (cells s) i = Some c /\
         w_cache w' j = Some (mkH (h_ver h) (set_evaluating (h_trial h) (in_time x) (wname k)))) ->
    w_count w' = w_count (s_work s k) -> w_cost w' = w_cost (s_work s k) ->
    w_time w' = w_time (s_work s k) -> w_err w' = w_err (s_work s k) ->
    w_global w' = w_global (s_work s k) ->
    (w_pc w', w_nset w') =
      match w_nset (s_work s k) with
      | None => (PRaised UnboundLocalError, None)
      | Some n => (if Z.geb (n + 1) N_FAILED_SET
                   then PRaised WorkerFailedToGetPendingTrialsError else PStart, Some (n + 1)%Z)
      end ->
    effect s (Step k x) (with_worker s k w')
| Eff_no_handle : forall k x w',
    (exists i, (w_pc (s_work s k) = PClaim i \/ w_pc (s_work s k) = PEval i \/
                exists r, w_pc (s_work s k) = PReport i r) /\ w_cache (s_work s k) i = None) ->
    w' = set_pc (s_work s k) (PRaised TrialNotFoundError) ->
    effect s (Step k x) (with_worker s k w')
| Eff_eval_ok : forall k x i h t r w',
    w_pc (s_work s k) = PEval i -> w_cache (s_work s k) i = Some h ->
    w_global (s_work s k) = false ->
    evaluate_trial pyfloat (h_trial h) (in_out x) (in_tb x) (drv (conf k))
                   (in_duration x) (in_time x) = Ok (t, r) ->
    w' = (let w := s_work s k in
          mkWorker (PReport i r) (upd (w_cache w) i (Some (mkH (h_ver h) t))) (w_count w + 1)
            (match r_cost r with Some c => fl_add (w_cost w) c | None => w_cost w end)
            (fl_add (w_time w) (in_duration x))
            (match r_err r with Some e => Some e | None => w_err w end)
            (w_nget w) (w_nset w) false) ->
    effect s (Step k x) (with_worker s k w')
| Eff_eval_err : forall k x i h ex g,
    w_pc (s_work s k) = PEval i -> w_cache (s_work s k) i = Some h ->
    (g = true /\ w_global (s_work s k) = false /\
     evaluate_trial pyfloat (h_trial h) (in_out x) (in_tb x) (drv (conf k))
                   (in_duration x) (in_time x) = Err ex \/
     g = true /\ w_global (s_work s k) = true /\ ex = NePSError) ->
    effect s (Step k x)
      (with_worker s k (let w := s_work s k in
         mkWorker (PRaised ex) (w_cache w) (w_count w) (w_cost w) (w_time w) (w_err w)
               (w_nget w) (w_nset w) g))
| Eff_report_ok : forall k x i r h c t,
    w_pc (s_work s k) = PReport i r -> w_cache (s_work s k) i = Some h ->
    nth_error (cells s) i = Some c -> h_ver h = c_ver c ->
    t = attach_report (h_trial h) r ->
    effect s (Step k x)
      (with_worker (put_cells s i t) k
         (set_pc (set_handle (s_work s k) i (mkH (s_next s) t)) (PAccount i r)))
| Eff_report_lost : forall k x i r h w',
    w_pc (s_work s k) = PReport i r -> w_cache (s_work s k) i = Some h ->
    (forall c, nth_error (cells s) i = Some c -> h_ver h <> c_ver c) ->
    (forall j, w_cache w' j = w_cache (s_work s k) j \/
       j = i /\ exists c, nth_error (cells s) i = Some c /\
         w_cache w' j = Some (mkH (h_ver h) (attach_report (h_trial h) r))) ->
    w_pc w' = PRaised VersionMismatchError ->
    same_counters (s_work s k) w' ->
    effect s (Step k x) (with_worker s k w')
| Eff_account : forall k x i r,
    w_pc (s_work s k) = PAccount i r ->
    effect s (Step k x)
      (with_worker (mkSys (cells s) (charge (s_budget s) r) (s_errs s) (s_rng s) (s_next s) (s_work s)) k
         (set_pc (s_work s k) (match r_err r with Some _ => PErrDump i r | None => PStart end)))
| Eff_errdump : forall k x i r,
    w_pc (s_work s k) = PErrDump i r ->
    effect s (Step k x)
      (with_worker (mkSys (cells s) (s_budget s)
          (s_errs s ++ [mkErr (tid i) (wname k) (in_errtype x)
             (match r_err r with Some m => m | None => "None" end) (r_tb r)])
          (s_rng s) (s_next s) (s_work s)) k (set_pc (s_work s k) PStart))
| Eff_killed : forall k x w1 ts config r' t w',
    w_pc (s_work s k) = PSample ->
    sync_all s (s_work s k) (listing (List.length (cells s)) (in_order x)) = (w1, ts) ->
    ask (s_rng s) ts = Ok (config, r') ->
    t = trial_new (tid (List.length (cells s))) config "" None None (in_time x) (wname k) ->
    synced_cache s (s_work s k) w1 ->
    w' = set_pc (set_handle w1 (List.length (cells s)) (mkH (s_next s) t)) PStopped ->
    effect s (KilledSampling k x)
      (with_worker (mkSys (cells s ++ [mkCell (s_next s) t]) (s_budget s) (s_errs s) (s_rng s)
                      (S (s_next s)) (s_work s)) k w')
| Eff_killed_failed : forall k x w',
    w_pc (s_work s k) = PSample -> synced_cache s (s_work s k) w' -> w_pc w' = PStopped ->
    same_counters (s_work s k) w' ->
    effect s (KilledSampling k x) (with_worker s k w')
| Eff_restart : forall k b g, effect s (Restart k b) (with_worker s k (fresh_worker g)).

Lemma synced_refl : forall s w, synced_cache s w w.
Proof. intros s w i. now left. Qed.

Lemma synced_set : forall s w i c, nth_error (cells s) i = Some c ->
  synced_cache s w (set_handle w i (sync_handle (w_cache w i) c)).
Proof.
  intros s w i c C j. simpl. unfold upd. destruct (Nat.eqb j i) eqn:E; auto.
  apply Nat.eqb_eq in E. subst. right. eauto.
Qed.

Lemma sync_handle_idem : forall h c, sync_handle (Some (sync_handle h c)) c = sync_handle h c.
Proof.
  intros. unfold sync_handle at 1. destruct (Nat.eqb (h_ver (sync_handle h c)) (c_ver c)) eqn:E; auto.
  exfalso. unfold sync_handle in E. destruct h as [h|]; simpl in E.
  - destruct (Nat.eqb (h_ver h) (c_ver c)) eqn:F; simpl in E; rewrite ?Nat.eqb_refl in E; congruence.
  - rewrite Nat.eqb_refl in E. discriminate.
Qed.

Lemma synced_trans : forall s w1 w2 w3,
  synced_cache s w1 w2 -> synced_cache s w2 w3 -> synced_cache s w1 w3.
Proof.
  intros s w1 w2 w3 A B i. destruct (B i) as [E|(c & C & E)].
  - rewrite E. apply A.
  - destruct (A i) as [E'|(c' & C' & E')].
    + right. exists c. rewrite <- E'. auto.
    + right. exists c. rewrite C in C'. injection C' as <-. split; auto.
      rewrite E, E'. now rewrite sync_handle_idem.
Qed.

Lemma same_refl : forall w, same_counters w w.
Proof. repeat split. Qed.

Lemma same_trans : forall a b c, same_counters a b -> same_counters b c -> same_counters a c.
Proof. unfold same_counters; intros; intuition congruence. Qed.

Lemma sync_all_synced : forall s ids w w' ts,
  sync_all s w ids = (w', ts) -> synced_cache s w w' /\ same_counters w w' /\ w_pc w' = w_pc w.
Proof.
  induction ids as [|i ids IH]; simpl; intros w w' ts E.
  - injection E as <- <-. split; [apply synced_refl|split; [apply same_refl|auto]].
  - unfold sync_one in E. destruct (nth_error (cells s) i) as [c|] eqn:C.
    + destruct (sync_all s _ ids) as [w2 ts2] eqn:F. injection E as <- <-.
      apply IH in F. destruct F as (F1 & F2 & F3). split; [|split].
      * eapply synced_trans; [apply synced_set; eauto|auto].
      * eapply same_trans; [|eauto]. repeat split.
      * rewrite F3. reflexivity.
    + apply IH in E. auto.
Qed.



Lemma move_set_pc : forall s k x p,
  quiet_from (w_pc (s_work s k)) -> quiet_to p ->
  effect s (Step k x) (with_worker s k (set_pc (s_work s k) p)).
Proof. intros. apply Eff_move; auto; [intro; now left|repeat split]. Qed.

Lemma get_failed_effect : forall s k x w1,
  quiet_from (w_pc (s_work s k)) -> synced_cache s (s_work s k) w1 -> same_counters (s_work s k) w1 ->
  effect s (Step k x) (get_failed s k w1).
Proof.
  intros s k x w1 Q Y C. unfold get_failed.
  destruct (Z.geb (w_nget w1 + 1) N_FAILED_GET); apply Eff_move; simpl; auto.
Qed.

Lemma enter_totals_effect : forall s k x,
  quiet_from (w_pc (s_work s k)) -> effect s (Step k x) (enter_totals conf s k (s_work s k) x).
Proof.
  intros. unfold enter_totals. destruct (no_total_limit (conf k)); apply move_set_pc; simpl; auto.
Qed.

Lemma apply_verdict_effect : forall s k x v go,
  quiet_from (w_pc (s_work s k)) -> effect s (Step k x) go ->
  effect s (Step k x) (apply_verdict s k (s_work s k) v go).
Proof. intros. destruct v; simpl; auto; apply move_set_pc; simpl; auto. Qed.

Lemma sync_one_spec : forall s w i,
  match sync_one s w i with
  | Some (w', t) => exists c, nth_error (cells s) i = Some c /\
      w' = set_handle w i (sync_handle (w_cache w i) c) /\ t = h_trial (sync_handle (w_cache w i) c)
  | None => nth_error (cells s) i = None
  end.
Proof.
  intros. unfold sync_one. destruct (nth_error (cells s) i) as [c|]; auto. exists c. auto.
Qed.

Lemma step_effect : forall s k x, effect s (Step k x) (step s k x).
Proof.
  intros s k x. unfold Runtime_model.step.
  destruct (w_pc (s_work s k)) eqn:P.
  - apply apply_verdict_effect; [rewrite P; simpl; auto|].
    destruct (any_error _); [apply move_set_pc|apply enter_totals_effect]; rewrite ?P; simpl; auto.
  - apply apply_verdict_effect; [rewrite P; simpl; auto|].
    apply enter_totals_effect; rewrite P; simpl; auto.
  - destruct todo as [|i todo].
    + apply apply_verdict_effect; [|apply move_set_pc]; rewrite ?P; simpl; auto.
    + generalize (sync_one_spec s (s_work s k) i).
      destruct (sync_one s (s_work s k) i) as [[w' t]|]; intro Y.
      * destruct Y as (c & C & -> & ->). apply Eff_move; rewrite ?P; simpl; auto.
        -- intro j. apply (synced_set s (s_work s k) i c C j).
        -- repeat split.
      * apply move_set_pc; rewrite ?P; simpl; auto.
  - apply move_set_pc; rewrite ?P; simpl; auto.
  - destruct todo as [|i todo].
    + destruct (oldest seen) as [[i t]|]; apply move_set_pc; rewrite ?P; simpl; auto.
    + generalize (sync_one_spec s (s_work s k) i).
      destruct (sync_one s (s_work s k) i) as [[w' t]|]; intro Y.
      * destruct Y as (c & C & -> & ->). apply Eff_move; rewrite ?P; simpl; auto.
        -- intro j. apply (synced_set s (s_work s k) i c C j).
        -- repeat split.
      * apply get_failed_effect; rewrite ?P; simpl; auto; [apply synced_refl|repeat split].
  - generalize (sync_one_spec s (s_work s k) i).
    destruct (sync_one s (s_work s k) i) as [[w' t]|]; intro Y.
    + destruct Y as (c & C & -> & ->). eapply Eff_refetch; eauto.
    + apply get_failed_effect; rewrite ?P; simpl; auto; [apply synced_refl|repeat split].
  - unfold sample_step.
    destruct (sync_all s (s_work s k) (listing (List.length (cells s)) (in_order x))) as [w1 ts] eqn:Y.
    destruct (sync_all_synced _ _ _ _ _ Y) as (Y1 & Y2 & Y3).
    destruct (ask (s_rng s) ts) as [[config r']|] eqn:A.
    + eapply Eff_sample; eauto.
    + apply get_failed_effect; rewrite ?P; simpl; auto.
  - unfold claim_step. destruct (w_cache (s_work s k) i) as [h|] eqn:H.
    + unfold put_trial. rewrite H. destruct (nth_error (cells s) i) as [c|] eqn:C.
      * destruct (Nat.eqb (h_ver h) (c_ver c)) eqn:E.
        -- apply Nat.eqb_eq in E. eapply Eff_claim_ok; eauto.
        -- apply Nat.eqb_neq in E. simpl.
           assert (L : forall c', Some c = Some c' -> h_ver h <> c_ver c') by congruence.
           destruct (w_nset (s_work s k)) as [n|] eqn:N.
           ++ eapply Eff_claim_lost; eauto; try (rewrite C; exact L).
              ** intro j. simpl. unfold upd. destruct (Nat.eqb j i) eqn:J; auto.
                 apply Nat.eqb_eq in J. subst. right. split; auto. exists c. eauto.
              ** simpl. rewrite N. destruct (Z.geb (n + 1) N_FAILED_SET); auto.
           ++ eapply Eff_claim_lost; eauto; try (rewrite C; exact L).
              ** intro j. simpl. unfold upd. destruct (Nat.eqb j i) eqn:J; auto.
                 apply Nat.eqb_eq in J. subst. right. split; auto. exists c. eauto.
              ** simpl. rewrite N. auto.
      * assert (L : forall c', None = Some c' -> h_ver h <> c_ver c') by discriminate.
        destruct (w_nset (s_work s k)) as [n|] eqn:N.
        -- eapply Eff_claim_lost; eauto; try (rewrite C; exact L).
           simpl. rewrite N. destruct (Z.geb (n + 1) N_FAILED_SET); auto.
        -- eapply Eff_claim_lost; eauto; try (rewrite C; exact L).
           simpl. rewrite N. auto.
    + eapply Eff_no_handle; eauto.
  - unfold eval_step. destruct (w_cache (s_work s k) i) as [h|] eqn:H.
    + destruct (w_global (s_work s k)) eqn:G.
      * unfold set_pc. rewrite G. eapply Eff_eval_err; eauto.
      * destruct (evaluate_trial _ _ _ _ _ _ _) as [[t r]|ex] eqn:E.
        -- eapply Eff_eval_ok; eauto.
        -- eapply Eff_eval_err; eauto.
    + eapply Eff_no_handle; eauto.
  - unfold report_step. destruct (w_cache (s_work s k) i) as [h|] eqn:H.
    + unfold put_trial. rewrite H. destruct (nth_error (cells s) i) as [c|] eqn:C.
      * destruct (Nat.eqb (h_ver h) (c_ver c)) eqn:E.
        -- apply Nat.eqb_eq in E. eapply Eff_report_ok; eauto.
        -- apply Nat.eqb_neq in E.
           eapply Eff_report_lost; eauto; [congruence| |repeat split].
           intro j. simpl. unfold upd. destruct (Nat.eqb j i) eqn:J; auto.
           apply Nat.eqb_eq in J. subst. right. split; auto. exists c. eauto.
      * eapply Eff_report_lost; eauto; [congruence|repeat split].
    + eapply Eff_no_handle; eauto. exists i. split; auto. right. right. eauto.
  - apply Eff_account; auto.
  - apply Eff_errdump; auto.
  - apply Eff_idle; [|discriminate]. intros k' x' E. injection E as <- <-. auto.
  - apply Eff_idle; [|discriminate]. intros k' x' E. injection E as <- <-. eauto.
Qed.

Lemma event_effect : forall s e, effect s e (do_event s e).
Proof.
  intros s [k x|k x|k b]; simpl.
  - apply step_effect.
  - destruct (w_pc (s_work s k)) eqn:P; try (apply Eff_idle; discriminate).
    unfold sample_step.
    destruct (sync_all s (s_work s k) (listing (List.length (cells s)) (in_order x))) as [w1 ts] eqn:Y.
    destruct (sync_all_synced _ _ _ _ _ Y) as (Y1 & Y2 & Y3).
    destruct (ask (s_rng s) ts) as [[config r']|] eqn:A.
    + eapply Eff_killed; eauto.
    + apply Eff_killed_failed; auto.
  - apply Eff_restart.
Qed.

Lemma run_cons : forall s e es, run s (e :: es) = run (do_event s e) es.
Proof. reflexivity. Qed.
Lemma run_app : forall es es' s, run s (es ++ es') = run (run s es) es'.
Proof. intros. unfold Runtime_model.run. apply fold_left_app. Qed.

Lemma run_ind : forall (P : sys R -> Prop),
  (forall s e s', P s -> effect s e s' -> P s') -> forall es s, P s -> P (run s es).
Proof.
  intros P H. induction es as [|e es IH]; intros s Ps; auto.
  rewrite run_cons. apply IH. eapply H; eauto. apply event_effect.
Qed.

Lemma observe_app : forall A (f : sys R -> event R -> sys R -> list A) es es' s,
  observe pyfloat tid wname conf ask f s (es ++ es') =
  observe pyfloat tid wname conf ask f s es ++ observe pyfloat tid wname conf ask f (run s es) es'.
Proof.
  induction es as [|e es IH]; intros; simpl; auto. rewrite IH, app_assoc. reflexivity.
Qed.

(** Workers other than the actor are untouched. *)
Lemma others_untouched : forall s e s' k, effect s e s' -> k <> actor e -> s_work s' k = s_work s k.
Proof.
  intros s e s' k E N. inversion E; subst; simpl in *; auto; unfold upd;
    destruct (Nat.eqb k _) eqn:Q; auto; apply Nat.eqb_eq in Q; congruence.
Qed.

End Proofs.
