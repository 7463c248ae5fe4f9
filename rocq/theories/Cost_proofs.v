(** A single worker never goes on once the total cost limit is reached. *)
From Verif Require Import Py Trial_model Eval_model Init_model Runtime_model Runtime_spec
  Runtime_proofs Claim_proofs Once_proofs Each_proofs Solo_proofs Limit_spec Limit_proofs.
From Coq Require Import Permutation.

Lemma total_perm : forall l l', Permutation l l' -> total r_cost l = total r_cost l'.
Proof.
  intros l l' P. rewrite !total_costs. unfold fl_sum. apply fold_add_perm. apply flat_map_perm. auto.
Qed.

Lemma total_app : forall l l', total r_cost (l ++ l') = fl_add (total r_cost l) (total r_cost l').
Proof.
  induction l as [|t l IH]; cbn [app total]; intros l'.
  - now rewrite fl_add_0.
  - rewrite IH. destruct (t_report t); auto. destruct (r_cost r); auto. apply fl_add_assoc.
Qed.

Definition alike (c c' : cell) : Prop :=
  c = c' \/ t_report (c_trial c) = None /\ t_report (c_trial c') = None.

Lemma alike_total : forall l l', Forall2 alike l l' ->
  total r_cost (map c_trial l) = total r_cost (map c_trial l').
Proof.
  induction 1 as [|c c' l l' A F IH]; cbn [map total]; auto.
  destruct A as [->|[-> ->]]; rewrite IH; auto.
Qed.

Lemma Forall2_firstn : forall A (P : A -> A -> Prop) l l', Forall2 P l l' ->
  forall n, Forall2 P (firstn n l) (firstn n l').
Proof. induction 1; destruct n; simpl; constructor; auto. Qed.
Lemma Forall2_skipn : forall A (P : A -> A -> Prop) l l', Forall2 P l l' ->
  forall n, Forall2 P (skipn n l) (skipn n l').
Proof. induction 1; destruct n; simpl; auto. Qed.

Lemma Forall2_length : forall A (P : A -> A -> Prop) l l', Forall2 P l l' -> List.length l = List.length l'.
Proof. induction 1; simpl; congruence. Qed.

Lemma alike_refl : forall l, Forall2 alike l l.
Proof. induction l; constructor; auto. left; auto. Qed.

Lemma alike_set : forall l i c c', nth_error l i = Some c -> t_report (c_trial c) = None ->
  t_report (c_trial c') = None -> Forall2 alike l (set_nth l i c').
Proof.
  induction l as [|d l IH]; intros [|i] c c' N A B; simpl in *; try discriminate.
  - injection N as ->. constructor; [right; auto|apply alike_refl].
  - constructor; [left; auto|eauto].
Qed.

Lemma firstn_set : forall A (l : list A) i x, firstn i (set_nth l i x) = firstn i l.
Proof. induction l; destruct i; simpl; intros; f_equal; auto. Qed.
Lemma skipn_set : forall A (l : list A) i x, skipn (S i) (set_nth l i x) = skipn (S i) l.
Proof.
  induction l as [|y l IH]; intros i x; auto. destruct i; auto.
  change (skipn (S i) (set_nth l i x) = skipn (S i) l). auto.
Qed.
Lemma split_at : forall A (l : list A) i x, nth_error l i = Some x -> l = firstn i l ++ x :: skipn (S i) l.
Proof.
  induction l as [|y l IH]; intros [|i] x N; simpl in N; try discriminate.
  - injection N as ->. auto.
  - simpl. f_equal. apply IH. auto.
Qed.

Section Cost.
Context {R : Type}.
Variable pyfloat : pyval -> res fl.
Variable tid wname : nat -> string.
Variable conf : nat -> worker_settings.
Variable ask : R -> list trial -> res (dict * R).
Variable k : nat.
Variable c : fl.
Notation do_event := (do_event pyfloat tid wname conf ask).
Notation run := (run pyfloat tid wname conf ask).
Notation step := (step pyfloat tid wname conf ask).
Notation effect := (effect pyfloat tid wname conf ask).
Notation reported_trials := (reported_trials pyfloat tid wname conf ask).
Implicit Types s : sys R.

Hypothesis LIM : max_cost_total (conf k) = Some c.

Definition low s : Prop := fl_geb (total r_cost (trials s)) c = false.
Definition noreport s i : Prop :=
  exists cc, nth_error (cells s) i = Some cc /\ t_report (c_trial cc) = None.
Definition own s i : Prop :=
  exists h cc, w_cache (s_work s k) i = Some h /\ nth_error (cells s) i = Some cc /\ h_ver h = c_ver cc.

Definition pc_ok s : Prop :=
  match w_pc (s_work s k) with
  | PSweep todo seen => exists done, Permutation (done ++ todo) (seq 0 (List.length (cells s))) /\
                                     seen = trials_at s done
  | PGet | PSample => low s
  | PPend _ seen => low s /\ forall i, In i (map fst seen) -> noreport s i
  | PRefetch i | PClaim i => low s /\ noreport s i
  | PEval i | PReport i _ => low s /\ noreport s i /\ own s i
  | _ => True
  end.

Definition last_ok s (l : list nat) : Prop :=
  forall i l', l = l' ++ [i] -> i < List.length (cells s) /\
    fl_geb (total r_cost (all_but s i)) c = false.

Record cost_inv s (l : list nat) : Prop := mkCost {
  k_inv : inv s;
  k_rep : forall k i r h, w_pc (s_work s k) = PReport i r -> w_cache (s_work s k) i = Some h ->
              t_state (h_trial h) = state_of_reported (r_reported_as r);
  k_final : reports_final s;
  k_pc : pc_ok s;
  k_last : last_ok s l }.

Ltac opn := do 2 (unfold upd in *; rewrite ?Nat.eqb_refl in *; simpl in *); unfold upd in *; rewrite ?Nat.eqb_refl in *.

Lemma last_same : forall s s' l, last_ok s l -> cells s' = cells s -> last_ok s' l.
Proof. intros s s' l H C i l' E. unfold all_but. rewrite C. apply (H i l' E). Qed.

Lemma low_alike : forall s s', low s -> Forall2 alike (cells s) (cells s') -> low s'.
Proof. intros s s' H A. unfold low, trials. now rewrite <- (alike_total _ _ A). Qed.

Lemma last_alike : forall s s' l, last_ok s l -> Forall2 alike (cells s) (cells s') -> last_ok s' l.
Proof.
  intros s s' l H A i l' E. destruct (H i l' E) as [X Y].
  split; [now rewrite <- (Forall2_length _ _ _ _ A)|]. revert Y. unfold all_but.
  rewrite !total_app.
  rewrite (alike_total _ _ (Forall2_firstn _ _ _ _ A i)), (alike_total _ _ (Forall2_skipn _ _ _ _ A (S i))).
  auto.
Qed.

Lemma total_new : forall l (x : cell), t_report (c_trial x) = None ->
  total r_cost (map c_trial (l ++ [x])) = total r_cost (map c_trial l).
Proof.
  intros l x H. rewrite map_app, total_app. cbn [map total]. rewrite H. rewrite fl_add_comm. apply fl_add_0.
Qed.

Lemma last_new : forall s s' l x, last_ok s l -> t_report (c_trial x) = None ->
  cells s' = cells s ++ [x] -> last_ok s' l.
Proof.
  intros s s' l x H T C i l' E. destruct (H i l' E) as [X Y]. unfold all_but in *. rewrite C.
  split; [rewrite app_length; simpl; lia|].
  rewrite firstn_app. replace (i - List.length (cells s)) with 0 by lia. simpl firstn. rewrite app_nil_r.
  rewrite skipn_app. replace (S i - List.length (cells s)) with 0 by lia. simpl skipn.
  revert Y. rewrite !total_app. change (match cells s with [] => [] | _ :: l0 => skipn i l0 end) with (skipn (S i) (cells s)).
  rewrite total_new by auto. auto.
Qed.

Lemma low_new : forall s s' x, low s -> t_report (c_trial x) = None -> cells s' = cells s ++ [x] -> low s'.
Proof. intros s s' x H T C. unfold low, trials in *. rewrite C, total_new; auto. Qed.

Lemma no_total_false : no_total_limit (conf k) = false.
Proof. unfold no_total_limit. rewrite LIM. destruct (max_evaluations_total (conf k)); auto. Qed.

Lemma pend_noreport : forall s i cc, reports_final s -> nth_error (cells s) i = Some cc ->
  t_state (c_trial cc) = PENDING -> noreport s i.
Proof.
  intros s i cc F N P. exists cc. split; auto. destruct (t_report (c_trial cc)) eqn:E; auto. exfalso.
  apply (final_not_pending (t_state (c_trial cc))); auto. apply F; [|congruence].
  unfold trials. apply in_map. eapply nth_error_In; eauto.
Qed.

Lemma noreport_same : forall s s' i, cells s' = cells s -> noreport s i -> noreport s' i.
Proof. intros s s' i C H. unfold noreport in *. now rewrite C. Qed.
Lemma low_same : forall s s', cells s' = cells s -> low s -> low s'.
Proof. intros s s' C H. unfold low, trials in *. now rewrite C. Qed.

(** steps that leave the cells alone *)
Lemma quiet_pc_ok : forall s x, inv s -> reports_final s -> pc_ok s ->
  quiet_from (w_pc (s_work s k)) -> w_pc (s_work s k) <> PSample ->
  cells (step s k x) = cells s /\ pc_ok (step s k x).
Proof.
  intros s x I F K Q NS. unfold pc_ok in K.
  assert (ENTER : cells (enter_totals conf s k (s_work s k) x) = cells s /\
                  pc_ok (enter_totals conf s k (s_work s k) x)).
  { unfold enter_totals. rewrite no_total_false. split; [reflexivity|]. unfold pc_ok. opn.
    exists []. split; [apply listing_perm|reflexivity]. }
  assert (FAIL : forall w, cells (get_failed s k w) = cells s /\ pc_ok (get_failed s k w)).
  { intro w. unfold get_failed. destruct (Z.geb _ _); split; try reflexivity; unfold pc_ok; opn; auto. }
  unfold Runtime_model.step.
  destruct (w_pc (s_work s k)) as [| |todo seen| |todo seen|j| |j|j|j r|j r|j r| |ex] eqn:P;
    simpl in Q; try contradiction; try congruence.
  - unfold apply_verdict. destruct (check_local _ _ _ _ _ _).
    + split; [reflexivity|]. unfold pc_ok. opn. auto.
    + split; [reflexivity|]. unfold pc_ok. opn. auto.
    + destruct (any_error _); auto. split; [reflexivity|]. unfold pc_ok. opn. auto.
  - unfold apply_verdict. destruct (check_errors _ _); auto.
    + split; [reflexivity|]. unfold pc_ok. opn. auto.
    + split; [reflexivity|]. unfold pc_ok. opn. auto.
  - destruct K as (done & PM & SE). destruct todo as [|i todo].
    + unfold apply_verdict. destruct (check_totals (conf k) seen) eqn:CT.
      * split; [reflexivity|]. unfold pc_ok. opn. auto.
      * split; [reflexivity|]. unfold pc_ok. opn. auto.
      * split; [reflexivity|]. unfold pc_ok. opn. apply low_same with (s := s); [reflexivity|].
        unfold low. rewrite app_nil_r in PM. unfold check_totals in CT.
        destruct (reached_Z _ _); [discriminate|].
        rewrite LIM in CT. simpl in CT.
        destruct (fl_geb (fl_sum (flat_map cost_of seen)) c) eqn:GE; [discriminate|].
        rewrite <- total_costs in GE.
        rewrite <- (total_perm seen); auto. rewrite SE. unfold trials_at.
        eapply Permutation_trans; [apply flat_map_perm; exact PM|].
        unfold trials. rewrite <- (trials_at_seq [] (cells s)). reflexivity.
    + assert (L : i < List.length (cells s)).
      { assert (X : In i (seq 0 (List.length (cells s)))).
        { eapply Permutation_in; [exact PM|]. apply in_or_app. right. left. auto. }
        apply in_seq in X. lia. }
      destruct (nth_error (cells s) i) as [cc|] eqn:C; [|apply nth_error_None in C; lia].
      rewrite (read k s i cc I) by (auto; intros; congruence).
      split; [reflexivity|]. unfold pc_ok. opn. exists (done ++ [i]). split.
      * rewrite <- app_assoc. exact PM.
      * unfold trials_at in *. simpl. rewrite flat_map_app. simpl. rewrite C, SE. reflexivity.
  - split; [reflexivity|]. unfold pc_ok. opn. split; [|contradiction].
    apply low_same with (s := s); auto.
  - destruct K as [K1 K2]. destruct todo as [|i todo].
    + destruct (oldest seen) as [[i t]|] eqn:O.
      * split; [reflexivity|]. unfold pc_ok. opn. split; [apply low_same with (s := s); auto|].
        apply noreport_same with (s := s); auto. apply K2. eapply oldest_in; eauto.
      * split; [reflexivity|]. unfold pc_ok. opn. apply low_same with (s := s); auto.
    + destruct (nth_error (cells s) i) as [cc|] eqn:C.
      * rewrite (read k s i cc I) by (auto; intros; congruence).
        split; [reflexivity|]. unfold pc_ok. opn. split; [apply low_same with (s := s); auto|].
        destruct (tstate_eqb (t_state (c_trial cc)) PENDING) eqn:T; [|intros i0 X; apply noreport_same with (s := s); auto].
        intros i0 X. apply noreport_same with (s := s); auto. rewrite map_app in X. apply in_app_or in X.
        destruct X as [X|[X|[]]]; auto. simpl in X. subst i0.
        eapply pend_noreport; eauto. destruct (t_state (c_trial cc)); simpl in T; try discriminate; auto.
      * unfold sync_one. rewrite C. apply FAIL.
  - destruct K as [K1 (cc & C & K2)]. rewrite (read k s j cc I) by (auto; intros; congruence).
    split; [reflexivity|]. unfold pc_ok. opn. split; [apply low_same with (s := s); auto|].
    exists cc. auto.
Qed.

Lemma cost_effect : forall s e l, actor e = k -> cost_inv s l ->
  cost_inv (do_event s e) (l ++ see_reported s e (do_event s e)).
Proof.
  intros s e l AC J.
  assert (E := event_effect pyfloat tid wname conf ask s e).
  destruct J as [I RP F K L]. destruct I as [IV IF].
  assert (I' : inv (do_event s e)) by (split; [eapply versions_ok_effect|eapply fresh_effect]; eauto).
  assert (RP' : forall k0 i r h, w_pc (s_work (do_event s e) k0) = PReport i r ->
     w_cache (s_work (do_event s e) k0) i = Some h ->
     t_state (h_trial h) = state_of_reported (r_reported_as r)).
  { intros k0 i r h P H. destruct (Nat.eq_dec k0 (actor e)) as [->|N].
    2:{ rewrite (others_untouched _ _ _ _ _ _ _ _ _ E N) in *. eapply RP; eauto. }
    revert P H. clear I'. revert E. generalize (do_event s e). intros s' E. inversion E; subst; cbn [actor] in *; intros P HH; opn; try discriminate.
    - eapply RP; eauto.
    - destruct (w_pc w'); simpl in *; try contradiction; discriminate.
    - destruct (w_nset (s_work s k0)); [destruct (Z.geb _ _)|]; congruence.
    - injection P as -> ->. rewrite Nat.eqb_refl in HH. injection HH as <-. simpl.
      apply evaluate_keeps_report in H2. tauto.
    - congruence.
    - destruct (r_err r0); discriminate.
    - congruence. }
  (* events after which the cells are the same *)
  assert (SAME : cells (do_event s e) = cells s -> see_reported s e (do_event s e) = [] ->
                 pc_ok (do_event s e) -> cost_inv (do_event s e) (l ++ see_reported s e (do_event s e))).
  { intros C S P. rewrite S, app_nil_r. constructor; auto.
    - intros t X. unfold trials in X. rewrite C in X. now apply F.
    - eapply last_same; eauto. }
  destruct e as [k0 x|k0 x|k0 b]; cbn [actor] in AC; subst k0.
  - unfold see_reported, at_pc in *. cbn [Runtime_model.do_event] in *.
    destruct (w_pc (s_work s k)) as [| |todo seen| |todo seen|j| |j|j|j r|j r|j r| |ex] eqn:P.
    1-6: destruct (quiet_pc_ok s x (conj IV IF) F K) as [C PK]; [rewrite P; exact Logic.I|rewrite P; discriminate|];
         apply SAME; auto.
    + (* sample *) rewrite app_nil_r. unfold pc_ok in K. rewrite P in K.
      assert (FAIL : forall w, cells (get_failed s k w) = cells s /\ pc_ok (get_failed s k w)).
      { intro w. unfold get_failed. destruct (Z.geb _ _); split; try reflexivity; unfold pc_ok; opn; auto. }
      revert SAME I' RP'. clear E. unfold Runtime_model.step. rewrite P. unfold sample_step.
      destruct (sync_all _ _ _) as [w1 ts]. destruct (ask (s_rng s) ts) as [[cfg r']|ex]; intros SAME I' RP'.
      * set (x0 := mkCell (s_next s) (trial_new (tid (List.length (cells s))) cfg "" None None (in_time x) (wname k))).
        assert (T0 : t_report (c_trial x0) = None) by reflexivity.
        constructor; auto.
        -- intros t X. unfold trials in X. simpl in X. rewrite map_app in X. apply in_app_or in X.
           destruct X as [X|[<-|[]]]; [now apply F|]. simpl. congruence.
        -- unfold pc_ok. opn. split.
           ++ eapply low_new with (s := s) (x := x0); eauto.
           ++ exists x0. split; auto. simpl. rewrite nth_error_app2, Nat.sub_diag by lia. reflexivity.
        -- eapply last_new with (s := s) (x := x0); eauto.
      * rewrite app_nil_r in SAME. destruct (FAIL w1). apply SAME; auto.
    + (* claim *) rewrite app_nil_r. unfold pc_ok in K. rewrite P in K. destruct K as [K1 (cc & C & K2)].
      revert SAME I' RP'. clear E. unfold Runtime_model.step. rewrite P. unfold claim_step.
      rewrite app_nil_r.
      destruct (w_cache (s_work s k) j) as [h|] eqn:H; intros SAME I' RP'.
      2:{ apply SAME; auto. unfold pc_ok. opn. auto. }
      revert SAME I' RP'. unfold put_trial. rewrite H, C. destruct (Nat.eqb (h_ver h) (c_ver cc)) eqn:V; intros SAME I' RP'.
      * apply Nat.eqb_eq in V.
        assert (HT : h_trial h = c_trial cc).
        { destruct (IF k j h cc H C V) as [X|(r & X & _)]; auto. congruence. }
        set (t := set_evaluating (h_trial h) (in_time x) (wname k)) in *.
        assert (T0 : t_report t = None) by (simpl; congruence).
        assert (A : Forall2 alike (cells s) (set_nth (cells s) j (mkCell (s_next s) t)))
          by (eapply alike_set; eauto).
        constructor; auto.
        -- intros t1 X RX. unfold trials in X. simpl in X. rewrite map_set_nth in X.
           apply In_set_nth in X. destruct X as [->|X]; [simpl in RX; congruence|]. now apply F.
        -- unfold pc_ok. opn. split; [eapply low_alike; eauto|].
           assert (N : nth_error (set_nth (cells s) j (mkCell (s_next s) t)) j = Some (mkCell (s_next s) t))
             by (apply nth_error_set_nth_eq; eapply nth_error_lt; eauto).
           split; [exists (mkCell (s_next s) t); auto|].
           exists (mkH (s_next s) t), (mkCell (s_next s) t). opn. auto.
        -- eapply last_alike; eauto.
      * revert SAME I' RP'. simpl w_nset. destruct (w_nset (s_work s k)) as [n|]; intros SAME I' RP'.
        -- apply SAME; auto. unfold pc_ok. opn. destruct (Z.geb _ _); auto.
        -- apply SAME; auto. unfold pc_ok. opn. auto.
    + (* eval *) unfold pc_ok in K. rewrite P in K. destruct K as [K1 [K2 (h & cc & H & C & V)]].
      revert SAME I' RP'. clear E. unfold Runtime_model.step. rewrite P. unfold eval_step. rewrite H.
      destruct (w_global (s_work s k)); intros SAME I' RP'.
      * apply SAME; auto. unfold pc_ok. opn. auto.
      * revert SAME I' RP'. destruct (evaluate_trial _ _ _ _ _ _ _) as [[t r]|ex]; intros SAME I' RP'; apply SAME; auto; unfold pc_ok; opn; auto.
        split; [apply low_same with (s := s); auto|]. split; [apply noreport_same with (s := s); auto|].
        exists (mkH (h_ver h) t), cc. opn. auto.
    + (* report *) unfold pc_ok in K. rewrite P in K. destruct K as [K1 [(cc & C & NR) (h & cc' & H & C' & V)]].
      rewrite C in C'. injection C' as <-.
      revert SAME I' RP'. clear E. unfold Runtime_model.step. rewrite P. unfold report_step. rewrite H.
      unfold put_trial. rewrite H, C, V, Nat.eqb_refl. intros SAME I' RP'.
      set (t := attach_report (h_trial h) r) in *.
      assert (SE : (match w_pc (s_work (with_worker (mkSys (set_nth (cells s) j (mkCell (s_next s) t)) (s_budget s)
            (s_errs s) (s_rng s) (S (s_next s)) (s_work s)) k (set_pc (set_handle (s_work s k) j (mkH (s_next s) t)) (PAccount j r))) k)
          with PAccount _ _ => [j] | _ => [] end) = [j]).
      { opn. reflexivity. }
      rewrite SE. constructor; auto.
      * intros t1 X RX. unfold trials in X. simpl in X. rewrite map_set_nth in X.
        apply In_set_nth in X. destruct X as [->|X]; [|now apply F].
        simpl. rewrite (RP _ _ _ _ P H). unfold final. destruct (r_reported_as r); simpl; auto.
      * unfold pc_ok. opn. auto.
      * intros i l' X. apply app_inj_tail in X. destruct X as [_ <-].
        simpl cells. rewrite length_set_nth. split; [eapply nth_error_lt; eauto|].
        unfold all_but. simpl cells. rewrite firstn_set, skipn_set.
        unfold low, trials in K1. rewrite (split_at _ _ _ _ C) in K1.
        rewrite map_app in K1. cbn [map] in K1. rewrite total_app in K1. cbn [total] in K1. rewrite NR in K1.
        rewrite <- total_app in K1. exact K1.
    + apply SAME; auto; unfold Runtime_model.step; rewrite P; auto. unfold pc_ok, account_step. opn.
      destruct (r_err r); auto.
    + apply SAME; auto; unfold Runtime_model.step; rewrite P; auto. unfold pc_ok, errdump_step. opn. auto.
    + apply SAME; auto; unfold Runtime_model.step; rewrite P; auto.
    + apply SAME; auto; unfold Runtime_model.step; rewrite P; auto.
  - unfold see_reported, at_pc in *. cbn [Runtime_model.do_event] in *. rewrite app_nil_r in *.
    destruct (w_pc (s_work s k)) eqn:P; try (apply SAME; auto; fail).
    revert SAME I' RP'. clear E. unfold sample_step.
    destruct (sync_all _ _ _) as [w1 ts]. destruct (ask (s_rng s) ts) as [[cfg r']|ex]; intros SAME I' RP'.
    + set (x0 := mkCell (s_next s) (trial_new (tid (List.length (cells s))) cfg "" None None (in_time x) (wname k))).
      constructor; auto.
      * intros t X. unfold trials in X. simpl in X. rewrite map_app in X. apply in_app_or in X.
        destruct X as [X|[<-|[]]]; [now apply F|]. simpl. congruence.
      * unfold pc_ok. opn. auto.
      * eapply last_new with (s := s) (x := x0); eauto.
    + apply SAME; auto. unfold pc_ok. opn. auto.
  - apply SAME; auto. unfold pc_ok. simpl. opn. auto.
Qed.

Lemma cost_run : forall es s l, (forall e, In e es -> actor e = k) -> cost_inv s l ->
  cost_inv (run s es) (l ++ reported_trials s es).
Proof.
  induction es as [|e es IH]; intros s l A J; simpl.
  - rewrite app_nil_r. auto.
  - unfold Limit_spec.reported_trials. simpl. rewrite app_assoc.
    change (cost_inv (run (do_event s e) es)
      ((l ++ see_reported s e (do_event s e)) ++ reported_trials (do_event s e) es)).
    apply IH; [intros; apply A; right; auto|]. apply cost_effect; auto. apply A. left. auto.
Qed.

Lemma cost_start : forall cs b errs r n, good_cells cs n -> cost_inv (start cs b errs r n) [].
Proof.
  intros cs b errs r n G. constructor.
  - apply start_inv; auto.
  - intros. simpl in *. discriminate.
  - eapply start_reports; eauto.
  - unfold pc_ok. simpl. auto.
  - intros i l' X. destruct l'; discriminate.
Qed.

End Cost.
