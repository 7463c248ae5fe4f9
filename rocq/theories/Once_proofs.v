(** At most one evaluation per trial, final reports. *)
From Verif Require Import Py Trial_model Eval_model Init_model Runtime_model Runtime_spec
  Runtime_proofs Claim_proofs.

Lemma NoDup_app_cons : forall A (l : list A) x, NoDup l -> ~ In x l -> NoDup (l ++ [x]).
Proof.
  induction l as [|y l IH]; simpl; intros x N H.
  - constructor; auto.
  - inversion N; subst. constructor.
    + intro X. apply in_app_or in X. destruct X as [X|[<-|[]]]; tauto.
    + apply IH; auto.
Qed.

Section Once.
Context {R : Type}.
Variable pyfloat : pyval -> res fl.
Variable tid wname : nat -> string.
Variable conf : nat -> worker_settings.
Variable ask : R -> list trial -> res (dict * R).
Notation do_event := (do_event pyfloat tid wname conf ask).
Notation run := (run pyfloat tid wname conf ask).
Notation step := (step pyfloat tid wname conf ask).
Notation effect := (effect pyfloat tid wname conf ask).
Notation evaluated := (evaluated pyfloat tid wname conf ask).
Notation no_late_refetch := (no_late_refetch pyfloat tid wname conf ask).
Implicit Types s : sys R.
Implicit Types e : event R.

Definition busy s k i : Prop :=
  w_pc (s_work s k) = PEval i \/ exists r, w_pc (s_work s k) = PReport i r.

Record once_inv s (evs : list nat) : Prop := mkOnce {
  o_ver : versions_ok s;
  o_fresh : fresh s;
  o_final : forall i c, nth_error (cells s) i = Some c -> t_report (c_trial c) <> None ->
              final (t_state (c_trial c));
  o_claim : forall k i, w_pc (s_work s k) = PClaim i ->
              exists h, w_cache (s_work s k) i = Some h /\ t_state (h_trial h) = PENDING;
  o_busy : forall k i, busy s k i -> exists h c, w_cache (s_work s k) i = Some h /\
              nth_error (cells s) i = Some c /\ h_ver h = c_ver c /\
              t_state (c_trial c) = EVALUATING /\ t_report (c_trial c) = None;
  o_uniq : forall k k' i, busy s k i -> busy s k' i -> k = k';
  o_evs : forall i, In i evs -> exists c, nth_error (cells s) i = Some c /\ t_state (c_trial c) <> PENDING;
  o_nodup : NoDup evs;
  o_eval : forall k i, w_pc (s_work s k) = PEval i -> ~ In i evs;
  o_rep : forall k i r h, w_pc (s_work s k) = PReport i r -> w_cache (s_work s k) i = Some h ->
              t_state (h_trial h) = state_of_reported (r_reported_as r) }.

Lemma once_start : forall cs b errs r n, good_cells cs n -> once_inv (start cs b errs r n) [].
Proof.
  intros cs b errs r n G. constructor; simpl; try (intros; discriminate); try contradiction.
  - split; simpl; [|discriminate]. intros i c C. apply nth_error_In in C. apply G in C. tauto.
  - intros i c C. apply nth_error_In in C. apply G in C. tauto.
  - intros k i [B|(r0 & B)]; discriminate.
  - intros k k' i [B|(r0 & B)]; discriminate.
  - constructor.
Qed.

Lemma final_not_pending : forall t, final t -> t <> PENDING.
Proof. intros t [-> | [-> | ->]]; discriminate. Qed.

Lemma busy_other : forall s e s' k i, effect s e s' -> k <> actor e -> busy s' k i -> busy s k i.
Proof.
  intros s e s' k i E N B. unfold busy in *. rewrite (others_untouched _ _ _ _ _ _ _ _ _ E N) in B. auto.
Qed.

(** An event that leaves the cells alone and does not make its worker claim, evaluate
    or report. *)
Lemma once_harmless : forall s e s' evs,
  once_inv s evs -> effect s e s' -> cells s' = cells s ->
  (forall i r, w_pc (s_work s' (actor e)) <> PClaim i /\ w_pc (s_work s' (actor e)) <> PEval i /\
               w_pc (s_work s' (actor e)) <> PReport i r) ->
  once_inv s' evs.
Proof.
  intros s e s' evs J E C P.
  assert (B : forall k i, busy s' k i -> k <> actor e).
  { intros k i [X|(r & X)] ->; destruct (P i (mkReport "" None None None [] None None RSuccess None)) as (P1 & P2 & P3).
    - congruence.
    - destruct (P i r) as (_ & _ & P4). congruence. }
  destruct J. constructor; auto.
  - eapply versions_ok_effect; eauto.
  - eapply fresh_effect; eauto.
  - rewrite C. auto.
  - intros k i H. assert (N : k <> actor e).
    { intros ->. destruct (P i (mkReport "" None None None [] None None RSuccess None)) as (P1 & P2 & P3). congruence. }
    rewrite (others_untouched _ _ _ _ _ _ _ _ _ E N) in *. auto.
  - intros k i H. assert (N := B _ _ H). assert (H' := busy_other _ _ _ _ _ E N H).
    rewrite (others_untouched _ _ _ _ _ _ _ _ _ E N), C. auto.
  - intros k k' i H H'. eapply o_uniq0; eapply busy_other; eauto.
  - rewrite C. auto.
  - intros k i H. assert (N : k <> actor e) by (eapply B; left; eauto).
    rewrite (others_untouched _ _ _ _ _ _ _ _ _ E N) in H. eauto.
  - intros k i r h H. assert (N : k <> actor e) by (eapply B; right; eauto).
    rewrite (others_untouched _ _ _ _ _ _ _ _ _ E N) in *. eauto.
Qed.

Ltac opn := do 2 (unfold upd in *; rewrite ?Nat.eqb_refl in *; simpl in *); unfold upd in *; rewrite ?Nat.eqb_refl in *.
Ltac rfl := opn.
Ltac at_actor k0 k := destruct (Nat.eqb k0 k) eqn:?Q;
  [apply Nat.eqb_eq in Q; subst k0|apply Nat.eqb_neq in Q].

(** Adding a new pending trial. *)
Lemma once_new : forall s e s' evs t,
  once_inv s evs -> effect s e s' -> cells s' = cells s ++ [mkCell (s_next s) t] ->
  t_state t = PENDING -> t_report t = None ->
  (forall i r, w_pc (s_work s' (actor e)) <> PEval i /\ w_pc (s_work s' (actor e)) <> PReport i r) ->
  (forall i, w_pc (s_work s' (actor e)) = PClaim i ->
     exists h, w_cache (s_work s' (actor e)) i = Some h /\ t_state (h_trial h) = PENDING) ->
  once_inv s' evs.
Proof.
  intros s e s' evs t J E C T1 T2 P Q.
  assert (B : forall k i, busy s' k i -> k <> actor e).
  { intros k i [X|(r & X)] ->; destruct (P i (mkReport "" None None None [] None None RSuccess None)) as (P1 & P2).
    - congruence.
    - destruct (P i r) as (_ & P4). congruence. }
  assert (G : forall i c, nth_error (cells s) i = Some c -> nth_error (cells s') i = Some c).
  { intros. rewrite C. rewrite nth_error_app1; auto. eapply nth_error_lt; eauto. }
  destruct J. constructor; auto.
  - eapply versions_ok_effect; eauto.
  - eapply fresh_effect; eauto.
  - rewrite C. intros i c H. destruct (Nat.lt_ge_cases i (List.length (cells s))) as [L|L].
    + rewrite nth_error_app1 in H by auto. eauto.
    + rewrite nth_error_app2 in H by auto.
      destruct (i - List.length (cells s)) as [|[|]]; simpl in H; try discriminate.
      injection H as <-. simpl. congruence.
  - intros k i H. destruct (Nat.eq_dec k (actor e)) as [->|N]; auto.
    rewrite (others_untouched _ _ _ _ _ _ _ _ _ E N) in *. auto.
  - intros k i H. assert (N := B _ _ H). assert (H' := busy_other _ _ _ _ _ E N H).
    rewrite (others_untouched _ _ _ _ _ _ _ _ _ E N).
    destruct (o_busy0 _ _ H') as (h & c & H1 & H2 & H3). exists h, c. auto.
  - intros k k' i H H'. eapply o_uniq0; eapply busy_other; eauto.
  - intros i H. destruct (o_evs0 _ H) as (c & H1 & H2). eauto.
  - intros k i H. assert (N : k <> actor e) by (eapply B; left; eauto).
    rewrite (others_untouched _ _ _ _ _ _ _ _ _ E N) in H. eauto.
  - intros k i r h H. assert (N : k <> actor e) by (eapply B; right; eauto).
    rewrite (others_untouched _ _ _ _ _ _ _ _ _ E N) in *. eauto.
Qed.

Lemma quiet_to_not : forall p i r, quiet_to p -> p <> PClaim i /\ p <> PEval i /\ p <> PReport i r.
Proof. intros p i r Q. destruct p; simpl in Q; try contradiction; repeat split; discriminate. Qed.

Lemma once_effect : forall s e s' evs,
  once_inv s evs -> refetch_ok s e -> effect s e s' ->
  once_inv s' (evs ++ see_evaluation s e s').
Proof.
  intros s e s' evs J OK E.
  assert (HARM : see_evaluation s e s' = [] -> cells s' = cells s ->
    (forall i r, w_pc (s_work s' (actor e)) <> PClaim i /\ w_pc (s_work s' (actor e)) <> PEval i /\
               w_pc (s_work s' (actor e)) <> PReport i r) ->
    once_inv s' (evs ++ see_evaluation s e s')).
  { intros -> ? ?. rewrite app_nil_r. eapply once_harmless; eauto. }
  unfold refetch_ok, see_evaluation, at_pc in *. inversion E; subst.
  - (* idle *) destruct e as [k x|k x|k b].
    + destruct (H k x eq_refl) as [X|(ex & X)]; rewrite X in *; rewrite app_nil_r; auto.
    + rewrite app_nil_r. auto.
    + exfalso. eapply H0; eauto.
  - (* move *) apply HARM; auto.
    + destruct (w_pc (s_work s k)); simpl in H; auto; contradiction.
    + intros i r. opn. apply quiet_to_not; auto.
  - (* refetch *) rewrite H in *. simpl app. rewrite app_nil_r in *.
    specialize (OK _ H0).
    assert (FR := o_fresh _ _ J). destruct J. constructor; auto.
    + eapply versions_ok_effect; eauto.
    + eapply fresh_effect; eauto.
    + intros k0 i0. opn. at_actor k0 k; auto. simpl. intro X. injection X as <-.
      rfl. eexists. split; eauto.
      destruct (sync_handle_trial (w_cache (s_work s k) i) c) as [X|(h' & X1 & X2 & X3)]; [congruence|].
      rewrite X3. destruct (FR k i h' c) as [Y|(r & Y & _)]; auto; congruence.
    + intros k0 i0 H1. assert (N : k0 <> k).
      { intros ->. destruct H1 as [H1|(r & H1)]; opn; discriminate. }
      apply (busy_other _ _ _ _ _ E N) in H1. opn. rewrite (proj2 (Nat.eqb_neq k0 k) N). auto.
    + intros k0 k1 i0 H1 H2. assert (N : forall k2, busy (with_worker s k (got (set_handle (s_work s k) i (sync_handle (w_cache (s_work s k) i) c)) i)) k2 i0 -> k2 <> k).
      { intros k2 [H4|(r & H4)] ->; opn; discriminate. }
      eapply o_uniq0; eapply busy_other; eauto; simpl; apply N; auto.
    + intros k0 i0. opn. at_actor k0 k; auto. simpl. discriminate. eauto.
    + intros k0 i0 r h. opn. at_actor k0 k; eauto. simpl. discriminate.
  - (* sample *) rewrite H in *. rewrite app_nil_r.
    eapply once_new; eauto; try reflexivity.
    + intros i r. opn. split; discriminate.
    + intro i. opn. intro X. injection X as <-. rfl. eexists. split; eauto; reflexivity.
  - (* claim ok *) rewrite H in *. rewrite app_nil_r.
    assert (J' := J). destruct J.
    assert (HP : t_state (c_trial c) = PENDING).
    { destruct (o_claim0 _ _ H) as (h' & H3 & H4). rewrite H0 in H3. injection H3 as <-.
      destruct (o_fresh0 _ _ _ _ H0 H1 H2) as [X|(r & X & _)]; congruence. }
    assert (HT : h_trial h = c_trial c).
    { destruct (o_fresh0 _ _ _ _ H0 H1 H2) as [X|(r & X & _)]; congruence. }
    assert (HR : t_report (c_trial c) = None).
    { destruct (t_report (c_trial c)) eqn:X; auto. exfalso.
      apply (final_not_pending (t_state (c_trial c))); auto. eapply o_final0; eauto. congruence. }
    assert (L := nth_error_lt _ _ _ _ H1).
    set (s1 := with_worker _ _ _) in *.
    assert (NB : forall k0, busy s k0 i -> False).
    { intros k0 B. destruct (o_busy0 _ _ B) as (h' & c' & X1 & X2 & X3 & X4 & X5). congruence. }
    assert (NE : ~ In i evs).
    { intro X. apply o_evs0 in X. destruct X as (c' & X1 & X2). congruence. }
    constructor; auto.
    + eapply versions_ok_effect; eauto.
    + eapply fresh_effect; eauto.
    + subst s1. simpl. intros j c' X. destruct (Nat.eq_dec i j) as [<-|N].
      * rewrite nth_error_set_nth_eq in X by auto. injection X as <-. simpl. rewrite HT. congruence.
      * rewrite nth_error_set_nth_neq in X by auto. eauto.
    + intros k0 i0. subst s1. opn. at_actor k0 k; auto. simpl. discriminate.
    + intros k0 i0 B. destruct (Nat.eq_dec k0 k) as [->|N].
      * assert (i0 = i). { destruct B as [B|(r & B)]; subst s1; opn; congruence. } subst i0.
        subst s1. opn. rewrite nth_error_set_nth_eq by auto. do 2 eexists. repeat split; eauto.
        simpl. congruence.
      * assert (B' := busy_other _ _ _ _ _ E N B). destruct (o_busy0 _ _ B') as (h' & c' & X1 & X2 & X3).
        exists h', c'. subst s1. opn. rewrite (proj2 (Nat.eqb_neq k0 k) N).
        rewrite nth_error_set_nth_neq; auto. intros ->. eapply NB; eauto.
    + assert (OWN : forall k0 i0, busy s1 k0 i0 -> k0 = k /\ i0 = i \/ busy s k0 i0).
      { intros k0 i0 B. destruct (Nat.eq_dec k0 k) as [->|N].
        - left. split; auto. destruct B as [B|(r & B)]; subst s1; opn; congruence.
        - right. eapply busy_other; eauto. }
      intros k0 k1 i0 B0 B1. apply OWN in B0. apply OWN in B1.
      destruct B0 as [[-> ->]|B0], B1 as [[-> X]|B1]; auto; try (exfalso; eapply NB; eauto; fail).
      * subst. exfalso. eapply NB; eauto.
      * eapply o_uniq0; eauto.
    + intros j X. destruct (o_evs0 _ X) as (c' & X1 & X2). exists c'. subst s1. simpl.
      rewrite nth_error_set_nth_neq; auto. intros ->. auto.
    + intros k0 i0. subst s1. opn. at_actor k0 k; simpl.
      * intro X. injection X as <-. auto.
      * eauto.
    + intros k0 i0 r0 h0. subst s1. opn. at_actor k0 k; simpl; [discriminate|]. eauto.
  - (* claim lost *) rewrite H in *. apply HARM; auto.
    intros j r. opn. destruct (w_nset (s_work s k)) as [n|].
    + destruct (Z.geb (n + 1) N_FAILED_SET); injection H8 as X _; rewrite X; repeat split; discriminate.
    + injection H8 as X _. rewrite X. repeat split; discriminate.
  - (* no handle *) destruct H as (i & H & H0). destruct J. exfalso.
    destruct H as [H|[H|(r & H)]].
    + destruct (o_claim0 _ _ H) as (h & X & _). congruence.
    + destruct (o_busy0 k i) as (h & c & X & _); [left; auto|]. congruence.
    + destruct (o_busy0 k i) as (h & c & X & _); [right; eauto|]. congruence.
  - (* eval ok *) rewrite H in *.
    set (s1 := with_worker _ _ _) in *.
    assert (BK : forall k0 i0, busy s1 k0 i0 -> busy s k0 i0).
    { intros k0 i0 B. destruct (Nat.eq_dec k0 k) as [->|N].
      - left. destruct B as [B|(r' & B)]; subst s1; opn; congruence.
      - eapply busy_other; eauto. }
    destruct J.
    assert (X := o_busy0 k i (or_introl H)). destruct X as (h' & c & X1 & X2 & X3 & X4 & X5).
    rewrite H0 in X1. injection X1 as <-.
    constructor; auto.
    + eapply versions_ok_effect; eauto.
    + eapply fresh_effect; eauto.
    + intros k0 i0. subst s1. opn. at_actor k0 k; auto. simpl. discriminate.
    + intros k0 i0 B. assert (B' := BK _ _ B). destruct (Nat.eq_dec k0 k) as [->|N].
      * assert (i0 = i). { destruct B' as [B'|(r' & B')]; congruence. } subst i0.
        subst s1. opn. exists (mkH (h_ver h) t), c. auto.
      * destruct (o_busy0 _ _ B') as (h' & c' & Y). exists h', c'. subst s1. opn.
        rewrite (proj2 (Nat.eqb_neq k0 k) N). auto.
    + intros k0 k1 i0 B0 B1. eapply o_uniq0; eauto.
    + intros j Y. apply in_app_or in Y. destruct Y as [Y|[<-|[]]]; auto.
      exists c. split; auto. congruence.
    + assert (NI := o_eval0 _ _ H). apply NoDup_app_cons; auto.
    + intros k0 i0 Y. assert (N : k0 <> k). { intros ->. subst s1. opn. discriminate. }
      assert (Y' : w_pc (s_work s k0) = PEval i0).
      { rewrite (others_untouched _ _ _ _ _ _ _ _ _ E) in Y by auto. auto. }
      intro Z. apply in_app_or in Z. destruct Z as [Z|[<-|[]]].
      * eapply o_eval0; eauto.
      * apply N. eapply o_uniq0; left; eauto.
    + intros k0 i0 r0 h0. subst s1. opn. at_actor k0 k.
      * simpl. intros Y. injection Y as <- <-. rfl. intro Y. injection Y as <-. simpl.
        apply evaluate_keeps_report in H2. tauto.
      * eauto.
  - (* eval err *) rewrite H in *.
    set (s1 := with_worker _ _ _) in *.
    destruct J.
    assert (X := o_busy0 k i (or_introl H)). destruct X as (h' & c & X1 & X2 & X3 & X4 & X5).
    assert (BK : forall k0 i0, busy s1 k0 i0 -> k0 <> k).
    { intros k0 i0 [B|(r' & B)] ->; subst s1; opn; discriminate. }
    constructor; auto.
    + eapply versions_ok_effect; eauto.
    + eapply fresh_effect; eauto.
    + intros k0 i0. subst s1. opn. at_actor k0 k; auto. simpl. discriminate.
    + intros k0 i0 B. assert (N := BK _ _ B). assert (B' := busy_other _ _ _ _ _ E N B).
      subst s1. opn. rewrite (proj2 (Nat.eqb_neq k0 k) N). auto.
    + intros k0 k1 i0 B0 B1. eapply o_uniq0; eapply busy_other; eauto; eapply BK; eauto.
    + intros j Y. apply in_app_or in Y. destruct Y as [Y|[<-|[]]]; auto.
      exists c. split; auto. congruence.
    + assert (NI := o_eval0 _ _ H). apply NoDup_app_cons; auto.
    + intros k0 i0 Y. assert (N : k0 <> k). { intros ->. subst s1. opn. discriminate. }
      assert (Y' : w_pc (s_work s k0) = PEval i0).
      { rewrite (others_untouched _ _ _ _ _ _ _ _ _ E) in Y by auto. auto. }
      intro Z. apply in_app_or in Z. destruct Z as [Z|[<-|[]]].
      * eapply o_eval0; eauto.
      * apply N. eapply o_uniq0; left; eauto.
    + intros k0 i0 r0 h0. subst s1. opn. at_actor k0 k; simpl; [discriminate|]. eauto.
  - (* report ok *) rewrite H in *. rewrite app_nil_r.
    set (s1 := with_worker _ _ _) in *. destruct J.
    assert (L := nth_error_lt _ _ _ _ H1).
    assert (BK : forall k0 i0, busy s1 k0 i0 -> k0 <> k).
    { intros k0 i0 [B|(r' & B)] ->; subst s1; opn; discriminate. }
    constructor; auto.
    + eapply versions_ok_effect; eauto.
    + eapply fresh_effect; eauto.
    + subst s1. simpl. intros j c' X. destruct (Nat.eq_dec i j) as [<-|N].
      * rewrite nth_error_set_nth_eq in X by auto. injection X as <-. simpl. intros _.
        rewrite (o_rep0 _ _ _ _ H H0). unfold final. destruct (r_reported_as r); simpl; auto.
      * rewrite nth_error_set_nth_neq in X by auto. eauto.
    + intros k0 i0. subst s1. opn. at_actor k0 k; auto. simpl. discriminate.
    + intros k0 i0 B. assert (N := BK _ _ B). assert (B' := busy_other _ _ _ _ _ E N B).
      destruct (o_busy0 _ _ B') as (h' & c' & Y1 & Y2 & Y3). exists h', c'.
      subst s1. opn. rewrite (proj2 (Nat.eqb_neq k0 k) N).
      rewrite nth_error_set_nth_neq; auto. intros ->. apply N. eapply o_uniq0; eauto. right. eauto.
    + intros k0 k1 i0 B0 B1. eapply o_uniq0; eapply busy_other; eauto; eapply BK; eauto.
    + intros j X. subst s1. simpl. destruct (Nat.eq_dec i j) as [<-|N].
      * rewrite nth_error_set_nth_eq by auto. eexists. split; eauto. simpl.
        rewrite (o_rep0 _ _ _ _ H H0). destruct (r_reported_as r); discriminate.
      * rewrite nth_error_set_nth_neq by auto. eauto.
    + intros k0 i0. subst s1. opn. at_actor k0 k; simpl; [discriminate|]. eauto.
    + intros k0 i0 r0 h0. subst s1. opn. at_actor k0 k; simpl; [discriminate|]. eauto.
  - (* report lost: cannot happen, but harmless *) rewrite H in *. apply HARM; auto.
    intros j r'. opn. rewrite H3. repeat split; discriminate.
  - rewrite H in *. apply HARM; auto. intros j r'. opn. destruct (r_err r); repeat split; discriminate.
  - rewrite H in *. apply HARM; auto. intros j r'. opn. repeat split; discriminate.
  - (* killed *) rewrite app_nil_r. eapply once_new; eauto; try reflexivity.
    + intros i r. opn. split; discriminate.
    + intro i. opn. discriminate.
  - apply HARM; auto. intros j r. opn. rewrite H1. repeat split; discriminate.
  - apply HARM; auto. intros j r. opn. repeat split; discriminate.
Qed.

Lemma once_run : forall es s evs,
  once_inv s evs -> no_late_refetch s es ->
  once_inv (run s es) (evs ++ evaluated s es).
Proof.
  induction es as [|e es IH]; intros s evs J N; simpl.
  - rewrite app_nil_r. auto.
  - destruct N as [N1 N2]. unfold Runtime_spec.evaluated. simpl. rewrite app_assoc.
    change (once_inv (run (do_event s e) es)
      ((evs ++ see_evaluation s e (do_event s e)) ++ evaluated (do_event s e) es)).
    apply IH; auto.
    apply once_effect; auto. apply event_effect.
Qed.

(** Under the invariant a reported trial is never touched again. *)
Lemma reported_effect : forall s e s' evs i c,
  once_inv s evs -> effect s e s' -> nth_error (cells s) i = Some c ->
  t_report (c_trial c) <> None -> nth_error (cells s') i = Some c.
Proof.
  intros s e s' evs i c J E C RP. inversion E; subst; simpl; auto.
  - rewrite nth_error_app1; auto. eapply nth_error_lt; eauto.
  - destruct (Nat.eq_dec i0 i) as [->|N]; [|rewrite nth_error_set_nth_neq; auto].
    exfalso. destruct J. destruct (o_claim0 _ _ H) as (h' & X & Y). rewrite H0 in X. injection X as <-.
    rewrite C in H1. injection H1 as <-.
    destruct (o_fresh0 _ _ _ _ H0 C H2) as [Z|(r & Z & _)]; [|congruence].
    apply (final_not_pending (t_state (c_trial c))); [eauto|congruence].
  - destruct (Nat.eq_dec i0 i) as [->|N]; [|rewrite nth_error_set_nth_neq; auto].
    exfalso. destruct J. destruct (o_busy0 k i) as (h' & c' & X1 & X2 & X3 & X4 & X5); [right; eauto|].
    congruence.
  - rewrite nth_error_app1; auto. eapply nth_error_lt; eauto.
Qed.

Lemma reported_run : forall es s evs i c,
  once_inv s evs -> no_late_refetch s es -> nth_error (cells s) i = Some c ->
  t_report (c_trial c) <> None -> nth_error (cells (run s es)) i = Some c.
Proof.
  induction es as [|e es IH]; intros s evs i c J N C RP; auto.
  destruct N as [N1 N2]. rewrite (run_cons _ _ _ _ _ s e es).
  apply IH with (evs := evs ++ see_evaluation s e (do_event s e)); auto.
  - apply once_effect; auto. apply event_effect.
  - eapply reported_effect; [eauto|apply event_effect|auto|auto].
Qed.

(** Nor does storing a report ever fail. *)
Lemma report_accepted : forall s evs k i r x,
  once_inv s evs -> w_pc (s_work s k) = PReport i r ->
  w_pc (s_work (step s k x) k) = PAccount i r.
Proof.
  intros s evs k i r x J P. destruct J.
  destruct (o_busy0 k i) as (h & c & X1 & X2 & X3 & _); [right; eauto|].
  unfold Runtime_model.step. rewrite P. unfold report_step. rewrite X1. unfold put_trial.
  rewrite X1, X2, X3, Nat.eqb_refl. opn. reflexivity.
Qed.

End Once.
