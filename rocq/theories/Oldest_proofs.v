(** Which trial a worker takes. *)
From Verif Require Import Py Trial_model Eval_model Init_model Runtime_model Runtime_spec
  Runtime_proofs Claim_proofs Once_proofs Each_proofs Share_proofs Solo_proofs Limit_spec.

Lemma ltb_trans_le : forall a b c, a <> FNaN -> b <> FNaN -> c <> FNaN ->
  fl_ltb b a = false -> fl_ltb c b = false -> fl_ltb c a = false.
Proof.
  intros [| | |a] [| | |b] [| | |c] A B C; simpl; try congruence; intros H1 H2.
  apply Z.ltb_ge in H1, H2. apply Z.ltb_ge. lia.
Qed.
Lemma ltb_asym : forall a b, fl_ltb a b = true -> fl_ltb b a = false.
Proof. intros [| | |a] [| | |b]; simpl; auto; try discriminate. intros H. apply Z.ltb_lt in H. apply Z.ltb_ge. lia. Qed.
Lemma ltb_irr : forall a, fl_ltb a a = false.
Proof. intros [| | |a]; simpl; auto. apply Z.ltb_irrefl. Qed.
Lemma ltb_le : forall a b, a <> FNaN -> b <> FNaN -> fl_ltb b a = false -> fl_le a b.
Proof.
  intros [| | |a] [| | |b] A B H; simpl in *; try congruence; try discriminate;
    try (apply le_ninf; discriminate); try (apply le_pinf; discriminate).
  constructor. apply Z.ltb_ge in H. auto.
Qed.

Lemma oldest_is_in : forall l i t, oldest l = Some (i, t) -> In (i, t) l.
Proof.
  induction l as [|[j u] l IH]; simpl; intros i t H; [discriminate|].
  destruct (oldest l) as [[j' u']|] eqn:O; [destruct (fl_ltb u' u)|]; injection H as <- <-; auto.
Qed.
Lemma oldest_min : forall l i t, oldest l = Some (i, t) -> (forall j u, In (j, u) l -> u <> FNaN) ->
  forall j u, In (j, u) l -> fl_ltb u t = false.
Proof.
  induction l as [|[j0 u0] l IH]; simpl; intros i t H N j u X; [contradiction|]. destruct X as [E|X].
  - injection E as -> ->. destruct (oldest l) as [[j' u']|] eqn:O.
    + destruct (fl_ltb u' u) eqn:L; injection H as <- <-; [apply ltb_asym; auto|apply ltb_irr].
    + injection H as <- <-. apply ltb_irr.
  - destruct (oldest l) as [[j' u']|] eqn:O.
    + assert (Y : fl_ltb u u' = false) by (apply (IH j' u' eq_refl) with (j := j); eauto).
      destruct (fl_ltb u' u0) eqn:L; injection H as <- <-; auto.
      apply ltb_trans_le with u'; eauto. apply N with j'. right. apply oldest_is_in. auto.
    + apply oldest_none in O. subst l. contradiction.
Qed.

Ltac opn := do 2 (unfold upd in *; rewrite ?Nat.eqb_refl in *; simpl in *); unfold upd in *; rewrite ?Nat.eqb_refl in *.

Section Taking.
Context {R : Type}.
Variable pyfloat : pyval -> res fl.
Variable tid wname : nat -> string.
Variable conf : nat -> worker_settings.
Variable ask : R -> list trial -> res (dict * R).
Variable k : nat.
Variable xi : nat -> input R.
Notation run := (run pyfloat tid wname conf ask).
Notation step := (step pyfloat tid wname conf ask).
Notation goes := (goes pyfloat tid wname conf ask k xi).

Lemma in_pendings : forall (s : sys R) ids i t, In (i, t) (pendings s ids) <->
  In i ids /\ exists x, trial_at s i = Some x /\ t_state x = PENDING /\ m_time_sampled (t_meta x) = t.
Proof.
  intros s ids i t. unfold pendings, trial_at. rewrite in_flat_map. split.
  - intros (i' & A & B). destruct (nth_error (cells s) i') as [c|] eqn:C; [|contradiction].
    destruct (tstate_eqb (t_state (c_trial c)) PENDING) eqn:T; [|contradiction].
    destruct B as [B|[]]. injection B as -> <-. split; auto. rewrite C. exists (c_trial c).
    repeat split; auto. destruct (t_state (c_trial c)); simpl in T; try discriminate; auto.
  - intros (A & x & X & T & E). exists i. split; auto.
    destruct (nth_error (cells s) i) as [c|]; [|discriminate]. injection X as <-. rewrite T, E. simpl. auto.
Qed.

Lemma takes_oldest : forall s, inv s -> w_pc (s_work s k) = PGet ->
  exists m, let s' := run s (alone k xi m) in
    (exists i t, w_pc (s_work s' k) = PRefetch i /\ trial_at s i = Some t /\ t_state t = PENDING /\
       ((forall j u, trial_at s j = Some u -> m_time_sampled (t_meta u) <> FNaN) ->
        forall j u, trial_at s j = Some u -> t_state u = PENDING ->
        fl_le (m_time_sampled (t_meta t)) (m_time_sampled (t_meta u)))) \/
    (w_pc (s_work s' k) = PSample /\ forall i t, trial_at s i = Some t -> t_state t <> PENDING).
Proof.
  intros s I P.
  assert (G : goes 0 s 1 (step s k (xi 0)) []) by (apply goes_step; intros; congruence).
  assert (I1 := inv_goes _ _ _ _ _ _ _ _ _ _ _ _ I G).
  set (ids := listing (List.length (cells s)) (in_order (xi 0))).
  assert (P1 : w_pc (s_work (step s k (xi 0)) k) = PPend ids []).
  { unfold Runtime_model.step. rewrite P. opn. reflexivity. }
  assert (Q1 : quietly k s (step s k (xi 0))).
  { unfold Runtime_model.step. rewrite P. apply (quietly_pc tid wname conf k xi). unfold same_counters; tauto. }
  set (s1 := step s k (xi 0)) in *.
  destruct (pend pyfloat tid wname conf ask k xi ids [] s1 (0 + 1) I1 P1) as (s2 & G2 & Q2 & P2).
  { intros i X. replace (cells s1) with (cells s) by (symmetry; apply Q1). now apply listing_in in X. }
  simpl app in P2.
  assert (PE : pendings s1 ids = pendings s ids).
  { unfold pendings. destruct Q1 as [-> _]. reflexivity. }
  rewrite PE in P2. clear PE.
  assert (G02 := goes_trans _ _ _ _ _ _ _ _ _ _ _ _ _ _ _ G G2).
  set (m := 1 + List.length ids) in *.
  assert (G3 : goes (0 + m) s2 1 (step s2 k (xi (0 + m))) []) by (apply goes_step; intros; congruence).
  assert (G4 := goes_trans _ _ _ _ _ _ _ _ _ _ _ _ _ _ _ G02 G3).
  exists (m + 1). destruct G4 as [G4 _]. unfold evts in G4. unfold alone. cbv zeta. rewrite G4.
  assert (ALL : forall i t, trial_at s i = Some t -> t_state t = PENDING ->
            In (i, m_time_sampled (t_meta t)) (pendings s ids)).
  { intros i t T PT. apply in_pendings. split; [|eauto]. apply listing_in. unfold trial_at in T.
    apply nth_error_Some. destruct (nth_error (cells s) i); discriminate. }
  unfold Runtime_model.step. rewrite P2. destruct (oldest (pendings s ids)) as [[i t]|] eqn:O.
  - left. pose proof (oldest_is_in _ _ _ O) as X. apply in_pendings in X. destruct X as (_ & x & X & T & E).
    exists i, x. split; [opn; reflexivity|]. split; auto. split; auto. intros N j u U PU.
    rewrite E. apply ltb_le.
    + rewrite <- E. eapply N; eauto.
    + eapply N; eauto.
    + eapply oldest_min; eauto. intros j' u' X'. apply in_pendings in X'.
      destruct X' as (_ & x' & X' & _ & <-). eapply N; eauto.
  - right. split; [opn; reflexivity|]. intros i t T PT. apply oldest_none in O.
    pose proof (ALL i t T PT) as X. rewrite O in X. contradiction.
Qed.
Lemma inv_run : forall cs b errs (r : R) nv es, good_cells cs nv -> inv (run (start cs b errs r nv) es).
Proof.
  intros cs b errs r nv es G. apply run_ind.
  - intros s0 e s1 [A B] E. split; [eapply versions_ok_effect|eapply fresh_effect]; eauto.
  - split; [now apply (start_versions tid wname conf ask)|]. intros k' i h c W. discriminate.
Qed.
End Taking.
