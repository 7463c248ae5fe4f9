(** Invariants behind: who evaluates what, final results. *)
From Verif Require Import Py Trial_model Eval_model Init_model Runtime_model Runtime_spec Runtime_proofs.

Section Claim.
Context {R : Type}.
Variable pyfloat : pyval -> res fl.
Variable tid wname : nat -> string.
Variable conf : nat -> worker_settings.
Variable ask : R -> list trial -> res (dict * R).
Notation do_event := (do_event pyfloat tid wname conf ask).
Notation run := (run pyfloat tid wname conf ask).
Notation step := (step pyfloat tid wname conf ask).
Notation effect := (effect pyfloat tid wname conf ask).
Implicit Types s : sys R.
Implicit Types e : event R.

Lemma evaluate_keeps_report : forall t o tb d dur tm t' r,
  evaluate_trial pyfloat t o tb d dur tm = Ok (t', r) ->
  t_report t' = t_report t /\ t_state t' = state_of_reported (r_reported_as r) /\ t_config t' = t_config t.
Proof.
  intros t o tb d dur tm t' r E. unfold evaluate_trial in E. destruct o as [v|e].
  - destruct (parse_user_result _ _ _ _) as [[[[l c] lc] ex]|]; simpl in E; try discriminate.
    injection E as <- <-. auto.
  - injection E as <- <-. auto.
Qed.

Definition versions_ok s : Prop :=
  (forall i c, nth_error (cells s) i = Some c -> c_ver c < s_next s) /\
  (forall k i h, w_cache (s_work s k) i = Some h -> h_ver h < s_next s /\ i < List.length (cells s)).

Definition fresh s : Prop := forall k i h c,
  w_cache (s_work s k) i = Some h -> nth_error (cells s) i = Some c -> h_ver h = c_ver c ->
  h_trial h = c_trial c \/
  exists r, w_pc (s_work s k) = PReport i r /\ t_report (h_trial h) = t_report (c_trial c).

Lemma versions_ok_cells : forall s, versions_ok s -> forall c, In c (cells s) -> c_ver c < s_next s.
Proof. intros s [V _] c H. apply In_nth_error in H. destruct H as [i H]. eauto. Qed.

Lemma sync_handle_ver : forall h c, h_ver (sync_handle h c) = c_ver c.
Proof.
  intros [h|] c; simpl; auto. destruct (Nat.eqb (h_ver h) (c_ver c)) eqn:E; auto.
  now apply Nat.eqb_eq.
Qed.

Lemma sync_handle_trial : forall h c,
  h_trial (sync_handle h c) = c_trial c \/
  exists h', h = Some h' /\ h_ver h' = c_ver c /\ sync_handle h c = h'.
Proof.
  intros [h|] c; simpl; auto. destruct (Nat.eqb (h_ver h) (c_ver c)) eqn:E; auto.
  right. exists h. apply Nat.eqb_eq in E. auto.
Qed.

(** a worker's cache after syncing some trials *)
Lemma synced_versions : forall s w w' i h,
  (forall i c, nth_error (cells s) i = Some c -> c_ver c < s_next s) ->
  (forall i h, w_cache w i = Some h -> h_ver h < s_next s /\ i < List.length (cells s)) ->
  synced_cache s w w' -> w_cache w' i = Some h -> h_ver h < s_next s /\ i < List.length (cells s).
Proof.
  intros s w w' i h V1 V2 Y H. destruct (Y i) as [E|(c & C & E)].
  - apply V2. congruence.
  - rewrite E in H. injection H as <-. rewrite sync_handle_ver. split; eauto.
    apply nth_error_Some. congruence.
Qed.

Ltac cases_upd k k0 :=
  unfold upd in *; destruct (Nat.eqb k k0) eqn:?Q;
  [apply Nat.eqb_eq in Q; subst k|apply Nat.eqb_neq in Q].

Lemma versions_ok_effect : forall s e s', versions_ok s -> effect s e s' -> versions_ok s'.
Proof.
  intros s e s' [V1 V2] E. inversion E; subst; simpl; try (split; assumption).
  - (* move *) split; simpl; auto. intros k' i h. cases_upd k' k; [|apply V2].
    intro. eapply synced_versions; eauto.
  - (* refetch *) split; simpl; auto. intros k' j h. cases_upd k' k; [|apply V2]. simpl.
    cases_upd j i; [|apply V2]. intro E'. injection E' as <-. rewrite sync_handle_ver.
    split; eauto. apply nth_error_Some. congruence.
  - (* sample *) split; simpl.
    + intros i c H'. destruct (Nat.eq_dec i (List.length (cells s))) as [->|N].
      * rewrite nth_error_app2, Nat.sub_diag in H' by lia. injection H' as <-. simpl. lia.
      * assert (i < List.length (cells s)).
        { assert (X : i < List.length (cells s ++ [mkCell (s_next s) (trial_new (tid (List.length (cells s))) config "" None None (in_time x) (wname k))])) by (apply nth_error_Some; congruence).
          rewrite app_length in X. simpl in X. lia. }
        rewrite nth_error_app1 in H' by lia. apply V1 in H'. lia.
    + intros k' j h. rewrite app_length. simpl. cases_upd k' k; simpl.
      * cases_upd j (List.length (cells s)).
        -- intro E'. injection E' as <-. simpl. lia.
        -- intro E'. eapply synced_versions in E'; eauto. lia.
      * intro E'. apply V2 in E'. lia.
  - (* claim ok *) split; simpl; rewrite ?length_set_nth.
    + intros j c' H'. destruct (Nat.eq_dec i j) as [<-|N].
      * rewrite nth_error_set_nth_eq in H' by (apply nth_error_Some; congruence).
        injection H' as <-. simpl. lia.
      * rewrite nth_error_set_nth_neq in H' by auto. apply V1 in H'. lia.
    + intros k' j h'. rewrite ?length_set_nth. cases_upd k' k; simpl.
      * cases_upd j i.
        -- intro E'. injection E' as <-. simpl. split; [lia|]. apply nth_error_Some; congruence.
        -- intro E'. apply V2 in E'. lia.
      * intro E'. apply V2 in E'. lia.
  - (* claim lost *) split; simpl; auto. intros k' j h'. cases_upd k' k; [|apply V2].
    intro E'. destruct (H2 j) as [X|(-> & c & C & X)].
    + apply V2 with k. congruence.
    + rewrite X in E'. injection E' as <-. simpl. apply V2 with k. congruence.
  - (* no handle *) split; simpl; auto. intros k' j h'. cases_upd k' k; apply V2.
  - (* eval *) split; simpl; auto. intros k' j h'. cases_upd k' k; [|apply V2]. simpl.
    cases_upd j i; [|apply V2]. intro E'. injection E' as <-. simpl. eauto.
  - split; simpl; auto. intros k' j h'. cases_upd k' k; apply V2.
  - (* report ok *) split; simpl; rewrite ?length_set_nth.
    + intros j c' H'. destruct (Nat.eq_dec i j) as [<-|N].
      * rewrite nth_error_set_nth_eq in H' by (apply nth_error_Some; congruence).
        injection H' as <-. simpl. lia.
      * rewrite nth_error_set_nth_neq in H' by auto. apply V1 in H'. lia.
    + intros k' j h'. rewrite ?length_set_nth. cases_upd k' k; simpl.
      * cases_upd j i.
        -- intro E'. injection E' as <-. simpl. split; [lia|]. apply nth_error_Some; congruence.
        -- intro E'. apply V2 in E'. lia.
      * intro E'. apply V2 in E'. lia.
  - (* report lost *) split; simpl; auto. intros k' j h'. cases_upd k' k; [|apply V2].
    intro E'. destruct (H2 j) as [X|(-> & c & C & X)].
    + apply V2 with k. congruence.
    + rewrite X in E'. injection E' as <-. simpl. apply V2 with k. congruence.
  - split; simpl; auto. intros k' j h'. cases_upd k' k; apply V2.
  - split; simpl; auto. intros k' j h'. cases_upd k' k; apply V2.
  - (* killed *) split; simpl.
    + intros i c H'. destruct (Nat.eq_dec i (List.length (cells s))) as [->|N].
      * rewrite nth_error_app2, Nat.sub_diag in H' by lia. injection H' as <-. simpl. lia.
      * assert (i < List.length (cells s)).
        { assert (X : i < List.length (cells s ++ [mkCell (s_next s) (trial_new (tid (List.length (cells s))) config "" None None (in_time x) (wname k))])) by (apply nth_error_Some; congruence).
          rewrite app_length in X. simpl in X. lia. }
        rewrite nth_error_app1 in H' by lia. apply V1 in H'. lia.
    + intros k' j h. rewrite app_length. simpl. cases_upd k' k; simpl.
      * cases_upd j (List.length (cells s)).
        -- intro E'. injection E' as <-. simpl. lia.
        -- intro E'. eapply synced_versions in E'; eauto. lia.
      * intro E'. apply V2 in E'. lia.
  - split; simpl; auto. intros k' j h'. cases_upd k' k; [|apply V2].
    intro. eapply synced_versions; eauto.
  - split; simpl; auto. intros k' j h'. cases_upd k' k; [|apply V2]. discriminate.
Qed.

(** Cells: a cell either stays as it is or gets a version not seen before; no cell
    disappears. *)
Lemma cells_effect : forall s e s' i c,
  effect s e s' -> nth_error (cells s) i = Some c ->
  s_next s <= s_next s' /\
  exists c', nth_error (cells s') i = Some c' /\ (c' = c \/ s_next s <= c_ver c').
Proof.
  intros s e s' i c E C. inversion E; subst; simpl; try (split; [lia|eauto; fail]).
  - split; [lia|]. exists c. rewrite nth_error_app1 by (apply nth_error_Some; congruence). auto.
  - split; [lia|]. destruct (Nat.eq_dec i0 i) as [->|N].
    + eexists. rewrite nth_error_set_nth_eq by (apply nth_error_Some; congruence). split; eauto.
    + exists c. rewrite nth_error_set_nth_neq by auto. auto.
  - split; [lia|]. destruct (Nat.eq_dec i0 i) as [->|N].
    + eexists. rewrite nth_error_set_nth_eq by (apply nth_error_Some; congruence). split; eauto.
    + exists c. rewrite nth_error_set_nth_neq by auto. auto.
  - split; [lia|]. exists c. rewrite nth_error_app1 by (apply nth_error_Some; congruence). auto.
Qed.

Lemma next_effect : forall s e s', effect s e s' -> s_next s <= s_next s'.
Proof. intros s e s' E; inversion E; subst; simpl; lia. Qed.

Lemma cells_run : forall es s i c,
  nth_error (cells s) i = Some c ->
  exists c', nth_error (cells (run s es)) i = Some c' /\ (c' = c \/ s_next s <= c_ver c').
Proof.
  induction es as [|e es IH]; intros s i c C.
  - exists c. auto.
  - rewrite (run_cons _ _ _ _ _ s e es).
    destruct (cells_effect _ _ _ _ _ (event_effect pyfloat tid wname conf ask s e) C) as (N & c1 & C1 & D1).
    destruct (IH _ _ _ C1) as (c2 & C2 & D2). exists c2. split; auto.
    destruct D2 as [->|D2]; auto. right. lia.
Qed.

Lemma length_effect : forall s e s', effect s e s' -> List.length (cells s) <= List.length (cells s').
Proof.
  intros s e s' E; inversion E; subst; simpl; rewrite ?app_length, ?length_set_nth; lia.
Qed.

Lemma nth_error_lt : forall A (l : list A) i x, nth_error l i = Some x -> i < List.length l.
Proof. intros. apply nth_error_Some. congruence. Qed.

Lemma synced_fresh : forall s k w' i h c,
  fresh s -> synced_cache s (s_work s k) w' ->
  (forall r, w_pc (s_work s k) <> PReport i r) ->
  w_cache w' i = Some h -> nth_error (cells s) i = Some c -> h_ver h = c_ver c ->
  h_trial h = c_trial c.
Proof.
  intros s k w' i h c F Y P H C V. destruct (Y i) as [E|(c' & C' & E)].
  - destruct (F k i h c) as [X|(r & X & _)]; auto; [congruence|]. now apply P in X.
  - rewrite C in C'. injection C' as <-. rewrite E in H. injection H as <-.
    destruct (sync_handle_trial (w_cache (s_work s k) i) c) as [X|(h' & X1 & X2 & X3)]; auto.
    rewrite X3. destruct (F k i h' c) as [Z|(r & Z & _)]; auto. now apply P in Z.
Qed.

Ltac opn := unfold upd in *; rewrite ?Nat.eqb_refl in *; simpl in *; unfold upd in *; rewrite ?Nat.eqb_refl in *.

Lemma fresh_effect : forall s e s', versions_ok s -> fresh s -> effect s e s' -> fresh s'.
Proof.
  intros s e s' [V1 V2] F E.
  assert (OTHERS : forall k0 i h c, k0 <> actor e -> nth_error (cells s') i = nth_error (cells s) i ->
      w_cache (s_work s' k0) i = Some h -> nth_error (cells s') i = Some c -> h_ver h = c_ver c ->
      h_trial h = c_trial c \/
      exists r, w_pc (s_work s' k0) = PReport i r /\ t_report (h_trial h) = t_report (c_trial c)).
  { intros k0 i h c N Q H C. rewrite (others_untouched _ _ _ _ _ _ _ _ _ E N) in *. rewrite Q in C.
    apply F; auto. }
  intros k0 i0 h0 c0 H0 C0 W0.
  destruct (Nat.eq_dec k0 (actor e)) as [->|N].
  - clear OTHERS. inversion E; subst; clear E; simpl in *.
    + destruct e as [k x|k x|k b]; simpl in *.
      * eapply F; eauto.
      * eapply F; eauto.
      * exfalso. eapply H1; eauto.
    + opn.
      left. eapply synced_fresh; eauto. intros r P. rewrite P in H. exact H.
    + opn.
      left. apply (synced_fresh s k (set_handle (s_work s k) i (sync_handle (w_cache (s_work s k) i) c)) i0 h0 c0);
        auto. { apply synced_set; auto. } intros r P. congruence.
    + opn.
      destruct (Nat.eqb i0 (List.length (cells s))) eqn:Q.
      * apply Nat.eqb_eq in Q. subst. rewrite nth_error_app2, Nat.sub_diag in C0 by lia.
        rewrite ?Nat.eqb_refl in H0. injection H0 as <-. injection C0 as <-. auto.
      * apply Nat.eqb_neq in Q.
        assert (i0 < List.length (cells s)).
        { apply nth_error_lt in C0. rewrite app_length in C0. simpl in C0. lia. }
        rewrite nth_error_app1 in C0 by lia.
        left. eapply synced_fresh; eauto. intros r P. congruence.
    + opn.
      destruct (Nat.eqb i0 i) eqn:Q.
      * apply Nat.eqb_eq in Q. subst i0.
        rewrite nth_error_set_nth_eq in C0 by (eapply nth_error_lt; eauto).
        injection H0 as <-. injection C0 as <-. auto.
      * apply Nat.eqb_neq in Q. rewrite nth_error_set_nth_neq in C0 by auto.
        destruct (F k i0 h0 c0) as [X|(r & X & _)]; auto. congruence.
    + opn.
      destruct (H3 i0) as [X|(-> & c & C & X)].
      * rewrite X in H0. destruct (F k i0 h0 c0) as [Y|(r & Y & _)]; auto. congruence.
      * rewrite X in H0. injection H0 as <-. simpl in W0. exact (False_ind _ (H2 _ C0 W0)).
    + opn.
      destruct (F k i0 h0 c0) as [Y|(r & Y & Z)]; auto.
      destruct H as (i1 & [A|[A|(r1 & A)]] & B); try congruence.
    + opn.
      destruct (Nat.eqb i0 i) eqn:Q.
      * apply Nat.eqb_eq in Q. subst i0. injection H0 as <-. simpl in *.
        right. exists r. split; auto.
        apply evaluate_keeps_report in H3. destruct H3 as (-> & _).
        destruct (F k i h c0) as [X|(r' & X & _)]; auto; congruence.
      * apply Nat.eqb_neq in Q. destruct (F k i0 h0 c0) as [X|(r' & X & _)]; auto. congruence.
    + opn.
      destruct (F k i0 h0 c0) as [X|(r' & X & _)]; auto. congruence.
    + opn.
      destruct (Nat.eqb i0 i) eqn:Q.
      * apply Nat.eqb_eq in Q. subst i0.
        rewrite nth_error_set_nth_eq in C0 by (eapply nth_error_lt; eauto).
        injection H0 as <-. injection C0 as <-. auto.
      * apply Nat.eqb_neq in Q. rewrite nth_error_set_nth_neq in C0 by auto.
        destruct (F k i0 h0 c0) as [X|(r' & X & _)]; auto. congruence.
    + opn.
      destruct (H3 i0) as [X|(-> & c & C & X)].
      * rewrite X in H0. destruct (F k i0 h0 c0) as [Y|(r' & Y & _)]; auto.
        assert (i0 = i) by congruence. subst i0. exfalso.
        assert (h0 = h) by congruence. subst h0. eapply H2; eauto.
      * rewrite X in H0. injection H0 as <-. simpl in W0. exact (False_ind _ (H2 _ C0 W0)).
    + opn.
      destruct (F k i0 h0 c0) as [X|(r' & X & _)]; auto. congruence.
    + opn.
      destruct (F k i0 h0 c0) as [X|(r' & X & _)]; auto. congruence.
    + opn.
      destruct (Nat.eqb i0 (List.length (cells s))) eqn:Q.
      * apply Nat.eqb_eq in Q. subst. rewrite nth_error_app2, Nat.sub_diag in C0 by lia.
        rewrite ?Nat.eqb_refl in H0. injection H0 as <-. injection C0 as <-. auto.
      * apply Nat.eqb_neq in Q.
        assert (i0 < List.length (cells s)).
        { apply nth_error_lt in C0. rewrite app_length in C0. simpl in C0. lia. }
        rewrite nth_error_app1 in C0 by lia.
        left. eapply synced_fresh; eauto. intros r P. congruence.
    + opn.
      left. eapply synced_fresh; eauto. intros r P. congruence.
    + opn. discriminate.
  - assert (X : nth_error (cells s') i0 = nth_error (cells s) i0 \/
                (forall c, nth_error (cells s') i0 = Some c -> c_ver c = s_next s)).
    { inversion E; subst; simpl; auto.
      - destruct (Nat.lt_ge_cases i0 (List.length (cells s))) as [L|L].
        + left. now apply nth_error_app1.
        + right. intros c' C'. rewrite nth_error_app2 in C' by lia.
          destruct (i0 - List.length (cells s)) as [|[|]]; simpl in C'; try discriminate.
          injection C' as <-. reflexivity.
      - destruct (Nat.eq_dec i i0) as [->|M].
        + right. intro c'. rewrite nth_error_set_nth_eq by (eapply nth_error_lt; eauto).
          intro Q. injection Q as <-. reflexivity.
        + left. now apply nth_error_set_nth_neq.
      - destruct (Nat.eq_dec i i0) as [->|M].
        + right. intro c'. rewrite nth_error_set_nth_eq by (eapply nth_error_lt; eauto).
          intro Q. injection Q as <-. reflexivity.
        + left. now apply nth_error_set_nth_neq.
      - destruct (Nat.lt_ge_cases i0 (List.length (cells s))) as [L|L].
        + left. now apply nth_error_app1.
        + right. intros c' C'. rewrite nth_error_app2 in C' by lia.
          destruct (i0 - List.length (cells s)) as [|[|]]; simpl in C'; try discriminate.
          injection C' as <-. reflexivity. }
    destruct X as [X|X].
    + eapply OTHERS; eauto.
    + exfalso. apply X in C0. rewrite (others_untouched _ _ _ _ _ _ _ _ _ E N) in H0.
      apply V2 in H0. lia.
Qed.

End Claim.
