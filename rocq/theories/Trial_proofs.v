From Verif Require Import Py Py_proofs Trial_model Trial_spec.

Lemma number_as_num v x : number v x <-> as_num v = Some x.
Proof.
  split; [destruct 1; reflexivity|].
  destruct v as [|[]| | | | | | |]; simpl; intros E; inversion E; subst; constructor.
Qed.

Lemma list_eqb_Forall2 {A} (e : A -> A -> bool) (R : A -> A -> Prop) l : forall m,
  (forall x y, In x l -> In y m -> (e x y = true <-> R x y)) ->
  (list_eqb e l m = true <-> Forall2 R l m).
Proof.
  induction l as [|x l IH]; intros [|y m] H; simpl.
  - split; constructor.
  - split; [discriminate|inversion 1].
  - split; [discriminate|inversion 1].
  - rewrite andb_true_iff, (H x y), IH; simpl; auto.
    + split; [intros [? ?]; constructor; auto|inversion 1; auto].
    + intros; apply H; simpl; auto.
Qed.

Lemma veq_num_iff v w a : as_num v = Some a ->
  (py_eqb v w = true <-> veq v w).
Proof.
  intros E. rewrite (py_eqb_num _ _ _ E). split.
  - destruct (as_num w) as [b|] eqn:Eb; [|discriminate].
    intros H. pose proof (fl_eqb_eq _ _ H) as <-.
    apply veq_num with a; [apply number_as_num; auto|apply number_as_num; auto|].
    intros ->. discriminate H.
  - intros H. destruct H; simpl in E; try discriminate E.
    apply number_as_num in H. apply number_as_num in H0. rewrite H0.
    assert (x = a) by congruence. subst. apply fl_eqb_refl. exact H1.
Qed.

Lemma keys_incl_iff (d e : dict) :
  NoDup (map fst d) -> NoDup (map fst e) ->
  (forall k x, In (k, x) d -> exists y, In (k, y) e) ->
  (List.length d = List.length e <->
   forall k y, In (k, y) e -> exists x, In (k, x) d).
Proof.
  intros Nd Ne H.
  assert (I : incl (map fst d) (map fst e)).
  { intros k Hk. apply in_map_iff in Hk as ([k' x] & <- & Hin).
    destruct (H _ _ Hin) as (y & Hy). apply (in_map fst) in Hy. exact Hy. }
  split.
  - intros L k y Hin.
    assert (J : incl (map fst e) (map fst d)).
    { apply NoDup_length_incl; [exact Nd|rewrite !map_length; lia|exact I]. }
    assert (Hk : In k (map fst d)) by (apply J; apply (in_map fst) in Hin; exact Hin).
    apply in_map_iff in Hk as ([k' x] & E & Hx). simpl in E. subst. eauto.
  - intros G. apply Nat.le_antisymm.
    + pose proof (NoDup_incl_length Nd I) as L. rewrite !map_length in L. exact L.
    + assert (J : incl (map fst e) (map fst d)).
      { intros k Hk. apply in_map_iff in Hk as ([k' x] & <- & Hin).
        destruct (G _ _ Hin) as (y & Hy). apply (in_map fst) in Hy. exact Hy. }
      pose proof (NoDup_incl_length Ne J) as L. rewrite !map_length in L. exact L.
Qed.

Lemma veq_iff v : forall w, wf_val v -> wf_val w -> (py_eqb v w = true <-> veq v w).
Proof.
  induction v as [|b|z|f|s|l IH|l IH|d IH|n] using pyval_ind'; intros w Hv Hw.
  - destruct w; simpl; split; intros H; try discriminate; try constructor;
      try (inversion H; subst; match goal with N : number VNone _ |- _ => inversion N end).
  - destruct b; eapply veq_num_iff; reflexivity.
  - eapply veq_num_iff; reflexivity.
  - eapply veq_num_iff; reflexivity.
  - destruct w; simpl; split; intros H; try discriminate;
      try (inversion H; subst; match goal with N : number (VStr _) _ |- _ => inversion N end).
    + apply String.eqb_eq in H. subst. constructor.
    + inversion H; subst; [match goal with N : number (VStr _) _ |- _ => inversion N end|].
      apply String.eqb_refl.
  - split; intros H.
    + destruct w; try (simpl in H; discriminate).
      rewrite py_eqb_list in H. apply wf_list in Hv. apply wf_list in Hw.
      constructor. rewrite Forall_forall in *.
      rewrite list_eqb_Forall2 in H; [exact H|]. intros x y Hx Hy. apply IH; auto.
    + inversion H; subst; [match goal with N : number (VList _) _ |- _ => inversion N end|].
      rewrite py_eqb_list. apply wf_list in Hv. apply wf_list in Hw.
      rewrite Forall_forall in *.
      rewrite list_eqb_Forall2; [eassumption|]. intros x y Hx Hy. apply IH; auto.
  - split; intros H.
    + destruct w; try (simpl in H; discriminate).
      rewrite py_eqb_tuple in H. apply wf_tuple in Hv. apply wf_tuple in Hw.
      constructor. rewrite Forall_forall in *.
      rewrite list_eqb_Forall2 in H; [exact H|]. intros x y Hx Hy. apply IH; auto.
    + inversion H; subst; [match goal with N : number (VTuple _) _ |- _ => inversion N end|].
      rewrite py_eqb_tuple. apply wf_tuple in Hv. apply wf_tuple in Hw.
      rewrite Forall_forall in *.
      rewrite list_eqb_Forall2; [eassumption|]. intros x y Hx Hy. apply IH; auto.
  - split; intros H.
    + destruct w as [| | | | | | |e|]; try (simpl in H; discriminate).
      rewrite py_eqb_dict in H. apply wf_dict in Hv as [Nd Wd]. apply wf_dict in Hw as [Ne We].
      apply andb_prop in H as [L S]. apply Nat.eqb_eq in L. rewrite dict_sub_spec in S.
      rewrite Forall_forall in IH, Wd, We.
      assert (S' : forall k x, In (k, x) d -> exists y, In (k, y) e /\ veq x y).
      { intros k x Hin. destruct (S k x Hin) as (y & El & Q). apply lookup_In in El.
        exists y; split; [exact El|].
        apply (IH (k, x) Hin y); [apply (Wd (k, x) Hin)|apply (We (k, y) El)|exact Q]. }
      constructor; [exact S'|].
      apply keys_incl_iff; auto. intros k x Hin. destruct (S' k x Hin) as (y & ? & _). eauto.
    + inversion H; subst; [match goal with N : number (VDict _) _ |- _ => inversion N end|].
      rename H1 into S, H2 into G.
      rewrite py_eqb_dict. apply wf_dict in Hv as [Nd Wd]. apply wf_dict in Hw as [Ne We].
      rewrite Forall_forall in IH, Wd, We.
      apply andb_true_intro; split.
      * apply Nat.eqb_eq. apply keys_incl_iff; auto.
        intros k x Hin. destruct (S k x Hin) as (y & ? & _). eauto.
      * rewrite dict_sub_spec. intros k x Hin. destruct (S k x Hin) as (y & Hy & Q).
        exists y; split; [apply In_lookup; assumption|].
        apply (IH (k, x) Hin y); [apply (Wd (k, x) Hin)|apply (We (k, y) Hy)|exact Q].
  - destruct w; simpl; split; intros H; try discriminate;
      try (inversion H; subst; match goal with N : number (VObj _) _ |- _ => inversion N end).
    + apply Nat.eqb_eq in H. subst. constructor.
    + inversion H; subst; [match goal with N : number (VObj _) _ |- _ => inversion N end|].
      apply Nat.eqb_refl.
Qed.

Lemma nan_field_iff v w : nan_field_eqb v w = true <-> v = w.
Proof.
  unfold nan_field_eqb. destruct v as [[| | |a]|], w as [[| | |b]|]; simpl;
    split; intros H; try discriminate; try reflexivity; try (inversion H; fail).
  - apply Z.eqb_eq in H. subst. reflexivity.
  - inversion H. apply Z.eqb_refl.
Qed.

Lemma fl_eqb_feq x y : fl_eqb x y = true <-> feq x y.
Proof.
  split.
  - intros H. split; [apply fl_eqb_eq; exact H|]. intros ->. discriminate H.
  - intros [<- H]. apply fl_eqb_refl. exact H.
Qed.

Lemma opt_eqb_rel {A} (e : A -> A -> bool) R x y :
  (forall a b, e a b = true <-> R a b) ->
  (opt_eqb e x y = true <-> opt_rel R x y).
Proof.
  intros H. destruct x, y; simpl; split; intros G; try discriminate; try constructor;
    try (inversion G; fail).
  - apply H; exact G.
  - inversion G; subst. apply H; assumption.
Qed.

Lemma opt_rel_eq {A} (x y : option A) : opt_rel eq x y <-> x = y.
Proof. split; [destruct 1; subst; reflexivity|intros ->; destruct y; constructor; reflexivity]. Qed.

Lemma err_iff e f : String.eqb (str_of_err e) (str_of_err f) = true <->
  (e = f \/ (e = None /\ f = Some "None") \/ (e = Some "None" /\ f = None)).
Proof.
  rewrite String.eqb_eq. destruct e as [e|], f as [f|]; simpl; split; intros H.
  - left; congruence.
  - destruct H as [H|[[H1 H2]|[H1 H2]]]; congruence.
  - right; right; split; congruence.
  - destruct H as [H|[[H1 H2]|[H1 H2]]]; congruence.
  - right; left; split; congruence.
  - destruct H as [H|[[H1 H2]|[H1 H2]]]; congruence.
  - left; reflexivity.
  - reflexivity.
Qed.

Lemma reported_iff a b : reported_eqb a b = true <-> a = b.
Proof. destruct a, b; simpl; split; congruence. Qed.

Lemma report_eq_meaning_lemma a b : wf_report a -> wf_report b ->
  (report_eqb a b = true <-> same_report a b).
Proof.
  intros Wa Wb. unfold report_eqb. rewrite !andb_true_iff, !nan_field_iff, !err_iff, reported_iff.
  rewrite (opt_eqb_rel _ (Forall2 feq)).
  2: { intros l m. apply list_eqb_Forall2. intros; apply fl_eqb_feq. }
  rewrite (opt_eqb_rel _ feq) by (intros; apply fl_eqb_feq).
  rewrite (opt_eqb_rel _ eq) by (intros; apply String.eqb_eq).
  rewrite opt_rel_eq, String.eqb_eq, (veq_iff _ _ Wa Wb).
  split.
  - intros ((((((((H1&H2)&H3)&H4)&H5)&H6)&H7)&H8)&H9). constructor; assumption.
  - intros [H1 H2 H3 H4 H5 H6 H7 H8 H9]. tauto.
Qed.

Lemma report_eq_refl_lemma r : wf_report r -> nan_free_report r -> report_eqb r r = true.
Proof.
  intros W (N1 & N2 & N3). apply report_eq_meaning_lemma; auto. constructor; auto.
  - destruct (r_learning_curve r) as [l|] eqn:E; constructor.
    specialize (N2 l). clear E. induction l as [|x l IH]; constructor.
    + split; [reflexivity|]. apply N2; simpl; auto.
    + apply IH. intros y E Hy. inversion E. subst. apply N2; simpl; auto.
  - apply veq_iff; auto. apply py_eqb_refl; auto.
  - destruct (r_evaluation_duration r); constructor. split; congruence.
Qed.

Lemma report_eq_refl_only_if r : wf_report r -> report_eqb r r = true ->
  (forall l x, r_learning_curve r = Some l -> In x l -> x <> FNaN) /\
  r_evaluation_duration r <> Some FNaN.
Proof.
  intros W H. apply report_eq_meaning_lemma in H; auto. destruct H. split.
  - intros l x E Hx. rewrite E in sr_lc. inversion sr_lc as [|? ? HF]; subst. clear -HF Hx.
    induction l as [|y l IH]; [destruct Hx|]. inversion HF as [|? ? ? ? Hf Hr]; subst.
    destruct Hx as [->|Hx]; [apply Hf|auto].
  - intros E. rewrite E in sr_dur. inversion sr_dur as [|? ? HF]; subst. apply HF. reflexivity.
Qed.

Lemma report_eq_sym_lemma a b : wf_report a -> wf_report b ->
  report_eqb a b = true -> report_eqb b a = true.
Proof.
  intros Wa Wb H. apply report_eq_meaning_lemma in H; auto. apply report_eq_meaning_lemma; auto.
  destruct H. constructor; auto.
  - destruct sr_lc; constructor. clear -H. induction H; constructor; auto.
    destruct H. split; congruence.
  - apply veq_iff; auto. apply py_eqb_sym_true; auto. apply veq_iff; auto.
  - destruct sr_err as [?|[[? ?]|[? ?]]]; auto.
  - destruct sr_dur; constructor. destruct H; split; congruence.
Qed.

Lemma report_eq_trans_lemma a b c : wf_report a -> wf_report b -> wf_report c ->
  report_eqb a b = true -> report_eqb b c = true -> report_eqb a c = true.
Proof.
  intros Wa Wb Wc H1 H2.
  unfold report_eqb in *.
  repeat match goal with H : _ && _ = true |- _ => apply andb_prop in H as [? ?] end.
  rewrite !nan_field_iff, reported_iff, !String.eqb_eq in *.
  rewrite !andb_true_iff, !nan_field_iff, reported_iff, !String.eqb_eq.
  repeat split; try congruence.
  - destruct (r_learning_curve a), (r_learning_curve b), (r_learning_curve c);
      simpl in *; auto; try discriminate.
    eapply list_eqb_trans; [|eassumption|eassumption].
    apply Forall_forall. intros x _ y z _ _. apply fl_eqb_trans.
  - eapply py_eqb_trans; [exact Wb|eassumption|eassumption].
  - destruct (r_tb a), (r_tb b), (r_tb c); simpl in *; auto; try discriminate.
    rewrite String.eqb_eq in *. congruence.
  - destruct (r_evaluation_duration a), (r_evaluation_duration b), (r_evaluation_duration c);
      simpl in *; auto; try discriminate. eapply fl_eqb_trans; eassumption.
Qed.

(** Lifecycle *)
Lemma trun_frame_lemma os t :
  t_config (trun t os) = t_config t /\
  m_id (t_meta (trun t os)) = m_id (t_meta t) /\
  m_location (t_meta (trun t os)) = m_location (t_meta t) /\
  m_previous_trial_id (t_meta (trun t os)) = m_previous_trial_id (t_meta t) /\
  m_previous_trial_location (t_meta (trun t os)) = m_previous_trial_location (t_meta t) /\
  m_sampling_worker_id (t_meta (trun t os)) = m_sampling_worker_id (t_meta t) /\
  m_time_sampled (t_meta (trun t os)) = m_time_sampled (t_meta t).
Proof.
  revert t. induction os as [|o os IH]; intros t; [simpl; tauto|].
  change (trun t (o :: os)) with (trun (tapply t o) os).
  destruct (IH (tapply t o)) as (H1&H2&H3&H4&H5&H6&H7).
  rewrite H1, H2, H3, H4, H5, H6, H7. destruct o; simpl; tauto.
Qed.

Lemma trun_report os : forall t acc, t_report t = acc ->
  t_report (trun t os) =
  fold_left (fun acc o => match o with TAttach r => Some r | _ => acc end) os acc.
Proof.
  induction os as [|o os IH]; intros t acc E; [exact E|].
  change (trun t (o :: os)) with (trun (tapply t o) os). simpl.
  apply IH. destruct o; simpl; auto.
Qed.

Lemma reset_lemma id cfg loc prev ploc ts w os :
  let t0 := trial_new id cfg loc prev ploc ts w in
  reset (trun t0 os) = mkTrial (t_config t0) (t_meta t0) (t_state t0) (last_attached os).
Proof.
  intros t0. destruct (trun_frame_lemma os t0) as (H1&H2&H3&H4&H5&H6&H7).
  unfold reset. rewrite H1, H2, H3, H4, H5, H6, H7.
  rewrite (trun_report os t0 None eq_refl). reflexivity.
Qed.

Lemma fold_attached_some os : forall r,
  fold_left (fun acc o => match o with TAttach r => Some r | _ => acc end) os (Some r) <> None.
Proof. induction os as [|o os IH]; intros r; simpl; [discriminate|]. destruct o; apply IH. Qed.

Lemma last_attached_none os : last_attached os = None <-> existsb is_attach os = false.
Proof.
  unfold last_attached. induction os as [|o os IH]; simpl; [tauto|].
  destruct o; simpl; auto. split; [|discriminate].
  intros H. exfalso. exact (fold_attached_some os r H).
Qed.

Lemma reset_iff_lemma id cfg loc prev ploc ts w os :
  let t0 := trial_new id cfg loc prev ploc ts w in
  reset (trun t0 os) = t0 <-> existsb is_attach os = false.
Proof.
  intros t0. rewrite <- last_attached_none. unfold t0. rewrite reset_lemma. split.
  - intros H. inversion H. reflexivity.
  - intros ->. reflexivity.
Qed.
