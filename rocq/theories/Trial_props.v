(** Properties C23, C26, C61. *)
From Verif Require Import Py Trial_model Trial_spec Trial_proofs.

(** C23: two reports compare equal exactly when they agree field by field. *)
Theorem report_eq_means_same_report : forall a b : report,
  wf_report a -> wf_report b -> (report_eqb a b = true <-> same_report a b).
Proof. exact report_eq_meaning_lemma. Qed.
Print Assumptions report_eq_means_same_report.

(** C23: symmetric, for all reports. *)
Theorem report_eq_symmetric : forall a b : report,
  wf_report a -> wf_report b -> report_eqb a b = true -> report_eqb b a = true.
Proof. exact report_eq_sym_lemma. Qed.
Print Assumptions report_eq_symmetric.

(** C23: transitive, for all reports. *)
Theorem report_eq_transitive : forall a b c : report,
  wf_report a -> wf_report b -> wf_report c ->
  report_eqb a b = true -> report_eqb b c = true -> report_eqb a c = true.
Proof. exact report_eq_trans_lemma. Qed.
Print Assumptions report_eq_transitive.

(** C23, reflexivity: only for reports without NaN outside loss and cost (the full
    statement, for all reports, is refuted below). *)
Theorem report_eq_reflexive_partial : forall r : report,
  wf_report r -> nan_free_report r -> report_eqb r r = true.
Proof. exact report_eq_refl_lemma. Qed.
Print Assumptions report_eq_reflexive_partial.

(** A report with NaN loss and cost, an error and nested extra data. *)
Definition ex_report : report :=
  mkReport "7" (Some FNaN) (Some FNaN) (Some [FZ 3; FPInf])
    [("a", VInt 1); ("b", VDict [("x", VList [VBool true; VStr "s"])])]
    (Some "boom") (Some "tb") RCrashed (Some (FZ 5)).
Definition ex_report' : report :=
  mkReport "7" (Some FNaN) (Some FNaN) (Some [FZ 3; FPInf])
    [("b", VDict [("x", VList [VInt 1; VStr "s"])]); ("a", VBool true)]
    (Some "boom") (Some "tb") RCrashed (Some (FZ 5)).
Example ex_report_ok : wf_report ex_report /\ wf_report ex_report' /\
  nan_free_report ex_report /\ report_eqb ex_report ex_report' = true.
Proof.
  split; [|split; [|split]].
  - vm_compute. repeat (split || constructor); simpl; intuition discriminate.
  - vm_compute. repeat (split || constructor); simpl; intuition discriminate.
  - split; [|split].
    + vm_compute. tauto.
    + intros l x E. inversion E. simpl. intuition congruence.
    + discriminate.
  - vm_compute. reflexivity.
Qed.

(** C23: a NaN in the learning curve (which the setting
    learning_curve_if_not_provided="loss" produces whenever the loss is NaN) makes a
    report unequal to an identical one. *)
Theorem report_eq_reflexive_refuted : exists r : report,
  wf_report r /\ r_loss r = Some FNaN /\ r_learning_curve r = Some [FNaN] /\
  report_eqb r r = false.
Proof.
  exists (mkReport "7" (Some FNaN) None (Some [FNaN]) [] None None RSuccess None).
  split; [|split; [|split]]; try reflexivity. simpl. split; [constructor|exact I].
Qed.
Print Assumptions report_eq_reflexive_refuted.

(** C23: no error at all is not distinguished from an error whose text is "None". *)
Theorem report_eq_error_presence_refuted : exists a b : report,
  wf_report a /\ wf_report b /\ r_err a = None /\ r_err b <> None /\ report_eqb a b = true.
Proof.
  exists (mkReport "7" None None None [] None None RFailed None),
         (mkReport "7" None None None [] (Some "None") None RFailed None).
  split; [|split; [|split; [|split]]]; try reflexivity; try discriminate;
    simpl; (split; [constructor|exact I]).
Qed.
Print Assumptions report_eq_error_presence_refuted.

(** C26: whatever happened to a trial, its identity, configuration, directory,
    predecessor and sampling information stay what they were at sampling. *)
Theorem trial_identity_never_changes : forall (t : trial) (os : list top),
  let t' := trun t os in
  t_config t' = t_config t /\
  m_id (t_meta t') = m_id (t_meta t) /\
  m_location (t_meta t') = m_location (t_meta t) /\
  m_previous_trial_id (t_meta t') = m_previous_trial_id (t_meta t) /\
  m_previous_trial_location (t_meta t') = m_previous_trial_location (t_meta t) /\
  m_sampling_worker_id (t_meta t') = m_sampling_worker_id (t_meta t) /\
  m_time_sampled (t_meta t') = m_time_sampled (t_meta t).
Proof. intros t os. exact (trun_frame_lemma os t). Qed.
Print Assumptions trial_identity_never_changes.

(** C26: after any history, reset gives back the freshly sampled trial exactly when
    no report has been attached in that history. *)
Theorem reset_restores_new_iff_unreported :
  forall id cfg loc prev ploc ts w (os : list top),
  let t0 := trial_new id cfg loc prev ploc ts w in
  reset (trun t0 os) = t0 <-> existsb is_attach os = false.
Proof. exact reset_iff_lemma. Qed.
Print Assumptions reset_restores_new_iff_unreported.

(** C26: and in general it differs from it in the report only. *)
Theorem reset_keeps_only_report_partial :
  forall id cfg loc prev ploc ts w (os : list top),
  let t0 := trial_new id cfg loc prev ploc ts w in
  let t := reset (trun t0 os) in
  t_config t = t_config t0 /\ t_meta t = t_meta t0 /\ t_state t = PENDING /\
  t_report t = last_attached os.
Proof.
  intros id cfg loc prev ploc ts w os t0 t. unfold t, t0. rewrite reset_lemma.
  split; [reflexivity|split; [reflexivity|split; reflexivity]].
Qed.
Print Assumptions reset_keeps_only_report_partial.

Definition ex_t0 : trial := trial_new "3" [("lr", VFloat (FZ 4))] "/r/configs/config_3" None None (FZ 1) "w".
Definition ex_hist : list top :=
  [TSubmit (FZ 2); TStart (FZ 3) "w2";
   TComplete RSuccess (FZ 4) (Some (FZ 9)) None None None None None (Some (FZ 1))].
Example reset_example :
  trun ex_t0 ex_hist <> ex_t0 /\ reset (trun ex_t0 ex_hist) = ex_t0.
Proof. split; [discriminate|reflexivity]. Qed.

(** C26 is false for reported trials: reset keeps the old report. *)
Theorem reset_restores_new_refuted :
  exists (t0 : trial) (r : report) (os : list top),
    t0 = trial_new "3" [] "loc" None None (FZ 0) "w" /\
    os = [TStart (FZ 1) "w"; TComplete RSuccess (FZ 2) None None None None None None None; TAttach r] /\
    reset (trun t0 os) <> t0 /\ t_report (reset (trun t0 os)) = Some r.
Proof.
  exists (trial_new "3" [] "loc" None None (FZ 0) "w"),
    (mkReport "3" None None None [] None None RSuccess None).
  eexists.
  split; [reflexivity|]. split; [reflexivity|]. split; [discriminate|reflexivity].
Qed.
Print Assumptions reset_restores_new_refuted.
