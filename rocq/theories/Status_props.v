(** Properties C27, C28, C29, C63: the status of a run. *)
From Verif Require Import Py Py_proofs Trial_model Eval_model Eval_proofs Limit_spec Status_model Status_spec Status_proofs.

(** The reports evaluate_trial makes are plain (see Status_spec), provided info_dict, if
    the function returned one, is a dictionary. *)
Theorem evaluated_reports_are_plain : forall pyfloat, (forall f, pyfloat (VFloat f) = Ok f) ->
  forall t o tb drv dur te t' r,
  (forall v, o = FnReturns v -> wf_val v) ->
  (forall v, lookup "info_dict" (r_extra r) = Some v -> exists d, v = VDict d) ->
  evaluate_trial pyfloat t o tb drv dur te = Ok (t', r) -> plain_report r.
Proof.
  intros pyfloat float_id t o tb drv dur te t' r W I E S. destruct o as [v|e].
  - destruct (evaluate_ok_extra pyfloat float_id t v tb drv dur te t' r (W v eq_refl) E) as (N & L & _ & _).
    split; [|auto]. unfold evaluate_trial in E.
    destruct (parse_user_result _ _ _ _) as [[[[? ?] ?] ?]|]; [|discriminate]. injection E as _ <-. simpl. discriminate.
  - injection E as _ <-. discriminate.
Qed.
Print Assumptions evaluated_reports_are_plain.

(** C27.  [pyfloat]: Python's float(). *)
Theorem summary_of_best : forall pyfloat, (forall f, pyfloat (VFloat f) = Ok f) ->
  forall ts, plain_trials ts -> exists s, get_summary pyfloat ts = Ok s /\
    number_of has_report ts (s_num_evaluated s) /\
    number_of erroneous ts (s_num_error s) /\
    (forall t l, In t ts -> succeeded t l -> l <> FNaN -> fl_le (s_best_loss s) l) /\
    ((s_best_loss s = FPInf /\ s_best s = None) \/
     (fl_lt (s_best_loss s) FPInf /\ exists t, In t ts /\ succeeded t (s_best_loss s) /\
        s_best s = Some (t_id t, t_config t, t_meta t))).
Proof.
  intros pyfloat F ts P. destruct (summary_spec pyfloat F ts P) as (s & E & A & B & C & D & _).
  exists s. auto 10.
Qed.
Print Assumptions summary_of_best.

Definition s_float (v : pyval) : res fl :=
  match v with VFloat f => Ok f | VInt z => Ok (fl_of_Z z) | _ => Err TypeError end.
Definition s_trial (i : string) (as_ : reported) (l : fl) : trial :=
  let '(t, r) := set_complete (trial_new i [] "" None None (FZ 0) "w") as_ (FZ 1) (Some l) None None None None None None in
  attach_report t r.
Definition s_pending (i : string) : trial := trial_new i [] "" None None (FZ 0) "w".
Definition s_running (i : string) : trial := set_evaluating (s_pending i) (FZ 1) "w".
Definition s_trials : list trial :=
  [s_trial "1" RSuccess (FZ 5); s_pending "2"; s_trial "3" RSuccess FNaN; s_trial "4" RCrashed (FZ 1);
   s_trial "5" RSuccess (FZ 3); s_running "6"].
Lemma s_plain : forall i a l, forall r, t_report (s_trial i a l) = Some r -> plain_report r.
Proof. intros i a l r H. injection H as <-. intros _. simpl. split; [discriminate|]. repeat split; [constructor|discriminate]. Qed.
Lemma s_trials_plain : plain_trials s_trials.
Proof.
  split.
  - cbv. repeat constructor; simpl; intuition discriminate.
  - intros t r I R. simpl in I.
    destruct I as [<-|[<-|[<-|[<-|[<-|[<-|[]]]]]]]; try discriminate; apply s_plain in R; auto.
Qed.
Example summary_of_best_example : plain_trials s_trials /\
  exists s, get_summary s_float s_trials = Ok s /\ s_best_loss s = FZ 3 /\
    option_map (fun x => fst (fst x)) (s_best s) = Some "5"%string /\ s_num_evaluated s = 4 /\ s_num_error s = 1.
Proof. split; [exact s_trials_plain|]. vm_compute. eexists. auto. Qed.

(** C28.  Full statement: [s_num_pending s] is the number of trials that are pending or
    evaluating, [s_num_pending_with_worker s] of those evaluating.  Refuted: *)
Definition waiting (t : trial) : Prop := t_state t = PENDING \/ t_state t = EVALUATING.
Definition running (t : trial) : Prop := t_state t = EVALUATING.
Theorem pending_counts_refuted : exists ts s n m,
  plain_trials ts /\ get_summary s_float ts = Ok s /\
  number_of waiting ts n /\ number_of running ts m /\
  s_num_pending s <> n /\ s_num_pending_with_worker s <> m.
Proof.
  assert (W : number_of waiting s_trials 2).
  { unfold s_trials. apply no_no; [intros [H|H]; discriminate|]. apply no_yes; [left; reflexivity|].
    apply no_no; [intros [H|H]; discriminate|]. apply no_no; [intros [H|H]; discriminate|].
    apply no_no; [intros [H|H]; discriminate|]. apply no_yes; [right; reflexivity|]. constructor. }
  assert (N : number_of running s_trials 1).
  { unfold s_trials. do 5 (apply no_no; [intro H; discriminate H|]). apply no_yes; [reflexivity|]. constructor. }
  eexists s_trials, _, 2, 1. split; [exact s_trials_plain|]. split; [vm_compute; reflexivity|].
  split; [exact W|]. split; [exact N|]. split; vm_compute; discriminate.
Qed.
Print Assumptions pending_counts_refuted.

(** What holds: both counts are always 0, so they are right exactly when no trial is
    pending or being evaluated. *)
Theorem pending_counts_partial : forall pyfloat, (forall f, pyfloat (VFloat f) = Ok f) ->
  forall ts s n m, plain_trials ts -> get_summary pyfloat ts = Ok s ->
  number_of waiting ts n -> number_of running ts m ->
  (s_num_pending s = n /\ s_num_pending_with_worker s = m <-> forall t, In t ts -> ~ waiting t).
Proof.
  intros pyfloat F ts s n m P E W N.
  destruct (summary_spec pyfloat F ts P) as (s' & E' & _ & _ & _ & _ & _ & A & B & _).
  rewrite E in E'. injection E' as <-. rewrite A, B.
  assert (Z : forall (Q : trial -> Prop) l k, number_of Q l k -> (0 = k <-> forall t, In t l -> ~ Q t)).
  { clear. intros Q l k H. induction H as [|t l k Y H IH|t l k Y H IH].
    - split; auto. 
    - split; [discriminate|]. intro X. exfalso. apply (X t); [left; auto|auto].
    - rewrite IH. split; [intros X t' [<-|I]; auto|]. intros X t' I. apply X. right. auto. }
  rewrite (Z _ _ _ W), (Z _ _ _ N). split; [tauto|]. intro X. split; auto.
  intros t I R. apply (X t I). right. auto.
Qed.
Print Assumptions pending_counts_partial.
Example pending_counts_example :
  exists s, get_summary s_float [s_trial "1" RSuccess (FZ 5)] = Ok s /\ s_num_pending s = 0.
Proof. vm_compute. eexists. auto. Qed.

(** C29.  Full statement: for evolving trials and all [es], [es'],
    [in_file (w_csv (crun w es)) <= in_file (w_csv (crun w (es ++ es')))].  Refuted: a
    worker that computed its summary earlier writes it later. *)
Definition w_one : cworld := mkCW [s_trial "1" RSuccess (FZ 5)] (fun _ => None) None.
Theorem csv_never_backwards_refuted : exists w es es',
  plain_trials (w_trials w) /\ w_csv w = None /\ evolving (w_trials w) (es ++ es') /\
  in_file (w_csv (crun s_float w (es ++ es'))) < in_file (w_csv (crun s_float w es)).
Proof.
  exists w_one, [Snap 0; Evolve [s_trial "1" RSuccess (FZ 5); s_trial "2" RSuccess (FZ 4)]; Snap 1; Save 1], [Save 0].
  split; [|split; [reflexivity|split; [|vm_compute; lia]]].
  - split; [repeat constructor; simpl; tauto|]. intros t r [<-|[]] R. eapply s_plain; eauto.
  - simpl. split; [|split; [|exact I]].
    + exists 1, 2. split; [|split; [|lia]]; repeat (apply no_yes; [discriminate|]); constructor.
    + split; [repeat constructor; simpl; intuition discriminate|].
      intros t r [<-|[<-|[]]] R; eapply s_plain; eauto.
Qed.
Print Assumptions csv_never_backwards_refuted.

(** What holds: it never goes backwards when nobody else computes or writes a summary
    between a worker's computing and writing. *)
Theorem csv_never_backwards_partial : forall pyfloat, (forall f, pyfloat (VFloat f) = Ok f) ->
  forall w es es', plain_trials (w_trials w) -> w_csv w = None ->
  evolving (w_trials w) (es ++ es') -> undisturbed es -> undisturbed es' ->
  in_file (w_csv (crun pyfloat w es)) <= in_file (w_csv (crun pyfloat w (es ++ es'))).
Proof.
  intros pyfloat F w es es' P C E U U'.
  assert (B : bounded w).
  { split; auto. destruct (summary_spec pyfloat F _ P) as (s & _ & N & _). exists (s_num_evaluated s).
    split; auto. rewrite C. simpl. lia. }
  assert (EV : evolving (w_trials w) es /\ evolving (w_trials (crun pyfloat w es)) es').
  { clear B P C U U'. revert w E. induction es as [|e es IH]; intros w E; [split; [exact I|exact E]|].
    destruct e as [ts|k|k]; simpl in E |- *.
    - destruct E as (A1 & A2 & E). destruct (IH (mkCW ts (w_snap w) (w_csv w)) E) as [X Y]. auto.
    - destruct (IH (cstep pyfloat w (Snap k)) E) as [X Y]. auto.
    - assert (T : w_trials (cstep pyfloat w (Save k)) = w_trials w) by (simpl; destruct (w_snap w k); auto).
      rewrite <- T in E. destruct (IH (cstep pyfloat w (Save k)) E) as [X Y]. rewrite T in X. auto. }
  destruct EV as [E1 E2].
  destruct (csv_grows pyfloat F _ es w (le_n _) B U E1) as [B2 _].
  unfold crun in *. rewrite fold_left_app.
  exact (proj2 (csv_grows pyfloat F _ es' _ (le_n _) B2 U' E2)).
Qed.
Print Assumptions csv_never_backwards_partial.
Example csv_never_backwards_example :
  let es := [Snap 0; Save 0; Evolve [s_trial "1" RSuccess (FZ 5); s_trial "2" RSuccess (FZ 4)]] in
  undisturbed es /\ undisturbed [Snap 1; Save 1] /\
  in_file (w_csv (crun s_float w_one es)) = 1 /\
  in_file (w_csv (crun s_float w_one (es ++ [Snap 1; Save 1]))) = 2.
Proof. vm_compute. auto. Qed.

(** C63.  Full statement: [post_run_csv] succeeds for every run.  It succeeds exactly
    when some trial was evaluated successfully. *)
Theorem post_run_summary_partial : forall pyfloat, (forall f, pyfloat (VFloat f) = Ok f) ->
  forall f ts, plain_trials ts ->
  ((exists t l, In t ts /\ succeeded t l) ->
     exists c, post_run_csv pyfloat f ts = (Some c, Ok tt) /\ number_of has_report ts (c_evaluated c)) /\
  ((forall t l, In t ts -> ~ succeeded t l) -> post_run_csv pyfloat f ts = (f, Err RuntimeError)).
Proof. exact post_run. Qed.
Print Assumptions post_run_summary_partial.
Example post_run_summary_example : plain_trials s_trials /\
  exists c, post_run_csv s_float None s_trials = (Some c, Ok tt) /\ c_evaluated c = 4.
Proof. split; [exact s_trials_plain|]. vm_compute. eexists. auto. Qed.
Theorem post_run_summary_refuted : exists ts, plain_trials ts /\
  post_run_csv s_float None ts = (None, Err RuntimeError).
Proof.
  exists [s_trial "4" RCrashed (FZ 1)]. split; [|reflexivity].
  split; [repeat constructor; simpl; tauto|]. intros t r [<-|[]] R. eapply s_plain; eauto.
Qed.
Print Assumptions post_run_summary_refuted.
