(** How far max_evaluations_total can be exceeded. *)
From Verif Require Import Py Trial_model Eval_model Init_model Runtime_model Runtime_spec
  Runtime_proofs Claim_proofs Share_proofs Seed_proofs.
From Coq Require Import Permutation.

(** * Counting *)
Lemma filter_le : forall A (f g : A -> bool) l,
  (forall x, In x l -> f x = true -> g x = true) ->
  List.length (filter f l) <= List.length (filter g l).
Proof.
  induction l as [|a l IH]; simpl; intros H; auto.
  assert (IH' : List.length (filter f l) <= List.length (filter g l)) by (apply IH; auto).
  destruct (f a) eqn:F; [rewrite (H a) by auto; simpl; lia|].
  destruct (g a); simpl; lia.
Qed.

Lemma filter_lt : forall A (f g : A -> bool) l a,
  (forall x, In x l -> f x = true -> g x = true) -> In a l -> f a = false -> g a = true ->
  S (List.length (filter f l)) <= List.length (filter g l).
Proof.
  induction l as [|b l IH]; simpl; intros a H I F G; [contradiction|].
  assert (L : List.length (filter f l) <= List.length (filter g l)) by (apply filter_le; auto).
  destruct I as [->|I].
  - rewrite F, G. simpl. lia.
  - assert (IH' : S (List.length (filter f l)) <= List.length (filter g l)) by (eapply IH; eauto).
    destruct (f b) eqn:FB; [rewrite (H b) by auto; simpl; lia|].
    destruct (g b); simpl; lia.
Qed.

Lemma filter_perm : forall A (f : A -> bool) l l', Permutation l l' ->
  List.length (filter f l) = List.length (filter f l').
Proof.
  intros A f l l' P. induction P; simpl; auto.
  - destruct (f x); simpl; auto.
  - destruct (f x), (f y); simpl; auto.
  - congruence.
Qed.

Lemma filter_nth_seq : forall A (f : A -> bool) l,
  List.length (filter (fun i => match nth_error l i with Some x => f x | None => false end)
                 (seq 0 (List.length l))) = List.length (filter f l).
Proof.
  induction l as [|a l IH]; auto.
  change (seq 0 (List.length (a :: l))) with (0 :: seq 1 (List.length l)).
  rewrite <- seq_shift. cbn [filter nth_error].
  assert (X : forall ks, List.length (filter (fun i => match nth_error (a :: l) i with Some x => f x | None => false end) (map S ks))
     = List.length (filter (fun i => match nth_error l i with Some x => f x | None => false end) ks)).
  { induction ks as [|k ks IHk]; auto. cbn [map filter]. simpl nth_error.
    destruct (nth_error l k) as [y|]; [destruct (f y)|]; simpl; auto. }
  destruct (f a); simpl; rewrite X, IH; reflexivity.
Qed.

Section Overshoot.
Context {R : Type}.
Variable pyfloat : pyval -> res fl.
Variable tid wname : nat -> string.
Variable conf : nat -> worker_settings.
Variable ask : R -> list trial -> res (dict * R).
Notation do_event := (do_event pyfloat tid wname conf ask).
Notation run := (run pyfloat tid wname conf ask).
Notation step := (step pyfloat tid wname conf ask).
Notation effect := (effect pyfloat tid wname conf ask).
Notation event_effect := (event_effect pyfloat tid wname conf ask).
Implicit Types s : sys R.
Implicit Types e : event R.

Ltac opn := do 2 (unfold upd in *; rewrite ?Nat.eqb_refl in *; simpl in *); unfold upd in *; rewrite ?Nat.eqb_refl in *.

Definition rep (t : trial) : bool := match t_report t with Some _ => true | None => false end.
Definition repi s (i : nat) : bool :=
  match nth_error (cells s) i with Some c => rep (c_trial c) | None => false end.

Lemma reported_count_listing : forall s ord,
  List.length (filter (repi s) (listing (List.length (cells s)) ord)) = reported_count s.
Proof.
  intros. rewrite (filter_perm _ _ _ _ (listing_perm _ ord)).
  unfold repi. apply (filter_nth_seq _ (fun c => rep (c_trial c))).
Qed.

Lemma rep_mono : forall s e s' i, fresh s -> effect s e s' -> repi s i = true -> repi s' i = true.
Proof.
  intros s e s' i F E H. unfold repi in *.
  destruct (nth_error (cells s) i) as [c|] eqn:C; [|discriminate].
  inversion E; subst; simpl; rewrite ?C; auto.
  - rewrite nth_error_app1 by (eapply nth_error_lt; eauto). now rewrite C.
  - destruct (Nat.eq_dec i0 i) as [->|N].
    + rewrite nth_error_set_nth_eq by (eapply nth_error_lt; eauto). simpl.
      rewrite C in H2. injection H2 as <-.
      destruct (F k i h c H1 C H3) as [X|(r & X & _)]; [|congruence].
      unfold rep in *. simpl. now rewrite X.
    + rewrite nth_error_set_nth_neq by auto. now rewrite C.
  - destruct (Nat.eq_dec i0 i) as [->|N].
    + rewrite nth_error_set_nth_eq by (eapply nth_error_lt; eauto). reflexivity.
    + rewrite nth_error_set_nth_neq by auto. now rewrite C.
  - rewrite nth_error_app1 by (eapply nth_error_lt; eauto). now rewrite C.
Qed.

Lemma count_app : forall A (f : A -> bool) l l',
  List.length (filter f (l ++ l')) = List.length (filter f l) + List.length (filter f l').
Proof. intros. rewrite filter_app, app_length. reflexivity. Qed.

(** the number of reported trials moves only when a report is stored, by at most one *)
Lemma rep_set_nth : forall (l : list cell) i c x,
  nth_error l i = Some c ->
  List.length (filter (fun c => rep (c_trial c)) (set_nth l i x)) + (if rep (c_trial c) then 1 else 0) =
  List.length (filter (fun c => rep (c_trial c)) l) + (if rep (c_trial x) then 1 else 0).
Proof.
  induction l as [|a l IH]; intros [|i] c x H; simpl in H; try discriminate.
  - injection H as ->. simpl. destruct (rep (c_trial c)), (rep (c_trial x)); simpl; lia.
  - simpl. specialize (IH _ _ x H). destruct (rep (c_trial a)); simpl; lia.
Qed.

Lemma count_effect : forall s e s', fresh s -> effect s e s' ->
  reported_count s' = reported_count s \/
  (exists k x i r, e = Step k x /\ w_pc (s_work s k) = PReport i r /\
     w_pc (s_work s' k) = PAccount i r /\ reported_count s' <= S (reported_count s)).
Proof.
  intros s e s' F E. unfold reported_count.
  change (fun c => match t_report (c_trial c) with Some _ => true | None => false end)
    with (fun c => rep (c_trial c)).
  inversion E; subst; simpl; auto.
  - left. rewrite count_app. simpl. lia.
  - left. assert (X := rep_set_nth _ _ _ (mkCell (s_next s) (set_evaluating (h_trial h) (in_time x) (wname k))) H1).
    destruct (F k i h c H0 H1 H2) as [Y|(r & Y & _)]; [|congruence].
    assert (Z : rep (set_evaluating (h_trial h) (in_time x) (wname k)) = rep (c_trial c))
      by (unfold rep; simpl; now rewrite Y).
    cbn [c_trial] in X. rewrite Z in X. lia.
  - right. exists k, x, i, r. opn. repeat split; auto.
    assert (X := rep_set_nth _ _ _ (mkCell (s_next s) (attach_report (h_trial h) r)) H1).
    cbn [c_trial] in X. change (rep (attach_report (h_trial h) r)) with true in X.
    cbn iota in X. destruct (rep (c_trial c)); lia.
  - left. rewrite count_app. simpl. lia.
Qed.

(** * Workers that may still finish one more evaluation *)
Variable n : Z.
Definition livb s (k : nat) : bool :=
  match w_pc (s_work s k) with
  | PSweep todo seen =>
      Z.ltb (Z.of_nat (List.length (filter rep seen)) +
             Z.of_nat (List.length (filter (repi s) todo))) n
  | PGet | PPend _ _ | PRefetch _ | PSample | PClaim _ | PEval _ | PReport _ _ => true
  | _ => false
  end.

Lemma livb_other : forall s e s' k, fresh s -> effect s e s' -> k <> actor e ->
  livb s' k = true -> livb s k = true.
Proof.
  intros s e s' k F E N H. unfold livb in *.
  rewrite (others_untouched _ _ _ _ _ _ _ _ _ E N) in H.
  destruct (w_pc (s_work s k)); auto.
  apply Z.ltb_lt in H. apply Z.ltb_lt.
  assert (X : List.length (filter (repi s) todo) <= List.length (filter (repi s') todo)).
  { apply filter_le. intros i _. eapply rep_mono; eauto. }
  lia.
Qed.

Lemma synced_rep : forall s k i c, fresh s -> (forall r, w_pc (s_work s k) <> PReport i r) ->
  nth_error (cells s) i = Some c ->
  rep (h_trial (sync_handle (w_cache (s_work s k) i) c)) = rep (c_trial c).
Proof.
  intros s k i c F P C.
  destruct (sync_handle_trial (w_cache (s_work s k) i) c) as [X|(h' & X1 & X2 & X3)]; [now rewrite X|].
  rewrite X3. destruct (F k i h' c X1 C X2) as [Y|(r & Y & _)]; [now rewrite Y|]. now apply P in Y.
Qed.

Lemma count_ge_rep : forall b ts, (Z.of_nat (List.length (filter rep ts)) <= count_trials b ts)%Z.
Proof.
  intros. unfold count_trials. apply Nat2Z.inj_le. apply filter_le. intros t _ H.
  unfold rep in H. unfold counted. destruct (t_report t); auto. discriminate.
Qed.

Lemma livb_with : forall s k w, 
  livb (with_worker s k w) k =
  match w_pc w with
  | PSweep todo seen =>
      Z.ltb (Z.of_nat (List.length (filter rep seen)) +
             Z.of_nat (List.length (filter (repi s) todo))) n
  | PGet | PPend _ _ | PRefetch _ | PSample | PClaim _ | PEval _ | PReport _ _ => true
  | _ => false
  end.
Proof. intros. unfold livb. simpl. unfold upd. rewrite Nat.eqb_refl. reflexivity. Qed.

Lemma enter_totals_dead : forall s k x, max_evaluations_total (conf k) = Some n ->
  (n <= Z.of_nat (reported_count s))%Z ->
  livb (enter_totals conf s k (s_work s k) x) k = false.
Proof.
  intros s k x M C. unfold enter_totals, no_total_limit. rewrite M. rewrite livb_with. simpl.
  rewrite reported_count_listing. apply Z.ltb_ge. lia.
Qed.

Lemma get_failed_dead : forall s k w, livb (get_failed s k w) k = false.
Proof. intros. unfold get_failed. destruct (Z.geb _ _); rewrite livb_with; reflexivity. Qed.

Lemma livb_put : forall s i t k w, 
  livb (with_worker (put_cells s i t) k w) k = true -> 
  match w_pc w with
  | PSweep _ _ | PGet | PPend _ _ | PRefetch _ | PSample | PClaim _ | PEval _ | PReport _ _ => True
  | _ => False
  end.
Proof.
  intros s i t k w. rewrite livb_with. destruct (w_pc w); auto; discriminate.
Qed.

(** once the limit is reached nobody starts anew *)
Lemma livb_actor : forall s k x, fresh s ->
  max_evaluations_total (conf k) = Some n -> (n <= Z.of_nat (reported_count s))%Z ->
  livb (step s k x) k = true -> livb s k = true /\ forall i r, w_pc (s_work s k) <> PReport i r.
Proof.
  intros s k x F M C. unfold Runtime_model.step. unfold livb at 2.
  destruct (w_pc (s_work s k)) eqn:P.
  - destruct (check_local _ _ _ _ _ _); simpl; rewrite ?livb_with; try discriminate.
    destruct (any_error _); [rewrite livb_with; discriminate|]. rewrite enter_totals_dead by auto. discriminate.
  - destruct (check_errors _ _); simpl; rewrite ?livb_with; try discriminate.
    rewrite enter_totals_dead by auto. discriminate.
  - destruct todo as [|i todo].
    + destruct (check_totals _ _) eqn:T; simpl; rewrite ?livb_with; try discriminate. intros _.
      split; [|discriminate]. unfold check_totals in T. rewrite M in T. unfold reached_Z in T.
      destruct (Z.geb _ n) eqn:G; [discriminate|].
      assert (X := count_ge_rep (include_in_progress (conf k)) seen).
      apply Z.ltb_lt. rewrite Z.geb_leb in G. apply Z.leb_gt in G. lia.
    + generalize (sync_one_spec s (s_work s k) i).
      destruct (sync_one s (s_work s k) i) as [[w' t]|]; intro Y; rewrite livb_with; [|discriminate].
      destruct Y as (c & CC & -> & ->). simpl. intro L. split; [|discriminate].
      apply Z.ltb_lt in L. apply Z.ltb_lt.
      rewrite count_app in L. simpl in L.
      rewrite synced_rep in L by (auto; intros r' X; congruence).
      unfold repi at 1. rewrite CC. destruct (rep (c_trial c)); simpl in *; lia.
  - auto. split; auto; discriminate.
  - split; auto; discriminate.
  - split; auto; discriminate.
  - split; auto; discriminate.
  - split; auto; discriminate.
  - split; auto; discriminate.
  - (* report *) unfold report_step. destruct (w_cache (s_work s k) i) as [h|];
      [|rewrite livb_with; discriminate].
    destruct (put_trial s k (s_work s k) i (attach_report (h_trial h) r)) as [[s1 w1] []];
      rewrite livb_with; discriminate.
  - unfold account_step. rewrite livb_with. simpl. destruct (r_err r); discriminate.
  - unfold errdump_step. rewrite livb_with. discriminate.
  - unfold livb. rewrite P. discriminate.
  - unfold livb. rewrite P. discriminate.
Qed.

Variable W : nat.
Definition lives s : nat := List.length (filter (livb s) (seq 0 W)).

Lemma lives_le : forall s, lives s <= W.
Proof.
  intros. unfold lives. rewrite <- (seq_length W 0) at 2.
  generalize (seq 0 W). induction l; simpl; auto. destruct (livb s a); simpl; lia.
Qed.

Definition bounded (r0 : nat) s : Prop :=
  fresh s /\ versions_ok s /\
  (Z.of_nat (reported_count s) < n \/
   Z.of_nat (reported_count s) + Z.of_nat (lives s) <= Z.max (Z.of_nat r0) (n + Z.of_nat W - 1))%Z.

Hypothesis M : forall k, k < W -> max_evaluations_total (conf k) = Some n.

Lemma bounded_event : forall r0 s e, actor e < W -> bounded r0 s -> bounded r0 (do_event s e).
Proof.
  intros r0 s e A (F & V & B). assert (E := event_effect s e).
  split; [eapply fresh_effect; eauto|]. split; [eapply versions_ok_effect; eauto|].
  set (s' := do_event s e) in *.
  assert (IN : In (actor e) (seq 0 W)) by (apply in_seq; lia).
  destruct (count_effect _ _ _ F E) as [CE|(k & x & i & r & -> & P & P' & CE)].
  - (* no report *) rewrite CE. destruct B as [B|B]; [auto|].
    destruct (Z_lt_ge_dec (Z.of_nat (reported_count s)) n) as [L|G]; [auto|].
    right. enough (lives s' <= lives s) by lia.
    apply filter_le. intros k _ L. destruct (Nat.eq_dec k (actor e)) as [->|N].
    + destruct e as [k x|k x|k b]; simpl in *.
      * apply livb_actor in L; auto; [tauto|lia].
      * unfold s' in *. simpl in L. destruct (w_pc (s_work s k)) eqn:P; auto.
        unfold livb. rewrite P. auto.
      * exfalso. unfold s' in L. simpl in L. rewrite livb_with in L. discriminate.
    + eapply livb_other; eauto.
  - simpl in *.
    assert (D : livb s' k = false) by (unfold livb; rewrite P'; auto).
    assert (D0 : livb s k = true) by (unfold livb; rewrite P; auto).
    destruct (Z_lt_ge_dec (Z.of_nat (reported_count s')) n) as [L|G]; [auto|]. right.
    destruct (Z_lt_ge_dec (Z.of_nat (reported_count s)) n) as [L|G'].
    + assert (S (lives s') <= W).
      { unfold lives. assert (X := filter_lt _ (livb s') (fun _ => true) (seq 0 W) k).
        assert (Y : List.length (filter (fun _ : nat => true) (seq 0 W)) = W).
        { rewrite <- (seq_length W 0) at 2. generalize (seq 0 W). induction l; simpl; auto. }
        rewrite Y in X. apply X; auto. }
      lia.
    + destruct B as [B|B]; [lia|].
      assert (S (lives s') <= lives s).
      { apply (filter_lt _ _ _ _ k); auto. intros k0 _ L. destruct (Nat.eq_dec k0 k) as [->|N]; auto.
        eapply livb_other; eauto. }
      lia.
Qed.

Lemma bounded_run : forall es r0 s, (forall e, In e es -> actor e < W) -> bounded r0 s -> bounded r0 (run s es).
Proof.
  induction es as [|e es IH]; intros r0 s A B; auto.
  change (run s (e :: es)) with (run (do_event s e) es). apply IH; [intros; apply A; simpl; auto|].
  apply bounded_event; auto. apply A. simpl. auto.
Qed.

Lemma bounded_start : forall cs b errs (r : R) m, good_cells cs m ->
  bounded (reported_count (start cs b errs r m)) (start cs b errs r m).
Proof.
  intros cs b errs r m G. split; [intros k i h c H; discriminate|]. split; [apply start_versions; auto|].
  right. assert (lives (start cs b errs r m) = 0).
  { unfold lives. generalize (seq 0 W). induction l; simpl; auto. }
  lia.
Qed.

Lemma overshoot : forall cs b errs (r : R) m es, good_cells cs m -> 0 < W ->
  (forall e, In e es -> actor e < W) ->
  (Z.of_nat (reported_count (run (start cs b errs r m) es)) <=
   Z.max (Z.of_nat (reported_count (start cs b errs r m))) (n + Z.of_nat W - 1))%Z.
Proof.
  intros cs b errs r m es G HW A.
  destruct (bounded_run es _ _ A (bounded_start cs b errs r m G)) as (_ & _ & [B|B]); lia.
Qed.

End Overshoot.
