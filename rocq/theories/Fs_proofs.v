From Verif Require Import Py Py_proofs Trial_model Fs_model Fs_spec.

Lemma plain_norm v : plain v -> norm v = v.
Proof.
  induction v as [|b|z|f|s|l IH|l IH|d IH|n] using pyval_ind'; intros H; try reflexivity.
  - inversion H as [| | | | |? F|]; subst. simpl. f_equal.
    rewrite Forall_forall in IH, F. rewrite <- (map_id l) at 2. apply map_ext_in. auto.
  - inversion H.
  - inversion H as [| | | | | |? F]; subst. simpl. f_equal.
    rewrite Forall_forall in IH, F. rewrite <- (map_id d) at 2. apply map_ext_in.
    intros [k x] Hin. simpl. f_equal. apply (IH (k, x) Hin). apply (F (k, x) Hin).
Qed.

Lemma plain_serialisable v : plain v -> serialisable v = true.
Proof.
  induction v as [|b|z|f|s|l IH|l IH|d IH|n] using pyval_ind'; intros H; try reflexivity.
  - inversion H as [| | | | |? F|]; subst. simpl. rewrite Forall_forall in IH, F.
    apply forallb_forall. auto.
  - inversion H.
  - inversion H as [| | | | | |? F]; subst. simpl. rewrite Forall_forall in IH, F.
    apply forallb_forall. intros [k x] Hin. apply (IH (k, x) Hin). apply (F (k, x) Hin).
  - inversion H.
Qed.

Lemma plain_norm_dict d : plain (VDict d) -> norm_dict d = d.
Proof. intros H. apply plain_norm in H. simpl in H. injection H. intros E. exact E. Qed.

Lemma plain_norm_report r : plain_report r -> norm_report r = r.
Proof. intros H. unfold norm_report. rewrite plain_norm_dict by exact H. destruct r; reflexivity. Qed.

(** The operations of [write_trial] for plain trials. *)
Definition wops (t : trial) : list fop :=
  [TruncConfig; FillConfig (t_config t); TruncMeta; FillMeta (t_meta t);
   TruncState; FillState (t_state t)] ++
  (match m_previous_trial_id (t_meta t) with Some p => [TruncPrev; FillPrev p] | None => [] end) ++
  (match t_report t with Some r => [TruncReport; FillReport r] | None => [] end).

Lemma write_plain t : plain_trial t -> write_trial t = (wops t, None).
Proof.
  intros [Hc Hr]. unfold write_trial, wops, serialize_config.
  rewrite (plain_serialisable _ Hc), (plain_norm_dict _ Hc).
  destruct (m_previous_trial_id (t_meta t)); destruct (t_report t) as [r|];
    try (unfold serialize_report; rewrite (plain_serialisable _ (Hr r eq_refl)),
           (plain_norm_report _ (Hr r eq_refl))); reflexivity.
Qed.

Lemma write_read_lemma x t : plain_trial t ->
  (t_report t = None -> f_report x = Absent) ->
  snd (write_trial t) = None /\ read_trial (complete x (write_trial t)) = Ok t.
Proof.
  intros Hp Hr. rewrite (write_plain t Hp). split; [reflexivity|].
  unfold complete, wops. simpl fst. destruct t as [c m s r]; simpl in *.
  destruct (m_previous_trial_id m); destruct r as [r|]; simpl;
    unfold read_trial; simpl; try reflexivity; rewrite Hr by reflexivity; reflexivity.
Qed.

Lemma put_read_lemma x t told h n : plain_trial t -> plain_trial told ->
  holds x told n -> th_version h = VerSha n -> (t_report t = None -> t_report told = None) ->
  forall n', snd (put_code x h t n') = None /\ holds (complete x (put_code x h t n')) t n'.
Proof.
  intros Hp Hpo Hh Hv Hr n'. destruct Hh. unfold put_code.
  rewrite ho_version. simpl. rewrite Hv. simpl. rewrite Nat.eqb_refl.
  rewrite (write_plain t Hp). unfold seq, bump_ops. simpl snd. simpl fst.
  split; [reflexivity|]. unfold complete. simpl fst.
  destruct t as [c m s r]; simpl in *.
  destruct (m_previous_trial_id m); destruct r as [r|]; simpl; constructor; simpl; auto;
    rewrite ho_report, Hr; reflexivity.
Qed.

Lemma holds_read x t n : holds x t n -> load_trial x = Ok (mkTH t (VerSha n)).
Proof.
  intros [H1 H2 H3 H4 H5]. unfold load_trial, read_trial. rewrite H1, H2, H3, H4, H5. simpl.
  destruct t as [c m s [r|]]; reflexivity.
Qed.

Ltac step_k k := destruct k as [|k]; [|simpl firstn].

Lemma create_crash_lemma t n k : plain_trial t -> t_report t = None ->
  let c := new_code empty_dir t n in
  let y := crash_after empty_dir c k in
  (In (FillState (t_state t)) (firstn k (fst c)) ->
     load_trial y = Ok (mkTH t (VerSha n))) /\
  (~ In (FillState (t_state t)) (firstn k (fst c)) ->
     exists e, load_trial y = Err e).
Proof.
  intros Hp Hr. cbv zeta. unfold new_code, crash_after. simpl ver_current.
  rewrite (write_plain t Hp). unfold wops, seq, bump_ops. simpl fst. simpl snd.
  rewrite Hr. destruct t as [c m s r]; simpl in *. subst r.
  set (tl := match m_previous_trial_id m with Some p => [TruncPrev; FillPrev p] | None => [] end ++ []).
  assert (Htl : forall j x, f_version (do_fops x (firstn j tl)) = f_version x /\
     f_config (do_fops x (firstn j tl)) = f_config x /\ f_meta (do_fops x (firstn j tl)) = f_meta x /\
     f_state (do_fops x (firstn j tl)) = f_state x /\ f_report (do_fops x (firstn j tl)) = f_report x).
  { intros j x. unfold tl. destruct (m_previous_trial_id m); simpl.
    - destruct j as [|[|[|j]]]; simpl; auto.
    - rewrite firstn_nil. simpl. auto. }
  do 8 (destruct k as [|k];
    [split; [simpl; intuition discriminate|intros _; simpl; eexists; reflexivity]|]).
  simpl firstn. split; [intros _|intros H; exfalso; apply H; simpl; tauto].
  cbn [fst snd seq app firstn].
  unfold do_fops. cbn [fold_left].
  fold (do_fops (do_fop (do_fop (do_fop (do_fop (do_fop (do_fop (do_fop (do_fop empty_dir TruncVersion)
    (FillVersion n)) TruncConfig) (FillConfig c)) TruncMeta) (FillMeta m)) TruncState) (FillState s))
    (firstn k tl)).
  match goal with |- load_trial (do_fops ?x _) = _ =>
    destruct (Htl k x) as (E1 & E2 & E3 & E4 & E5) end.
  unfold load_trial, read_trial. rewrite E1, E2, E3, E4, E5. reflexivity.
Qed.

(** Updates *)
Definition is_version_op (o : fop) : bool :=
  match o with TruncVersion | FillVersion _ => true | _ => false end.

Lemma do_fops_version os : forall x, forallb (fun o => negb (is_version_op o)) os = true ->
  f_version (do_fops x os) = f_version x.
Proof.
  induction os as [|o os IH]; intros x H; [reflexivity|]. simpl in H.
  apply andb_prop in H as [H1 H2]. change (do_fops x (o :: os)) with (do_fops (do_fop x o) os).
  rewrite IH by exact H2. destruct o; try reflexivity; discriminate H1.
Qed.

Lemma wops_no_version t : forallb (fun o => negb (is_version_op o)) (wops t) = true.
Proof. unfold wops. destruct (m_previous_trial_id (t_meta t)), (t_report t); reflexivity. Qed.

Lemma forallb_firstn {A} (f : A -> bool) l k : forallb f l = true -> forallb f (firstn k l) = true.
Proof.
  revert k. induction l as [|x l IH]; intros [|k] H; simpl in *; auto.
  apply andb_prop in H as [H1 H2]. rewrite H1. simpl. auto.
Qed.

(** Every file is as before, truncated, or as in the new trial. *)
Definition from (x : tdir) (t : trial) (y : tdir) : Prop :=
  (f_config y = f_config x \/ f_config y = Empty \/ f_config y = Full (t_config t)) /\
  (f_meta y = f_meta x \/ f_meta y = Empty \/ f_meta y = Full (t_meta t)) /\
  (f_state y = f_state x \/ f_state y = Empty \/ f_state y = Full (t_state t)) /\
  (f_report y = f_report x \/ f_report y = Empty \/
     exists r, t_report t = Some r /\ f_report y = Full r).

Definition op_of (t : trial) (o : fop) : Prop :=
  match o with
  | FillConfig d => d = t_config t
  | FillMeta m => m = t_meta t
  | FillState s => s = t_state t
  | FillReport r => t_report t = Some r
  | _ => True
  end.

Lemma from_step x t y o : from x t y -> op_of t o -> from x t (do_fop y o).
Proof.
  intros (A & B & C & D) H. unfold from.
  destruct o; simpl in *; subst; repeat split; auto. right; right. eauto.
Qed.

Lemma from_fops x t os : forall y, from x t y -> Forall (op_of t) os -> from x t (do_fops y os).
Proof.
  induction os as [|o os IH]; intros y H F; [exact H|]. inversion F; subst.
  change (do_fops y (o :: os)) with (do_fops (do_fop y o) os). apply IH; [|assumption].
  apply from_step; assumption.
Qed.

Lemma wops_op_of t : Forall (op_of t) (wops t).
Proof.
  unfold wops. destruct (m_previous_trial_id (t_meta t)); destruct (t_report t) eqn:E;
    repeat (constructor; [simpl; auto|]); constructor.
Qed.

Lemma Forall_firstn {A} (P : A -> Prop) l k : Forall P l -> Forall P (firstn k l).
Proof.
  intros H. revert k. induction H; intros [|k]; simpl; constructor; auto.
Qed.

Lemma do_fops_app x a b : do_fops x (a ++ b) = do_fops (do_fops x a) b.
Proof. apply fold_left_app. Qed.

Section Update.
Variables (x : tdir) (told tnew : trial) (n n' : nat) (h : thandle).
Hypothesis Hp : plain_trial tnew.
Hypothesis Hh : holds x told n.
Hypothesis Hv : th_version h = VerSha n.
Hypothesis Hn : n' <> n.
Hypothesis Hr : t_report tnew = None -> t_report told = None.

Lemma put_ops : put_code x h tnew n' = (wops tnew ++ [TruncVersion; FillVersion n'], None).
Proof.
  unfold put_code. rewrite (ho_version _ _ _ Hh). simpl. rewrite Hv. simpl. rewrite Nat.eqb_refl.
  rewrite (write_plain tnew Hp). reflexivity.
Qed.

Lemma read_wops : read_trial (do_fops x (wops tnew)) = Ok tnew.
Proof.
  pose proof (write_read_lemma x tnew Hp) as W. rewrite (write_plain tnew Hp) in W.
  unfold complete in W. simpl fst in W. apply W. intros E. rewrite (ho_report _ _ _ Hh).
  rewrite (Hr E). reflexivity.
Qed.

Lemma update_crash_cases k :
  let y := crash_after x (put_code x h tnew n') k in
  (f_version y = Full n /\ from x tnew y) \/
  (f_version y <> Full n /\ read_trial y = Ok tnew /\
     (f_version y = Empty \/ f_version y = Full n')).
Proof.
  cbv zeta. unfold crash_after. rewrite put_ops. cbn [fst]. rewrite firstn_app, do_fops_app.
  destruct (Nat.le_gt_cases k (List.length (wops tnew))) as [Hk|Hk].
  - replace (k - List.length (wops tnew)) with 0 by lia. simpl. left. split.
    + rewrite do_fops_version by (apply forallb_firstn, wops_no_version). apply (ho_version _ _ _ Hh).
    + apply from_fops; [repeat split; auto|apply Forall_firstn, wops_op_of].
  - rewrite firstn_all2 by lia. right.
    assert (E : exists j, k - List.length (wops tnew) = S j) by (exists (k - List.length (wops tnew) - 1); lia).
    destruct E as (j & ->). simpl firstn.
    assert (R : forall os, forallb is_version_op os = true -> forall z,
              read_trial (do_fops z os) = read_trial z).
    { induction os as [|o os IH]; intros F z; [reflexivity|]. simpl in F.
      apply andb_prop in F as [F1 F2].
      change (do_fops z (o :: os)) with (do_fops (do_fop z o) os). rewrite IH by exact F2.
      destruct o; try discriminate F1; reflexivity. }
    split; [|split].
    + destruct j as [|[|j]]; simpl; congruence.
    + rewrite R; [apply read_wops|]. destruct j as [|[|j]]; reflexivity.
    + destruct j as [|[|j]]; simpl; auto.
Qed.

(** version moved: every reader that reads sees the new trial *)
Lemma update_moved_lemma k :
  let y := crash_after x (put_code x h tnew n') k in
  ver_current (f_version y) <> Some (VerSha n) ->
  (exists v, load_trial y = Ok (mkTH tnew v)) /\
  (forall h', th_version h' = VerSha n -> exists v, sync_trial y h' = Ok (mkTH tnew v)).
Proof.
  cbv zeta. intros Hm. destruct (update_crash_cases k) as [[E _]|(E & R & V)].
  - rewrite E in Hm. simpl in Hm. congruence.
  - unfold load_trial, sync_trial.
    assert (C : exists v, ver_current (f_version (crash_after x (put_code x h tnew n') k)) = Some v /\ v <> VerSha n).
    { destruct V as [-> | ->]; simpl; eexists; (split; [reflexivity|]); congruence. }
    destruct C as (v & -> & Hne). rewrite R. simpl. split; [eauto|].
    intros h' ->. destruct v as [|m]; simpl; [eauto|].
    destruct (Nat.eqb_spec n m); [congruence|eauto].
Qed.

(** version not moved: cached readers still have the old trial, entirely *)
Lemma update_unmoved_lemma k h' :
  let y := crash_after x (put_code x h tnew n') k in
  ver_current (f_version y) = Some (VerSha n) ->
  th_version h' = VerSha n -> sync_trial y h' = Ok h'.
Proof.
  cbv zeta. intros E E'. unfold sync_trial. rewrite E, E'. simpl. rewrite Nat.eqb_refl. reflexivity.
Qed.

(** any successful read mixes complete old and new parts *)
Lemma update_mixed_lemma k t' :
  read_trial (crash_after x (put_code x h tnew n') k) = Ok t' ->
  (t_config t' = t_config told \/ t_config t' = t_config tnew) /\
  (t_meta t' = t_meta told \/ t_meta t' = t_meta tnew) /\
  (t_state t' = t_state told \/ t_state t' = t_state tnew) /\
  (t_report t' = t_report told \/ t_report t' = t_report tnew).
Proof.
  intros Hread. destruct (update_crash_cases k) as [[_ (A & B & C & D)]|(_ & R & _)].
  - destruct Hh as [_ H2 H3 H4 H5]. rewrite H2 in A. rewrite H3 in B. rewrite H4 in C. rewrite H5 in D.
    unfold read_trial in Hread.
    set (y := crash_after x (put_code x h tnew n') k) in *. clearbody y.
    destruct (f_config y) as [| |cf]; simpl in Hread; try discriminate Hread.
    destruct (f_meta y) as [| |mf]; simpl in Hread; try discriminate Hread.
    destruct (f_state y) as [| |sf]; simpl in Hread; try discriminate Hread.
    assert (P1 : cf = t_config told \/ cf = t_config tnew)
      by (destruct A as [A|[A|A]]; inversion A; auto).
    assert (P2 : mf = t_meta told \/ mf = t_meta tnew)
      by (destruct B as [B|[B|B]]; inversion B; auto).
    assert (P3 : sf = t_state told \/ sf = t_state tnew)
      by (destruct C as [C|[C|C]]; inversion C; auto).
    destruct (f_report y) as [| |rf]; simpl in Hread; try discriminate Hread;
      inversion Hread; subst; simpl; split; [|split; [|split]| |split; [|split]]; auto.
    + destruct D as [D|[D|(r & E & D)]]; try discriminate D.
      destruct (t_report told); [discriminate D|auto].
    + destruct D as [D|[D|(r & E & D)]]; try discriminate D.
      * destruct (t_report told); inversion D; subst; auto.
      * inversion D; subst. auto.
  - rewrite R in Hread. inversion Hread; subst. auto 8.
Qed.
End Update.
