From Verif Require Import Py Py_proofs Trial_model Eval_model Eval_spec.

Section P.
Variable pyfloat : pyval -> res fl.
Hypothesis float_id : forall f, pyfloat (VFloat f) = Ok f.

Lemma check_float_ok v f : check_float pyfloat v = Ok f <-> pyfloat v = Ok f.
Proof.
  unfold check_float. destruct (pyfloat v) as [g|e]; [tauto|].
  destruct e; split; discriminate.
Qed.

Lemma map_res_ok {A B} (g : A -> res B) l : forall fs,
  map_res g l = Ok fs <-> Forall2 (fun x f => g x = Ok f) l fs.
Proof.
  induction l as [|x l IH]; intros fs; simpl.
  - split; [intros H; inversion H; constructor|inversion 1; reflexivity].
  - destruct (g x) as [y|e] eqn:E; simpl.
    + destruct (map_res g l) as [ys|e] eqn:E2; simpl.
      * split.
        -- intros H. inversion H; subst. constructor; [exact E|]. apply IH. reflexivity.
        -- inversion 1 as [|? ? ? ? H2 H3]; subst. apply IH in H3. congruence.
      * split; [discriminate|]. inversion 1 as [|? ? ? ? H2 H3]; subst. apply IH in H3. discriminate.
    + split; [discriminate|]. inversion 1; subst. congruence.
Qed.

Lemma elements_chars s : elements (VStr s) (chars s).
Proof. induction s; simpl; constructor; auto. Qed.
Lemma elements_str s vs : elements (VStr s) vs -> vs = chars s.
Proof.
  revert vs. induction s as [|c s IH]; intros vs H; inversion H; subst; simpl; [reflexivity|].
  f_equal. apply IH. assumption.
Qed.

Lemma floats_of_ok v fs : floats_of pyfloat v = Ok fs <->
  exists vs, elements v vs /\ Forall2 (fun x f => pyfloat x = Ok f) vs fs.
Proof.
  unfold floats_of. destruct v; try (split; [discriminate|intros (vs & H & _); inversion H; fail]).
  - rewrite map_res_ok. split.
    + intros H. exists (chars s). split; [apply elements_chars|exact H].
    + intros (vs & H & G). apply elements_str in H. subst. exact G.
  - rewrite map_res_ok. split.
    + intros H. exists l. split; [constructor|exact H].
    + intros (vs & H & G). inversion H; subst. exact G.
  - rewrite map_res_ok. split.
    + intros H. exists l. split; [constructor|exact H].
    + intros (vs & H & G). inversion H; subst. exact G.
  - rewrite map_res_ok. split.
    + intros H. eexists. split; [constructor|exact H].
    + intros (vs & H & G). inversion H; subst. exact G.
Qed.

Lemma floats_id l : map_res pyfloat (map VFloat l) = Ok l.
Proof. induction l as [|x l IH]; simpl; [reflexivity|]. rewrite float_id. simpl. rewrite IH. reflexivity. Qed.

(** cost and curve parts of [finish] *)
Definition cost_ok (v : pyval) (c : option fl) : Prop :=
  match v with VNone => c = None | _ => exists f, pyfloat v = Ok f /\ c = Some f end.
Definition lc_ok (v : pyval) (x : option (list fl)) : Prop :=
  match v with VNone => x = None | _ => exists fs, floats_of pyfloat v = Ok fs /\ x = Some fs end.

Lemma finish_ok loss cost lc extra l c x e :
  finish pyfloat loss cost lc extra = Ok (l, c, x, e) <->
  pyfloat loss = Ok l /\ cost_ok cost c /\ lc_ok lc x /\ e = extra.
Proof.
  unfold finish.
  destruct (check_float pyfloat loss) as [l'|er] eqn:E1; simpl.
  2: { split; [discriminate|]. intros [H _]. apply check_float_ok in H. congruence. }
  apply check_float_ok in E1.
  assert (Hc : forall k, bind (match cost with
      | VNone => Ok None | v => bind (check_float pyfloat v) (fun c => Ok (Some c)) end) k
      = Ok (l, c, x, e) <-> exists c', cost_ok cost c' /\ k c' = Ok (l, c, x, e)).
  { intros k. destruct cost.
    1: { simpl. split; [eauto|intros (c' & -> & H); exact H]. }
    all: match goal with |- context [check_float pyfloat ?v] =>
           destruct (check_float pyfloat v) as [g|er] eqn:E2; simpl;
           [apply check_float_ok in E2; split;
              [intros H; exists (Some g); split; [exists g; split; [exact E2|reflexivity]|exact H]
              |intros (c' & (f' & E3 & ->) & H); congruence]
           |split; [discriminate|intros (c' & (f' & E3 & ->) & H); apply check_float_ok in E3; congruence]]
         end. }
  rewrite Hc. clear Hc.
  assert (Hx : forall k, bind (match lc with
      | VNone => Ok None | v => bind (floats_of pyfloat v) (fun x => Ok (Some x)) end) k
      = Ok (l, c, x, e) <-> exists x', lc_ok lc x' /\ k x' = Ok (l, c, x, e)).
  { intros k. destruct lc.
    1: { simpl. split; [eauto|intros (c' & -> & H); exact H]. }
    all: match goal with |- context [floats_of pyfloat ?v] =>
           destruct (floats_of pyfloat v) as [g|er] eqn:E2; cbn [bind];
           [split;
              [intros H; exists (Some g); split; [exists g; split; [exact E2|reflexivity]|exact H]
              |intros (c' & (f' & E3 & ->) & H); congruence]
           |split; [discriminate|intros (c' & (f' & E3 & ->) & H); congruence]]
         end. }
  split.
  - intros (c' & Hc & H). apply Hx in H as (x' & Hl & H). inversion H; subst. tauto.
  - intros (H1 & H2 & H3 & ->). exists c. split; [exact H2|]. apply Hx. exists x. split; [exact H3|].
    congruence.
Qed.

Lemma cost_default dc c : cost_ok (opt_val dc) c <-> c = dc.
Proof.
  destruct dc as [f|]; simpl; [|tauto]. rewrite float_id. split.
  - intros (g & E & ->). congruence.
  - intros ->. eauto.
Qed.

(** The curve value after the ["loss"] shortcut. *)
Definition subst_loss (loss lc : pyval) : pyval :=
  match lc with VStr s => if String.eqb s "loss" then VList [loss] else lc | _ => lc end.

Lemma lc_given loss l v x : pyfloat loss = Ok l ->
  (lc_ok (subst_loss loss v) x <-> curve_of pyfloat l v x).
Proof.
  intros Hl. split.
  - intros H.
    assert (C : v = VNone \/ v = VStr "loss" \/
      (v <> VStr "loss" /\ exists fs, floats_of pyfloat v = Ok fs /\ x = Some fs)).
    { destruct v; auto; right; try (right; split; [discriminate|exact H]).
      simpl in H. destruct (String.eqb_spec s "loss") as [->|Hne]; [left; reflexivity|].
      right. split; [congruence|exact H]. }
    destruct C as [->|[->|(Hne & fs & E & ->)]].
    + simpl in H. subst. constructor.
    + simpl in H. destruct H as (fs & E & ->). rewrite Hl in E. simpl in E.
      inversion E; subst. constructor.
    + apply floats_of_ok in E as (vs & H1 & H2). eapply cv_list; eassumption.
  - intros H. destruct H as [| |v vs fs Hne He Hf].
    + reflexivity.
    + simpl. exists [l]. rewrite Hl. split; reflexivity.
    + assert (F : floats_of pyfloat v = Ok fs) by (apply floats_of_ok; eauto).
      destruct v; simpl in *; try (exists fs; split; [exact F|reflexivity]).
      * inversion He.
      * destruct (String.eqb_spec s "loss") as [->|]; [congruence|].
        exists fs; split; [exact F|reflexivity].
Qed.

Lemma lc_default_ok loss l dl x : pyfloat loss = Ok l ->
  (lc_ok (subst_loss loss (lc_val dl)) x <-> x = default_curve dl l).
Proof.
  intros Hl. destruct dl as [| |m]; simpl; [tauto| |].
  - rewrite Hl. simpl. split; [intros (fs & E & ->); inversion E; reflexivity|intros ->; eauto].
  - rewrite floats_id. split; [intros (fs & E & ->); inversion E; reflexivity|intros ->; eauto].
Qed.

Lemma parse_plain_lemma v dc dl l c x e : (forall d, v <> VDict d) ->
  (parse_user_result pyfloat v dc dl = Ok (l, c, x, e) <-> plain_result pyfloat v dc dl l c x e).
Proof.
  intros Hv.
  assert (E : parse_user_result pyfloat v dc dl =
    finish pyfloat v (opt_val dc)
      (match dl with LCNone => VNone | LCLoss => VList [v] | LCList l => VList (map VFloat l) end) []).
  { destruct v; try reflexivity. congruence. }
  rewrite E, finish_ok, cost_default. split.
  - intros (H1 & H2 & H3 & H4). constructor; auto.
    destruct dl as [| |m]; simpl in H3.
    + exact H3.
    + destruct H3 as (fs & F & ->). rewrite H1 in F. simpl in F. inversion F. reflexivity.
    + destruct H3 as (fs & F & ->). rewrite floats_id in F. inversion F. reflexivity.
  - intros [H1 H2 H3 H4]. split; [exact H1|]. split; [exact H2|]. split; [|exact H4].
    subst x. destruct dl as [| |m]; simpl.
    + reflexivity.
    + rewrite H1. simpl. eauto.
    + rewrite floats_id. eauto.
Qed.

(** [parse] on a dictionary with a loss, in one formula. *)
Definition curve_and_rest (d : dict) (dl : lc_default) : res (pyval * dict) :=
  let d2 := remove_key "cost" (remove_key "loss" d) in
  match lookup "learning_curve" d with
  | Some x => Ok (x, remove_key "learning_curve" d2)
  | None =>
      match lookup "info_dict" d with
      | None => Ok (lc_val dl, d2)
      | Some (VDict i) =>
          Ok (match lookup "learning_curve" i with Some x => x | None => lc_val dl end,
              set_key "info_dict" (VDict (remove_key "learning_curve" i)) d2)
      | Some (VList _) => Err TypeError
      | Some _ => Err AttributeError
      end
  end.

Lemma parse_dict_eq d dc dl :
  parse_user_result pyfloat (VDict d) dc dl =
  match lookup "loss" d with
  | None => Err KeyError
  | Some loss =>
      bind (curve_and_rest d dl) (fun '(lc, extra) =>
        finish pyfloat loss
          (match lookup "cost" d with Some c => c | None => opt_val dc end)
          (subst_loss loss lc) extra)
  end.
Proof.
  unfold parse_user_result, curve_and_rest. destruct (lookup "loss" d); [|reflexivity].
  rewrite !lookup_remove_key. simpl String.eqb. cbv iota. reflexivity.
Qed.

Lemma parse_dict_ok_lemma d dc dl l c x e :
  parse_user_result pyfloat (VDict d) dc dl = Ok (l, c, x, e) ->
  dict_result pyfloat d dc dl l c x e.
Proof.
  rewrite parse_dict_eq. destruct (lookup "loss" d) as [loss|] eqn:El; [|discriminate].
  destruct (curve_and_rest d dl) as [[lc extra]|er] eqn:Ec; [|discriminate].
  cbn [bind]. rewrite finish_ok. intros (H1 & H2 & H3 & ->).
  assert (Hcost : match lookup "cost" d with
            | None => c = dc
            | Some VNone => c = None
            | Some v => exists f, pyfloat v = Ok f /\ c = Some f
            end).
  { destruct (lookup "cost" d) as [v|]; [|apply cost_default; exact H2].
    destruct v; exact H2. }
  unfold curve_and_rest in Ec.
  destruct (lookup "learning_curve" d) as [v|] eqn:Ev.
  - inversion Ec; subst. constructor; auto.
    + eauto.
    + congruence.
    + unfold curve_given. rewrite Ev. eapply lc_given; eassumption.
    + intros k [->|[->| ->]]; rewrite !lookup_remove_key; reflexivity.
    + intros k N1 N2 N3 N4. rewrite !lookup_remove_key.
      destruct (String.eqb_spec k "learning_curve"); [congruence|].
      destruct (String.eqb_spec k "cost"); [congruence|].
      destruct (String.eqb_spec k "loss"); [congruence|]. reflexivity.
    + assert (G : lookup "info_dict" (remove_key "learning_curve" (remove_key "cost" (remove_key "loss" d)))
                  = lookup "info_dict" d) by (rewrite !lookup_remove_key; reflexivity).
      rewrite G. destruct (lookup "info_dict" d) as [[]|]; rewrite ?Ev; reflexivity.
  - destruct (lookup "info_dict" d) as [i|] eqn:Ei.
    + destruct i; try discriminate Ec. inversion Ec; subst. constructor; auto.
      * eauto.
      * intros _ w Hw. rewrite Ei in Hw. inversion Hw. eauto.
      * unfold curve_given. rewrite Ev, Ei. destruct (lookup "learning_curve" d0).
        -- eapply lc_given; eassumption.
        -- eapply lc_default_ok; eassumption.
      * intros k [->|[->| ->]]; rewrite lookup_set_key; simpl;
          rewrite !lookup_remove_key; simpl; auto.
      * intros k N1 N2 N3 N4. rewrite lookup_set_key, !lookup_remove_key.
        destruct (String.eqb_spec k "info_dict"); [congruence|].
        destruct (String.eqb_spec k "cost"); [congruence|].
        destruct (String.eqb_spec k "loss"); [congruence|]. reflexivity.
      * rewrite Ei, Ev. rewrite lookup_set_key. simpl. eexists. split; [reflexivity|].
        intros k. apply lookup_remove_key.
    + inversion Ec; subst. constructor; auto.
      * eauto.
      * congruence.
      * unfold curve_given. rewrite Ev, Ei. eapply lc_default_ok; eassumption.
      * intros k [->|[->| ->]]; rewrite !lookup_remove_key; simpl; auto.
      * intros k N1 N2 N3 N4. rewrite !lookup_remove_key.
        destruct (String.eqb_spec k "cost"); [congruence|].
        destruct (String.eqb_spec k "loss"); [congruence|]. reflexivity.
      * rewrite Ei. rewrite !lookup_remove_key. simpl. exact Ei.
Qed.

Lemma parse_dict_complete_lemma d dc dl l c x e :
  dict_result pyfloat d dc dl l c x e ->
  exists e', parse_user_result pyfloat (VDict d) dc dl = Ok (l, c, x, e').
Proof.
  intros [(v & Hl & Hf) H2 H3 H4 _ _ _]. rewrite parse_dict_eq, Hl.
  assert (Hc : cost_ok match lookup "cost" d with Some c => c | None => opt_val dc end c).
  { destruct (lookup "cost" d) as [w|]; [|apply cost_default; exact H2]. destruct w; exact H2. }
  assert (Hx : exists lc extra, curve_and_rest d dl = Ok (lc, extra) /\ lc_ok (subst_loss v lc) x).
  { unfold curve_and_rest. unfold curve_given in H4.
    destruct (lookup "learning_curve" d) as [w|] eqn:Ev.
    - eexists _, _. split; [reflexivity|]. eapply lc_given; eassumption.
    - destruct (lookup "info_dict" d) as [i|] eqn:Ei.
      + destruct (H3 eq_refl i eq_refl) as (i' & ->).
        eexists _, _. split; [reflexivity|].
        destruct (lookup "learning_curve" i').
        * eapply lc_given; eassumption.
        * eapply lc_default_ok; eassumption.
      + eexists _, _. split; [reflexivity|]. eapply lc_default_ok; eassumption. }
  destruct Hx as (lc & extra & -> & Hx). cbn [bind]. exists extra. apply finish_ok. auto.
Qed.
End P.

Lemma lookup_merge {A} k (b : list (string * A)) : forall a, NoDup (map fst b) ->
  lookup k (merge_dict a b) = match lookup k b with Some v => Some v | None => lookup k a end.
Proof.
  unfold merge_dict. induction b as [|[k' v'] b IH]; intros a N; simpl; [reflexivity|].
  inversion N; subst. rewrite IH by assumption. rewrite lookup_set_key.
  destruct (String.eqb_spec k k') as [->|Hne].
  - rewrite (proj2 (lookup_None k' b)) by assumption. reflexivity.
  - reflexivity.
Qed.

Lemma nodup_remove_key {A} k (d : list (string * A)) :
  NoDup (map fst d) -> NoDup (map fst (remove_key k d)).
Proof.
  induction d as [|[k' v'] d IH]; simpl; intros N; [constructor|]. inversion N; subst.
  destruct (String.eqb k k'); [auto|]. simpl. constructor; [|auto].
  intros Hin. apply H1. clear -Hin. induction d as [|[k2 v2] d IH]; simpl in *; [exact Hin|].
  destruct (String.eqb k k2); simpl in *; [auto|]. destruct Hin; auto.
Qed.

Lemma in_set_key {A} k (v : A) d x : In x (map fst (set_key k v d)) -> x = k \/ In x (map fst d).
Proof.
  induction d as [|[k2 v2] d IH]; simpl; [intuition congruence|].
  destruct (String.eqb_spec k k2) as [->|]; simpl; [intuition congruence|intuition].
Qed.
Lemma nodup_set_key {A} k (v : A) d : NoDup (map fst d) -> NoDup (map fst (set_key k v d)).
Proof.
  induction d as [|[k' v'] d IH]; simpl; intros N.
  - constructor; [simpl; tauto|constructor].
  - inversion N; subst. destruct (String.eqb_spec k k') as [->|Hne]; simpl; constructor; auto.
    intros Hin. apply in_set_key in Hin as [->|]; [congruence|auto].
Qed.

Section P2.
Variable pyfloat : pyval -> res fl.
Hypothesis float_id : forall f, pyfloat (VFloat f) = Ok f.

Lemma parse_extra_nodup d dc dl l c x e : NoDup (map fst d) ->
  parse_user_result pyfloat (VDict d) dc dl = Ok (l, c, x, e) -> NoDup (map fst e).
Proof.
  intros N. rewrite parse_dict_eq. destruct (lookup "loss" d) as [loss|]; [|discriminate].
  destruct (curve_and_rest d dl) as [[lc extra]|er] eqn:Ec; [|discriminate].
  cbn [bind]. rewrite finish_ok. intros (_ & _ & _ & ->).
  unfold curve_and_rest in Ec. destruct (lookup "learning_curve" d).
  - inversion Ec; subst. repeat apply nodup_remove_key. exact N.
  - destruct (lookup "info_dict" d) as [i|].
    + destruct i; try discriminate Ec. inversion Ec; subst. apply nodup_set_key.
      repeat apply nodup_remove_key. exact N.
    + inversion Ec; subst. repeat apply nodup_remove_key. exact N.
Qed.

Lemma evaluate_ok_extra t v tb drv dur te t' r : wf_val v ->
  evaluate_trial pyfloat t (FnReturns v) tb drv dur te = Ok (t', r) ->
  NoDup (map fst (r_extra r)) /\ lookup "loss" (r_extra r) = None /\
  lookup "cost" (r_extra r) = None /\ r_reported_as r = RSuccess.
Proof.
  intros W H. unfold evaluate_trial in H.
  destruct (parse_user_result pyfloat v _ _) as [[[[l c] x] e]|er] eqn:E; [|discriminate].
  cbn [bind] in H. inversion H; subst. simpl.
  assert (G : NoDup (map fst e) /\ lookup "loss" e = None /\ lookup "cost" e = None).
  { destruct v; try (apply parse_plain_lemma in E; [|exact float_id|congruence];
      destruct E as [_ _ _ ->]; split; [constructor|split; reflexivity]).
    apply wf_dict in W as [N _].
    split; [eapply parse_extra_nodup; eassumption|].
    apply parse_dict_ok_lemma in E; [|exact float_id]. destruct E. split; apply dr_consumed; auto. }
  tauto.
Qed.

Lemma optimizer_sees_lemma t v tb drv dur te t' r : wf_val v ->
  evaluate_trial pyfloat t (FnReturns v) tb drv dur te = Ok (t', r) ->
  exists d, into_config_result (attach_report t' r) = Ok (ResDict d) /\
    lookup "loss" d = Some (opt_float (r_loss r)) /\
    lookup "cost" d = Some (opt_float (r_cost r)) /\
    (forall k, k <> "loss" -> k <> "cost" -> lookup k d = lookup k (r_extra r)).
Proof.
  intros W H. destruct (evaluate_ok_extra _ _ _ _ _ _ _ _ W H) as (N & L1 & L2 & A).
  unfold into_config_result. simpl. rewrite A. eexists. split; [reflexivity|].
  unfold merge_dict. cbn [fold_left fst snd].
  split; [|split].
  - rewrite !lookup_set_key. reflexivity.
  - rewrite !lookup_set_key. reflexivity.
  - intros k N1 N2. rewrite !lookup_set_key.
    destruct (String.eqb_spec k "cost"); [congruence|].
    destruct (String.eqb_spec k "loss"); [congruence|]. reflexivity.
Qed.

Lemma status_sees_lemma t v tb drv dur te t' r : wf_val v ->
  evaluate_trial pyfloat t (FnReturns v) tb drv dur te = Ok (t', r) ->
  match to_deprecate_result_dict r with
  | Ok (ResDict d) =>
      lookup "loss" d = Some (opt_float (r_loss r)) /\
      lookup "cost" d = Some (opt_float (r_cost r)) /\
      (forall k, k <> "loss" -> k <> "cost" -> k <> "info_dict" ->
         lookup k d = lookup k (r_extra r)) /\
      (exists i, lookup "info_dict" d = Some (VDict i) /\
         ((forall i0, lookup "info_dict" (r_extra r) = Some (VDict i0) ->
             has_key "learning_curve" i0 = false) ->
          lookup "learning_curve" i =
          Some match r_learning_curve r with Some l => VList (map VFloat l) | None => VNone end))
  | Ok ResError => False
  | Err _ => exists w, lookup "info_dict" (r_extra r) = Some w /\ forall i, w <> VDict i
  end.
Proof.
  intros W H. destruct (evaluate_ok_extra _ _ _ _ _ _ _ _ W H) as (N & L1 & L2 & A).
  unfold to_deprecate_result_dict. rewrite A. cbv zeta.
  set (d0 := merge_dict _ (r_extra r)).
  assert (M : forall k, lookup k d0 = match lookup k (r_extra r) with Some v => Some v
      | None => lookup k [("loss", opt_float (r_loss r)); ("cost", opt_float (r_cost r))] end)
    by (intros k; apply lookup_merge; exact N).
  assert (M1 : lookup "loss" d0 = Some (opt_float (r_loss r))) by (rewrite M, L1; reflexivity).
  assert (M2 : lookup "cost" d0 = Some (opt_float (r_cost r))) by (rewrite M, L2; reflexivity).
  assert (M3 : forall k, k <> "loss" -> k <> "cost" -> lookup k d0 = lookup k (r_extra r)).
  { intros k N1 N2. rewrite M. destruct (lookup k (r_extra r)); [reflexivity|]. simpl.
    destruct (String.eqb_spec k "loss"); [congruence|].
    destruct (String.eqb_spec k "cost"); [congruence|]. reflexivity. }
  assert (M4 : lookup "info_dict" d0 = lookup "info_dict" (r_extra r)) by (apply M3; discriminate).
  rewrite M4. destruct (lookup "info_dict" (r_extra r)) as [w|] eqn:Ew.
  - destruct w; try (eexists; split; [reflexivity|discriminate]).
    destruct (has_key "learning_curve" d) eqn:Hk.
    + split; [exact M1|]. split; [exact M2|]. split; [auto|].
      exists d. split; [exact M4|]. intros G. specialize (G d eq_refl). congruence.
    + rewrite !lookup_set_key. simpl. split; [exact M1|]. split; [exact M2|].
      split.
      * intros k N1 N2 N3. rewrite lookup_set_key.
        destruct (String.eqb_spec k "info_dict"); [congruence|auto].
      * eexists. split; [reflexivity|]. intros _. rewrite lookup_set_key. reflexivity.
  - rewrite !lookup_set_key. simpl. split; [exact M1|]. split; [exact M2|]. split.
    + intros k N1 N2 N3. rewrite lookup_set_key.
      destruct (String.eqb_spec k "info_dict"); [congruence|auto].
    + eexists. split; [reflexivity|]. intros _. reflexivity.
Qed.

Lemma evaluate_ok_iff_lemma t o tb drv dur te :
  match o with
  | FnRaises e =>
      exists t' r, evaluate_trial pyfloat t o tb drv dur te = Ok (t', r) /\
        t_state t' = CRASHED /\ r_reported_as r = RCrashed /\
        r_loss r = loss_value_on_error drv /\ r_cost r = cost_value_on_error drv /\
        r_learning_curve r = learning_curve_on_error drv /\ r_err r = Some e /\ r_extra r = []
  | FnReturns v =>
      match parse_user_result pyfloat v (cost_if_not_provided drv) (learning_curve_if_not_provided drv) with
      | Ok (l, c, x, e) =>
          exists t' r, evaluate_trial pyfloat t o tb drv dur te = Ok (t', r) /\
            t_state t' = SUCCESS /\ r_reported_as r = RSuccess /\
            r_loss r = Some l /\ r_cost r = c /\ r_learning_curve r = x /\
            r_err r = None /\ r_extra r = e
      | Err er => evaluate_trial pyfloat t o tb drv dur te = Err er
      end
  end.
Proof.
  destruct o as [v|e]; simpl.
  - destruct (parse_user_result pyfloat v _ _) as [[[[l c] x] e]|er]; simpl; [|reflexivity].
    eexists _, _. split; [reflexivity|]. repeat split.
  - eexists _, _. split; [reflexivity|]. repeat split.
Qed.
End P2.
