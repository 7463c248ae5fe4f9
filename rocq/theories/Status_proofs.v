(** Proofs about Status_model. *)
From Verif Require Import Py Py_proofs Trial_model Limit_spec Status_model Status_spec Eval_proofs.

Lemma set_key_new : forall A k (v : A) d, ~ In k (map fst d) -> set_key k v d = d ++ [(k, v)].
Proof.
  induction d as [|[k' v'] d IH]; intro N; auto. simpl in *.
  destruct (String.eqb_spec k k'); [subst; tauto|]. rewrite IH; tauto.
Qed.

Lemma with_state_nil : forall x ts, with_state x ts = [].
Proof. intros x ts. unfold with_state, State_class_is. induction ts; auto. Qed.

Section Status.
Variable pyfloat : pyval -> res fl.
Hypothesis float_id : forall f, pyfloat (VFloat f) = Ok f.
Notation loss_of := (loss_of pyfloat).
Notation scan := (scan pyfloat).
Notation get_summary := (get_summary pyfloat).

Lemma deprecate : forall r, plain_report r ->
  (r_reported_as r = RSuccess /\ exists d l, to_deprecate_result_dict r = Ok (ResDict d) /\
     r_loss r = Some l /\ lookup "loss" d = Some (VFloat l)) \/
  (r_reported_as r <> RSuccess /\ to_deprecate_result_dict r = Ok ResError).
Proof.
  intros r P. destruct (r_reported_as r) eqn:A.
  - left. split; auto. destruct (P A) as (L & X & ND & I).
    destruct (r_loss r) as [l|] eqn:RL; [|congruence].
    unfold to_deprecate_result_dict. rewrite A, RL. cbv zeta.
    set (d := merge_dict _ _).
    assert (LD : lookup "loss" d = Some (VFloat l)).
    { subst d. rewrite lookup_merge by auto. rewrite X. reflexivity. }
    assert (ID : lookup "info_dict" d = lookup "info_dict" (r_extra r)).
    { subst d. rewrite lookup_merge by auto. destruct (lookup "info_dict" (r_extra r)); reflexivity. }
    rewrite ID. destruct (lookup "info_dict" (r_extra r)) as [v|] eqn:V.
    + destruct (I v eq_refl) as (i & ->). destruct (has_key "learning_curve" i).
      * eauto.
      * eexists _, _. split; [reflexivity|]. split; auto. rewrite lookup_set_key. exact LD.
    + eexists _, _. split; [reflexivity|]. split; auto. rewrite lookup_set_key. exact LD.
  - right. split; [congruence|]. unfold to_deprecate_result_dict. now rewrite A.
  - right. split; [congruence|]. unfold to_deprecate_result_dict. now rewrite A.
Qed.

Definition entry (t : trial) : list (string * stats) :=
  match t_report t with
  | Some r => match to_deprecate_result_dict r with
              | Ok d => [(t_id t, mkStats (t_id t) (t_config t) d (t_meta t))]
              | Err _ => []
              end
  | None => []
  end.

Lemma collect_entries : forall ts acc,
  NoDup (map fst acc ++ map t_id ts) ->
  (forall t r, In t ts -> t_report t = Some r -> plain_report r) ->
  collect ts acc = Ok (acc ++ flat_map entry ts).
Proof.
  induction ts as [|t ts IH]; intros acc ND PL.
  - simpl. now rewrite app_nil_r.
  - simpl. assert (E : collect ts (acc ++ entry t) = Ok ((acc ++ entry t) ++ flat_map entry ts)).
    { apply IH; [|intros; eapply PL; eauto; right; auto].
      simpl in ND. assert (Q := NoDup_remove_1 _ _ _ ND). unfold entry.
      destruct (t_report t) as [r|]; [destruct (to_deprecate_result_dict r)|];
        rewrite ?app_nil_r; auto.
      rewrite map_app. simpl. rewrite <- app_assoc. exact ND. }
    rewrite app_assoc, <- E. unfold entry. destruct (t_report t) as [r|] eqn:R.
    + assert (P := PL t r (or_introl eq_refl) R).
      assert (D : exists d, to_deprecate_result_dict r = Ok d).
      { destruct (deprecate r P) as [(_ & d & l & X & _)|[_ X]]; eauto. }
      destruct D as (d & ->). simpl. rewrite set_key_new; auto.
      intro I. apply NoDup_remove_2 in ND. apply ND. apply in_or_app. auto.
    + now rewrite app_nil_r.
Qed.

Definition best_of (t : trial) := (t_id t, t_config t, t_meta t).

Lemma fl_ltb_irr_le : forall a b, fl_ltb a b = true -> fl_le a b.
Proof.
  intros [| | |a] [| | |b] H; simpl in H; try discriminate; constructor; try discriminate.
  apply Z.ltb_lt in H. lia.
Qed.
Lemma fl_ltb_false_le : forall a b, fl_ltb a b = false -> a <> FNaN -> b <> FNaN -> fl_le b a.
Proof.
  intros [| | |a] [| | |b] H A B; simpl in H; try discriminate; try congruence;
    try (constructor; discriminate).
  apply Z.ltb_ge in H. constructor. lia.
Qed.
Lemma fl_le_trans : forall a b c, fl_le a b -> fl_le b c -> fl_le a c.
Proof.
  intros a b c H K. destruct H as [a b H|b N|a N].
  - inversion K; subst; constructor; try lia; discriminate.
  - destruct K; constructor; congruence.
  - inversion K; subst; constructor; auto; congruence.
Qed.
Lemma fl_le_refl : forall a, a <> FNaN -> fl_le a a.
Proof. intros [| | |z] N; try congruence; constructor; try discriminate. lia. Qed.

Lemma succeeded_fun : forall t l l', succeeded t l -> succeeded t l' -> l = l'.
Proof. intros t l l' (r & A & _ & B) (r' & A' & _ & B'). congruence. Qed.

Lemma scan_entries : forall ts bl b e,
  (forall t r, In t ts -> t_report t = Some r -> plain_report r) -> bl <> FNaN ->
  exists bl' b' e', scan (flat_map entry ts) bl b e = Ok (bl', b', e + e') /\
    number_of erroneous ts e' /\
    (forall t l, In t ts -> succeeded t l -> l <> FNaN -> fl_le bl' l) /\
    fl_le bl' bl /\
    ((bl' = bl /\ b' = b) \/
     (fl_ltb bl' bl = true /\ exists t, In t ts /\ succeeded t bl' /\ b' = Some (best_of t))).
Proof.
  induction ts as [|t ts IH]; intros bl b e PL NB.
  - exists bl, b, 0. simpl. rewrite Nat.add_0_r. split; auto. split; [constructor|].
    split; [tauto|]. split; [apply fl_le_refl; auto|auto].
  - assert (PL' : forall t r, In t ts -> t_report t = Some r -> plain_report r).
    { intros; eapply PL; eauto; right; auto. }
    simpl. unfold entry at 1. destruct (t_report t) as [r|] eqn:R.
    + destruct (deprecate r (PL t r (or_introl eq_refl) R)) as [(A & d & l & X & L & LD)|[A X]]; rewrite X; simpl.
      * unfold Status_model.loss_of. simpl. rewrite LD. simpl. rewrite float_id. simpl.
        assert (SU : succeeded t l) by (exists r; auto).
        assert (NE : ~ erroneous t).
        { intros (r' & R' & A'). rewrite R in R'. injection R' as <-. auto. }
        destruct (fl_ltb l bl) eqn:LT.
        -- destruct (IH l (Some (best_of t)) e PL') as (bl' & b' & e' & S & N & M & LE & B).
           { intros ->. destruct bl; discriminate. }
           exists bl', b', e'. split; [exact S|]. split; [constructor; auto|].
           split. { intros t' l' [<-|I] SU' NN; [|eauto]. rewrite (succeeded_fun _ _ _ SU' SU). auto. }
           split. { eapply fl_le_trans; eauto. apply fl_ltb_irr_le. auto. }
           right. destruct B as [[-> ->]|[LT' (t' & I & SU' & ->)]].
           ++ split; auto. exists t. split; [left; auto|auto].
           ++ split; [|exists t'; split; [right; auto|auto]].
              clear - LT LT'. destruct bl', l, bl; simpl in *; try discriminate; auto.
              apply Z.ltb_lt in LT, LT'. apply Z.ltb_lt. lia.
        -- destruct (IH bl b e PL' NB) as (bl' & b' & e' & S & N & M & LE & B).
           exists bl', b', e'. split; [exact S|]. split; [constructor; auto|].
           split. { intros t' l' [<-|I] SU' NN; [|eauto]. rewrite (succeeded_fun _ _ _ SU' SU) in *.
                    eapply fl_le_trans; eauto. apply fl_ltb_false_le; auto. }
           split; auto. destruct B as [B|[LT' (t' & I & SU' & ->)]]; auto.
           right. split; auto. exists t'. split; [right; auto|auto].
      * unfold Status_model.loss_of. simpl.
        destruct (IH bl b (S e) PL' NB) as (bl' & b' & e' & S & N & M & LE & B).
        exists bl', b', (Datatypes.S e'). split; [replace (e + Datatypes.S e') with (Datatypes.S e + e') by lia; exact S|].
        split; [constructor; auto; exists r; auto|].
        split. { intros t' l' [<-|I] SU' NN; [|eauto]. destruct SU' as (r' & R' & A' & _). congruence. }
        split; auto. destruct B as [B|[LT' (t' & I & SU' & ->)]]; auto.
        right. split; auto. exists t'. split; [right; auto|auto].
    + destruct (IH bl b e PL' NB) as (bl' & b' & e' & S & N & M & LE & B).
      exists bl', b', e'. split; [exact S|].
      split. { apply no_no; auto. intros (r' & R' & _). congruence. }
      split. { intros t' l' [<-|I] SU' NN; [|eauto]. destruct SU' as (r' & R' & _). congruence. }
      split; auto. destruct B as [B|[LT' (t' & I & SU' & ->)]]; auto.
      right. split; auto. exists t'. split; [right; auto|auto].
Qed.

Lemma entries_number : forall ts,
  (forall t r, In t ts -> t_report t = Some r -> plain_report r) ->
  number_of has_report ts (List.length (flat_map entry ts)).
Proof.
  induction ts as [|t ts IH]; intro PL; [constructor|]. simpl. rewrite app_length.
  assert (H := IH (fun t r I => PL t r (or_intror I))). unfold entry at 1.
  destruct (t_report t) as [r|] eqn:R.
  - assert (D : exists d, to_deprecate_result_dict r = Ok d).
    { destruct (deprecate r (PL t r (or_introl eq_refl) R)) as [(_ & d & l & X & _)|[_ X]]; eauto. }
    destruct D as (d & ->). simpl. constructor; auto. unfold has_report. congruence.
  - simpl. apply no_no; [unfold has_report; congruence|auto].
Qed.

Lemma number_fun : forall P ts n m, number_of P ts n -> number_of P ts m -> n = m.
Proof.
  intros P ts n m H. revert m. induction H; intros m K; inversion K; subst; auto; try tauto.
Qed.

Lemma summary_spec : forall ts, plain_trials ts -> exists s, get_summary ts = Ok s /\
  number_of has_report ts (s_num_evaluated s) /\ number_of erroneous ts (s_num_error s) /\
  (forall t l, In t ts -> succeeded t l -> l <> FNaN -> fl_le (s_best_loss s) l) /\
  ((s_best_loss s = FPInf /\ s_best s = None) \/
   (fl_lt (s_best_loss s) FPInf /\
    exists t, In t ts /\ succeeded t (s_best_loss s) /\ s_best s = Some (t_id t, t_config t, t_meta t))) /\
  s_previous s = flat_map entry ts /\
  s_num_pending s = 0 /\ s_num_pending_with_worker s = 0 /\ s_pending s = [] /\ s_free s = [].
Proof.
  intros ts [ND PL]. unfold Status_model.get_summary. rewrite collect_entries by auto. simpl app. simpl bind.
  destruct (scan_entries ts FPInf None 0 PL) as (bl & b & e & S & N & M & LE & B); [discriminate|].
  rewrite S. simpl bind. rewrite !with_state_nil. eexists. split; [reflexivity|]. simpl.
  split; [apply entries_number; auto|]. split; auto. split; auto.
  split; [|auto]. destruct B as [[-> ->]|[LT (t & I & SU & ->)]]; auto.
  right. split; [|exists t; auto]. split; [apply fl_ltb_irr_le; auto|].
  intro X. destruct bl; simpl in LT; try discriminate; inversion X; congruence.
Qed.

(** * CSV *)
Lemma csv_written : forall f s, s_num_pending s = 0 -> s_num_pending_with_worker s = 0 ->
  (exists t, In t (s_previous s) /\ exists d, x_result (snd t) = ResDict d) ->
  save_csv f s = (Some (mkCsv (s_previous s) (s_num_evaluated s)), Ok tt).
Proof.
  intros f s A B (x & I & d & D). unfold save_csv, rewrite, sort_rows. rewrite A, B. simpl.
  replace (existsb _ (s_previous s)) with true.
  2:{ symmetry. apply existsb_exists. exists x. split; auto. now rewrite D. }
  simpl. now rewrite Nat.ltb_irrefl.
Qed.

Lemma csv_refused : forall f s, s_num_pending s = 0 -> s_num_pending_with_worker s = 0 ->
  (forall t d, In t (s_previous s) -> x_result (snd t) <> ResDict d) ->
  save_csv f s = (f, Err RuntimeError).
Proof.
  intros f s A B N. unfold save_csv, rewrite, sort_rows. rewrite A, B. simpl.
  replace (existsb _ (s_previous s)) with false; auto.
  symmetry. apply Bool.not_true_is_false. intro E. apply existsb_exists in E.
  destruct E as (x & I & X). destruct (x_result (snd x)) as [d|] eqn:D; [|discriminate]. eapply N; eauto.
Qed.

Lemma dict_entries : forall ts, plain_trials ts ->
  (exists x, In x (flat_map entry ts) /\ exists d, x_result (snd x) = ResDict d) <->
  (exists t l, In t ts /\ succeeded t l).
Proof.
  intros ts [_ PL]. split.
  - intros (x & I & d & D). apply in_flat_map in I. destruct I as (t & I & E). unfold entry in E.
    destruct (t_report t) as [r|] eqn:R; [|destruct E].
    destruct (deprecate r (PL t r I R)) as [(A & d' & l & X & L & _)|[A X]]; rewrite X in E.
    + exists t, l. split; auto. exists r. auto.
    + destruct E as [<-|[]]. simpl in D. discriminate.
  - intros (t & l & I & r & R & A & L).
    destruct (deprecate r (PL t r I R)) as [(_ & d' & l' & X & _)|[B _]]; [|congruence].
    exists (t_id t, mkStats (t_id t) (t_config t) (ResDict d') (t_meta t)). split; [|simpl; eauto].
    apply in_flat_map. exists t. split; auto. unfold entry. rewrite R, X. left. auto.
Qed.

Lemma post_run : forall f ts, plain_trials ts ->
  ((exists t l, In t ts /\ succeeded t l) ->
     exists c, post_run_csv pyfloat f ts = (Some c, Ok tt) /\ number_of has_report ts (c_evaluated c)) /\
  ((forall t l, In t ts -> ~ succeeded t l) -> post_run_csv pyfloat f ts = (f, Err RuntimeError)).
Proof.
  intros f ts P. destruct (summary_spec ts P) as (s & E & N & _ & _ & _ & PR & A & B & _).
  unfold post_run_csv. rewrite E. split.
  - intro X. rewrite csv_written; auto.
    + eexists. split; [reflexivity|]. exact N.
    + rewrite PR. apply dict_entries; auto.
  - intro X. rewrite csv_refused; auto. rewrite PR. intros x d I D.
    assert (Y : exists t l, In t ts /\ succeeded t l) by (apply dict_entries; eauto).
    destruct Y as (t & l & I' & SU). eapply X; eauto.
Qed.

Notation cstep := (cstep pyfloat).
Notation crun := (crun pyfloat).

Definition bounded (w : cworld) : Prop :=
  plain_trials (w_trials w) /\
  exists n, number_of has_report (w_trials w) n /\ in_file (w_csv w) <= n.

(** saving directly after taking the summary *)
Lemma snap_save : forall w k, bounded w ->
  let w' := cstep (cstep w (Snap k)) (Save k) in
  bounded w' /\ w_trials w' = w_trials w /\ in_file (w_csv w) <= in_file (w_csv w').
Proof.
  intros w k (P & n & N & LE). destruct (summary_spec (w_trials w) P) as (s & E & NR & _ & _ & _ & PR & A & B & _).
  cbv zeta. unfold Status_model.cstep at 2 4 6. rewrite E.
  unfold Status_model.cstep, upd. simpl. rewrite Nat.eqb_refl. simpl.
  assert (NN : n = s_num_evaluated s) by (eapply number_fun; eauto).
  assert (D : save_csv (w_csv w) s = (Some (mkCsv (s_previous s) (s_num_evaluated s)), Ok tt) \/
              save_csv (w_csv w) s = (w_csv w, Err RuntimeError)).
  { destruct (existsb (fun x => match x_result (snd x) with ResDict _ => true | _ => false end) (s_previous s)) eqn:X.
    - left. apply csv_written; auto. apply existsb_exists in X. destruct X as (x & I & X).
      exists x. split; auto. destruct (x_result (snd x)); [eauto|discriminate].
    - right. unfold save_csv, rewrite, sort_rows. rewrite A, B, X. reflexivity. }
  destruct D as [-> | ->]; simpl.
  - split; [|split; [auto|lia]]. split; auto. exists n. simpl. split; auto. lia.
  - split; [|split; [auto|lia]]. split; auto. exists n. simpl. auto.
Qed.

Lemma csv_grows : forall n es w, List.length es <= n -> bounded w -> undisturbed es -> evolving (w_trials w) es ->
  bounded (crun w es) /\ in_file (w_csv w) <= in_file (w_csv (crun w es)).
Proof.
  induction n as [|n IH]; intros es w L B U E.
  - destruct es; [auto|simpl in L; lia].
  - destruct es as [|e es]; [auto|]. destruct e as [ts|k|k]; simpl in U; [| |tauto].
    + destruct E as (EV & P & E). destruct B as (_ & m & N & LE). destruct EV as (a & b & Na & Nb & AB).
      apply (IH es (cstep w (Evolve ts))); simpl in *; try lia; auto.
      split; auto. exists b. split; auto. assert (m = a) by (eapply number_fun; eauto). simpl. lia.
    + destruct es as [|e2 es]; [tauto|]. destruct e2 as [|k2|k2]; try tauto. destruct U as [<- U].
      destruct (snap_save w k B) as (B' & T & LE).
      destruct (IH es (cstep (cstep w (Snap k)) (Save k))) as (B2 & LE2); auto.
      * simpl in L. lia.
      * rewrite T. exact E.
      * change (crun w (Snap k :: Save k :: es)) with (crun (cstep (cstep w (Snap k)) (Save k)) es).
        split; auto. lia.
Qed.

End Status.
