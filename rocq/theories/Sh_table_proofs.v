(** Proofs: the table does not depend on the order of the trials. *)
From Verif Require Export Sh_hist_proofs.
Open Scope nat_scope.

Section Table.
Context {H : Type}.
Implicit Types (t u w : strial H) (ts : list (strial H)) (x y : row H) (l rows : list (row H)) (tb : table H).
Variable o : options.

Definition orderly ts : Prop :=
  NoDup (map st_id ts) /\
  forall t u, In t ts -> In u ts -> fst (st_id t) = fst (st_id u) -> st_out t = Pending -> st_out u = Pending -> t = u.

Lemma wf_orderly : forall ts, wf ts -> orderly ts.
Proof.
  intros ts W. split; [apply W|]. intros t u I J D P Q. eapply same_id; eauto; [apply W|].
  pose proof (w_top _ W t u I J D P). pose proof (w_top _ W u t J I (eq_sym D) Q).
  destruct (st_id t), (st_id u); simpl in *. f_equal; lia.
Qed.

Lemma row_determined : forall ts x y, orderly ts -> shows o ts x \/ shows_pending ts x ->
  shows o ts y \/ shows_pending ts y -> r_id x = r_id y -> x = y.
Proof.
  intros ts x y [ND UP] X Y E.
  assert (FIN : forall t, finished t -> st_out t = Pending -> False) by (intros t F P; apply F; auto).
  destruct X as [[(t & T1 & T2 & T3 & T4 & T5 & T6) TT]|(PX & (t & T1 & T2 & T3) & XX)];
  destruct Y as [[(u & U1 & U2 & U3 & U4 & U5 & U6) UU]|(PY & (u & U1 & U2 & U3) & YY)].
  - destruct (TT u U1) as [_ L1]; [rewrite U2; auto|]. destruct (UU t T1) as [_ L2]; [rewrite T2; auto|].
    rewrite U2 in L1. rewrite T2 in L2. simpl in *.
    assert (RR : r_rung x = r_rung y) by lia.
    assert (t = u) by (eapply same_id; eauto; congruence). subst u.
    rewrite T4 in U4. injection U4 as U4. destruct x, y; simpl in *. congruence.
  - exfalso. destruct (TT u U1) as [F _]; [rewrite U2; auto|]. eauto.
  - exfalso. destruct (UU t T1) as [F _]; [rewrite T2; auto|]. eauto.
  - assert (t = u) by (apply UP; auto; rewrite T2, U2; auto). subst u.
    rewrite T2 in U2. injection U2 as _ RR.
    assert (r_hps x = r_hps y /\ r_fid x = r_fid y).
    { destruct XX as [(a & A1 & A2 & A3 & A4 & A5 & A6)|(N & a & A1 & A2 & A3 & A4)];
      destruct YY as [(b & B1 & B2 & B3 & B4 & B5 & B6)|(M & b & B1 & B2 & B3 & B4)].
      - assert (snd (st_id a) = snd (st_id b)).
        { apply Nat.le_antisymm; [apply B6|apply A6]; auto; congruence. }
        assert (a = b); [|subst; split; congruence]. eapply same_id; eauto.
        destruct (st_id a), (st_id b); simpl in *; congruence.
      - exfalso. apply A3. apply M; auto. congruence.
      - exfalso. apply B3. apply N; auto. congruence.
      - assert (a = b); [|subst; split; congruence]. apply UP; auto; congruence. }
    destruct x, y; simpl in *. destruct H0. subst. reflexivity.
Qed.

Lemma sorted_ext : forall l l' : list (row H), sorted l -> sorted l' ->
  (forall x, In x l <-> In x l') -> l = l'.
Proof.
  induction l as [|x l IH]; intros [|y l'] S S' E; auto.
  - exfalso. apply (E y). simpl. auto.
  - exfalso. apply (E x). simpl. auto.
  - inversion S as [|? ? S1 F1]; inversion S' as [|? ? S2 F2]; subst. rewrite Forall_forall in *.
    assert (x = y).
    { destruct (proj1 (E x)) as [A|A]; [simpl; auto|congruence|].
      destruct (proj2 (E y)) as [B|B]; [simpl; auto|congruence|].
      specialize (F1 y B). specialize (F2 x A). simpl in *. lia. }
    subst y. f_equal. apply IH; auto. intros z. split; intros I.
    + destruct (proj1 (E z)) as [A|A]; [simpl; auto|subst z; specialize (F1 x I); simpl in F1; lia|auto].
    + destruct (proj2 (E z)) as [A|A]; [simpl; auto|subst z; specialize (F2 x I); simpl in F2; lia|auto].
Qed.

Definition loadable (lo hi : nat) t : Prop :=
  lo <= snd (st_id t) <= hi /\ exists p, get_loss o (st_out t) = Ok p.
Lemma load_one_ok : forall lo hi tb t, (exists tb', load_one o lo hi tb t = Ok tb') <-> loadable lo hi t.
Proof.
  intros lo hi tb t. unfold load_one, loadable. destruct (st_id t) as [c r]. cbn [snd].
  destruct (get_loss o (st_out t)) as [p|e]; cbn [bind].
  - destruct (Nat.leb_spec lo r), (Nat.leb_spec r hi); cbn [andb]; split; intros X; try (destruct X; discriminate).
    + split; [lia|eauto].
    + eauto.
    + destruct X; lia.
    + destruct X; lia.
    + destruct X; lia.
  - split; [intros [x X]; discriminate|intros (_ & p & P); discriminate].
Qed.
Lemma load_previous_ok : forall lo hi ts tb,
  (exists tb', load_previous o lo hi tb ts = Ok tb') <-> forall t, In t ts -> loadable lo hi t.
Proof.
  intros lo hi. induction ts as [|t ts IH]; intros tb; simpl.
  - split; [intros _ t []|eauto].
  - split.
    + intros [tb' E]. inv_bind E tb1 L. intros u [<-|I]; [eapply load_one_ok; eauto|].
      eapply (proj1 (IH tb1)); eauto.
    + intros A. destruct (proj2 (load_one_ok lo hi tb t)) as [tb1 L]; [auto|]. rewrite L. cbn [bind].
      apply IH. auto.
Qed.
Lemma observe_ok : forall lo hi ts, (exists tb, observe o lo hi ts = Ok tb) <->
  forall t, In t ts -> finished t -> loadable lo hi t.
Proof.
  intros lo hi ts. unfold observe.
  assert (F : (forall t, In t (filter (fun t => negb (is_pending t)) ts) -> loadable lo hi t) <->
              forall t, In t ts -> finished t -> loadable lo hi t).
  { split; intros A t I.
    - intros FI. apply A. apply filter_In. split; auto. unfold is_pending, finished in *. destruct (st_out t); auto.
    - apply filter_In in I. destruct I as [I P]. apply A; auto. unfold is_pending, finished in *. destruct (st_out t); discriminate. }
  rewrite <- F, <- load_previous_ok. split.
  - intros [tb E]. inv_bind E tb1 L. eauto.
  - intros [tb L]. rewrite L. cbn [bind]. eauto.
Qed.

(** the dtype *)
Lemma load_obj : forall lo hi ts tb tb', o_ignore_errors o = false -> load_previous o lo hi tb ts = Ok tb' ->
  t_obj tb' = t_obj tb /\ (t_rows tb' = [] <-> t_rows tb = [] /\ ts = []).
Proof.
  intros lo hi ts tb tb' IG. revert tb. induction ts as [|t ts IH]; intros tb E; simpl in E.
  - injection E as <-. tauto.
  - inv_bind E tb1 L. destruct (IH _ E) as [A B].
    assert (X : t_obj tb1 = t_obj tb /\ t_rows tb1 <> []).
    { unfold load_one in L. destruct (st_id t) as [c r]. inv_bind L p P.
      assert (NE : is_err p = false).
      { unfold get_loss in P. rewrite IG in P. destruct (st_out t); [|injection P as <-; auto|];
          destruct (o_loss_on_error o); try discriminate; injection P as <-; auto. }
      destruct (_ && _); [|discriminate]. injection L as <-.
      destruct (find_row c (t_rows tb)) as [x|] eqn:F.
      - apply find_in in F. destruct F as [F _]. destruct (_ <? _); simpl.
        + rewrite NE, Bool.orb_false_r. split; auto. unfold update_row. destruct (t_rows tb); [contradiction|discriminate].
        + split; auto. intros Z. rewrite Z in F. contradiction.
      - simpl. rewrite NE, Bool.orb_false_r. split; auto. destruct (t_rows tb); simpl; [discriminate|].
        destruct (_ <? _); discriminate. }
    destruct X as [X1 X2]. split; [congruence|]. rewrite B. split; [intros [? _]; contradiction|intros [_ ?]; discriminate].
Qed.
Lemma pending_obj : forall ps tb, t_obj (handle_pending o tb ps) =
  t_obj tb || (o_empty_object o && match t_rows tb, ps with [], _ :: _ => true | _, _ => false end).
Proof.
  unfold handle_pending. induction ps as [|t ps IH]; intros tb; cbn [fold_left].
  - destruct (t_rows tb); rewrite Bool.andb_false_r, Bool.orb_false_r; auto.
  - rewrite IH. unfold pending_one. destruct (st_id t) as [c r].
    destruct (find_row c (t_rows tb)) as [x|] eqn:F; simpl.
    + destruct (t_rows tb) as [|y l]; [discriminate|]. simpl.
      rewrite !Bool.andb_false_r, !Bool.orb_false_r. auto.
    + destruct (t_rows tb) as [|y l]; simpl.
      * rewrite !Bool.andb_true_r, !Bool.andb_false_r, !Bool.orb_false_r. auto.
      * destruct (_ <? _); rewrite !Bool.andb_false_r, !Bool.orb_false_r; auto.
Qed.
Lemma observe_obj : forall lo hi ts tb, o_ignore_errors o = false -> observe o lo hi ts = Ok tb ->
  (t_obj tb = true <-> o_empty_object o = true /\ ts <> [] /\ forall t, In t ts -> st_out t = Pending).
Proof.
  intros lo hi ts tb IG E. unfold observe in E. inv_bind E tb1 L. injection E as <-.
  destruct (load_obj _ _ _ _ _ IG L) as [A B]. simpl in A, B. rewrite pending_obj, A. simpl.
  assert (FE : filter (fun t => negb (is_pending t)) ts = [] <-> forall t, In t ts -> st_out t = Pending).
  { split.
    - intros Z t I. destruct (is_pending t) eqn:P; [unfold is_pending in P; destruct (st_out t); auto; discriminate|].
      exfalso. assert (J : In t (filter (fun t => negb (is_pending t)) ts)) by (apply filter_In; rewrite P; auto).
      rewrite Z in J. contradiction.
    - intros Z. destruct (filter _ ts) as [|u l] eqn:F; auto. exfalso.
      assert (J : In u (filter (fun t => negb (is_pending t)) ts)) by (rewrite F; simpl; auto).
      apply filter_In in J. destruct J as [J P]. unfold is_pending in P. rewrite (Z u J) in P. discriminate. }
  rewrite Bool.andb_true_iff. split.
  - intros [X Y]. destruct (t_rows tb1) eqn:R; [|discriminate]. destruct (proj1 B) as [_ B2]; auto.
    split; auto. split; [|apply FE; auto]. intros ->. discriminate.
  - intros (X & Y & Z). split; auto. apply FE in Z. destruct (t_rows tb1) eqn:R.
    + destruct (filter is_pending ts) eqn:F; auto. destruct ts as [|u ts']; [contradiction|].
      simpl in Z, F. destruct (is_pending u); discriminate.
    + exfalso. assert (r :: l = []) by (apply B; auto). discriminate.
Qed.

Lemma order_lemma : forall lo hi ts ts' tb, orderly ts -> Permutation ts ts' -> observe o lo hi ts = Ok tb ->
  exists tb', observe o lo hi ts' = Ok tb' /\ t_rows tb' = t_rows tb /\ (o_ignore_errors o = false -> tb' = tb).
Proof.
  intros lo hi ts ts' tb OR P E.
  assert (I : forall t, In t ts <-> In t ts') by (intros; split; apply Permutation_in; auto; apply Permutation_sym; auto).
  destruct (proj2 (observe_ok lo hi ts')) as [tb' E'].
  { intros t J. apply I in J. apply (proj1 (observe_ok lo hi ts)); eauto. }
  exists tb'. split; auto.
  destruct (observe_spec _ _ _ _ _ E) as (S1 & A1 & B1), (observe_spec _ _ _ _ _ E') as (S2 & A2 & B2).
  assert (SH : forall x, shows o ts' x \/ shows_pending ts' x -> shows o ts x \/ shows_pending ts x).
  { intros x [[(t & T & X) Y]|(X & (t & T & Y) & Z)]; [left|right].
    - split; [exists t; split; [apply I|]; auto|]. intros u U. apply Y. apply I. auto.
    - split; auto. split; [exists t; split; [apply I|]; auto|].
      destruct Z as [(u & U & V1 & V2 & V3 & V4 & V5)|(V1 & u & U & V2)].
      + left. exists u. split; [apply I; auto|]. repeat (split; [auto|]). intros w W. apply V5. apply I. auto.
      + right. split; [intros w W; apply V1; apply I; auto|]. exists u. split; [apply I|]; auto. }
  assert (HAS : forall x, shows o ts x \/ shows_pending ts x -> exists t, In t ts /\ fst (st_id t) = r_id x).
  { intros x [[(t & T & X & _) _]|(_ & (t & T & X & _) & _)]; exists t; rewrite X; auto. }
  assert (RE : t_rows tb' = t_rows tb).
  { apply sorted_ext; auto. intros x. split; intros J.
    - pose proof (SH x (B2 x J)) as K. destruct (HAS x K) as (t & T & D). destruct (A1 t T) as (y & Y1 & Y2).
      assert (x = y) by (eapply row_determined; eauto; congruence). subst; auto.
    - pose proof (B1 x J) as K. destruct (HAS x K) as (t & T & D). apply I in T. destruct (A2 t T) as (y & Y1 & Y2).
      assert (x = y) by (eapply row_determined; eauto; congruence). subst; auto. }
  split; auto. intros IG.
  pose proof (observe_obj _ _ _ _ IG E) as O1. pose proof (observe_obj _ _ _ _ IG E') as O2.
  assert (OO : t_obj tb' = true <-> t_obj tb = true).
  { rewrite O1, O2. split; intros (X & Y & Z); split; auto; split.
    - intros ->. apply Permutation_nil in P. contradiction.
    - intros t J. apply Z. apply I. auto.
    - intros ->. apply Permutation_sym, Permutation_nil in P. contradiction.
    - intros t J. apply Z. apply I. auto. }
  destruct tb as [r1 b1], tb' as [r2 b2]; simpl in *. subst. f_equal. destruct b1, b2; intuition congruence.
Qed.

Lemma bind_order : forall (ts ts' : list (strial H)) lo hi B (g : table H -> res B) q, orderly ts -> Permutation ts ts' ->
  o_ignore_errors o = false -> bind (observe o lo hi ts) g = Ok q -> bind (observe o lo hi ts') g = Ok q.
Proof.
  intros ts ts' lo hi B g q OR P IG E. inv_bind E tb T. destruct (order_lemma _ _ _ _ _ OR P T) as (tb' & T' & _ & X).
  rewrite T'. cbn [bind]. rewrite X; auto.
Qed.
Lemma bind_order_rows : forall (ts ts' : list (strial H)) lo hi B (g : table H -> res B) q, orderly ts -> Permutation ts ts' ->
  (forall tb tb', t_rows tb = t_rows tb' -> g tb = g tb') -> bind (observe o lo hi ts) g = Ok q -> bind (observe o lo hi ts') g = Ok q.
Proof.
  intros ts ts' lo hi B g q OR P IG E. inv_bind E tb T. destruct (order_lemma _ _ _ _ _ OR P T) as (tb' & T' & X & _).
  rewrite T'. cbn [bind]. rewrite (IG _ _ X); auto.
Qed.

Variable argsort : list fl -> list nat.
Variable lg : Q -> nat -> Z.
Lemma ask_order_lemma : forall k f eta ts ts' fresh draw q, orderly ts -> Permutation ts ts' ->
  (o_ignore_errors o = false \/ match k with SuccessiveHalving _ | Hyperband => False | _ => True end) ->
  ask argsort lg k o f eta ts fresh draw = Ok q -> ask argsort lg k o f eta ts' fresh draw = Ok q.
Proof.
  intros k f eta ts ts' fresh draw q OR P C E. destruct k as [s|s| |]; unfold ask in *.
  - inv_bind E b B. rewrite B. cbn [bind]. destruct C as [C|[]]. eapply bind_order; eauto.
  - inv_bind E b B. rewrite B. cbn [bind]. eapply bind_order_rows; eauto. intros tb tb' ->. auto.
  - inv_bind E bb B. rewrite B. cbn [bind]. destruct bb as [b0 bs]. destruct C as [C|[]]. eapply bind_order; eauto.
  - inv_bind E bb B. rewrite B. cbn [bind]. destruct bb as [b0 bs].
    eapply bind_order_rows; eauto. intros tb tb' ->. auto.
Qed.
End Table.
