(** Proofs: synchronous promotions come from a full rung; an answer is always given. *)
From Coq Require Import Lqa.
From Verif Require Export Sh_bracket_proofs.
Open Scope nat_scope.

Section Full.
Context {H : Type}.
Implicit Types (t u : strial H) (ts : list (strial H)) (x y : row H) (l rows : list (row H)) (tb : table H).
Variable o : options.
Variable argsort : list fl -> list nat.

(** ** The best of a rung *)
Lemma row_value : forall ts lo hi tb x, wf ts -> o_ignore_errors o = false -> observe o lo hi ts = Ok tb ->
  In x (t_rows tb) -> is_nan (r_perf x) = false ->
  exists v, r_perf x = PNum v /\ v <> FNaN /\ waits o ts (r_rung x) (r_id x) v.
Proof.
  intros ts lo hi tb x W IG E I N. pose proof (no_error_rows _ _ _ _ _ _ IG E I) as NE.
  destruct (r_perf x) as [v|] eqn:P; [|discriminate]. assert (v <> FNaN) by (intros ->; discriminate).
  exists v. split; auto. split; auto. eapply row_waits; eauto.
Qed.
Lemma ranks_fun : forall (z : outcome) v v', ranks o z v -> ranks o z v' -> v = v'.
Proof. intros z v v' [A|(A & B & C)] [A'|(A' & B' & C')]; congruence. Qed.

Lemma ready_head : forall eta sz mx l k c v, sorts argsort ->
  (forall x, In x l -> is_err (r_perf x) = false) -> ready argsort eta sz mx l k (c :: v) ->
  exists x, In x (at_rung l k) /\ r_id x = c /\
    forall y, In y (at_rung l k) -> fl_ltb (value (r_perf y)) (value (r_perf x)) = false.
Proof.
  intros eta sz mx l k c v SO NE (_ & _ & _ & NN & idx & AI & V).
  assert (EX : existsb is_err (map r_perf (at_rung l k)) = false).
  { destruct (existsb _ _) eqn:X; auto. apply existsb_exists in X. destruct X as (p & I & P). apply in_map_iff in I.
    destruct I as (x & <- & I). apply filter_In in I. rewrite NE in P; [discriminate|tauto]. }
  pose proof (argsort_perfs_ok _ _ _ AI EX) as IDX.
  assert (NNV : ~ In FNaN (map value (map r_perf (at_rung l k)))).
  { rewrite map_map. intros I. apply in_map_iff in I. destruct I as (x & Q & I). specialize (NN x I).
    apply filter_In in I. destruct I as [I _]. specialize (NE x I). destruct (r_perf x); simpl in *; [subst; discriminate|discriminate]. }
  set (tk := (_ - _)%Z) in V.
  assert (PK : exists v', pick (map r_id (at_rung l k)) idx = c :: v').
  { assert (SPL : exists rest, idx = slice_to tk idx ++ rest).
    { unfold slice_to. destruct (tk <? 0)%Z; eexists; symmetry; apply firstn_skipn. }
    destruct SPL as [rest SPL]. rewrite SPL. unfold pick in *. rewrite flat_map_app, <- V. simpl. eauto. }
  destruct PK as [v' PK]. rewrite IDX in PK.
  destruct (head_sorted argsort _ _ _ _ SO NNV (eq_trans (map_length _ _) (eq_sym (eq_trans (map_length _ _) (map_length _ _)))) PK)
    as (a & z & A1 & A2 & A3).
  rewrite nth_error_map in A1. rewrite map_map, nth_error_map in A2.
  destruct (nth_error (at_rung l k) a) as [x|] eqn:NX; [|discriminate]. simpl in A1, A2. injection A1 as A1. injection A2 as A2.
  exists x. split; [eapply nth_error_In; eauto|]. split; auto. intros y Y. rewrite A2. apply A3.
  rewrite map_map. apply in_map_iff. eauto.
Qed.

Variable bs : list bracket.
Variable eta : nat.
Hypothesis all_good : forall b, In b bs -> exists sz, good eta b sz.
Notation d := (start_index o).

Lemma full_lemma : forall ts lo hi tb n b s sz c k v, sorts argsort -> o_ignore_errors o = false ->
  inv o bs ts -> observe o lo hi ts = Ok tb -> nth_bracket bs d n b s -> good eta b sz -> b_min b <= k < b_max b ->
  ready argsort eta sz (b_max b) (slice s (s + base_size b) (t_rows tb)) k (c :: v) ->
  evaluations ts s (base_size b) k = sz k /\
  (forall t, In t ts -> s <= fst (st_id t) < s + base_size b -> snd (st_id t) = k -> finished t) /\
  exists t0 v0, In t0 ts /\ st_id t0 = (c, k) /\ ranks o (st_out t0) v0 /\ v0 <> FNaN /\
    forall B, NoDup B -> (forall c', In c' B -> s <= c' < s + base_size b /\
       exists t' v', In t' ts /\ st_id t' = (c', k) /\ ranks o (st_out t') v' /\ fl_ltb v' v0 = true) ->
    length B < sz (S k).
Proof.
  intros ts lo hi tb n b s sz c k v SO IG IV E N G K RD. pose proof IV as (W & IR & WI).
  destruct (ready_room o argsort bs eta ts lo hi tb n b s sz k c v IV E N G K RD) as [R1 R2].
  set (cu := slice s (s + base_size b) (t_rows tb)) in *.
  assert (ROW : forall x, In x cu -> In x (t_rows tb) /\ s <= r_id x < s + base_size b /\ b_min b <= r_rung x <= b_max b)
    by (intros x I; eapply block_rows; eauto).
  destruct (observe_spec _ _ _ _ _ E) as (So & A & _). destruct (gap_rows _ _ _ _ _ W E) as (m & GR & _).
  assert (HASROW : forall t, In t ts -> s <= fst (st_id t) < s + base_size b ->
     exists x, In x cu /\ r_id x = fst (st_id t) /\ snd (st_id t) <= r_rung x).
  { intros t T B. destruct (A t T) as (x & X & D). exists x. split; [apply (slice_rows _ m); auto; split; auto; lia|].
    split; auto. apply (row_top o _ _ _ _ _ W E X); auto. }
  pose proof RD as (_ & _ & _ & NN & _).
  split; auto. split.
  - intros t T B D. destruct (HASROW t T B) as (x & X & XD & XR). destruct (ROW x X) as (XI & XB & _).
    destruct (Nat.eq_dec (r_rung x) k) as [RK|RK].
    + assert (NAN : is_nan (r_perf x) = false) by (apply NN; apply filter_In; rewrite RK, Nat.eqb_refl; auto).
      destruct (row_value _ _ _ _ _ W IG E XI NAN) as (z & _ & _ & (_ & _ & WT)). apply WT; auto.
    + intros P. destruct (row_top o _ _ _ _ _ W E XI) as [(t1 & T1 & ID1) _].
      pose proof (w_top _ W t t1 T T1) as TP. rewrite ID1 in TP. simpl in TP.
      assert (r_rung x <= snd (st_id t)) by (apply TP; auto). lia.
  - assert (NE : forall y, In y cu -> is_err (r_perf y) = false) by (intros y Y; eapply no_error_rows; eauto; apply (ROW y Y)).
    destruct (ready_head _ _ _ _ _ _ _ SO NE RD) as (x & X & XC & BEST).
    assert (XN := NN x X). apply filter_In in X. destruct X as [X XK]. apply Nat.eqb_eq in XK. destruct (ROW x X) as (XI & XB & _).
    destruct (row_value _ _ _ _ _ W IG E XI XN) as (v0 & PV & NV & ((t0 & T0 & ID0 & RK0) & _ & WT)).
    exists t0, v0. rewrite XK, XC in *. split; auto. split; auto. split; auto. split; auto.
    intros B ND BB.
    assert (INC : incl B (map r_id (filter (fun r => S k <=? r_rung r) cu))).
    { intros c' C'. destruct (BB c' C') as (CB & t' & v' & T' & ID' & RK' & LT).
      destruct (HASROW t' T') as (y & Y & YD & YR); [rewrite ID'; auto|]. rewrite ID' in *. cbn [fst snd] in *.
      apply in_map_iff. exists y. split; auto. apply filter_In. split; auto. apply Nat.leb_le.
      destruct (Nat.eq_dec (r_rung y) k) as [RY|]; [|lia]. exfalso.
      assert (YK : In y (at_rung cu k)) by (apply filter_In; rewrite RY, Nat.eqb_refl; auto).
      destruct (ROW y Y) as (YI & _). destruct (row_value _ _ _ _ _ W IG E YI (NN y YK)) as (w & PW & _ & ((t2 & T2 & ID2 & RK2) & _)).
      assert (t2 = t') by (eapply same_id; eauto; [apply W|congruence]). subst t2.
      assert (w = v') by (eapply ranks_fun; eauto). subst w.
      specialize (BEST y YK). rewrite PV, PW in BEST. simpl in BEST. congruence. }
    apply (NoDup_incl_length ND) in INC. rewrite map_length in INC.
    rewrite (count_above o bs ts lo hi tb n b s (S k) W IR E N) in R2 by lia. unfold above in R2. fold cu in R2. lia.
Qed.

(** ** No exception *)
Lemma members_defined : forall keys l k, In k keys -> exists ms, members keys l k = Ok ms.
Proof.
  intros keys l k I. unfold members. assert (X : existsb (Nat.eqb k) keys = true) by (apply existsb_exists; exists k; rewrite Nat.eqb_refl; auto).
  rewrite X. simpl. eauto.
Qed.
Lemma good_key : forall b sz r, good eta b sz -> b_min b <= r <= b_max b -> In r (map fst (b_rungs b)).
Proof.
  intros b sz r G R. destruct (proj2 (g_rungs _ _ _ G r) R) as [x X]. apply nget_in in X. apply in_map_iff. exists (r, x). auto.
Qed.
Lemma argsort_perfs_defined : forall l k, (forall x, In x l -> is_err (r_perf x) = false) ->
  exists idx, argsort_perfs argsort (map r_perf (at_rung l k)) = Ok idx.
Proof.
  intros l k NE. unfold argsort_perfs. destruct (forallb _ _); [eauto|].
  assert (EX : existsb is_err (map r_perf (at_rung l k)) = false).
  { destruct (existsb _ _) eqn:X; auto. apply existsb_exists in X. destruct X as (p & I & P). apply in_map_iff in I.
    destruct I as (x & <- & I). apply filter_In in I. rewrite NE in P; [discriminate|tauto]. }
  rewrite EX. eauto.
Qed.

Lemma sync_loop_defined : forall b sz l, 2 <= eta -> good eta b sz ->
  (forall x, In x l -> is_err (r_perf x) = false) ->
  (forall k, b_min b <= k < b_max b -> at_rung l k = [] -> above l k < sz k) ->
  forall m acc, b_min b + m <= S (b_max b) ->
  exists ps, sync_loop argsort eta (b_sizes b) (b_max b) (members (map fst (b_rungs b)) l) false
    (rev (seq (b_min b) m)) (above l (b_min b + m)) acc = Ok ps.
Proof.
  intros b sz l E2 G NE HOLE. induction m as [|m IH]; intros acc M; [simpl; eauto|].
  rewrite seq_S, rev_app_distr. cbn [rev app sync_loop]. set (r := b_min b + m) in *.
  destruct (members_defined (map fst (b_rungs b)) l r) as [ms MS]; [eapply good_key; eauto; lia|]. rewrite MS. cbn [bind].
  apply members_ok in MS. fold (at_rung l r) in MS. unfold ngetitem. rewrite (g_get _ _ _ G) by lia. cbn [bind].
  assert (LM : length ms = length (at_rung l r)) by (rewrite MS, map_length; auto).
  assert (TOT : above l (b_min b + S m) + length ms = above l r).
  { rewrite (above_step l r), LM. replace (b_min b + S m) with (S r) by lia. auto. }
  rewrite TOT. destruct (Nat.leb_spec (sz r) (above l r)); [|apply IH; lia].
  cbn [count_nan andb bind]. destruct (_ <? _); [eauto|]. destruct (Nat.eqb_spec r (b_max b)); [apply IH; lia|].
  destruct ms as [|m0 ms0] eqn:ME.
  - exfalso. assert (Z : at_rung l r = []) by (destruct (at_rung l r); [auto|discriminate]).
    specialize (HOLE r ltac:(lia) Z). lia.
  - rewrite <- ME in *. assert (S2 : map snd ms = map r_perf (at_rung l r)) by (rewrite MS, map_map; auto).
    rewrite S2. destruct (argsort_perfs_defined l r NE) as [idx IDX]. rewrite IDX. cbn [bind]. apply IH. lia.
Qed.

Lemma block_hole : forall ts lo hi tb n b s sz k, 2 <= eta -> inv o bs ts -> observe o lo hi ts = Ok tb ->
  nth_bracket bs d n b s -> good eta b sz -> b_min b <= k < b_max b ->
  at_rung (slice s (s + base_size b) (t_rows tb)) k = [] ->
  above (slice s (s + base_size b) (t_rows tb)) k < sz k.
Proof.
  intros ts lo hi tb n b s sz k E2 (W & IR & WI) E N G K Z.
  set (cu := slice s (s + base_size b) (t_rows tb)) in *. pose proof (above_step cu k) as AS. rewrite Z in AS. simpl in AS.
  pose proof (WI n b s (S k) _ N (g_get _ _ _ G (S k) ltac:(lia))) as W2.
  rewrite (count_above o bs ts lo hi tb n b s (S k) W IR E N) in W2 by lia. fold cu in W2.
  rewrite (g_step _ _ _ G k K) in W2. pose proof (g_pos _ _ _ G k ltac:(lia)).
  assert (sz k / eta < sz k) by (apply Nat.div_lt; lia). lia.
Qed.

Lemma sync_defined : forall ts lo hi tb n b s, 2 <= eta -> inv o bs ts -> o_ignore_errors o = false ->
  observe o lo hi ts = Ok tb -> t_obj tb = false -> nth_bracket bs d n b s ->
  exists ps, sync_promotions argsort eta b (members (map fst (b_rungs b)) (drop_default o (slice s (s + base_size b) (t_rows tb)))) (t_obj tb) = Ok ps.
Proof.
  intros ts lo hi tb n b s E2 IV IG E OB N. pose proof IV as (W & IR & WI).
  destruct (gap_rows _ _ _ _ _ W E) as (nr & GR & _).
  rewrite (drop_default_block o s _ _ _ GR) by (eapply nth_bracket_start; eauto). rewrite OB.
  destruct (all_good b (nth_bracket_in _ _ _ _ _ N)) as [sz G]. pose proof (g_le _ _ _ G) as LE.
  set (cu := slice s (s + base_size b) (t_rows tb)).
  unfold sync_promotions. rewrite (g_keys _ _ _ G).
  assert (Z0 : above cu (b_min b + (S (b_max b) - b_min b)) = 0).
  { apply above_none. intros x I. destruct (block_rows o bs _ _ _ _ _ _ _ _ W IR E N I). lia. }
  rewrite <- Z0. eapply sync_loop_defined; eauto; [| |lia].
  - intros x I. eapply no_error_rows; eauto. eapply slice_in; eauto.
  - intros k K. eapply block_hole; eauto.
Qed.

Lemma find_defined : forall ts lo hi tb fuel n b1 s, 2 <= eta -> inv o bs ts -> o_ignore_errors o = false ->
  observe o lo hi ts = Ok tb -> t_obj tb = false -> nth_bracket bs d n b1 s ->
  length (t_rows tb) - s < fuel ->
  exists b cu, find_hb_bracket argsort fuel eta o bs (t_obj tb) (t_rows tb) (n mod length bs) s (s + base_size b1) = Ok (b, cu).
Proof.
  intros ts lo hi tb fuel. induction fuel as [|fuel IH]; intros n b1 s E2 IV IG E OB N F; [lia|].
  cbn [find_hb_bracket]. rewrite (nth_bracket_index bs eta all_good _ _ _ _ N).
  destruct (Nat.leb_spec (s + base_size b1) (length (t_rows tb))) as [FULL|]; [|eauto].
  pose proof (nth_bracket_in _ _ _ _ _ N) as IB. destruct (width_base _ _ all_good b1 IB) as [WB WP].
  assert (LB : length bs <> 0) by (destruct bs; [contradiction|discriminate]).
  assert (IDX : (n mod length bs + 1) mod length bs = S n mod length bs).
  { rewrite Nat.add_mod_idemp_l by auto. f_equal. lia. }
  rewrite IDX.
  assert (NX : exists b cu, match nth_error bs (S n mod length bs) with
        | Some b' => find_hb_bracket argsort fuel eta o bs (t_obj tb) (t_rows tb) (S n mod length bs) (s + base_size b1) (s + base_size b1 + base_size b')
        | None => Err IndexError end = Ok (b, cu)).
  { destruct (nth_error bs (S n mod length bs)) as [b2|] eqn:B2.
    - apply IH; auto; [|lia]. econstructor; eauto.
    - exfalso. apply nth_error_None in B2. pose proof (Nat.mod_upper_bound (S n) (length bs) LB). lia. }
  destruct (_ <? _); auto. destruct (sync_defined _ _ _ _ _ _ _ E2 IV IG E OB N) as [ps PS]. rewrite PS. cbn [bind].
  destruct (some_promotion ps); eauto.
Qed.

Lemma is_promotable_defined : forall ps rungs, (forall k, In k rungs -> exists v, nget k ps = Some v) ->
  exists p, is_promotable ps rungs = Ok p.
Proof.
  intros ps rungs. induction rungs as [|k rest IH]; intros D; cbn [is_promotable]; [eauto|].
  destruct (D k (or_introl eq_refl)) as [v V]. unfold ngetitem. rewrite V. cbn [bind].
  destruct v; [apply IH; intros k' K'; apply D; simpl; auto|eauto].
Qed.

Lemma config_defined : forall lg f s b rows n ps (fresh : H), never_above lg -> legal f -> 2 <= eta ->
  make_bracket lg f eta s = Ok b -> map r_id rows = seq 0 n -> sound_promos rows ps ->
  (forall k, b_min b <= k < b_max b -> exists v, nget k ps = Some v) ->
  exists q, get_config_and_ids o f b rows ps fresh = Ok q.
Proof.
  intros lg f s b rows n ps fresh NA LG E M GR SP D. unfold get_config_and_ids.
  destruct (ladder_lemma _ _ _ _ _ NA LG E M) as (LE & DOM & BND & _).
  assert (BUD : forall r, b_min b <= r <= b_max b -> exists x : Q, nget r (b_rungs b) = Some x /\ set_fidelity f x = Ok x).
  { intros r R. destruct (proj2 (DOM r) R) as [x X]. exists x. split; auto. destruct (BND r x X) as [L U].
    unfold set_fidelity. apply Qle_bool_iff in L. apply Qle_bool_iff in U. rewrite L, U. auto. }
  destruct (is_promotable_defined ps (rev (seq (b_min b) (b_max b - b_min b)))) as [p P].
  { intros k K. apply in_rev, in_seq in K. apply D. lia. }
  rewrite P. cbn [bind]. destruct p as [[k c]|].
  - destruct (is_promotable_some _ _ _ _ P) as [K [v V]]. apply in_rev, in_seq in K.
    destruct (SP k (c :: v) c) as (y & Y & YC & _); [apply nget_in; auto|simpl; auto|].
    apply In_nth_error in Y. destruct Y as [i Y]. assert (r_id y = i) by (eapply label_nth; eauto). subst i. rewrite YC in Y.
    rewrite Y. destruct (BUD (S k)) as (x & X & F); [lia|]. unfold ngetitem. rewrite X. cbn [bind]. rewrite F. cbn [bind]. eauto.
  - match goal with |- context [ngetitem ?r _] => set (rung := r) end.
    destruct (BUD rung) as (x & X & F); [subst rung; match goal with |- context [if ?c then _ else _] => destruct c end; lia|].
    unfold ngetitem. rewrite X. cbn [bind]. rewrite F. cbn [bind]. eauto.
Qed.
(** ** Promotions are not put off *)
Lemma occ_rung : forall l i, count_occ Nat.eq_dec (map r_rung l) i = length (at_rung l i).
Proof.
  intros l i. unfold at_rung. induction l as [|x l IH]; auto. cbn [map count_occ filter].
  destruct (Nat.eq_dec (r_rung x) i) as [->|N]; [rewrite Nat.eqb_refl; cbn [length]; auto|].
  destruct (Nat.eqb_spec (r_rung x) i); [congruence|auto].
Qed.
Lemma sum_above : forall l lo n,
  list_sum (map (fun i => count_occ Nat.eq_dec (map r_rung l) i * sum_range lo i) (seq lo n)) + above l (lo + n) * list_sum (seq lo n) =
  list_sum (map (fun j => j * above l j) (seq lo n)).
Proof.
  intros l lo n. induction n as [|n IH]; [simpl; lia|]. rewrite seq_S, !map_app, !list_sum_app. cbn [map list_sum fold_right].
  rewrite <- IH. rewrite occ_rung. assert (SR : sum_range lo (lo + n) = list_sum (seq lo n) + (lo + n)).
  { unfold sum_range. replace (S (lo + n) - lo) with (S n) by lia. rewrite seq_S, list_sum_app. simpl. lia. }
  rewrite SR. pose proof (above_step l (lo + n)) as A. replace (lo + S n) with (S (lo + n)) by lia. rewrite A. nia.
Qed.
Lemma sum_cons : forall a (js : list nat), list_sum (a :: js) = a + list_sum js.
Proof. reflexivity. Qed.
Lemma sum_lt : forall (g h : nat -> nat) a ks, (forall k, In k ks -> g k <= h k) -> In a ks -> g a < h a ->
  list_sum (map g ks) < list_sum (map h ks).
Proof.
  intros g h a ks L I S. assert (LE : forall js, (forall k, In k js -> g k <= h k) -> list_sum (map g js) <= list_sum (map h js)).
  { induction js as [|j js IH]; intros LJ; [auto|]. cbn [map]. rewrite !sum_cons.
    specialize (IH (fun k K => LJ k (or_intror K))). pose proof (LJ j (or_introl eq_refl)). simpl. lia. }
  induction ks as [|k ks IH]; [contradiction|]. cbn [map]. rewrite !sum_cons. simpl.
  pose proof (L k (or_introl eq_refl)). destruct I as [->|I].
  - specialize (LE ks (fun k K => L k (or_intror K))). lia.
  - specialize (IH (fun k K => L k (or_intror K)) I). lia.
Qed.
Lemma trace_sum : forall b sz, good eta b sz ->
  list_sum (rung_trace b) = list_sum (map (fun j => j * sz j) (seq (b_min b) (S (b_max b) - b_min b))).
Proof.
  intros b sz G. pose proof (g_le _ _ _ G). unfold rung_trace.
  assert (SUM : forall js, (forall j, In j js -> b_min b <= j <= b_max b) ->
    list_sum (flat_map (fun r => match nget r (b_sizes b) with Some n => repeat r n | None => [] end) js) = list_sum (map (fun j => j * sz j) js)).
  { induction js as [|j js IH]; intros J; [auto|]. cbn [map flat_map]. rewrite list_sum_app, (g_get _ _ _ G) by (apply J; simpl; auto).
    rewrite IH by (intros; apply J; simpl; auto). rewrite sum_cons. f_equal.
    assert (RP : forall n, list_sum (repeat j n) = j * n) by (induction n as [|n IHn]; simpl; [lia|rewrite IHn; nia]).
    rewrite RP. simpl. lia. }
  apply SUM. intros j J. apply in_seq in J. lia.
Qed.
Lemma budget_left : forall b sz l k, good eta b sz -> (forall x, In x l -> r_rung x <= b_max b) ->
  (forall j, b_min b <= j <= b_max b -> above l j <= sz j) -> b_min b <= k < b_max b -> above l (S k) < sz (S k) ->
  budget_used b (map r_rung l) < list_sum (rung_trace b).
Proof.
  intros b sz l k G MX LE K LT. rewrite (trace_sum _ _ G). unfold budget_used.
  rewrite <- (map_map fst (fun i => count_occ Nat.eq_dec (map r_rung l) i * sum_range (b_min b) i)), (g_keys _ _ _ G).
  pose proof (sum_above l (b_min b) (S (b_max b) - b_min b)) as SA. pose proof (g_le _ _ _ G).
  rewrite above_none in SA by (intros x X; specialize (MX x X); lia). rewrite Nat.mul_0_l, Nat.add_0_r in SA. rewrite SA.
  apply (sum_lt _ _ (S k)).
  - intros j J. apply in_seq in J. specialize (LE j). nia.
  - apply in_seq. lia.
  - nia.
Qed.

Lemma sync_complete : forall b sz keys l obj ps k, sorts argsort -> good eta b sz ->
  (forall x, In x l -> r_rung x <= b_max b) ->
  (forall x, In x l -> is_nan (r_perf x) = false /\ is_err (r_perf x) = false) ->
  b_min b <= k < b_max b -> above l k = sz k -> above l (S k) < sz (S k) ->
  sync_promotions argsort eta b (members keys l) obj = Ok ps -> some_promotion ps = true.
Proof.
  intros b sz keys l obj ps k SO G MX CLEAN K FULL ROOM E. unfold sync_promotions in E. rewrite (g_keys _ _ _ G) in E.
  pose proof (g_le _ _ _ G) as LE.
  assert (Z0 : above l (b_min b + (S (b_max b) - b_min b)) = 0) by (apply above_none; intros x I; specialize (MX x I); lia).
  rewrite <- Z0 in E.
  assert (LOOP : forall m acc, b_min b + m <= S (b_max b) ->
    sync_loop argsort eta (b_sizes b) (b_max b) (members keys l) obj (rev (seq (b_min b) m)) (above l (b_min b + m)) acc = Ok ps ->
    k < b_min b + m \/ (exists v, nget k acc = Some v /\ v <> []) -> exists v, nget k ps = Some v /\ v <> []).
  { induction m as [|m IH]; intros acc M E' D.
    - simpl in E'. injection E' as <-. destruct D; [lia|auto].
    - rewrite seq_S, rev_app_distr in E'. cbn [rev app sync_loop] in E'. set (r := b_min b + m) in *.
      inv_bind E' ms MS. apply members_ok in MS. fold (at_rung l r) in MS. inv_bind E' size SZ. apply ngetitem_ok in SZ.
      rewrite (g_get _ _ _ G) in SZ by lia. injection SZ as <-.
      assert (LM : length ms = length (at_rung l r)) by (rewrite MS, map_length; auto).
      assert (TOT : above l (b_min b + S m) + length ms = above l r).
      { rewrite (above_step l r), LM. replace (b_min b + S m) with (S r) by lia. auto. }
      rewrite TOT in E'.
      destruct (Nat.leb_spec (sz r) (above l r)) as [FL|NF].
      2:{ apply (IH acc); auto; [lia|]. destruct D as [D|D]; auto. destruct (Nat.eq_dec k r) as [->|]; [lia|left; lia]. }
      inv_bind E' nn CN. pose proof (count_nan_ok _ _ _ CN) as CNN.
      assert (NN0 : nn = 0).
      { rewrite CNN, MS, map_map. cbn [snd]. apply length_zero_iff_nil. clear -CLEAN.
        assert (ALL : forall x, In x (at_rung l r) -> is_nan (r_perf x) = false) by (intros x X; apply filter_In in X; apply CLEAN; tauto).
        induction (at_rung l r) as [|x a IHa]; auto. cbn [map filter]. rewrite ALL by (simpl; auto). apply IHa. intros; apply ALL; simpl; auto. }
      rewrite NN0 in E'. cbn [Nat.ltb Nat.leb] in E'.
      destruct (Nat.eqb_spec r (b_max b)) as [RM|NM].
      { apply (IH acc); auto; [lia|]. destruct D as [D|D]; auto. left. lia. }
      assert (MNE : ms <> []) by (intros Z; rewrite Z in E'; discriminate).
      match type of E' with match ms with [] => _ | _ :: _ => ?R end = _ => assert (E2 : R = Ok ps) by (destruct ms; [congruence|exact E']) end.
      clear E'. inv_bind E2 idx IDX. eapply IH; [lia|exact E2|]. rewrite nget_set_promo.
      destruct (Nat.eqb_spec k r) as [KR|NK].
      2:{ destruct D as [D|D]; auto. left. lia. }
      right. eexists. split; [reflexivity|]. rewrite <- KR in *. clear E2 IH.
      assert (S2 : map snd ms = map r_perf (at_rung l k)) by (rewrite MS, map_map; auto). rewrite S2 in IDX.
      assert (EX : existsb is_err (map r_perf (at_rung l k)) = false).
      { destruct (existsb _ _) eqn:X; auto. apply existsb_exists in X. destruct X as (p & I & P). apply in_map_iff in I.
        destruct I as (x & <- & I). apply filter_In in I. destruct (CLEAN x); [tauto|congruence]. }
      pose proof (argsort_perfs_ok _ _ _ IDX EX) as ID. 
      assert (NNV : ~ In FNaN (map value (map r_perf (at_rung l k)))).
      { rewrite map_map. intros I. apply in_map_iff in I. destruct I as (x & Q & I). apply filter_In in I.
        destruct (CLEAN x) as [C1 C2]; [tauto|]. destruct (r_perf x); simpl in *; [subst; discriminate|discriminate]. }
      destruct (SO _ NNV) as [PM _]. rewrite <- ID in PM. rewrite !map_length in PM.
      set (tk := (_ - _)%Z). assert (TK : (1 <= tk)%Z).
      { unfold tk. rewrite <- (g_step _ _ _ G k K). pose proof (above_step l k). lia. }
      destruct idx as [|a idx].
      { apply Permutation_length in PM. rewrite seq_length in PM. destruct ms; [congruence|simpl in LM, PM; lia]. }
      assert (AI : a < length (at_rung l k)) by (assert (AIN : In a (a :: idx)) by (simpl; auto); apply (Permutation_in _ PM), in_seq in AIN; lia).
      unfold slice_to. destruct (Z.ltb_spec tk 0); [lia|]. destruct (Z.to_nat tk) as [|j] eqn:TJ; [lia|]. cbn [firstn].
      unfold pick. cbn [flat_map]. destruct (nth_error (map fst ms) a) eqn:NA; [discriminate|].
      apply nth_error_None in NA. rewrite map_length in NA. lia. }
  destruct (LOOP (S (b_max b) - b_min b) _ ltac:(lia) E) as (v & V & NV); [left; lia|].
  unfold some_promotion. apply existsb_exists. exists (k, v). split; [apply nget_in; auto|]. simpl. destruct v; congruence.
Qed.

Lemma find_skips : forall fuel obj rows n s b1 b cu, nth_bracket bs d n b1 s ->
  find_hb_bracket argsort fuel eta o bs obj rows (n mod length bs) s (s + base_size b1) = Ok (b, cu) ->
  (exists ps, sync_promotions argsort eta b (members (map fst (b_rungs b)) (drop_default o cu)) obj = Ok ps /\ some_promotion ps = true) \/
  forall m b' s', n <= m -> nth_bracket bs d m b' s' -> s' + base_size b' <= length rows ->
    list_sum (rung_trace b') <= budget_used b' (map r_rung (slice s' (s' + base_size b') rows)) \/
    exists ps, sync_promotions argsort eta b' (members (map fst (b_rungs b')) (drop_default o (slice s' (s' + base_size b') rows))) obj = Ok ps /\
      some_promotion ps = false.
Proof.
  induction fuel as [|fuel IH]; intros obj rows n s b1 b cu N E; cbn [find_hb_bracket] in E; [discriminate|].
  rewrite (nth_bracket_index bs eta all_good _ _ _ _ N) in E.
  destruct (Nat.leb_spec (s + base_size b1) (length rows)) as [FULL|PART].
  - pose proof (nth_bracket_in _ _ _ _ _ N) as IB. destruct (width_base _ _ all_good b1 IB) as [WB _].
    assert (LB : length bs <> 0) by (destruct bs; [contradiction|discriminate]).
    assert (IDX : (n mod length bs + 1) mod length bs = S n mod length bs).
    { rewrite Nat.add_mod_idemp_l by auto. f_equal. lia. }
    rewrite IDX in E.
    match goal with |- ?A \/ ?B => assert (NX : (list_sum (rung_trace b1) <= budget_used b1 (map r_rung (slice s (s + base_size b1) rows)) \/
        exists ps, sync_promotions argsort eta b1 (members (map fst (b_rungs b1)) (drop_default o (slice s (s + base_size b1) rows))) obj = Ok ps /\ some_promotion ps = false) ->
       match nth_error bs (S n mod length bs) with
        | Some b' => find_hb_bracket argsort fuel eta o bs obj rows (S n mod length bs) (s + base_size b1) (s + base_size b1 + base_size b')
        | None => Err IndexError end = Ok (b, cu) -> A \/ B) end.
    { intros SK E'. destruct (nth_error bs (S n mod length bs)) as [b2|] eqn:B2; [|discriminate].
      assert (N2 : nth_bracket bs d (S n) b2 (s + base_size b1)) by (econstructor; eauto).
      destruct (IH _ _ _ _ _ _ _ N2 E') as [Y|Y]; [auto|]. right. intros m b' s' LE M FU.
      destruct (Nat.eq_dec n m) as [->|]; [|apply (Y m b' s'); auto; lia].
      destruct (nth_bracket_fun _ _ _ _ _ N _ _ M) as [-> ->]. auto. }
    destruct (Nat.ltb_spec (budget_used b1 (map r_rung (slice s (s + base_size b1) rows))) (list_sum (rung_trace b1))) as [LT|GE].
    + inv_bind E ps PS. destruct (some_promotion ps) eqn:SP.
      * injection E as <- <-. left. eauto.
      * apply NX; auto. right. eauto.
    + apply NX; auto.
  - injection E as <- <-. right. intros m b' s' LE M FU. exfalso. destruct (Nat.eq_dec n m) as [->|].
    + destruct (nth_bracket_fun _ _ _ _ _ N _ _ M) as [-> ->]. lia.
    + pose proof (nth_bracket_order _ _ all_good _ _ _ _ _ _ _ N M). lia.
Qed.

Lemma promoted : forall f b rows ps fresh q sz keys l obj, good eta b sz -> (forall x, In x l -> r_rung x <= b_max b) ->
  sync_promotions argsort eta b (members keys l) obj = Ok ps -> some_promotion ps = true ->
  get_config_and_ids o f b rows ps fresh = Ok q -> q_prev q <> None.
Proof.
  intros f b rows ps fresh q sz keys l obj G MX PS SP E. destruct (some_promotion_spec _ _ _ _ _ _ _ _ G MX PS SP) as (k & v & K & V & NV).
  unfold get_config_and_ids in E. inv_bind E p P. destruct p as [[k' c]|].
  - destruct (nth_error rows c); [|discriminate]. inv_bind E bu B. inv_bind E fi F. injection E as <-. discriminate.
  - exfalso. apply NV. eapply is_promotable_none; eauto. apply -> in_rev. apply in_seq. lia.
Qed.

Lemma evaluations_rows : forall ts lo hi tb n b s, inv o bs ts -> observe o lo hi ts = Ok tb -> nth_bracket bs d n b s ->
  (forall c, s <= c < s + base_size b -> exists t, In t ts /\ fst (st_id t) = c) -> s + base_size b <= length (t_rows tb).
Proof.
  intros ts lo hi tb n b s (W & IR & WI) E N ALL. destruct (gap_rows _ _ _ _ _ W E) as (m & GR & IFF).
  assert (LEN : length (t_rows tb) = m) by (rewrite <- (map_length r_id), GR, seq_length; auto). rewrite LEN.
  destruct (width_base _ _ all_good b (nth_bracket_in _ _ _ _ _ N)) as [_ P].
  assert (C : s + base_size b - 1 < m) by (apply IFF; apply ALL; lia). lia.
Qed.

Lemma hb_live : forall f ts lo hi tb fuel b1 b cu ps fresh q n b' s' k, sorts argsort -> inv o bs ts -> observe o lo hi ts = Ok tb ->
  nth_error bs 0 = Some b1 ->
  find_hb_bracket argsort fuel eta o bs (t_obj tb) (t_rows tb) 0 d (d + base_size b1) = Ok (b, cu) ->
  sync_promotions argsort eta b (members (map fst (b_rungs b)) (drop_default o cu)) (t_obj tb) = Ok ps ->
  get_config_and_ids o f b (t_rows tb) ps fresh = Ok q ->
  nth_bracket bs d n b' s' ->
  (forall c, s' <= c < s' + base_size b' -> exists t, In t ts /\ fst (st_id t) = c) ->
  b_min b' <= k < b_max b' -> nget k (b_sizes b') = Some (evaluations ts s' (base_size b') k) ->
  (forall z, nget (S k) (b_sizes b') = Some z -> evaluations ts s' (base_size b') (S k) < z) ->
  (forall t, In t ts -> s' <= fst (st_id t) < s' + base_size b' -> exists v, ranks o (st_out t) v /\ v <> FNaN) ->
  q_prev q <> None.
Proof.
  intros f ts lo hi tb fuel b1 b cu ps fresh q n b' s' k SO IV E N1 F PS GC N ALL K FULL ROOM FIN.
  pose proof IV as (W & IR & WI). destruct (gap_rows _ _ _ _ _ W E) as (m & GR & IFF).
  assert (LB : length bs <> 0) by (destruct bs; [discriminate|discriminate]).
  replace 0 with (0 mod length bs) in F by (apply Nat.mod_0_l; auto).
  assert (NF : nth_bracket bs d 0 b1 d) by (constructor; auto).
  destruct (find_hb_spec o argsort bs eta all_good _ _ _ _ _ _ _ _ (ex_intro _ b1 (conj NF eq_refl)) (or_intror eq_refl) F)
      as (m0 & s0 & N0 & CU & _).
  destruct (all_good b (nth_bracket_in _ _ _ _ _ N0)) as [sz0 G0].
  assert (DB : forall e s, d <= s -> drop_default o (slice s e (t_rows tb)) = slice s e (t_rows tb)) by (intros; eapply drop_default_block; eauto).
  destruct (find_skips _ _ _ _ _ _ _ _ NF F) as [(ps' & PS' & SP)|SK].
  - rewrite PS in PS'. injection PS' as <-. eapply promoted; eauto. intros x X. rewrite CU, DB in X by (eapply nth_bracket_start; eauto).
    apply (block_rows o bs _ _ _ _ _ _ _ _ W IR E N0 X).
  - exfalso. pose proof (evaluations_rows _ _ _ _ _ _ _ IV E N ALL) as LEN.
    destruct (all_good b' (nth_bracket_in _ _ _ _ _ N)) as [sz G].
    rewrite (g_get _ _ _ G) in FULL by lia. injection FULL as FULL. specialize (ROOM _ (g_get _ _ _ G (S k) ltac:(lia))).
    set (cu' := slice s' (s' + base_size b') (t_rows tb)) in *.
    assert (AB : forall j, b_min b' <= j -> above cu' j = evaluations ts s' (base_size b') j) by (intros; symmetry; eapply count_above; eauto).
    assert (MX : forall x, In x cu' -> r_rung x <= b_max b') by (intros x X; apply (block_rows o bs _ _ _ _ _ _ _ _ W IR E N X)).
    assert (CLEAN : forall x, In x cu' -> is_nan (r_perf x) = false /\ is_err (r_perf x) = false).
    { intros x X. destruct (block_rows o bs _ _ _ _ _ _ _ _ W IR E N X) as (XI & XB & _).
      destruct (observe_spec _ _ _ _ _ E) as (_ & _ & SH). destruct (SH x XI) as [[(t & T & ID & P) _]|(_ & (t & T & ID & P) & _)].
      - destruct (FIN t T) as (v & RK & NV); [rewrite ID; auto|]. destruct P as (PF & PL & _).
        destruct RK as [RK|(R1 & R2 & R3)].
        + rewrite RK in PL. simpl in PL. injection PL as <-. destruct v; simpl; auto. congruence.
        + rewrite R1 in PL. simpl in PL. rewrite R2, R3 in PL. injection PL as <-. destruct v; simpl; auto. congruence.
      - destruct (FIN t T) as (v & RK & NV); [rewrite ID; auto|]. exfalso. destruct RK as [RK|(R1 & _)]; congruence. }
    destruct (SK n b' s') as [BU|(ps' & PS' & SP)]; auto; [lia| |].
    + assert (BL : budget_used b' (map r_rung cu') < list_sum (rung_trace b')).
      { apply (budget_left _ _ _ k G MX); auto; [|rewrite AB by lia; lia].
        intros j J. rewrite AB by lia. eapply WI; eauto. apply (g_get _ _ _ G). auto. }
      fold cu' in BU. lia.
    + fold cu' in PS'. unfold cu' in PS' at 1. rewrite DB in PS' by (eapply nth_bracket_start; eauto). fold cu' in PS'.
      rewrite (sync_complete _ _ _ _ _ _ _ SO G MX CLEAN K) with (3 := PS') in SP; [discriminate| |]; rewrite AB by lia; lia.
Qed.
End Full.

Section Answer.
Context {H : Type}.
Implicit Types (t u : strial H) (ts : list (strial H)).
Variable argsort : list fl -> list nat.
Variable lg : Q -> nat -> Z.

Lemma history_rungs : forall k o f eta ts, never_above lg -> legal f -> 2 <= eta -> history (ask argsort lg k o f eta) ts ->
  forall t, In t ts -> exists b s, make_bracket lg f eta s = Ok b /\
    match k with SuccessiveHalving s' | ASHA s' => s = s' | _ => True end /\ b_min b <= snd (st_id t) <= b_max b.
Proof.
  intros k o f eta ts NA LG E HI. induction HI as [|ts ts' fresh draw q HI IH P A|a t b x HI IH O XX].
  - intros t [].
  - intros t [<-|I]; [|auto]. apply (ask_rung _ _ _ _ _ _ _ _ _ _ NA LG E A).
  - intros u I. apply in_app_or in I. destruct I as [I|[<-|I]].
    + apply IH. apply in_or_app. auto.
    + apply (IH t). apply in_or_app. simpl. auto.
    + apply IH. apply in_or_app. simpl. auto.
Qed.

Lemma answer_lemma : forall k o f eta L ts ts' fresh draw, exact lg -> legal f -> 2 <= eta ->
  whole_log eta (f_upper f / f_lower f) (Z.of_nat L) ->
  match k with SuccessiveHalving s => s <= L | ASHA s => s = 0 | Hyperband => True | AsyncHyperband => draw <= L end ->
  history (ask argsort lg k o f eta) ts -> Permutation ts ts' ->
  o_ignore_errors o = false -> (o_loss_on_error o = None -> forall t, In t ts -> st_out t <> Failed) ->
  (o_empty_object o = false \/ exists t, In t ts /\ finished t) ->
  exists q, ask argsort lg k o f eta ts' fresh draw = Ok q.
Proof.
  intros k o f eta L ts ts' fresh draw X LG E WL KS HI P IG LE EO. pose proof (exact_below _ X) as NA.
  assert (I : forall t, In t ts <-> In t ts') by (intros; split; apply Permutation_in; auto; apply Permutation_sym; auto).
  pose proof (wf_perm _ _ P (history_wf _ _ _ _ _ _ _ HI)) as W.
  destruct (brackets_lemma lg f eta X LG E) as (b0 & B0 & _ & BS & BA).
  destruct (bracket_top _ _ _ _ _ _ X LG E B0 WL) as (M0 & N0 & _).
  assert (OBS : forall lo hi, (forall t, In t ts -> lo <= snd (st_id t) <= hi) -> exists tb, observe o lo hi ts' = Ok tb /\ t_obj tb = false).
  { intros lo hi R. destruct (proj2 (observe_ok o lo hi ts')) as [tb T].
    - intros t T F. apply I in T. split; [auto|]. unfold get_loss, finished in *. destruct (st_out t) eqn:O; [contradiction|eauto|].
      rewrite IG. destruct (o_loss_on_error o); [eauto|]. exfalso. apply (LE eq_refl t); auto.
    - exists tb. split; auto. destruct (t_obj tb) eqn:O; auto. exfalso.
      apply (observe_obj o _ _ _ _ IG T) in O. destruct O as (O1 & O2 & O3). destruct EO as [EO|(t & T1 & T2)]; [congruence|].
      apply T2. apply O3. apply I. auto. }
  assert (RANGE : forall t, In t ts -> match k with SuccessiveHalving s | ASHA s => s | _ => 0 end <= snd (st_id t) <= L).
  { intros t T. destruct (history_rungs _ _ _ _ _ NA LG E HI t T) as (b & s & MB & KK & R).
    destruct (bracket_top _ _ _ _ _ _ X LG E MB WL) as (T1 & T2 & _). destruct k; try subst s; lia. }
  assert (SYNC : forall b1 bs lo hi, bs <> [] -> brackets_of lg k f eta bs -> (forall t, In t ts -> lo <= snd (st_id t) <= hi) ->
     b_min b1 = lo -> b_max b1 = hi -> exists q, hb_ask argsort o f eta b1 bs ts' fresh = Ok q).
  { intros b1 bs lo hi NB BR R <- <-. destruct (OBS _ _ R) as (tb & T & OB). unfold hb_ask. rewrite T. cbn [bind].
    pose proof (brackets_good _ _ _ _ _ X LG E BR) as GD.
    pose proof (inv_perm _ _ _ _ P (history_inv _ _ _ _ _ _ _ _ X LG E BR HI)) as IV.
    destruct bs as [|b2 bs2] eqn:BE; [congruence|]. rewrite <- BE in *.
    assert (IB : In b2 bs) by (rewrite BE; simpl; auto). destruct (width_base _ _ GD b2 IB) as [WB _].
    unfold width in WB. unfold ngetitem. rewrite WB. cbn [bind].
    assert (N : nth_bracket bs (start_index o) 0 b2 (start_index o)) by (constructor; rewrite BE; auto).
    assert (FU : length (t_rows tb) - start_index o < S (length (t_rows tb))) by lia.
    assert (LB : length bs <> 0) by (rewrite BE; discriminate).
    destruct (find_defined o argsort bs eta GD _ _ _ _ _ _ _ _ E IV IG T OB N FU) as (b & cu & F).
    rewrite Nat.mod_0_l in F by auto. rewrite F. cbn [bind].
    replace 0 with (0 mod length bs) in F by (apply Nat.mod_0_l; auto).
    destruct (find_hb_spec o argsort bs eta GD _ _ _ _ _ _ _ _ (ex_intro _ b2 (conj N eq_refl)) (or_intror eq_refl) F)
      as (m & s' & N' & CU & _). rewrite CU.
    destruct (sync_defined o argsort bs eta GD _ _ _ _ _ _ _ E IV IG T OB N') as [ps PS]. rewrite PS. cbn [bind].
    pose proof (nth_bracket_in _ _ _ _ _ N') as IB'. destruct (GD b IB') as [sz G].
    assert (exists s, make_bracket lg f eta s = Ok b) as [s MB].
    { destruct k; simpl in BR; try contradiction.
      - destruct BR as (b3 & MB & ->). destruct IB' as [<-|[]]. eauto.
      - destruct BR as (b3 & BR). unfold hyperband_brackets in BR. inv_bind BR b0' B0'. inv_bind BR bs' BSS. injection BR as -> ->.
        destruct (make_brackets_in _ _ _ _ _ _ BSS IB') as (s & _ & M). eauto. }
    destruct (gap_rows _ _ _ _ _ W T) as (nr & GR & _). pose proof IV as (_ & IR & _).
    rewrite (drop_default_block o s' _ _ _ GR) in PS by (eapply nth_bracket_start; eauto).
    eapply config_defined; eauto.
    - eapply sound_subset; [|eapply sync_promotions_sound; exact PS]. intros x J. eapply slice_in; eauto.
    - intros kk K.
      assert (MX : forall x, In x (slice s' (s' + base_size b) (t_rows tb)) -> r_rung x <= b_max b)
        by (intros x J; apply (block_rows o bs _ _ _ _ _ _ _ _ W IR T N' J)).
      destruct (sync_spec _ _ _ _ _ _ _ _ G MX PS) as [KEYS _].
      assert (KI : In kk (map fst ps)) by (rewrite KEYS, (g_keys _ _ _ G); apply in_seq; lia).
      apply in_map_iff in KI. destruct KI as ([k' v] & <- & J). exists v. apply nget_nodup; auto.
      rewrite KEYS, (g_keys _ _ _ G). apply seq_NoDup. }
  assert (ASYN : forall b1 b s, make_bracket lg f eta 0 = Ok b1 -> make_bracket lg f eta s = Ok b -> (forall t, In t ts -> 0 <= snd (st_id t) <= L) ->
     exists tb ps q, observe o (b_min b1) (b_max b1) ts' = Ok tb /\
       async_promotions argsort eta (b_max b1) (members (map fst (b_rungs b1)) (drop_default o (dropna (t_rows tb)))) = Ok ps /\
       get_config_and_ids o f b (t_rows tb) ps fresh = Ok q).
  { intros b1 b s MB1 MB R. destruct (bracket_top _ _ _ _ _ _ X LG E MB1 WL) as (T1 & T2 & _).
    destruct (bracket_top _ _ _ _ _ _ X LG E MB WL) as (T3 & T4 & _).
    destruct (OBS (b_min b1) (b_max b1)) as (tb & T & OB); [rewrite T1, T2; auto|].
    destruct (good_bracket _ _ _ _ _ X LG E MB1) as [sz G].
    set (l := drop_default o (dropna (t_rows tb))).
    assert (SUB : forall x, In x l -> In x (t_rows tb) /\ is_nan (r_perf x) = false).
    { intros x J. apply drop_default_in in J. apply filter_In in J. destruct J as [J Q]. split; auto. destruct (is_nan (r_perf x)); auto. }
    assert (AL : forall rungs, (forall r, In r rungs -> r <= b_max b1) -> exists ps, async_loop argsort eta (members (map fst (b_rungs b1)) l) rungs = Ok ps).
    { induction rungs as [|r rest IH]; intros RR; cbn [async_loop]; [eauto|].
      destruct (members_defined (map fst (b_rungs b1)) l r) as [ms MS].
      { eapply good_key; eauto. specialize (RR r (or_introl eq_refl)). lia. }
      rewrite MS. cbn [bind]. apply members_ok in MS.
      assert (S2 : map snd ms = map r_perf (at_rung l r)) by (rewrite MS, map_map; auto). rewrite S2.
      destruct (argsort_perfs_defined argsort l r) as [idx IDX].
      { intros x J. eapply no_error_rows; eauto. apply SUB. auto. }
      rewrite IDX. cbn [bind]. destruct IH as [ps PS]; [intros r' R'; apply RR; simpl; auto|]. rewrite PS. cbn [bind]. eauto. }
    destruct (AL (seq 0 (b_max b1))) as [ps PS]; [intros r J; apply in_seq in J; lia|].
    destruct (gap_rows _ _ _ _ _ W T) as (nr & GR & _).
    destruct (config_defined o eta lg f s b (t_rows tb) nr ps fresh NA LG E MB GR) as [q Q].
    - eapply sound_subset; [|eapply async_sound; [|exact PS]]; intros x J; apply SUB; auto.
    - intros kk K. eapply async_defined; [exact PS|]. apply in_seq. lia.
    - exists tb, ps, q. auto. }
  assert (SB : forall s, s <= L -> exists b, make_bracket lg f eta s = Ok b /\ b_min b = s /\ b_max b = L).
  { intros s S. rewrite <- M0 in S. destruct (BS s S) as (b & MB & MI & MX & _). exists b. split; auto. split; auto. congruence. }
  destruct k as [s|s| |]; unfold ask.
  - destruct (SB s KS) as (b & MB & MI & MX). rewrite MB. cbn [bind].
    destruct (good_bracket _ _ _ _ _ X LG E MB) as [sz G]. rewrite (sh_is_hb _ _ _ _ _ _ _ _ G).
    eapply SYNC; eauto; [discriminate|simpl; eauto].
  - subst s. rewrite B0. cbn [bind]. unfold asha_ask.
    destruct (ASYN b0 b0 0 B0 B0) as (tb & ps & q & T & PS & Q); [auto|].
    rewrite T. cbn [bind]. rewrite PS. cbn [bind]. eauto.
  - assert (HB : exists bs, hyperband_brackets lg f eta = Ok (b0, bs) /\ bs <> []).
    { unfold hyperband_brackets. rewrite B0. cbn [bind].
      assert (MK : forall ss, (forall s, In s ss -> s <= L) -> exists bs, make_brackets lg f eta ss = Ok bs /\ length bs = length ss).
      { induction ss as [|s ss IH]; intros SS; cbn [make_brackets]; [eauto|].
        destruct (SB s (SS s (or_introl eq_refl))) as (b & MB & _). rewrite MB. cbn [bind].
        destruct IH as (bs & BB & LB); [intros s' S'; apply SS; simpl; auto|]. rewrite BB. cbn [bind]. eexists. split; [reflexivity|simpl; auto]. }
      destruct (MK (seq 0 (S (b_max b0)))) as (bs & BB & LB); [intros s S; apply in_seq in S; lia|].
      rewrite BB. cbn [bind]. exists bs. split; auto. intros ->. rewrite seq_length in LB. discriminate. }
    destruct HB as (bs & HB & NB). rewrite HB. cbn [bind]. eapply (SYNC b0 bs (b_min b0) (b_max b0)); auto; [simpl; eauto|intros t T; rewrite N0, M0; auto].
  - assert (HB : exists bs b, hyperband_brackets lg f eta = Ok (b0, bs) /\ nth_error bs draw = Some b /\ make_bracket lg f eta draw = Ok b).
    { unfold hyperband_brackets. rewrite B0. cbn [bind].
      assert (MK : forall ss, (forall s, In s ss -> s <= L) -> exists bs, make_brackets lg f eta ss = Ok bs /\
         forall i s, nth_error ss i = Some s -> exists b, nth_error bs i = Some b /\ make_bracket lg f eta s = Ok b).
      { induction ss as [|s ss IH]; intros SS; cbn [make_brackets]; [exists []; split; auto; intros [|i] s; discriminate|].
        destruct (SB s (SS s (or_introl eq_refl))) as (b & MB & _). rewrite MB. cbn [bind].
        destruct IH as (bs & BB & LB); [intros s' S'; apply SS; simpl; auto|]. rewrite BB. cbn [bind]. eexists. split; [reflexivity|].
        intros [|i] s' N; simpl in *; [injection N as <-; eauto|auto]. }
      destruct (MK (seq 0 (S (b_max b0)))) as (bs & BB & LB); [intros s S; apply in_seq in S; lia|].
      rewrite BB. cbn [bind]. destruct (LB draw draw) as (b & NB & MB).
      - rewrite (nth_error_nth' _ 0) by (rewrite seq_length; lia). rewrite seq_nth by lia. auto.
      - exists bs, b. auto. }
    destruct HB as (bs & b & HB & NB & MB). rewrite HB. cbn [bind]. unfold ahb_ask.
    destruct (ASYN b0 b draw B0 MB) as (tb & ps & q & T & PS & Q); [auto|].
    rewrite T. cbn [bind]. rewrite PS. cbn [bind]. rewrite NB. eauto.
Qed.

(** ** The statements about whole runs *)
Lemma full_run_lemma : forall k o f eta bs ts ts' fresh draw q c r, exact lg -> legal f -> 2 <= eta -> sorts argsort ->
  o_ignore_errors o = false -> brackets_of lg k f eta bs ->
  history (ask argsort lg k o f eta) ts -> Permutation ts ts' ->
  ask argsort lg k o f eta ts' fresh draw = Ok q -> q_prev q = Some (c, r) ->
  exists n b s w z z', nth_bracket bs (first_number o) n b s /\ width b w /\
    nget r (b_sizes b) = Some z /\ nget (S r) (b_sizes b) = Some z' /\ s <= c < s + w /\
    evaluations ts s w r = z /\
    (forall t, In t ts -> s <= fst (st_id t) < s + w -> snd (st_id t) = r -> finished t) /\
    exists t0 v0, In t0 ts /\ st_id t0 = (c, r) /\ ranks o (st_out t0) v0 /\ v0 <> FNaN /\
      forall B, NoDup B -> (forall c', In c' B -> s <= c' < s + w /\
         exists t' v', In t' ts /\ st_id t' = (c', r) /\ ranks o (st_out t') v' /\ fl_ltb v' v0 = true) ->
      length B < z'.
Proof.
  intros k o f eta bs ts ts' fresh draw q c r X LG E SO IG BR HI P A PV.
  pose proof (brackets_good _ _ _ _ _ X LG E BR) as GD.
  pose proof (inv_perm _ _ _ _ P (history_inv _ _ _ _ _ _ _ _ X LG E BR HI)) as IV.
  destruct (sync_view _ _ _ _ _ _ _ _ _ _ _ X LG E BR A) as (lo & hi & tb & b & n & s & cu & ps & T & FB & PS & GC).
  destruct (inv_answer o argsort bs eta GD _ _ _ _ _ _ _ _ _ _ _ _ IV T FB PS GC) as [_ PR]. rewrite PV in PR.
  destruct PR as (sz & v & G & K & CB & RD). pose proof FB as (N & _).
  assert (FL : _) by (exact (full_lemma o argsort bs eta ts' lo hi tb n b s sz c r v SO IG IV T N G K RD)).
  destruct FL as (F1 & F2 & t0 & v0 & T0 & ID0 & RK0 & NV0 & BEST).
  assert (I : forall t, In t ts <-> In t ts') by (intros; split; apply Permutation_in; auto; apply Permutation_sym; auto).
  exists n, b, s, (base_size b), (sz r), (sz (S r)). split; [exact N|]. split; [apply (width_base _ _ GD); eapply nth_bracket_in; eauto|].
  split; [apply (g_get _ _ _ G); lia|]. split; [apply (g_get _ _ _ G); lia|]. split; auto.
  split; [rewrite (evaluations_perm _ _ _ _ _ P); auto|]. split; [intros t J; apply F2, I; auto|].
  exists t0, v0. split; [apply I; auto|]. split; auto. split; auto. split; auto.
  intros B ND BB. apply BEST; auto. intros c' C'. destruct (BB c' C') as (B1 & t' & v' & T' & B2).
  split; auto. exists t', v'. split; [apply I; auto|auto].
Qed.

Lemma live_lemma : forall k o f eta bs ts ts' fresh draw q n b s w r, exact lg -> legal f -> 2 <= eta -> sorts argsort ->
  brackets_of lg k f eta bs ->
  history (ask argsort lg k o f eta) ts -> Permutation ts ts' ->
  ask argsort lg k o f eta ts' fresh draw = Ok q ->
  nth_bracket bs (first_number o) n b s -> width b w ->
  (forall c, s <= c < s + w -> exists t, In t ts /\ fst (st_id t) = c) ->
  b_min b <= r < b_max b -> nget r (b_sizes b) = Some (evaluations ts s w r) ->
  (forall z, nget (S r) (b_sizes b) = Some z -> evaluations ts s w (S r) < z) ->
  (forall t, In t ts -> s <= fst (st_id t) < s + w -> exists v, ranks o (st_out t) v /\ v <> FNaN) ->
  q_prev q <> None.
Proof.
  intros k o f eta bs ts ts' fresh draw q n b s w r X LG E SO BR HI P A N WD ALL R FULL ROOM FIN.
  pose proof (brackets_good _ _ _ _ _ X LG E BR) as GD.
  pose proof (inv_perm _ _ _ _ P (history_inv _ _ _ _ _ _ _ _ X LG E BR HI)) as IV.
  assert (I : forall t, In t ts <-> In t ts') by (intros; split; apply Permutation_in; auto; apply Permutation_sym; auto).
  pose proof (width_fun _ _ GD b w (nth_bracket_in _ _ _ _ _ N) WD) as ->.
  rewrite !(evaluations_perm _ _ _ _ _ P) in *.
  assert (MAIN : forall b0, hb_ask argsort o f eta b0 bs ts' fresh = Ok q -> q_prev q <> None).
  { intros b0 HB. unfold hb_ask in HB. inv_bind HB tb T. destruct bs as [|b1 bs1] eqn:BE; [discriminate|]. rewrite <- BE in *.
    inv_bind HB size SZ. inv_bind HB bc C. destruct bc as [b2 cu]. inv_bind HB ps PS. apply ngetitem_ok in SZ.
    assert (IB : In b1 bs) by (rewrite BE; simpl; auto). rewrite (width_fun bs eta GD b1 size IB SZ) in C.
    eapply (hb_live o argsort bs eta GD f ts' _ _ tb _ b1 b2 cu ps fresh q n b s r SO IV T); eauto.
    - rewrite BE. auto.
    - intros c' C'. destruct (ALL c' C') as (t & J & D). exists t. split; [apply I; auto|auto].
    - intros t J. apply FIN. apply I. auto. }
  destruct k as [s'|s'| |]; simpl in BR; try contradiction; unfold ask in A.
  - destruct BR as (b' & M & ->). rewrite M in A. cbn [bind] in A.
    destruct (GD b' (or_introl eq_refl)) as [sz G]. rewrite (sh_is_hb _ _ _ _ _ _ _ _ G) in A. eauto.
  - destruct BR as (b0 & B). rewrite B in A. cbn [bind] in A. eauto.
Qed.
End Answer.
