(** Proofs about the ladder of budgets. *)
From Coq Require Import QArith Qround Lqa.
From Verif Require Export Ladder_spec.
Open Scope Q_scope.

Lemma inject_pow_pos : forall eta n, (2 <= eta)%nat -> 0 < qpow eta n.
Proof.
  intros. unfold qpow. change 0 with (inject_Z 0). rewrite <- Zlt_Qlt.
  apply Z.pow_pos_nonneg; lia.
Qed.
Lemma eta_pos : forall eta, (2 <= eta)%nat -> 2 <= inject_Z (Z.of_nat eta).
Proof. intros. change 2 with (inject_Z 2). rewrite <- Zle_Qle. lia. Qed.
Lemma qpow_S : forall eta n, qpow eta (S n) == inject_Z (Z.of_nat eta) * qpow eta n.
Proof.
  intros. unfold qpow. rewrite <- inject_Z_mult. rewrite Nat2Z.inj_succ, Z.pow_succ_r by lia.
  reflexivity.
Qed.
Lemma qpow_add : forall eta a b, qpow eta (a + b) == qpow eta a * qpow eta b.
Proof.
  intros. unfold qpow. rewrite <- inject_Z_mult, Nat2Z.inj_add, Z.pow_add_r by lia. reflexivity.
Qed.
Lemma qpow_0 : forall eta, qpow eta 0 == 1.
Proof. reflexivity. Qed.

(** The list is a function: budgets divided by powers of eta from the top. *)
Definition cut (f : fidelity) (x : Q) : Q := if f_int f then inject_Z (py_int x) else x.

Lemma fill_get : forall f eta s n b r,
  nget r (fill_rungs f eta s n b) =
  if (s <=? r)%nat && (r <? s + n)%nat
  then Some (cut f (fold_right (fun _ x => x / inject_Z (Z.of_nat eta)) b (repeat tt (s + n - 1 - r))))
  else None.
Proof.
  intros f eta s n. induction n as [|i IH]; intros b r; simpl.
  - replace (r <? s + 0)%nat with (r <? s)%nat by (f_equal; lia).
    destruct (Nat.leb_spec s r), (Nat.ltb_spec r s); auto; lia.
  - destruct (Nat.eqb_spec r (i + s)) as [->|N].
    + replace (s <=? i + s)%nat with true by (symmetry; apply Nat.leb_le; lia).
      replace (i + s <? s + S i)%nat with true by (symmetry; apply Nat.ltb_lt; lia). simpl.
      replace (s + S i - 1 - (i + s))%nat with 0%nat by lia. reflexivity.
    + rewrite IH. destruct (Nat.leb_spec s r); simpl; auto.
      destruct (Nat.ltb_spec r (s + i)), (Nat.ltb_spec r (s + S i)); try lia; auto.
      replace (s + S i - 1 - r)%nat with (S (s + i - 1 - r)) by lia. do 2 f_equal.
      simpl. generalize (s + i - 1 - r)%nat as k. clear. induction k; simpl; congruence.
Qed.

Lemma fold_div : forall eta k b, (2 <= eta)%nat ->
  fold_right (fun _ x => x / inject_Z (Z.of_nat eta)) b (repeat tt k) * qpow eta k == b.
Proof.
  intros eta k b E. pose proof (eta_pos _ E) as P. induction k as [|k IH]; simpl.
  - rewrite qpow_0. ring.
  - rewrite qpow_S.
    setoid_replace (fold_right (fun _ x => x / inject_Z (Z.of_nat eta)) b (repeat tt k) /
      inject_Z (Z.of_nat eta) * (inject_Z (Z.of_nat eta) * qpow eta k))
      with (fold_right (fun _ x => x / inject_Z (Z.of_nat eta)) b (repeat tt k) * qpow eta k).
    + exact IH.
    + field. intro Z. rewrite Z in P. lra.
Qed.

Lemma py_int_floor : forall x, 0 <= x -> py_int x = Qfloor x.
Proof. intros x H. unfold py_int. apply Qle_bool_iff in H. rewrite H. auto. Qed.

Lemma floor_bounds : forall x, inject_Z (Qfloor x) <= x /\ x < inject_Z (Qfloor x) + 1.
Proof.
  intros. split; [apply Qfloor_le|]. pose proof (Qlt_floor x) as H.
  rewrite inject_Z_plus in H. exact H.
Qed.

Lemma cut_bounds : forall f x, legal f -> f_lower f <= x -> x <= f_upper f ->
  f_lower f <= cut f x /\ cut f x <= f_upper f.
Proof.
  intros f x (P & _ & I) L U. unfold cut. destruct (f_int f); auto.
  rewrite py_int_floor by lra. destruct (I eq_refl) as [[a A] _].
  pose proof (floor_bounds x) as [F1 F2]. split; [|lra].
  rewrite A in L |- *. rewrite <- Zle_Qle. apply Qfloor_resp_le in L. rewrite Qfloor_Z in L. exact L.
Qed.

Lemma cut_step : forall f eta x, legal f -> (2 <= eta)%nat -> f_lower f <= x / inject_Z (Z.of_nat eta) ->
  let lo := cut f (x / inject_Z (Z.of_nat eta)) in let hi := cut f x in
  lo < hi /\ (f_int f = false -> lo * inject_Z (Z.of_nat eta) == hi) /\
  (f_int f = true -> lo * inject_Z (Z.of_nat eta) <= hi /\ hi < (lo + 1) * inject_Z (Z.of_nat eta)).
Proof.
  intros f eta x G E L. pose proof (eta_pos _ E) as P2. set (e := inject_Z (Z.of_nat eta)) in *.
  assert (X : x == x / e * e) by (field; intro Z; rewrite Z in P2; lra).
  set (y := x / e) in *. destruct G as (P & _ & I). unfold cut. cbv zeta.
  assert (YP : 0 < y) by lra.
  assert (XY : y < x) by (rewrite X; nra).
  destruct (f_int f) eqn:FI.
  - rewrite !py_int_floor by lra.
    pose proof (floor_bounds x) as [F1 F2]. pose proof (floor_bounds y) as [G1 G2].
    set (a := Qfloor y) in *. set (b := Qfloor x) in *.
    assert (A1 : (1 <= a)%Z).
    { destruct (I eq_refl) as [[l LE] _]. rewrite LE in L, P.
      change 0 with (inject_Z 0) in P. rewrite <- Zlt_Qlt in P.
      apply Qfloor_resp_le in L. rewrite Qfloor_Z in L. unfold a. lia. }
    assert (M : inject_Z a * e <= inject_Z b).
    { unfold e. rewrite <- inject_Z_mult, <- Zle_Qle.
      assert (Q1 : inject_Z (a * Z.of_nat eta) <= x).
      { rewrite inject_Z_mult. fold e. rewrite X. apply Qmult_le_compat_r; lra. }
      apply Qfloor_resp_le in Q1. rewrite Qfloor_Z in Q1. exact Q1. }
    assert (M2 : inject_Z b < (inject_Z a + 1) * e).
    { apply Qle_lt_trans with x; [exact F1|]. rewrite X. apply Qmult_lt_compat_r; lra. }
    assert (AP : 1 <= inject_Z a) by (change 1 with (inject_Z 1); rewrite <- Zle_Qle; lia).
    split; [|split; [discriminate|auto]].
    apply Qlt_le_trans with (inject_Z a * e); [|exact M]. nra.
  - split; [exact XY|split; [|discriminate]]. intros _. rewrite <- X. reflexivity.
Qed.

Lemma list_min_fill : forall f eta s n b, (1 <= n)%nat ->
  list_min (map fst (fill_rungs f eta s n b)) = Ok s /\
  list_max (map fst (fill_rungs f eta s n b)) = Ok (s + n - 1)%nat.
Proof.
  intros f eta s n b H. destruct n as [|i]; [lia|]. simpl.
  assert (A : forall i b m, (s <= m)%nat ->
    fold_left Nat.min (map fst (fill_rungs f eta s i b)) m =
    (match i with O => m | _ => s end)).
  { clear. induction i as [|i IH]; intros b m L; simpl; auto. rewrite IH by lia.
    destruct i; lia. }
  assert (B : forall i b m, (i + s <= S m)%nat ->
    fold_left Nat.max (map fst (fill_rungs f eta s i b)) m = m).
  { clear. induction i as [|i IH]; intros b m L; simpl; auto.
    replace (Nat.max m (i + s)) with m by lia. apply IH. lia. }
  rewrite A by lia. rewrite B by lia. split; f_equal; [destruct i; auto; lia|lia].
Qed.

Section Log.
Variable lg : Q -> nat -> Z.

Lemma exact_below : exact lg -> never_above lg.
Proof. intros H q eta E Q. destruct (H q eta E Q) as (A & B & _). auto. Qed.

Lemma ratio_ge_1 : forall a b, 0 < b -> b <= a -> 1 <= a / b.
Proof. intros. apply Qle_shift_div_l; lra. Qed.

Lemma limit_ok : forall f eta s, never_above lg -> legal f -> (2 <= eta)%nat ->
  (Z.of_nat s <= stopping_rate_limit lg f eta)%Z ->
  0 < f_lower f * qpow eta s /\ f_lower f * qpow eta s <= f_upper f.
Proof.
  intros f eta s H G E L. pose proof G as (P & LU & _). pose proof (inject_pow_pos eta s E) as PP.
  split; [nra|].
  unfold stopping_rate_limit in L.
  destruct (H (f_upper f / f_lower f) eta E (ratio_ge_1 _ _ P (Qlt_le_weak _ _ LU))) as [N U].
  set (k := lg (f_upper f / f_lower f) eta) in *.
  assert (qpow eta s <= f_upper f / f_lower f).
  { apply Qle_trans with (inject_Z (Z.of_nat eta ^ k)); [|exact U]. unfold qpow.
    rewrite <- Zle_Qle. apply Z.pow_le_mono_r; lia. }
  assert (X : f_upper f == f_lower f * (f_upper f / f_lower f)) by (field; lra).
  rewrite X. nra.
Qed.

Lemma nrungs_ok : forall f eta s, never_above lg -> legal f -> (2 <= eta)%nat ->
  (Z.of_nat s <= stopping_rate_limit lg f eta)%Z ->
  (1 <= nrungs lg f eta s)%nat /\
  f_lower f * qpow eta s * qpow eta (nrungs lg f eta s - 1) <= f_upper f.
Proof.
  intros f eta s H G E L. destruct (limit_ok f eta s H G E L) as [P U].
  unfold nrungs. set (m := f_lower f * qpow eta s) in *.
  destruct (H (f_upper f / m) eta E (ratio_ge_1 _ _ P U)) as [N V].
  set (k := lg (f_upper f / m) eta) in *.
  assert (X : f_upper f == m * (f_upper f / m)) by (field; lra).
  split; [lia|].
  replace (Z.to_nat (k + 1) - 1)%nat with (Z.to_nat k) by lia.
  unfold qpow. rewrite Z2Nat.id by lia. rewrite X. nra.
Qed.

Lemma nrungs_exact : forall f eta s, exact lg -> legal f -> (2 <= eta)%nat ->
  (Z.of_nat s <= stopping_rate_limit lg f eta)%Z ->
  (Z.of_nat (nrungs lg f eta s) = stopping_rate_limit lg f eta - Z.of_nat s + 1)%Z.
Proof.
  intros f eta s H G E L. destruct (limit_ok f eta s (exact_below H) G E L) as [P U].
  pose proof G as (P0 & LU & _). pose proof (inject_pow_pos eta s E) as PP.
  unfold nrungs, stopping_rate_limit in *.
  destruct (H _ eta E (ratio_ge_1 _ _ P U)) as (A0 & A1 & A2).
  destruct (H _ eta E (ratio_ge_1 _ _ P0 (Qlt_le_weak _ _ LU))) as (B0 & B1 & B2).
  set (k := lg (f_upper f / (f_lower f * qpow eta s)) eta) in *.
  set (k0 := lg (f_upper f / f_lower f) eta) in *.
  assert (X : f_upper f / f_lower f == f_upper f / (f_lower f * qpow eta s) * qpow eta s)
    by (field; split; lra).
  rewrite X in B1, B2. set (q := f_upper f / (f_lower f * qpow eta s)) in *.
  rewrite Z2Nat.id by lia.
  assert (EP : forall a, (0 <= a)%Z -> inject_Z (Z.of_nat eta ^ a) * qpow eta s ==
                         inject_Z (Z.of_nat eta ^ (a + Z.of_nat s))).
  { intros a HA. unfold qpow. rewrite <- inject_Z_mult, <- Z.pow_add_r by lia. reflexivity. }
  assert (C1 : (Z.of_nat eta ^ (k + Z.of_nat s) < Z.of_nat eta ^ (k0 + 1))%Z).
  { rewrite Zlt_Qlt. eapply Qle_lt_trans; [|exact B2]. rewrite <- EP by lia.
    apply Qmult_le_compat_r; lra. }
  assert (C2 : (Z.of_nat eta ^ k0 < Z.of_nat eta ^ (k + 1 + Z.of_nat s))%Z).
  { rewrite Zlt_Qlt. eapply Qle_lt_trans; [exact B1|]. rewrite <- EP by lia.
    apply Qmult_lt_compat_r; lra. }
  apply Z.pow_lt_mono_r_iff in C1; try lia. apply Z.pow_lt_mono_r_iff in C2; lia.
Qed.

Lemma make_bracket_inv : forall f eta s b, never_above lg -> legal f -> (2 <= eta)%nat ->
  make_bracket lg f eta s = Ok b ->
  (Z.of_nat s <= stopping_rate_limit lg f eta)%Z /\ (1 <= nrungs lg f eta s)%nat /\
  b_rungs b = fill_rungs f eta s (nrungs lg f eta s) (f_upper f) /\
  get_config_map lg f eta s = Ok (b_sizes b) /\
  b_min b = s /\ b_max b = (s + nrungs lg f eta s - 1)%nat.
Proof.
  intros f eta s b H G E M. unfold make_bracket, get_rung_map in M.
  destruct (Z.leb_spec (Z.of_nat s) (stopping_rate_limit lg f eta)) as [L|L]; [|discriminate].
  destruct (nrungs_ok f eta s H G E L) as [N _].
  destruct (list_min_fill f eta s (nrungs lg f eta s) (f_upper f) N) as [A B].
  cbn [bind] in M. destruct (get_config_map lg f eta s) eqn:C; [|discriminate].
  cbn [bind] in M. rewrite A, B in M. cbn [bind] in M. injection M as <-. auto 10.
Qed.

Lemma make_bracket_ok : forall f eta s, never_above lg -> legal f -> (2 <= eta)%nat ->
  (Z.of_nat s <= stopping_rate_limit lg f eta)%Z -> exists b, make_bracket lg f eta s = Ok b.
Proof.
  intros f eta s H G E L. unfold make_bracket, get_rung_map, get_config_map.
  destruct (nrungs_ok f eta s H G E L) as [N _].
  destruct (list_min_fill f eta s (nrungs lg f eta s) (f_upper f) N) as [A B].
  apply Z.leb_le in L. rewrite L. cbn [bind]. rewrite A, B. cbn [bind]. eauto.
Qed.

Lemma ladder_lemma : forall f eta s b, never_above lg -> legal f -> (2 <= eta)%nat ->
  make_bracket lg f eta s = Ok b ->
  good_ladder f eta (b_min b) (b_max b) (fun r => nget r (b_rungs b)).
Proof.
  intros f eta s b H G E M.
  destruct (make_bracket_inv f eta s b H G E M) as (L & N & -> & _ & -> & ->).
  destruct (nrungs_ok f eta s H G E L) as [_ U]. pose proof G as (P & LU & I).
  set (n := nrungs lg f eta s) in *.
  set (v := fun k => fold_right (fun _ x => x / inject_Z (Z.of_nat eta)) (f_upper f) (repeat tt k)).
  assert (V : forall k, (k <= n - 1)%nat -> f_lower f <= v k /\ v k <= f_upper f).
  { intros k K. pose proof (fold_div eta k (f_upper f) E) as D. fold (v k) in D.
    pose proof (inject_pow_pos eta k E) as PK. pose proof (inject_pow_pos eta s E) as PS.
    assert (1 <= qpow eta k).
    { unfold qpow. change 1 with (inject_Z 1). rewrite <- Zle_Qle.
      assert (0 < Z.of_nat eta ^ Z.of_nat k)%Z by (apply Z.pow_pos_nonneg; lia). lia. }
    assert (1 <= qpow eta s).
    { unfold qpow. change 1 with (inject_Z 1). rewrite <- Zle_Qle.
      assert (0 < Z.of_nat eta ^ Z.of_nat s)%Z by (apply Z.pow_pos_nonneg; lia). lia. }
    assert (W : f_lower f * qpow eta k <= f_upper f).
    { eapply Qle_trans; [|exact U].
      replace (n - 1)%nat with (k + (n - 1 - k))%nat by lia. rewrite qpow_add.
      pose proof (inject_pow_pos eta (n - 1 - k) E) as PD.
      assert (1 <= qpow eta (n - 1 - k)).
      { unfold qpow. change 1 with (inject_Z 1). rewrite <- Zle_Qle.
        assert (0 < Z.of_nat eta ^ Z.of_nat (n - 1 - k))%Z by (apply Z.pow_pos_nonneg; lia). lia. }
      assert (0 < f_lower f * qpow eta k) by nra.
      setoid_replace (f_lower f * qpow eta s * (qpow eta k * qpow eta (n - 1 - k)))
        with (f_lower f * qpow eta k * (qpow eta s * qpow eta (n - 1 - k))) by ring.
      assert (1 <= qpow eta s * qpow eta (n - 1 - k)) by nra. nra. }
    split.
    - apply Qmult_le_r with (qpow eta k); [exact PK|]. rewrite D. exact W.
    - apply Qmult_le_r with (qpow eta k); [exact PK|]. rewrite D. nra. }
  assert (GET : forall r, nget r (fill_rungs f eta s n (f_upper f)) =
     if (s <=? r)%nat && (r <? s + n)%nat then Some (cut f (v (s + n - 1 - r)%nat)) else None)
    by (intros; apply fill_get).
  split; [lia|]. split; [|split; [|split]].
  - intros r. rewrite GET. destruct (Nat.leb_spec s r), (Nat.ltb_spec r (s + n)); simpl;
      split; intros X; try lia; eauto; destruct X; discriminate.
  - intros r x. rewrite GET. destruct (Nat.leb_spec s r), (Nat.ltb_spec r (s + n)); simpl;
      intros X; try discriminate. injection X as <-.
    destruct (V (s + n - 1 - r)%nat) as [V1 V2]; [lia|]. apply cut_bounds; auto.
  - rewrite GET. destruct (Nat.leb_spec s (s + n - 1)), (Nat.ltb_spec (s + n - 1) (s + n)); try lia.
    simpl. eexists. split; [reflexivity|].
    replace (s + n - 1 - (s + n - 1))%nat with 0%nat by lia. unfold v, cut. simpl.
    destruct (f_int f); [|reflexivity]. destruct (I eq_refl) as [_ [c C]]. rewrite C.
    rewrite py_int_floor by (rewrite <- C; lra). rewrite Qfloor_Z. reflexivity.
  - intros r x y. rewrite !GET.
    destruct (Nat.leb_spec s r), (Nat.ltb_spec r (s + n)); simpl; intros X; try discriminate.
    destruct (Nat.leb_spec s (S r)), (Nat.ltb_spec (S r) (s + n)); simpl; intros Y; try discriminate.
    injection X as <-. injection Y as <-.
    replace (s + n - 1 - r)%nat with (S (s + n - 1 - S r)) by lia.
    apply (cut_step f eta (v (s + n - 1 - S r)%nat) G E).
    apply (V (S (s + n - 1 - S r))). lia.
Qed.

(** With exact logarithms all brackets have the same highest rung. *)
Lemma fill_firstn : forall f eta s n b,
  fill_rungs f eta s n b = firstn n (fill_rungs f eta 0 (s + n) b).
Proof.
  intros f eta s n. induction n as [|i IH]; intros b; simpl; auto.
  replace (s + S i)%nat with (S (s + i)) by lia. simpl.
  replace (s + i + 0)%nat with (i + s)%nat by lia. f_equal. apply IH.
Qed.

Lemma brackets_lemma : forall f eta, exact lg -> legal f -> (2 <= eta)%nat ->
  exists b0, make_bracket lg f eta 0 = Ok b0 /\
    Z.of_nat (b_max b0) = stopping_rate_limit lg f eta /\
    (forall s, (s <= b_max b0)%nat ->
       exists b, make_bracket lg f eta s = Ok b /\ b_min b = s /\ b_max b = b_max b0 /\
         (forall r, nget r (b_rungs b) = if (s <=? r)%nat then nget r (b_rungs b0) else None)) /\
    (forall s, (b_max b0 < s)%nat -> make_bracket lg f eta s = Err AssertionError).
Proof.
  intros f eta X G E. pose proof (exact_below X) as H.
  assert (L0 : (0 <= stopping_rate_limit lg f eta)%Z).
  { pose proof G as (P & LU & _).
    apply (X (f_upper f / f_lower f) eta E). apply ratio_ge_1; lra. }
  destruct (make_bracket_ok f eta 0 H G E L0) as [b0 B0]. exists b0.
  destruct (make_bracket_inv f eta 0 b0 H G E B0) as (_ & N0 & R0 & _ & M0 & T0).
  pose proof (nrungs_exact f eta 0 X G E L0) as K0.
  assert (T : Z.of_nat (b_max b0) = stopping_rate_limit lg f eta) by lia.
  split; [auto|]. split; [auto|]. split.
  - intros s S.
    assert (L : (Z.of_nat s <= stopping_rate_limit lg f eta)%Z) by lia.
    destruct (make_bracket_ok f eta s H G E L) as [b B]. exists b.
    destruct (make_bracket_inv f eta s b H G E B) as (_ & N & R & _ & M & TT).
    pose proof (nrungs_exact f eta s X G E L) as K.
    split; [auto|]. split; [auto|]. split; [lia|].
    intros r. rewrite R, R0, !fill_get.
    assert (EN : (s + nrungs lg f eta s = nrungs lg f eta 0)%nat) by lia.
    rewrite EN. simpl. destruct (Nat.leb_spec s r); simpl; auto.
  - intros s S. unfold make_bracket.
    destruct (Z.leb_spec (Z.of_nat s) (stopping_rate_limit lg f eta)); auto. lia.
Qed.

(** Sizes *)
Lemma sizes_get : forall eta n i size r, (2 <= eta)%nat ->
  nget r (fill_sizes eta n i size) =
  if (i <=? r)%nat && (r <? i + n)%nat then Some (size / eta ^ (r - i))%nat else None.
Proof.
  intros eta n. induction n as [|n IH]; intros i size r E; cbn [fill_sizes nget].
  - replace (r <? i + 0)%nat with (r <? i)%nat by (f_equal; lia).
    destruct (Nat.leb_spec i r), (Nat.ltb_spec r i); auto; lia.
  - destruct (Nat.eqb_spec r i) as [->|N].
    + replace (i <=? i)%nat with true by (symmetry; apply Nat.leb_le; lia).
      replace (i <? i + S n)%nat with true by (symmetry; apply Nat.ltb_lt; lia). cbn [andb].
      rewrite Nat.sub_diag, Nat.pow_0_r, Nat.div_1_r. auto.
    + rewrite IH by auto. destruct (Nat.leb_spec (S i) r), (Nat.leb_spec i r); try lia; cbn [andb]; auto.
      replace (r <? S i + n)%nat with (r <? i + S n)%nat by (f_equal; lia).
      destruct (r <? i + S n)%nat; auto. f_equal.
      replace (r - i)%nat with (S (r - S i)) by lia. rewrite Nat.pow_succ_r'.
      rewrite Nat.div_div by (try apply Nat.pow_nonzero; lia). auto.
Qed.

Lemma sizes_lemma : forall f eta s b, exact lg -> legal f -> (2 <= eta)%nat ->
  make_bracket lg f eta s = Ok b ->
  forall r, nget r (b_sizes b) =
    if (s <=? r)%nat && (r <=? b_max b)%nat
    then Some ((b_max b + 1) / (b_max b - s + 1) * eta ^ (b_max b - r))%nat else None.
Proof.
  intros f eta s b X G E M r. pose proof (exact_below X) as H.
  destruct (make_bracket_inv f eta s b H G E M) as (L & N & _ & C & _ & T).
  pose proof (nrungs_exact f eta s X G E L) as K.
  unfold get_config_map in C. apply Z.leb_le in L. rewrite L in C. apply Z.leb_le in L.
  injection C as <-. rewrite sizes_get by auto.
  assert (SL : stopping_rate_limit lg f eta = Z.of_nat (b_max b)) by lia. rewrite SL in *.
  replace (Z.to_nat (Z.of_nat (b_max b) + 1)) with (b_max b + 1)%nat by lia.
  replace (Z.to_nat (Z.of_nat (b_max b) - Z.of_nat s)) with (b_max b - s)%nat by lia.
  replace (r <? s + nrungs lg f eta s)%nat with (r <=? b_max b)%nat
    by (destruct (Nat.leb_spec r (b_max b)), (Nat.ltb_spec r (s + nrungs lg f eta s)); auto; lia).
  destruct (Nat.leb_spec s r), (Nat.leb_spec r (b_max b)); simpl; auto. f_equal.
  replace (b_max b - s)%nat with (b_max b - r + (r - s))%nat at 2 by lia.
  rewrite Nat.pow_add_r, Nat.mul_assoc. apply Nat.div_mul. apply Nat.pow_nonzero. lia.
Qed.
End Log.

(** A logarithm computed exactly, and one that loses a rung at 243 = 3^5 as the quotient
    of the floats does (math.log(243)/math.log(3) = 4.999999999999999). *)
Fixpoint ilog (eta z : Z) (n : nat) (k p : Z) : Z :=
  match n with
  | O => k
  | S n' => if (eta * p <=? z)%Z then ilog eta z n' (k + 1) (eta * p) else k
  end.
Definition exact_log (q : Q) (eta : nat) : Z :=
  ilog (Z.of_nat eta) (Qfloor q) (Z.to_nat (Qfloor q)) 0 1.
Definition float_log (q : Q) (eta : nat) : Z :=
  if Qeq_bool q 243 && Nat.eqb eta 3 then 4 else exact_log q eta.

Lemma ilog_ok : forall eta z n k, (2 <= eta)%Z -> (0 <= k)%Z -> (z <= Z.of_nat n + k)%Z ->
  (eta ^ k <= z)%Z ->
  let r := ilog eta z n k (eta ^ k) in (0 <= r)%Z /\ (eta ^ r <= z < eta ^ (r + 1))%Z.
Proof.
  intros eta z n. induction n as [|n IH]; intros k E K F L; cbv zeta; cbn [ilog].
  - assert (k < eta ^ k)%Z by (apply Z.pow_gt_lin_r; lia). lia.
  - destruct (Z.leb_spec (eta * eta ^ k) z) as [C|C].
    + replace (eta * eta ^ k)%Z with (eta ^ (k + 1))%Z in * by (rewrite Z.pow_add_r, Z.pow_1_r by lia; lia).
      apply IH; lia.
    + split; [lia|split; [lia|]]. rewrite Z.pow_add_r, Z.pow_1_r by lia. lia.
Qed.
Lemma exact_log_exact : exact exact_log.
Proof.
  intros q eta E Q. unfold exact_log, whole_log.
  assert (F : (1 <= Qfloor q)%Z) by (apply Qfloor_resp_le in Q; exact Q).
  destruct (ilog_ok (Z.of_nat eta) (Qfloor q) (Z.to_nat (Qfloor q)) 0) as (A & B & C); try lia.
  rewrite Z.pow_0_r in *. pose proof (floor_bounds q) as [F1 F2].
  split; [exact A|]. split.
  - eapply Qle_trans; [|exact F1]. rewrite <- Zle_Qle. exact B.
  - eapply Qlt_le_trans; [exact F2|]. change 1 with (inject_Z 1). rewrite <- inject_Z_plus, <- Zle_Qle. lia.
Qed.
Lemma float_log_close : forall q eta, (2 <= eta)%nat -> 1 <= q ->
  exists z, whole_log eta q z /\ (z - 1 <= float_log q eta <= z)%Z.
Proof.
  intros q eta E Q. exists (exact_log q eta). split; [exact (exact_log_exact q eta E Q)|].
  unfold float_log. destruct (Qeq_bool q 243 && Nat.eqb eta 3) eqn:D; [|lia].
  apply andb_prop in D. destruct D as [D1 D2]. apply Qeq_bool_eq in D1. apply Nat.eqb_eq in D2. subst eta.
  unfold exact_log. rewrite (Qfloor_comp _ _ D1). change (Qfloor 243) with 243%Z.
  replace (ilog (Z.of_nat 3) 243 (Z.to_nat 243) 0 1) with 5%Z by reflexivity. lia.
Qed.
Lemma float_log_below : never_above float_log.
Proof.
  intros q eta E Q. destruct (exact_log_exact q eta E Q) as (A & B & _).
  unfold float_log. destruct (Qeq_bool q 243 && Nat.eqb eta 3) eqn:D; [|auto].
  apply andb_prop in D. destruct D as [D1 D2]. apply Qeq_bool_eq in D1. apply Nat.eqb_eq in D2. subst eta.
  split; [lia|]. rewrite D1. compute. discriminate.
Qed.
