(** Round trips and casts, exact arithmetic. *)
From Verif Require Import Dom_spec Dom_proofs.
From Coq Require Import Lqa Qfield.
Open Scope Q_scope.

Section Cast.
  Variables lnf expf : Q -> Q.
  Hypothesis ID : ideal lnf expf.
  Notation AR := (Qar lnf expf).

  Lemma ideal_ok : forall s, good s -> log_ok lnf expf s.
  Proof.
    intros s (G & P & _) L. destruct ID as (I1 & I2 & I3 & I4 & I5 & I6). specialize (P L).
    split; [apply I1; auto |]. split; [apply I4; auto |]. split; [apply I4; lra | exact I3].
  Qed.

  Lemma ln_le : forall x y, 0 < x -> x <= y -> lnf x <= lnf y.
  Proof.
    intros x y P H. destruct ID as (I1 & I2 & _).
    destruct (Qlt_le_dec x y) as [L | L].
    - apply Qlt_le_weak. apply I1; auto.
    - assert (E : x == y) by lra. rewrite (I2 _ _ E). apply Qle_refl.
  Qed.

  Definition span (s : desc) : Q := if is_log s then lnf (hi s) - lnf (lo s) else hi s - lo s.
  Lemma span_pos : forall s, good s -> 0 < span s.
  Proof.
    intros s G. assert (L := ideal_ok s G). unfold span. unfold log_ok in L. destruct G as (G & _).
    destruct (is_log s); [| lra]. destruct (L eq_refl) as (L1 & _). lra.
  Qed.

  Lemma lin_in : forall s x, good s -> lo s <= x -> x <= hi s -> 0 <= lin lnf s x /\ lin lnf s x <= 1.
  Proof.
    intros s x G H0 H1. assert (SP := span_pos s G). unfold span in SP. unfold lin.
    assert (W := width_eq s). destruct G as (G & P & _).
    destruct (is_log s).
    - specialize (P eq_refl).
      assert (lnf (lo s) <= lnf x) by (apply ln_le; auto).
      assert (lnf x <= lnf (hi s)) by (apply ln_le; auto; lra).
      split; [apply Qle_shift_div_l | apply Qle_shift_div_r]; lra.
    - split; [apply Qle_shift_div_l | apply Qle_shift_div_r]; lra.
  Qed.
  Lemma lin_proper : forall s x y, x == y -> lin lnf s x == lin lnf s y.
  Proof.
    intros s x y H. unfold lin. destruct ID as (_ & I2 & _). destruct (is_log s).
    - rewrite (I2 _ _ H). reflexivity.
    - rewrite H. reflexivity.
  Qed.

  Lemma lin_point : forall s t, good s -> lin lnf s (point lnf expf s t) == t.
  Proof.
    intros s t G. assert (SP := span_pos s G). unfold span in SP. unfold lin, point.
    assert (W := width_eq s). destruct ID as (_ & I2 & _ & _ & I5 & _).
    destruct (is_log s).
    - rewrite I5. field. lra.
    - rewrite W. field. lra.
  Qed.
  Lemma point_lin : forall s x, good s -> lo s <= x -> point lnf expf s (lin lnf s x) == x.
  Proof.
    intros s x G H. assert (SP := span_pos s G). unfold span in SP. unfold lin, point.
    assert (W := width_eq s). destruct ID as (_ & I2 & I3 & I4 & _).
    destruct G as (G & P & _).
    destruct (is_log s).
    - specialize (P eq_refl). assert (PX : 0 < x) by lra.
      apply (Qeq_trans _ (expf (lnf x))); [| apply I4; exact PX].
      assert (E : lnf (lo s) + (lnf x - lnf (lo s)) / (lnf (hi s) - lnf (lo s)) * (lnf (hi s) - lnf (lo s)) == lnf x)
        by (field; lra).
      apply Qle_antisym; apply I3; rewrite E; apply Qle_refl.
    - rewrite W. field. lra.
  Qed.

  Lemma enc_in : forall s x, good s -> lo s <= x -> x <= hi s -> 0 <= enc lnf s x /\ enc lnf s x <= 1.
  Proof.
    intros s x G H0 H1. unfold enc. destruct (lin_in s x G H0 H1). apply cell_in; auto.
  Qed.

  Lemma cell_proper : forall s x y, x == y -> cell s x == cell s y.
  Proof. intros s x y H. unfold cell. destruct (card s); auto. apply frac_proper. exact H. Qed.
  Lemma cell_cell : forall s x, good s -> cell s (cell s x) == cell s x.
  Proof.
    intros s x G. unfold cell. destruct (card s) as [q |] eqn:C; [| reflexivity].
    apply frac_frac. eapply card_ge2; eauto.
  Qed.

  (** The unit value of a legal value of an exact domain is one the unit interval is quantised to. *)
  Lemma cell_lin : forall s x, good s -> exact s -> legal lnf expf s x -> cell s (lin lnf s x) == lin lnf s x.
  Proof.
    intros s x G X (H0 & H1 & HI & HB).
    destruct s as [l u g b | l u g b]; cbn [exact] in X.
    - destruct X; subst g b. destruct (HI eq_refl) as [z Hz].
      cbn [lo hi] in H0, H1. assert (G' := G). destruct G' as (G' & _). cbn [lo hi] in G'. rewrite <- Zlt_Qlt in G'.
      rewrite Hz in H0, H1. rewrite <- Zle_Qle in H0, H1.
      assert (P : 0 < inject_Z (u - l)) by (apply injZ_pos; lia).
      assert (E : lin lnf (DInt l u false None) x == inject_Z (z - l) / inject_Z (u - l + 1 - 1)).
      { unfold lin. cbn [is_log lo width]. replace (u - l + 1 - 1)%Z with (u - l)%Z by lia.
        rewrite Hz, (injZ_sub z l). reflexivity. }
      rewrite (cell_proper _ _ _ E), E. unfold cell. cbn [card]. apply (frac_grid _ (z - l)%Z); try lia. reflexivity.
    - unfold cell. cbn [card]. destruct b as [b |]; [| reflexivity].
      assert (B2 : (2 <= b)%Z) by (apply G; reflexivity).
      destruct (HB b eq_refl) as (k & Hk & E). cbn [integral] in E.
      assert (E' : lin lnf (DFloat l u g (Some b)) x == inject_Z k / inject_Z (b - 1)).
      { rewrite (lin_proper _ _ _ E). apply lin_point. exact G. }
      rewrite (frac_proper _ _ _ E'), E'. apply frac_grid with (k := k); auto; try lia. reflexivity.
  Qed.

  (** The point a legal value is decoded from, before rounding. *)
  Lemma core_rt : forall s x, good s -> exact s -> legal lnf expf s x ->
    point lnf expf s (cell s (enc lnf s x)) == x.
  Proof.
    intros s x G X L. assert (LG := L). destruct LG as (H0 & H1 & _).
    rewrite (point_proper lnf expf s _ (lin lnf s x) G (ideal_ok s G)).
    - apply point_lin; auto.
    - unfold enc. rewrite (cell_cell s _ G). apply cell_lin; auto.
  Qed.

  Lemma roundtrip : forall s x, good s -> exact s -> legal lnf expf s x -> dec lnf expf s (enc lnf s x) == x.
  Proof.
    intros s x G X L. assert (C := core_rt s x G X L). unfold dec.
    assert (R := raw_point lnf expf s (cell s (enc lnf s x)) (ideal_ok s G)).
    destruct (integral s) eqn:I.
    - destruct L as (_ & _ & HI & _). destruct (HI I) as [z Hz].
      rewrite (rint_of_Z _ z); [symmetry; exact Hz |]. lra.
    - lra.
  Qed.

  Lemma roundtrip_ends : forall s, good s ->
    dec lnf expf s (enc lnf s (lo s)) == lo s /\ dec lnf expf s (enc lnf s (hi s)) == hi s.
  Proof.
    intros s G. assert (L := ideal_ok s G).
    destruct (dec_ends lnf expf s G L) as [E0 E1].
    assert (SP := span_pos s G). unfold span in SP. assert (W := width_eq s).
    assert (C : cell s 0 == 0 /\ cell s 1 == 1).
    { unfold cell. destruct (card s) as [q |] eqn:E; [| split; reflexivity].
      assert (2 <= q)%Z by (eapply card_ge2; eauto). split; [apply frac_0 | apply frac_1]; auto. }
    destruct C as [C0 C1].
    split.
    - apply (Qeq_trans _ (dec lnf expf s 0)); [| exact E0]. apply dec_proper; auto. unfold enc.
      apply (Qeq_trans _ (cell s 0)); [| exact C0]. apply cell_proper. unfold lin. destruct (is_log s).
      + field. lra.
      + rewrite W. field. lra.
    - apply (Qeq_trans _ (dec lnf expf s 1)); [| exact E1]. apply dec_proper; auto. unfold enc.
      apply (Qeq_trans _ (cell s 1)); [| exact C1]. apply cell_proper. unfold lin. destruct (is_log s).
      + field. lra.
      + rewrite W. field. lra.
  Qed.

  Lemma unit_roundtrip : forall l u g t, good (DFloat l u g None) ->
    enc lnf (DFloat l u g None) (dec lnf expf (DFloat l u g None) t) == t.
  Proof.
    intros l u g t G. unfold enc, dec, cell. cbn [integral card].
    rewrite (lin_proper _ _ _ (raw_point lnf expf (DFloat l u g None) t (ideal_ok _ G))).
    apply lin_point. exact G.
  Qed.

  (** *** Casts *)
  Lemma pair_eqb_eq : forall a b c d : Q,
    pair_eqb AR (Some a, Some b) (Some c, Some d) = true -> a == c /\ b == d.
  Proof.
    intros a b c d H. unfold pair_eqb in H. cbn [fst snd aeqb Qar] in H.
    apply andb_true_iff in H. destruct H as [H1 H2]. apply Qeq_bool_iff in H1, H2. auto.
  Qed.
  Lemma pair_eqb_true : forall a b c d : Q, a == c -> b == d ->
    pair_eqb AR (Some a, Some b) (Some c, Some d) = true.
  Proof.
    intros a b c d H1 H2. unfold pair_eqb. cbn [fst snd aeqb Qar].
    apply Qeq_bool_iff in H1, H2. rewrite H1, H2. reflexivity.
  Qed.
  Lemma low_dom : forall s cat, d_lower AR (dom lnf s cat) = Some (lo s).
  Proof. intros [|]; reflexivity. Qed.
  Lemma upp_dom : forall s cat, d_upper AR (dom lnf s cat) = Some (hi s).
  Proof. intros [|]; reflexivity. Qed.
  Lemma log_dom : forall s cat, d_log (dom lnf s cat) = logs lnf s.
  Proof. intros [|]; reflexivity. Qed.
  Lemma card_dom : forall s cat, d_card (dom lnf s cat) = size_of s.
  Proof. intros [l u g [b|] |]; reflexivity. Qed.
  Lemma unit_dom : forall s cat, d_unit (dom lnf s cat) = false.
  Proof. intros [|]; reflexivity. Qed.
  Lemma card_size : forall s, card s = size_of s.
  Proof. intros [l u g [b|] |]; reflexivity. Qed.

  Lemma bounds_eqb_dom : forall s s' cat cat',
    bounds_eqb AR (d_bounds (dom lnf s cat)) (d_bounds (dom lnf s' cat')) = true <-> lo s == lo s' /\ hi s == hi s'.
  Proof.
    intros s s' cat cat'.
    assert (Z0 : forall a b, Z.eqb a b = true <-> inject_Z a == inject_Z b).
    { intros a b. rewrite Z.eqb_eq, inject_Z_injective. reflexivity. }
    destruct s, s'; cbn [dom d_bounds bounds_eqb b_lower b_upper lo hi aZ aeqb Qar];
      rewrite andb_true_iff, ?Qeq_bool_iff, ?Z0; reflexivity.
  Qed.

  Lemma same_domain_dom : forall s s' cat cat',
    same_domain AR (dom lnf s cat) (dom lnf s' cat') = true ->
    lo s == lo s' /\ hi s == hi s' /\ is_log s = is_log s' /\ size_of s = size_of s' /\
    (is_log s = true -> lnf (lo s) == lnf (lo s') /\ lnf (hi s) == lnf (hi s')).
  Proof.
    intros s s' cat cat' H. unfold same_domain in H.
    rewrite !andb_true_iff in H. destruct H as [[H1 H2] H3].
    apply bounds_eqb_dom in H1. rewrite !log_dom in H2. rewrite !card_dom in H3.
    split; [apply H1 |]. split; [apply H1 |].
    assert (E : size_of s = size_of s').
    { destruct (size_of s), (size_of s'); cbn in H3; try discriminate; auto.
      apply Z.eqb_eq in H3. congruence. }
    unfold logs in H2. destruct (is_log s), (is_log s'); cbn [opt_eqb] in H2; try discriminate.
    - apply pair_eqb_eq in H2. auto.
    - split; [auto |]. split; [auto |]. discriminate.
  Qed.
  Lemma same_domain_self : forall s cat cat', same_domain AR (dom lnf s cat) (dom lnf s cat') = true.
  Proof.
    intros s cat cat'. unfold same_domain. rewrite !andb_true_iff. split; [split |].
    - apply bounds_eqb_dom. split; reflexivity.
    - rewrite !log_dom. unfold logs. destruct (is_log s); auto. cbn [opt_eqb].
      apply pair_eqb_true; reflexivity.
    - rewrite !card_dom. destruct (size_of s); auto. cbn [opt_eqb]. apply Z.eqb_refl.
  Qed.

  Lemma log_lift_dom : forall s s' cat cat',
    log_lift AR (dom lnf s cat) (dom lnf s' cat') = true -> log_coincidence lnf s s'.
  Proof.
    intros s s' cat cat' H. unfold log_lift in H. rewrite log_dom, low_dom, upp_dom, card_dom in H.
    rewrite andb_true_iff in H. destruct H as [H1 H2]. unfold log_coincidence.
    unfold logs in H1. destruct (is_log s'); [| discriminate].
    apply pair_eqb_eq in H1. destruct (size_of s); [discriminate |]. tauto.
  Qed.

  Lemma same_point : forall s s' t, good s -> good s' ->
    lo s == lo s' -> hi s == hi s' -> is_log s = is_log s' ->
    point lnf expf s t == point lnf expf s' t.
  Proof.
    intros s s' t G G' E1 E2 E3. unfold point. rewrite E3. destruct ID as (_ & I2 & I3 & _).
    destruct (is_log s').
    - assert (F1 := I2 _ _ E1). assert (F2 := I2 _ _ E2).
      apply Qle_antisym; apply I3; rewrite F1, F2; apply Qle_refl.
    - rewrite E1, E2. reflexivity.
  Qed.

  Lemma as_type_float : forall s cat x, integral s = false -> as_type AR (dom lnf s cat) x = x.
  Proof. intros [|]; [discriminate | reflexivity]. Qed.
  Lemma as_type_int : forall s cat z, as_type AR (dom lnf s cat) (Some (inject_Z z)) = Some (inject_Z z).
  Proof.
    intros [l u g b |] cat z; [| reflexivity]. unfold as_type. cbn [dom d_bounds is_int atrunc Qar option_map].
    rewrite trunc_q_Z. reflexivity.
  Qed.
  Lemma round_dom : forall s cat, d_round (dom lnf s cat) = integral s.
  Proof. intros [|]; reflexivity. Qed.

  (** What the first shortcut returns. *)
  Lemma same_result : forall s cat x,
    as_type AR (dom lnf s cat) (if d_round (dom lnf s cat) then arint AR (Some x) else Some x)
    = Some (if integral s then inject_Z (rint_q x) else x).
  Proof.
    intros s cat x. rewrite round_dom. destruct (integral s) eqn:I.
    - cbn [arint Qar option_map]. apply as_type_int.
    - apply as_type_float. exact I.
  Qed.

  Lemma legal_pos : forall s x, good s -> legal lnf expf s x -> is_log s = true -> 0 < x /\ lnf (lo s) < lnf (hi s).
  Proof.
    intros s x G (H & _) L. assert (LO := ideal_ok s G L). destruct G as (_ & P & _). specialize (P L).
    destruct LO as (LO & _). split; [lra | exact LO].
  Qed.

  Lemma cast_dom : forall s s' cat cat' x, good s -> good s' -> legal lnf expf s' x ->
    (exact s' \/ ~ (lo s == lo s' /\ hi s == hi s')) -> ~ log_coincidence lnf s s' ->
    exists v, cast AR (dom lnf s cat) (dom lnf s' cat') (Some x) = Some v /\ v == dec lnf expf s (enc lnf s' x).
  Proof.
    intros s s' cat cat' x G G' L X NC. unfold cast.
    destruct (same_domain AR (dom lnf s cat) (dom lnf s' cat')) eqn:SD.
    - apply same_domain_dom in SD. destruct SD as (E1 & E2 & E3 & E4 & _).
      destruct X as [X | X]; [| tauto].
      rewrite same_result. eexists. split; [reflexivity |].
      assert (C := core_rt s' x G' X L).
      assert (EC : cell s (enc lnf s' x) = cell s' (enc lnf s' x)).
      { unfold cell. rewrite !card_size, E4. reflexivity. }
      assert (R := raw_point lnf expf s (cell s' (enc lnf s' x)) (ideal_ok s G)).
      assert (SP := same_point s s' (cell s' (enc lnf s' x)) G G' E1 E2 E3).
      unfold dec. rewrite EC.
      destruct (integral s).
      + rewrite (rint_proper (raw lnf expf s (cell s' (enc lnf s' x))) x) by lra. reflexivity.
      + lra.
    - rewrite unit_dom.
      destruct (log_lift AR (dom lnf s cat) (dom lnf s' cat')) eqn:LL.
      { apply log_lift_dom in LL. tauto. }
      rewrite to_unit_dom; [| exact G' | intros Y; eapply legal_pos; eauto].
      rewrite from_unit_dom by exact G.
      eexists. split; reflexivity.
  Qed.

  Lemma cast_self : forall s cat cat' x, legal lnf expf s x ->
    exists v, cast AR (dom lnf s cat) (dom lnf s cat') (Some x) = Some v /\ v == x.
  Proof.
    intros s cat cat' x (H0 & H1 & HI & _). unfold cast. rewrite same_domain_self, same_result.
    eexists. split; [reflexivity |].
    destruct (integral s); [| reflexivity].
    destruct (HI eq_refl) as [z Hz]. rewrite (rint_of_Z _ _ Hz). symmetry. exact Hz.
  Qed.

  Lemma legal_proper : forall s x y, x == y -> legal lnf expf s x -> legal lnf expf s y.
  Proof.
    intros s x y E (H0 & H1 & HI & HB). split; [lra |]. split; [lra |]. split.
    - intros I. destruct (HI I) as [z Hz]. exists z. rewrite <- E. exact Hz.
    - intros b Hb. destruct (HB b Hb) as (k & Hk & K). exists k. split; [exact Hk |].
      destruct (integral s).
      + destruct K as (z & Hz & N). exists z. split; [rewrite <- E; exact Hz | exact N].
      + rewrite <- E. exact K.
  Qed.
End Cast.

Lemma inv_pos : forall x, 0 < x -> 0 < / x.
Proof. intros. apply Qinv_lt_0_compat. auto. Qed.
Lemma inv_le : forall x y, 0 < x -> x <= y -> / y <= / x.
Proof.
  intros x y P H. assert (PX := inv_pos x P). assert (PY : 0 < y) by lra. assert (PYI := inv_pos y PY).
  setoid_replace (/ y) with (/ y * (x * / x)) by (field; lra).
  setoid_replace (/ x) with (/ x * (y * / y)) at 2 by (field; lra).
  assert (x * (/ x * / y) <= y * (/ x * / y)).
  { apply Qmult_le_compat_r; auto. apply Qmult_le_0_compat; lra. }
  lra.
Qed.
Lemma inv_lt : forall x y, 0 < x -> x < y -> / y < / x.
Proof.
  intros x y P H. assert (PX := inv_pos x P). assert (PY : 0 < y) by lra. assert (PYI := inv_pos y PY).
  setoid_replace (/ y) with (x * (/ x * / y)) by (field; lra).
  setoid_replace (/ x) with (y * (/ x * / y)) at 2 by (field; lra).
  assert (0 < / x * / y) by (apply Qmult_lt_0_compat; auto).
  apply Qmult_lt_compat_r; auto.
Qed.
Lemma inv_1 : / 1 == 1.
Proof. reflexivity. Qed.

Lemma ideal_p : ideal pln pexp.
Proof.
  assert (CB : forall x y, Qle_bool x y = true /\ x <= y \/ Qle_bool x y = false /\ y < x).
  { intros x y. destruct (Qle_bool x y) eqn:C.
    - left. split; auto. apply Qle_bool_iff. exact C.
    - right. split; auto. apply Qle_bool_false. exact C. }
  unfold ideal, pln, pexp. split; [| split; [| split; [| split; [| split]]]].
  - intros x y P H. destruct (CB x 1) as [[-> X] | [-> X]]; destruct (CB y 1) as [[-> Y] | [-> Y]]; try lra.
    + assert (I := inv_lt x y P H). lra.
    + assert (I := inv_le x 1 P X). rewrite inv_1 in I. lra.
  - intros x y H. destruct (CB x 1) as [[-> X] | [-> X]]; destruct (CB y 1) as [[-> Y] | [-> Y]]; try lra.
    rewrite H. reflexivity.
  - intros x y H. destruct (CB x 0) as [[-> X] | [-> X]]; destruct (CB y 0) as [[-> Y] | [-> Y]]; try lra.
    + apply inv_le; lra.
    + assert (I := inv_le 1 (1 - x)). rewrite inv_1 in I. lra.
  - intros x P. destruct (CB x 1) as [[-> X] | [-> X]].
    + assert (I := inv_le x 1 P X). rewrite inv_1 in I.
      destruct (CB (1 - / x) 0) as [[-> Y] | [-> Y]]; [| lra]. field. split; lra.
    + destruct (CB (x - 1) 0) as [[-> Y] | [-> Y]]; lra.
  - intros y. destruct (CB y 0) as [[-> Y] | [-> Y]].
    + assert (I := inv_le 1 (1 - y)). rewrite inv_1 in I.
      destruct (CB (/ (1 - y)) 1) as [[-> X] | [-> X]]; [field; lra | lra].
    + destruct (CB (y + 1) 1) as [[-> X] | [-> X]]; lra.
  - intros y. destruct (CB y 0) as [[-> Y] | [-> Y]]; [apply inv_pos; lra | lra].
Qed.

(** ** Theorems as stated *)
Lemma decoded_legal_l : forall lnf expf s cat d x, good s -> log_ok lnf expf s -> make lnf expf s cat = Ok d ->
  0 <= x -> x <= 1 -> exists v, from_unit (Qar lnf expf) d (Some x) = Some v /\ legal lnf expf s v.
Proof.
  intros lnf expf s cat d x G L M H0 H1. apply make_dom in M; auto. subst d.
  rewrite from_unit_dom by auto. eexists. split; [reflexivity |]. apply dec_legal; auto.
Qed.
Lemma decoded_ends_l : forall lnf expf s cat d, good s -> log_ok lnf expf s -> make lnf expf s cat = Ok d ->
  gives (from_unit (Qar lnf expf) d (Some 0)) (lo s) /\ gives (from_unit (Qar lnf expf) d (Some 1)) (hi s).
Proof.
  intros lnf expf s cat d G L M. apply make_dom in M; auto. subst d. rewrite !from_unit_dom by auto.
  destruct (dec_ends lnf expf s G L). split; eexists; split; eauto.
Qed.
Lemma decoded_monotone_l : forall lnf expf s cat d x y v w, good s -> log_ok lnf expf s ->
  make lnf expf s cat = Ok d -> x <= y ->
  from_unit (Qar lnf expf) d (Some x) = Some v -> from_unit (Qar lnf expf) d (Some y) = Some w -> v <= w.
Proof.
  intros lnf expf s cat d x y v w G L M H V W. apply make_dom in M; auto. subst d.
  rewrite from_unit_dom in V, W by auto.
  assert (X : forall a b : Q, Some a = Some b -> a = b) by congruence.
  apply X in V. apply X in W. subst. apply dec_mono; auto.
Qed.
Lemma decoded_share_l : forall lnf expf l u cat d k x, (l < u)%Z -> make lnf expf (DInt l u false None) cat = Ok d ->
  (l <= k <= u)%Z -> inject_Z (k - l) / inject_Z (u - l + 1) <= x -> x < inject_Z (k - l + 1) / inject_Z (u - l + 1) ->
  gives (from_unit (Qar lnf expf) d (Some x)) (inject_Z k).
Proof.
  intros lnf expf l u cat d k x H M Hk H1 H2.
  assert (G : good (DInt l u false None)).
  { split; [cbn; rewrite <- Zlt_Qlt; exact H |]. split; [discriminate |]. discriminate. }
  apply make_dom in M; auto. subst d. rewrite from_unit_dom by auto.
  assert (P : 0 < inject_Z (u - l + 1)) by (apply injZ_pos; lia).
  eexists. split; [reflexivity |]. apply dec_share; auto.
  - apply Qmult_le_compat_r with (z := inject_Z (u - l + 1)) in H1; [| lra].
    setoid_replace (inject_Z (k - l) / inject_Z (u - l + 1) * inject_Z (u - l + 1)) with (inject_Z (k - l)) in H1
      by (field; lra). exact H1.
  - apply Qmult_lt_compat_r with (z := inject_Z (u - l + 1)) in H2; [| lra].
    setoid_replace (inject_Z (k - l + 1) / inject_Z (u - l + 1) * inject_Z (u - l + 1)) with (inject_Z (k - l + 1)) in H2
      by (field; lra). exact H2.
Qed.

Lemma to_unit_l : forall lnf expf s cat d x, ideal lnf expf -> good s -> make lnf expf s cat = Ok d ->
  legal lnf expf s x -> to_unit (Qar lnf expf) d (Some x) = Some (enc lnf s x).
Proof.
  intros lnf expf s cat d x I G M L. apply make_dom in M; auto. subst d.
  apply to_unit_dom; auto. intros Y. eapply legal_pos; eauto.
Qed.
Lemma encoded_unit_l : forall lnf expf s cat d x, ideal lnf expf -> good s -> make lnf expf s cat = Ok d ->
  legal lnf expf s x -> exists t, to_unit (Qar lnf expf) d (Some x) = Some t /\ 0 <= t /\ t <= 1.
Proof.
  intros lnf expf s cat d x I G M L. exists (enc lnf s x). split; [eapply to_unit_l; eauto |].
  destruct L as (H0 & H1 & _). eapply enc_in; eauto.
Qed.
Lemma roundtrip_l : forall lnf expf s cat d x, ideal lnf expf -> good s -> exact s -> make lnf expf s cat = Ok d ->
  legal lnf expf s x ->
  gives (from_unit (Qar lnf expf) d (to_unit (Qar lnf expf) d (Some x))) x.
Proof.
  intros lnf expf s cat d x I G X M L. rewrite (to_unit_l lnf expf s cat) by auto.
  apply make_dom in M; auto. subst d. rewrite from_unit_dom by auto.
  eexists. split; [reflexivity |]. apply roundtrip; auto.
Qed.
Lemma legal_ends : forall lnf expf s, ideal lnf expf -> good s -> legal lnf expf s (lo s) /\ legal lnf expf s (hi s).
Proof.
  intros lnf expf s I G. assert (L := ideal_ok lnf expf I s G).
  destruct (dec_ends lnf expf s G L) as [E0 E1].
  split.
  - eapply legal_proper; [exact E0 |]. apply dec_legal; auto; lra.
  - eapply legal_proper; [exact E1 |]. apply dec_legal; auto; lra.
Qed.
Lemma roundtrip_ends_l : forall lnf expf s cat d, ideal lnf expf -> good s -> make lnf expf s cat = Ok d ->
  gives (from_unit (Qar lnf expf) d (to_unit (Qar lnf expf) d (Some (lo s)))) (lo s) /\
  gives (from_unit (Qar lnf expf) d (to_unit (Qar lnf expf) d (Some (hi s)))) (hi s).
Proof.
  intros lnf expf s cat d I G M. destruct (legal_ends lnf expf s I G) as [L0 L1].
  rewrite !(to_unit_l lnf expf s cat) by auto.
  apply make_dom in M; auto. subst d. rewrite !from_unit_dom by auto.
  destruct (roundtrip_ends lnf expf I s G). split; eexists; split; eauto.
Qed.
Lemma unit_roundtrip_l : forall lnf expf l u g cat d t, ideal lnf expf -> good (DFloat l u g None) ->
  make lnf expf (DFloat l u g None) cat = Ok d -> 0 <= t -> t <= 1 ->
  gives (to_unit (Qar lnf expf) d (from_unit (Qar lnf expf) d (Some t))) t.
Proof.
  intros lnf expf l u g cat d t I G M H0 H1.
  assert (M' := M). apply make_dom in M; auto. subst d. rewrite from_unit_dom by auto.
  rewrite (to_unit_l lnf expf (DFloat l u g None) cat); auto.
  - eexists. split; [reflexivity |]. apply unit_roundtrip; auto.
  - apply dec_legal; auto. apply ideal_ok; auto.
Qed.

Lemma cast_l : forall lnf expf s s' cat cat' d d' x, ideal lnf expf -> good s -> good s' ->
  make lnf expf s cat = Ok d -> make lnf expf s' cat' = Ok d' -> legal lnf expf s' x ->
  (exact s' \/ ~ (lo s == lo s' /\ hi s == hi s')) -> ~ log_coincidence lnf s s' ->
  exists v w, cast (Qar lnf expf) d d' (Some x) = Some v /\
              from_unit (Qar lnf expf) d (to_unit (Qar lnf expf) d' (Some x)) = Some w /\ v == w /\
              legal lnf expf s v.
Proof.
  intros lnf expf s s' cat cat' d d' x I G G' M M' L X NC.
  rewrite (to_unit_l lnf expf s' cat') by auto.
  apply make_dom in M; auto. apply make_dom in M'; auto. subst d d'. rewrite from_unit_dom by auto.
  destruct (cast_dom lnf expf I s s' cat cat' x G G' L X NC) as (v & E & V).
  exists v, (dec lnf expf s (enc lnf s' x)). split; [exact E |]. split; [reflexivity |]. split; [exact V |].
  eapply legal_proper; [symmetry; exact V |].
  destruct L as (H0 & H1 & _).
  destruct (enc_in lnf expf I s' x G' H0 H1). apply dec_legal; auto. apply ideal_ok; auto.
Qed.
Lemma cast_self_l : forall lnf expf s cat cat' d d' x, good s ->
  make lnf expf s cat = Ok d -> make lnf expf s cat' = Ok d' -> legal lnf expf s x ->
  gives (cast (Qar lnf expf) d d' (Some x)) x.
Proof.
  intros lnf expf s cat cat' d d' x G M M' L.
  apply make_dom in M; auto. apply make_dom in M'; auto. subst d d'.
  destruct (cast_self lnf expf s cat cat' x L) as (v & E & V). exists v. auto.
Qed.

(** *** Where it fails *)
Lemma log_int_refuted_l : forall lnf expf,
  lnf 1 == 0 -> 0 < lnf 2 -> lnf 4 == 2 * lnf 2 ->
  (forall y, y == (2 # 3) * lnf 4 -> 5 # 2 < expf y /\ expf y < 7 # 2) ->
  forall cat d, make lnf expf (DInt 1 4 true None) cat = Ok d ->
  gives (from_unit (Qar lnf expf) d (to_unit (Qar lnf expf) d (Some 2))) 3.
Proof.
  intros lnf expf L1 L2 L4 X cat d M.
  assert (G : good (DInt 1 4 true None)).
  { split; [reflexivity |]. split; [reflexivity | discriminate]. }
  apply make_dom in M; auto. subst d.
  rewrite to_unit_dom; auto.
  2: { intros _. cbn [lo hi]. change (inject_Z 1) with 1. change (inject_Z 4) with 4. split; [reflexivity | lra]. }
  rewrite from_unit_dom by auto.
  eexists. split; [reflexivity |].
  assert (E : lin lnf (DInt 1 4 true None) 2 == 1 # 2).
  { unfold lin. cbn [is_log lo hi]. change (inject_Z 1) with 1. change (inject_Z 4) with 4.
    rewrite L1, L4. field. lra. }
  assert (E1 : enc lnf (DInt 1 4 true None) 2 = inject_Z 2 / inject_Z 3).
  { unfold enc, cell. cbn [card]. unfold frac. rewrite (level_proper _ _ _ E). reflexivity. }
  rewrite E1. unfold dec, raw. cbn [integral is_log].
  assert (E2 : cell (DInt 1 4 true None) (inject_Z 2 / inject_Z 3) = inject_Z 2 / inject_Z 3) by reflexivity.
  rewrite E2. cbn [lo hi]. change (inject_Z 1) with 1. change (inject_Z 4) with 4.
  set (y := inject_Z 2 / inject_Z 3 * (lnf 4 - lnf 1) + lnf 1).
  assert (Y : y == (2 # 3) * lnf 4).
  { unfold y. rewrite L1. change (inject_Z 2 / inject_Z 3) with (2 # 3). ring. }
  destruct (X y Y) as [X1 X2]. clearbody y.
  assert (N := rint_near (expf y)). unfold near in N.
  assert (R : rint_q (expf y) = 3%Z).
  { assert (2 < rint_q (expf y) < 4)%Z; [| lia].
    rewrite !Zlt_Qlt. change (inject_Z 2) with 2. change (inject_Z 4) with 4. lra. }
  rewrite R. reflexivity.
Qed.

(** *** Tensors *)
Section Translate.
  Context {T : Type} (A : arith T).
  Local Notation length := List.length.

  Definition wrong_width (n : nat) (frm to : domain T + list (domain T)) : Prop :=
    match frm with inl _ => False | inr l => length l <> n end \/
    match to with inl _ => False | inr l => length l <> n end.

  Lemma nth_combine : forall {X Y} (a : list X) (b : list Y) j x y,
    nth_error a j = Some x -> nth_error b j = Some y -> nth_error (combine a b) j = Some (x, y).
  Proof.
    intros X Y a. induction a as [| a0 a IH]; intros b j x y HA HB; destruct j; try discriminate.
    - destruct b; try discriminate. cbn in *. congruence.
    - destruct b; try discriminate. cbn in *. eauto.
  Qed.
  Lemma spread_length : forall n (d : domain T + list (domain T)), length (spread n d) = n <->
    match d with inl _ => True | inr l => length l = n end.
  Proof. intros n [d | l]; cbn; [rewrite repeat_length; tauto | tauto]. Qed.

  Lemma translate_err_l : forall n x frm to,
    (exists e, translate A n x frm to = Err e) <->
    wrong_width n frm to.
  Proof.
    intros n x frm to. unfold translate, wrong_width.
    assert (F := spread_length n frm). assert (TT := spread_length n to).
    destruct frm as [f | fs]; destruct to as [t | ts]; cbn [spread] in *.
    1: { split; [intros [e H]; discriminate | intros [[] | []]]. }
    all: rewrite ?repeat_length; rewrite ?Nat.eqb_refl; cbn [negb]; clear F TT.
    - destruct (Nat.eqb_spec (length ts) n); cbn [negb]; split.
      + intros [e0 H]; discriminate.
      + intros [[] | H]; contradiction.
      + auto.
      + intros _. eexists; reflexivity.
    - destruct (Nat.eqb_spec (length fs) n); cbn [negb]; split.
      + intros [e0 H]; discriminate.
      + intros [H | []]; contradiction.
      + auto.
      + intros _. eexists; reflexivity.
    - destruct (Nat.eqb_spec (length fs) n); cbn [negb].
      + destruct (Nat.eqb_spec (length ts) n); cbn [negb]; split.
        * intros [e1 H]; discriminate.
        * intros [H | H]; contradiction.
        * auto.
        * intros _. eexists; reflexivity.
      + split; [auto |]. intros _. eexists; reflexivity.
  Qed.

  Lemma translate_cell_l : forall n x frm to y, translate A n x frm to = Ok y ->
    (forall row, In row x -> length row = n) ->
    length y = length x /\
    forall i row, nth_error x i = Some row ->
    exists row', nth_error y i = Some row' /\ length row' = n /\
    forall j v f t, nth_error row j = Some v ->
      match frm with inl d => f = d | inr l => nth_error l j = Some f end ->
      match to with inl d => t = d | inr l => nth_error l j = Some t end ->
      nth_error row' j = Some (cast A t f v).
  Proof.
    intros n x frm to y H W.
    assert (GEN : forall fs ts, length fs = n -> length ts = n ->
      y = map (fun row => map (fun p => cast A (snd (snd p)) (fst (snd p)) (fst p)) (combine row (combine fs ts))) x ->
      length y = length x /\
      forall i row, nth_error x i = Some row ->
      exists row', nth_error y i = Some row' /\ length row' = n /\
      forall j v f t, nth_error row j = Some v -> nth_error fs j = Some f -> nth_error ts j = Some t ->
      nth_error row' j = Some (cast A t f v)).
    { intros fs ts Lf Lt ->. split; [apply map_length |]. intros i row Hi.
      rewrite (map_nth_error _ _ _ Hi). eexists. split; [reflexivity |]. split.
      - assert (LR := W row (nth_error_In _ _ Hi)).
        rewrite map_length, !combine_length. lia.
      - intros j v f t Hv Hf Ht.
        exact (map_nth_error (fun p => cast A (snd (snd p)) (fst (snd p)) (fst p)) j _
                 (nth_combine _ _ _ _ _ Hv (nth_combine _ _ _ _ _ Hf Ht))). }
    assert (REP : forall (d : domain T) j f (row : list T) v, nth_error row j = Some v -> length row = n ->
                  f = d -> nth_error (repeat d n) j = Some f).
    { intros d j f row v Hv Hl ->. apply nth_error_repeat.
      rewrite <- Hl. apply nth_error_Some. congruence. }
    unfold translate in H.
    assert (F := spread_length n frm). assert (TT := spread_length n to).
    destruct frm as [f0 | fs]; destruct to as [t0 | ts]; cbn [spread] in *.
    - injection H as <-. split; [apply map_length |]. intros i row Hi.
      rewrite (map_nth_error _ _ _ Hi). eexists. split; [reflexivity |]. split.
      + rewrite map_length. apply W. eapply nth_error_In; eauto.
      + intros j v f t Hv -> ->. apply map_nth_error. exact Hv.
    - rewrite repeat_length, Nat.eqb_refl in H. cbn [negb] in H.
      destruct (Nat.eqb_spec (length ts) n) as [E | E]; [| discriminate]. cbn [negb] in H. injection H as H.
      destruct (GEN (repeat f0 n) ts (repeat_length _ _) E (eq_sym H)) as [G1 G2].
      split; [exact G1 |]. intros i row Hi. destruct (G2 i row Hi) as (row' & R1 & R2 & R3).
      exists row'. split; [exact R1 |]. split; [exact R2 |]. intros j v f t Hv Hf Ht.
      apply R3; auto. eapply REP; eauto. apply W. eapply nth_error_In; eauto.
    - destruct (Nat.eqb_spec (length fs) n) as [E | E]; [| discriminate].
      rewrite repeat_length, Nat.eqb_refl in H. cbn [negb] in H. injection H as H.
      destruct (GEN fs (repeat t0 n) E (repeat_length _ _) (eq_sym H)) as [G1 G2].
      split; [exact G1 |]. intros i row Hi. destruct (G2 i row Hi) as (row' & R1 & R2 & R3).
      exists row'. split; [exact R1 |]. split; [exact R2 |]. intros j v f t Hv Hf Ht.
      apply R3; auto. eapply REP; eauto. apply W. eapply nth_error_In; eauto.
    - destruct (Nat.eqb_spec (length fs) n) as [E | E]; [| discriminate].
      destruct (Nat.eqb_spec (length ts) n) as [E' | E']; [| discriminate]. cbn [negb] in H. injection H as H.
      destruct (GEN fs ts E E' (eq_sym H)) as [G1 G2].
      split; [exact G1 |]. intros i row Hi. destruct (G2 i row Hi) as (row' & R1 & R2 & R3).
      exists row'. split; [exact R1 |]. split; [exact R2 |]. intros j v f t Hv Hf Ht. auto.
  Qed.

  Lemma unit_flag_l : forall l u g b cat d,
    (floating A l u g b cat = Ok d \/ integer A l u g b cat = Ok d) -> d_unit d = false.
  Proof.
    intros l u g b cat d [H | H].
    - unfold floating in H. destruct (log_of A l u g) as [lb | e]; [| discriminate]. cbn [bind] in H.
      unfold post_init in H. destruct (cardinality A (BFloat l u) false b cat); [| discriminate].
      cbn [bind is_int] in H. rewrite andb_false_r in H. injection H as <-. reflexivity.
    - unfold integer in H. destruct (aint A (arint A l)); [| discriminate].
      destruct (aint A (arint A u)); [| discriminate].
      destruct (log_of A l u g) as [lb | e]; [| discriminate]. cbn [bind] in H.
      unfold post_init in H. destruct (cardinality A (BInt z z0) true b cat); [| discriminate].
      cbn [bind negb] in H. rewrite andb_false_r in H. injection H as <-. reflexivity.
  Qed.
End Translate.
