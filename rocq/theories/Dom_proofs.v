(** Proofs about numeric domains, exact arithmetic. *)
From Verif Require Import Dom_spec.
From Coq Require Import Lqa Qfield.
Open Scope Q_scope.

(** ** Rounding *)
Lemma floor_unique : forall x z, inject_Z z <= x -> x < inject_Z (z + 1) -> Qfloor x = z.
Proof.
  intros x z H1 H2.
  assert (A := Qfloor_le x). assert (B := Qlt_floor x).
  assert ((z < Qfloor x + 1)%Z) by (rewrite Zlt_Qlt; lra).
  assert ((Qfloor x < z + 1)%Z) by (rewrite Zlt_Qlt; lra).
  lia.
Qed.

Lemma rint_near : forall x, near (rint_q x) x.
Proof.
  intros x. unfold near, rint_q.
  assert (A := Qfloor_le x). assert (B := Qlt_floor x).
  rewrite inject_Z_plus in B. change (inject_Z 1) with 1 in B.
  destruct (Qcompare (x - inject_Z (Qfloor x)) (1 # 2)) eqn:C.
  - apply Qeq_alt in C. destruct (Z.even (Qfloor x)).
    + lra.
    + rewrite inject_Z_plus. change (inject_Z 1) with 1. lra.
  - apply Qlt_alt in C. lra.
  - apply Qgt_alt in C. rewrite inject_Z_plus. change (inject_Z 1) with 1. lra.
Qed.

Lemma rint_q_Z : forall z, rint_q (inject_Z z) = z.
Proof.
  intros z. unfold rint_q. rewrite Qfloor_Z.
  destruct (Qcompare (inject_Z z - inject_Z z) (1 # 2)) eqn:C.
  - apply Qeq_alt in C. lra.
  - reflexivity.
  - apply Qgt_alt in C. lra.
Qed.

Lemma rint_proper : forall x y, x == y -> rint_q x = rint_q y.
Proof.
  intros x y H. unfold rint_q. rewrite (Qfloor_comp _ _ H).
  assert (E : x - inject_Z (Qfloor y) == y - inject_Z (Qfloor y)) by (rewrite H; reflexivity).
  rewrite (Qcompare_comp _ _ E _ _ (Qeq_refl (1 # 2))). reflexivity.
Qed.

Lemma rint_of_Z : forall x z, x == inject_Z z -> rint_q x = z.
Proof. intros x z H. rewrite (rint_proper _ _ H). apply rint_q_Z. Qed.

Lemma rint_mono : forall x y, x <= y -> (rint_q x <= rint_q y)%Z.
Proof.
  intros x y H.
  assert (F := Qfloor_resp_le _ _ H).
  unfold rint_q.
  assert (A := Qfloor_le x). assert (B := Qlt_floor x).
  assert (A' := Qfloor_le y). assert (B' := Qlt_floor y).
  destruct (Z.eq_dec (Qfloor x) (Qfloor y)) as [E | E].
  - rewrite <- E. rewrite <- E in A', B'.
    set (f := Qfloor x) in *. clearbody f.
    destruct (Qcompare_spec (x - inject_Z f) (1 # 2)); destruct (Qcompare_spec (y - inject_Z f) (1 # 2));
      destruct (Z.even f); try lia; exfalso; lra.
  - assert (Qfloor x + 1 <= Qfloor y)%Z by lia.
    destruct (Qcompare (x - inject_Z (Qfloor x)) (1 # 2)); destruct (Qcompare (y - inject_Z (Qfloor y)) (1 # 2));
      destruct (Z.even (Qfloor x)); destruct (Z.even (Qfloor y)); lia.
Qed.

Lemma rint_between : forall x l u, inject_Z l <= x -> x <= inject_Z u ->
  inject_Z l <= inject_Z (rint_q x) /\ inject_Z (rint_q x) <= inject_Z u.
Proof.
  intros x l u H1 H2. apply rint_mono in H1. apply rint_mono in H2.
  rewrite rint_q_Z in H1, H2. rewrite <- !Zle_Qle. lia.
Qed.

Lemma trunc_q_Z : forall z, trunc_q (inject_Z z) = z.
Proof.
  intros z. unfold trunc_q. destruct (Qle_bool 0 (inject_Z z)).
  - apply Qfloor_Z.
  - rewrite <- inject_Z_opp, Qfloor_Z. lia.
Qed.

(** ** Quantisation *)
Definition level (q : Z) (x : Q) : Z := Z.max 0 (Z.min (Qfloor (x * inject_Z q)) (q - 1)).

Lemma level_range : forall q x, (2 <= q)%Z -> (0 <= level q x <= q - 1)%Z.
Proof. intros. unfold level. lia. Qed.
Lemma level_mono : forall q x y, (2 <= q)%Z -> x <= y -> (level q x <= level q y)%Z.
Proof.
  intros q x y Hq H. unfold level.
  assert (Qfloor (x * inject_Z q) <= Qfloor (y * inject_Z q))%Z.
  { apply Qfloor_resp_le. apply Qmult_le_compat_r; auto.
    change 0 with (inject_Z 0). rewrite <- Zle_Qle. lia. }
  lia.
Qed.
Lemma level_proper : forall q x y, x == y -> level q x = level q y.
Proof.
  intros q x y H. unfold level.
  rewrite (Qfloor_comp (x * inject_Z q) (y * inject_Z q)); auto. rewrite H. reflexivity.
Qed.
Lemma level_share : forall q k x, (2 <= q)%Z -> (0 <= k < q)%Z ->
  inject_Z k <= x * inject_Z q -> x * inject_Z q < inject_Z (k + 1) -> level q x = k.
Proof. intros q k x Hq Hk H1 H2. unfold level. rewrite (floor_unique _ k); auto. lia. Qed.
Lemma level_0 : forall q, (2 <= q)%Z -> level q 0 = 0%Z.
Proof.
  intros q Hq. apply level_share; try lia.
  - rewrite Qmult_0_l. change 0 with (inject_Z 0). rewrite <- Zle_Qle. lia.
  - rewrite Qmult_0_l. change 0 with (inject_Z 0). rewrite <- Zlt_Qlt. lia.
Qed.
Lemma level_1 : forall q, (2 <= q)%Z -> level q 1 = (q - 1)%Z.
Proof. intros q Hq. unfold level. rewrite (Qfloor_comp (1 * inject_Z q) (inject_Z q)) by ring.
  rewrite Qfloor_Z. lia. Qed.

Lemma injZ_pos : forall z, (0 < z)%Z -> 0 < inject_Z z.
Proof. intros z H. change 0 with (inject_Z 0). rewrite <- Zlt_Qlt. exact H. Qed.
Lemma injZ_nonneg : forall z, (0 <= z)%Z -> 0 <= inject_Z z.
Proof. intros z H. change 0 with (inject_Z 0). rewrite <- Zle_Qle. exact H. Qed.
Lemma injZ_sub : forall a b, inject_Z (a - b) == inject_Z a - inject_Z b.
Proof. intros. unfold Zminus. rewrite inject_Z_plus, inject_Z_opp. reflexivity. Qed.

Lemma level_grid : forall q k x, (2 <= q)%Z -> (0 <= k <= q - 1)%Z ->
  x == inject_Z k / inject_Z (q - 1) -> level q x = k.
Proof.
  intros q k x Hq Hk Hx.
  assert (P : 0 < inject_Z (q - 1)) by (apply injZ_pos; lia).
  assert (NZ : ~ inject_Z (q - 1) == 0) by lra.
  assert (Eq : inject_Z q == inject_Z (q - 1) + 1).
  { rewrite injZ_sub. change (inject_Z 1) with 1. ring. }
  assert (E : x * inject_Z q == inject_Z k + inject_Z k / inject_Z (q - 1)).
  { rewrite Hx, Eq. field. exact NZ. }
  assert (Pk : 0 <= inject_Z k) by (apply injZ_nonneg; lia).
  assert (F : 0 <= inject_Z k / inject_Z (q - 1)).
  { apply Qle_shift_div_l; [exact P | lra]. }
  destruct (Z.eq_dec k (q - 1)) as [K | K].
  - subst k. unfold level.
    assert (Hf : Qfloor (x * inject_Z q) = (q - 1 + 1)%Z).
    { rewrite (Qfloor_comp (x * inject_Z q) (inject_Z (q - 1 + 1))); [apply Qfloor_Z |].
      rewrite E, inject_Z_plus. change (inject_Z 1) with 1. field. exact NZ. }
    rewrite Hf. lia.
  - apply level_share; try lia.
    + rewrite E. lra.
    + rewrite E, inject_Z_plus. change (inject_Z 1) with 1.
      assert (inject_Z k / inject_Z (q - 1) < 1).
      { apply Qlt_shift_div_r; [exact P |]. rewrite Qmult_1_l, <- Zlt_Qlt. lia. }
      lra.
Qed.

Lemma Qle_bool_false : forall x y, Qle_bool x y = false -> y < x.
Proof.
  intros x y H. destruct (Qlt_le_dec y x) as [L | L]; auto.
  apply Qle_bool_iff in L. congruence.
Qed.

Lemma quantize_q : forall lnf expf q x, (2 <= q)%Z ->
  quantize (Qar lnf expf) q (Some x) = Some (inject_Z (level q x) / inject_Z (q - 1)).
Proof.
  intros lnf expf q x Hq. unfold quantize, clip, level. cbn [afloor amul aZ adiv altb Qar lift2 option_map].
  set (f := Qfloor (x * inject_Z q)).
  assert (NZ : Qeq_bool (inject_Z (q - 1)) 0 = false).
  { apply not_true_is_false. intros H. apply Qeq_bool_iff in H.
    assert (P : 0 < inject_Z (q - 1)) by (apply injZ_pos; lia). lra. }
  destruct (Qle_bool (inject_Z 0) (inject_Z f)) eqn:C1; cbn [negb].
  - apply Qle_bool_iff in C1. rewrite <- Zle_Qle in C1.
    destruct (Qle_bool (inject_Z f) (inject_Z (q - 1))) eqn:C2; cbn [negb].
    + apply Qle_bool_iff in C2. rewrite <- Zle_Qle in C2. rewrite NZ.
      rewrite Z.min_l by lia. rewrite Z.max_r by lia. reflexivity.
    + apply Qle_bool_false in C2. rewrite <- Zlt_Qlt in C2. rewrite NZ.
      rewrite Z.min_r by lia. rewrite Z.max_r by lia. reflexivity.
  - apply Qle_bool_false in C1. rewrite <- Zlt_Qlt in C1. rewrite NZ.
    rewrite Z.max_l by lia. reflexivity.
Qed.

Definition frac (q : Z) (x : Q) : Q := inject_Z (level q x) / inject_Z (q - 1).
Lemma frac_range : forall q x, (2 <= q)%Z -> 0 <= frac q x /\ frac q x <= 1.
Proof.
  intros q x Hq. unfold frac. assert (R := level_range q x Hq).
  assert (P : 0 < inject_Z (q - 1)) by (apply injZ_pos; lia).
  assert (0 <= inject_Z (level q x)) by (apply injZ_nonneg; lia).
  assert (inject_Z (level q x) <= inject_Z (q - 1)) by (rewrite <- Zle_Qle; lia).
  split.
  - apply Qle_shift_div_l; [exact P | lra].
  - apply Qle_shift_div_r; [exact P | lra].
Qed.
Lemma frac_mono : forall q x y, (2 <= q)%Z -> x <= y -> frac q x <= frac q y.
Proof.
  intros q x y Hq H. unfold frac. apply Qmult_le_compat_r.
  - rewrite <- Zle_Qle. apply level_mono; auto.
  - apply Qinv_le_0_compat. apply injZ_nonneg. lia.
Qed.
Lemma frac_proper : forall q x y, x == y -> frac q x == frac q y.
Proof. intros q x y H. unfold frac. rewrite (level_proper q _ _ H). reflexivity. Qed.
Lemma frac_0 : forall q, (2 <= q)%Z -> frac q 0 == 0.
Proof. intros q Hq. unfold frac. rewrite level_0 by auto. change (inject_Z 0) with 0. apply Qmult_0_l. Qed.
Lemma frac_1 : forall q, (2 <= q)%Z -> frac q 1 == 1.
Proof.
  intros q Hq. unfold frac. rewrite level_1 by auto. field.
  assert (P : 0 < inject_Z (q - 1)) by (apply injZ_pos; lia). lra.
Qed.
Lemma frac_grid : forall q k x, (2 <= q)%Z -> (0 <= k <= q - 1)%Z ->
  x == inject_Z k / inject_Z (q - 1) -> frac q x == inject_Z k / inject_Z (q - 1).
Proof. intros q k x Hq Hk H. unfold frac. rewrite (level_grid q k x Hq Hk H). reflexivity. Qed.
Lemma frac_frac : forall q x, (2 <= q)%Z -> frac q (frac q x) == frac q x.
Proof.
  intros q x Hq. apply (frac_grid q (level q x)); auto.
  - apply level_range; auto.
  - reflexivity.
Qed.

(** ** Domains *)
Section Dom.
  Variables lnf expf : Q -> Q.
  Notation AR := (Qar lnf expf).

  Definition logs (s : desc) : option (option Q * option Q) :=
    if is_log s then Some (Some (lnf (lo s)), Some (lnf (hi s))) else None.
  Definition card (s : desc) : option Z :=
    match s with
    | DInt l u _ (Some b) => Some b
    | DInt l u _ None => Some (u - l + 1)%Z
    | DFloat _ _ _ b => b
    end.
  Definition dom (s : desc) (cat : bool) : domain (option Q) :=
    match s with
    | DInt l u g b => mkD (BInt l u) true (logs s) b cat false (card s)
    | DFloat l u g b => mkD (BFloat (Some l) (Some u)) false (logs s) b cat false (card s)
    end.

  Lemma card_ge2 : forall s q, good s -> card s = Some q -> (2 <= q)%Z.
  Proof.
    intros [l u g b | l u g b] q (H1 & _ & H3) C; cbn in *.
    - destruct b as [b |]; injection C as <-; auto.
      rewrite <- Zlt_Qlt in H1. lia.
    - subst b. auto.
  Qed.

  Lemma log_of_good : forall s, good s ->
    log_of AR (Some (lo s)) (Some (hi s)) (is_log s) = Ok (logs s).
  Proof.
    intros s (H1 & H2 & _). unfold log_of, logs. destruct (is_log s); auto.
    specialize (H2 eq_refl).
    cbn [altb aZ Qar aln].
    destruct (Qle_bool (lo s) (inject_Z 0)) eqn:C1.
    { apply Qle_bool_iff in C1. change (inject_Z 0) with 0 in C1. lra. }
    destruct (Qle_bool (hi s) (inject_Z 0)) eqn:C2.
    { apply Qle_bool_iff in C2. change (inject_Z 0) with 0 in C2. lra. }
    change (inject_Z 0) with 0 in *. cbn [negb andb]. rewrite C1, C2. reflexivity.
  Qed.

  Lemma make_dom : forall s cat d, good s -> make lnf expf s cat = Ok d -> d = dom s cat.
  Proof.
    intros s cat d G M. assert (L := log_of_good s G).
    assert (C := card_ge2 s). unfold make in M.
    destruct s as [l u g b | l u g b].
    - unfold integer in M. cbn [aint arint Qar option_map] in M.
      rewrite !rint_q_Z, !trunc_q_Z in M. cbn [lo hi is_log] in L. rewrite L in M.
      cbn [bind] in M. unfold post_init, cardinality in M.
      destruct b as [[| p | p] |].
      + specialize (C _ G eq_refl). lia.
      + cbn [bind] in M. rewrite andb_false_r in M. injection M as <-. reflexivity.
      + specialize (C _ G eq_refl). lia.
      + cbn [bind] in M. rewrite andb_false_r in M. injection M as <-. reflexivity.
    - unfold floating in M. cbn [lo hi is_log] in L. rewrite L in M.
      cbn [bind] in M. unfold post_init, cardinality in M.
      destruct b as [[| p | p] |].
      + specialize (C _ G eq_refl). lia.
      + cbn [bind is_int] in M. rewrite andb_false_r in M. cbn [andb] in M. injection M as <-. reflexivity.
      + specialize (C _ G eq_refl). lia.
      + destruct cat; [discriminate |].
        cbn [bind is_int] in M. rewrite andb_false_r in M. cbn [andb] in M. injection M as <-. reflexivity.
  Qed.
  Lemma make_total : forall s, good s -> make lnf expf s false = Ok (dom s false).
  Proof.
    intros s G. destruct (make lnf expf s false) as [d | e] eqn:M.
    - f_equal. apply make_dom; auto.
    - exfalso. assert (L := log_of_good s G). assert (C := card_ge2 s). unfold make in M.
      destruct s as [l u g b | l u g b].
      + unfold integer in M. cbn [aint arint Qar option_map] in M.
        rewrite !rint_q_Z, !trunc_q_Z in M. cbn [lo hi is_log] in L. rewrite L in M.
        cbn [bind] in M. unfold post_init, cardinality in M.
        destruct b as [[| p | p] |]; discriminate.
      + unfold floating in M. cbn [lo hi is_log] in L. rewrite L in M.
        cbn [bind] in M. unfold post_init, cardinality in M.
        destruct b as [[| p | p] |]; discriminate.
  Qed.

  (** *** Decoding *)
  Definition cell (s : desc) (x : Q) : Q := match card s with Some q => frac q x | None => x end.
  Definition width (s : desc) : Q :=
    match s with DInt l u _ _ => inject_Z (u - l) | DFloat l u _ _ => u - l end.
  Lemma width_eq : forall s, width s == hi s - lo s.
  Proof. intros [l u g b | l u g b]; cbn; [apply injZ_sub | reflexivity]. Qed.
  Definition raw (s : desc) (t : Q) : Q :=
    if is_log s then expf (t * (lnf (hi s) - lnf (lo s)) + lnf (lo s)) else t * width s + lo s.
  Definition dec (s : desc) (x : Q) : Q :=
    if integral s then inject_Z (rint_q (raw s (cell s x))) else raw s (cell s x).

  Lemma from_unit_dom : forall s cat x, good s -> from_unit AR (dom s cat) (Some x) = Some (dec s x).
  Proof.
    intros s cat x G. unfold from_unit.
    assert (E : d_unit (dom s cat) = false) by (destruct s; reflexivity). rewrite E.
    assert (E2 : match d_card (dom s cat) with Some q => quantize AR q (Some x) | None => Some x end
                 = Some (cell s x)).
    { assert (d_card (dom s cat) = card s) as -> by (destruct s; reflexivity).
      unfold cell. destruct (card s) as [q |] eqn:C; auto. rewrite quantize_q; auto.
      eapply card_ge2; eauto. }
    rewrite E2.
    assert (E3 : d_log (dom s cat) = logs s) by (destruct s; reflexivity). rewrite E3.
    assert (E4 : match logs s with
                 | Some (l, u) => aexp AR (aadd AR (amul AR (Some (cell s x)) (asub AR u l)) l)
                 | None => aadd AR (amul AR (Some (cell s x)) (b_width AR (d_bounds (dom s cat))))
                               (d_lower AR (dom s cat))
                 end = Some (raw s (cell s x))).
    { unfold raw, logs. destruct (is_log s); [reflexivity |]. destruct s; reflexivity. }
    rewrite E4. unfold dec, as_type.
    destruct s as [l u g b | l u g b]; cbn [dom d_bounds d_round is_int integral arint atrunc Qar option_map]; auto.
    rewrite trunc_q_Z. reflexivity.
  Qed.

  Lemma raw_point : forall s t, log_ok lnf expf s -> raw s t == point lnf expf s t.
  Proof.
    intros s t L. unfold raw, point. unfold log_ok in L. destruct (is_log s).
    - destruct (L eq_refl) as (_ & _ & _ & M). apply Qle_antisym; apply M; lra.
    - rewrite width_eq. ring.
  Qed.
  Lemma point_mono : forall s t t', good s -> log_ok lnf expf s -> t <= t' ->
    point lnf expf s t <= point lnf expf s t'.
  Proof.
    intros s t t' (G & _) L H. unfold point. unfold log_ok in L. destruct (is_log s).
    - destruct (L eq_refl) as (O & _ & _ & M). apply M.
      apply Qplus_le_r. apply Qmult_le_compat_r; auto. lra.
    - apply Qplus_le_r. apply Qmult_le_compat_r; auto. lra.
  Qed.
  Lemma point_proper : forall s t t', good s -> log_ok lnf expf s -> t == t' ->
    point lnf expf s t == point lnf expf s t'.
  Proof. intros s t t' G L H. apply Qle_antisym; apply point_mono; auto; lra. Qed.
  Lemma point_0 : forall s, good s -> log_ok lnf expf s -> point lnf expf s 0 == lo s.
  Proof.
    intros s G L. unfold point. unfold log_ok in L. destruct (is_log s).
    - destruct (L eq_refl) as (_ & E & _ & M). apply (Qeq_trans _ (expf (lnf (lo s)))); [| exact E].
      apply Qle_antisym; apply M; lra.
    - ring.
  Qed.
  Lemma point_1 : forall s, good s -> log_ok lnf expf s -> point lnf expf s 1 == hi s.
  Proof.
    intros s G L. unfold point. unfold log_ok in L. destruct (is_log s).
    - destruct (L eq_refl) as (_ & _ & E & M). apply (Qeq_trans _ (expf (lnf (hi s)))); [| exact E].
      apply Qle_antisym; apply M; lra.
    - ring.
  Qed.
  Lemma point_in : forall s t, good s -> log_ok lnf expf s -> 0 <= t -> t <= 1 ->
    lo s <= point lnf expf s t /\ point lnf expf s t <= hi s.
  Proof.
    intros s t G L H0 H1. rewrite <- (point_0 s G L), <- (point_1 s G L).
    split; apply point_mono; auto.
  Qed.

  Lemma cell_in : forall s x, good s -> 0 <= x -> x <= 1 -> 0 <= cell s x /\ cell s x <= 1.
  Proof.
    intros s x G H0 H1. unfold cell. destruct (card s) as [q |] eqn:C; auto.
    apply frac_range. eapply card_ge2; eauto.
  Qed.
  Lemma cell_mono : forall s x y, good s -> x <= y -> cell s x <= cell s y.
  Proof.
    intros s x y G H. unfold cell. destruct (card s) as [q |] eqn:C; auto.
    apply frac_mono; auto. eapply card_ge2; eauto.
  Qed.

  Lemma int_bounds : forall s, integral s = true -> exists l u, lo s = inject_Z l /\ hi s = inject_Z u.
  Proof. intros [l u g b | l u g b] H; [exists l, u; auto | discriminate]. Qed.

  Lemma dec_legal : forall s x, good s -> log_ok lnf expf s -> 0 <= x -> x <= 1 ->
    legal lnf expf s (dec s x).
  Proof.
    intros s x G L H0 H1.
    destruct (cell_in s x G H0 H1) as [C0 C1].
    destruct (point_in s (cell s x) G L C0 C1) as [P0 P1].
    assert (E := raw_point s (cell s x) L).
    assert (B : lo s <= dec s x /\ dec s x <= hi s).
    { unfold dec. destruct (integral s) eqn:I.
      - destruct (int_bounds s I) as (l & u & El & Eu). rewrite El in *. rewrite Eu in *.
        apply rint_between; rewrite E; auto.
      - rewrite E. auto. }
    split; [apply B |]. split; [apply B |]. split.
    - intros I. unfold dec. rewrite I. eexists. reflexivity.
    - intros b Hb. assert (Cb : card s = Some b).
      { destruct s; cbn in Hb |- *; subst; reflexivity. }
      assert (B2 := card_ge2 s b G Cb).
      assert (R := level_range b x B2).
      exists (level b x). split; [lia |].
      assert (Ec : cell s x = inject_Z (level b x) / inject_Z (b - 1)).
      { unfold cell. rewrite Cb. reflexivity. }
      unfold dec. destruct (integral s).
      + exists (rint_q (raw s (cell s x))). split; [reflexivity |].
        rewrite <- Ec. assert (N := rint_near (raw s (cell s x))). unfold near in *. lra.
      + rewrite E, Ec. reflexivity.
  Qed.

  Lemma dec_ends : forall s, good s -> log_ok lnf expf s -> dec s 0 == lo s /\ dec s 1 == hi s.
  Proof.
    intros s G L.
    assert (C : cell s 0 == 0 /\ cell s 1 == 1).
    { unfold cell. destruct (card s) as [q |] eqn:E; [| split; reflexivity].
      assert (2 <= q)%Z by (eapply card_ge2; eauto). split; [apply frac_0 | apply frac_1]; auto. }
    destruct C as [C0 C1].
    assert (E0 : raw s (cell s 0) == lo s).
    { rewrite raw_point by auto. rewrite (point_proper s _ _ G L C0). apply point_0; auto. }
    assert (E1 : raw s (cell s 1) == hi s).
    { rewrite raw_point by auto. rewrite (point_proper s _ _ G L C1). apply point_1; auto. }
    unfold dec. destruct (integral s) eqn:I; [| auto].
    destruct (int_bounds s I) as (l & u & El & Eu). rewrite El in *. rewrite Eu in *.
    rewrite (rint_of_Z _ _ E0), (rint_of_Z _ _ E1). split; reflexivity.
  Qed.

  Lemma dec_mono : forall s x y, good s -> log_ok lnf expf s -> x <= y -> dec s x <= dec s y.
  Proof.
    intros s x y G L H.
    assert (R : raw s (cell s x) <= raw s (cell s y)).
    { rewrite !raw_point by auto. apply point_mono; auto. apply cell_mono; auto. }
    unfold dec. destruct (integral s); auto.
    rewrite <- Zle_Qle. apply rint_mono. exact R.
  Qed.
  Lemma dec_proper : forall s x y, good s -> log_ok lnf expf s -> x == y -> dec s x == dec s y.
  Proof. intros s x y G L H. apply Qle_antisym; apply dec_mono; auto; lra. Qed.

  (** Every integer gets an equal share of the unit interval. *)
  Lemma dec_share : forall l u k x, (l < u)%Z -> (l <= k <= u)%Z ->
    inject_Z (k - l) <= x * inject_Z (u - l + 1) -> x * inject_Z (u - l + 1) < inject_Z (k - l + 1) ->
    dec (DInt l u false None) x == inject_Z k.
  Proof.
    intros l u k x H Hk H1 H2. unfold dec, raw, cell. cbn [integral is_log card width lo].
    unfold frac. rewrite (level_share _ (k - l)%Z) by (auto; lia).
    replace (u - l + 1 - 1)%Z with (u - l)%Z by lia.
    rewrite (rint_of_Z _ k); [reflexivity |].
    rewrite injZ_sub at 1. field.
    assert (P : 0 < inject_Z (u - l)) by (apply injZ_pos; lia). lra.
  Qed.

  (** *** Encoding *)
  Definition lin (s : desc) (x : Q) : Q :=
    if is_log s then (lnf x - lnf (lo s)) / (lnf (hi s) - lnf (lo s)) else (x - lo s) / width s.
  Definition enc (s : desc) (x : Q) : Q := cell s (lin s x).

  Lemma Qeq_bool_pos : forall x, 0 < x -> Qeq_bool x 0 = false.
  Proof. intros x H. apply not_true_is_false. intros E. apply Qeq_bool_iff in E. lra. Qed.

  Lemma to_unit_dom : forall s cat x, good s ->
    (is_log s = true -> 0 < x /\ lnf (lo s) < lnf (hi s)) ->
    to_unit AR (dom s cat) (Some x) = Some (enc s x).
  Proof.
    intros s cat x G L. unfold to_unit.
    assert (E : d_unit (dom s cat) = false) by (destruct s; reflexivity). rewrite E. cbn [andb].
    assert (E3 : d_log (dom s cat) = logs s) by (destruct s; reflexivity). rewrite E3.
    assert (E4 : match logs s with
                 | Some (l, u) => adiv AR (asub AR (aln AR (Some x)) l) (asub AR u l)
                 | None => adiv AR (asub AR (Some x) (d_lower AR (dom s cat))) (b_width AR (d_bounds (dom s cat)))
                 end = Some (lin s x)).
    { unfold lin, logs. destruct (is_log s).
      - destruct (L eq_refl) as [X O]. cbn [adiv asub aln Qar lift2].
        assert (Q1 : Qle_bool x 0 = false).
        { apply not_true_is_false. intros Y. apply Qle_bool_iff in Y. lra. }
        rewrite Q1. cbn [lift2]. rewrite Qeq_bool_pos by lra. reflexivity.
      - destruct G as (G & _).
        assert (W := width_eq s).
        assert (E5 : b_width AR (d_bounds (dom s cat)) = Some (width s)) by (destruct s; reflexivity).
        assert (E6 : d_lower AR (dom s cat) = Some (lo s)) by (destruct s; reflexivity).
        rewrite E5, E6. cbn [adiv asub Qar lift2]. rewrite Qeq_bool_pos by lra. reflexivity. }
    rewrite E4.
    assert (d_card (dom s cat) = card s) as -> by (destruct s; reflexivity).
    unfold enc, cell. destruct (card s) as [q |] eqn:C; auto.
    rewrite quantize_q; auto. eapply card_ge2; eauto.
  Qed.
End Dom.
