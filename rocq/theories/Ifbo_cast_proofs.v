(** The three domains of ifBO. *)
From Verif Require Import Ifbo_spec Ifbo_adjust_proofs Ifbo_proofs Dom_spec Dom_proofs Dom_cast_proofs.
From Coq Require Import Lqa.
Open Scope Q_scope.

Lemma div_lt_1 a b : 0 < b -> a / b < 1 -> a < b.
Proof.
  intros P L. apply (Qmult_lt_r _ _ _ P) in L. rewrite Qmult_1_l in L. assert (E : a / b * b == a) by (field; lra). lra.
Qed.
Section S.
  Variables lnf expf : Q -> Q.
  Notation A := (Qar lnf expf).
  Notation fdom l u := (dom lnf (DFloat l u false None) false).
  Notation idom l u := (dom lnf (DInt l u false None) false).

  Lemma cast_general s s' x : is_log s' = false -> ~ (lo s == lo s' /\ hi s == hi s' /\ size_of s = size_of s') ->
    cast A (dom lnf s false) (dom lnf s' false) x = from_unit A (dom lnf s false) (to_unit A (dom lnf s' false) x).
  Proof.
    intros LG N. unfold cast. destruct (same_domain A (dom lnf s false) (dom lnf s' false)) eqn:E.
    { apply same_domain_dom in E. destruct E as (E1 & E2 & _ & E3 & _). exfalso. apply N. auto. }
    rewrite unit_dom. destruct (log_lift A (dom lnf s false) (dom lnf s' false)) eqn:E'; [|reflexivity].
    apply log_lift_dom in E'. destruct E' as (_ & E' & _). congruence.
  Qed.
  Lemma to_f l u x : ~ u - l == 0 -> to_unit A (fdom l u) (Some x) = Some ((x - l) / (u - l)).
  Proof.
    intros N. unfold to_unit. cbn [d_unit dom andb d_log logs is_log d_lower d_bounds b_lower b_width d_card card asub adiv Qar lift2].
    destruct (Qeq_bool (u - l) 0) eqn:E; [apply Qeq_bool_iff in E; contradiction|]. reflexivity.
  Qed.
  Lemma to_f_flat l u x : u - l == 0 -> to_unit A (fdom l u) x = None.
  Proof.
    intros N. unfold to_unit. cbn [d_unit dom andb d_log logs is_log d_lower d_bounds b_lower b_width d_card card asub adiv Qar lift2].
    destruct x as [x|]; cbn [lift2]; [|reflexivity]. destruct (Qeq_bool (u - l) 0) eqn:E; [|apply Qeq_bool_neq in E; contradiction]. reflexivity.
  Qed.
  Lemma from_f l u x : from_unit A (fdom l u) (Some x) = Some (x * (u - l) + l).
  Proof. reflexivity. Qed.
  Lemma to_nan s : to_unit A (dom lnf s false) None = None.
  Proof.
    unfold to_unit. rewrite unit_dom, log_dom, card_dom. cbn [andb]. unfold logs.
    assert (X : (if is_log s then Some (Some (lnf (lo s)), Some (lnf (hi s))) else None) = logs lnf s) by reflexivity.
    assert (Y : match logs lnf s with Some (l, u) => adiv A (asub A (aln A None) l) (asub A u l)
       | None => adiv A (asub A None (d_lower A (dom lnf s false))) (b_width A (d_bounds (dom lnf s false))) end = None).
    { unfold logs. destruct (is_log s); reflexivity. }
    rewrite X, Y. destruct (size_of s); reflexivity.
  Qed.
  Lemma from_nan s : is_log s = false -> from_unit A (dom lnf s false) None = None.
  Proof. destruct s as [l u g b|l u g b]; cbn [is_log]; intros ->; unfold from_unit; cbn [dom d_unit d_card card]; destruct b; reflexivity. Qed.
  Lemma from_f_nan l u : from_unit A (fdom l u) None = None.
  Proof. reflexivity. Qed.

  Lemma igood l u : (l < u)%Z -> good (DInt l u false None).
  Proof. intros H. unfold good. cbn. rewrite <- Zlt_Qlt. split; [exact H|]. split; discriminate. Qed.
  Lemma to_i l u x : (l < u)%Z -> to_unit A (idom l u) (Some x) = Some (frac (u - l + 1) ((x - inject_Z l) / inject_Z (u - l))).
  Proof. intros H. rewrite to_unit_dom by (try apply igood, H; discriminate). reflexivity. Qed.
  Lemma from_i l u x : (l < u)%Z -> from_unit A (idom l u) (Some x) = Some (inject_Z (l + level (u - l + 1) x)).
  Proof.
    intros H. rewrite from_unit_dom by apply igood, H. f_equal. unfold dec, raw, cell. cbn [integral is_log card width lo]. f_equal.
    apply rint_of_Z. unfold frac. replace (u - l + 1 - 1)%Z with (u - l)%Z by lia.
    assert (P : 0 < inject_Z (u - l)) by (apply injZ_pos; lia). rewrite inject_Z_plus. field. lra.
  Qed.

  (** ** The indices: whole numbers are read back *)
  Lemma as_int_Z z : as_int A (Some (inject_Z z)) = Ok z.
  Proof. unfold as_int. cbn [aint Qar option_map]. rewrite trunc_q_Z. reflexivity. Qed.

  (** ** Float fidelities *)
  Lemma lb_f u (NZ : ~ u == 0) : inject_Z 1 / u == / u. Proof. unfold Qdiv. change (inject_Z 1) with 1. ring. Qed.
  Definition bud (s : desc) : domain (option Q) := fdom (inject_Z 1 / hi s) (inject_Z 1).
  Definition lb (s : desc) : Q := inject_Z 1 / hi s.

  (** Budgets: the share of the range. *)
  Lemma bud_diff s : lo s < hi s -> ~ (inject_Z 1 / hi s == lo s /\ inject_Z 1 == hi s /\ @None Z = size_of s).
  Proof. intros L (E1 & E2 & _). rewrite <- E2 in E1, L at 1. change (inject_Z 1 / inject_Z 1) with 1 in E1. change (inject_Z 1) with 1 in *. lra. Qed.
  Lemma to_budget s x t : is_log s = false -> lo s < hi s -> to_unit A (dom lnf s false) (Some x) = Some t ->
    cast A (bud s) (dom lnf s false) (Some x) = Some (t * (1 - lb s) + lb s).
  Proof.
    intros LG L E. unfold bud. rewrite cast_general; [|exact LG|apply bud_diff, L]. rewrite E, from_f. reflexivity.
  Qed.
  Lemma to_budget_nan s : is_log s = false -> lo s < hi s -> cast A (bud s) (dom lnf s false) None = None.
  Proof. intros LG L. unfold bud. rewrite cast_general; [|exact LG|apply bud_diff, L]. rewrite to_nan. apply from_f_nan. Qed.
  Lemma of_budget s b : lo s < hi s -> ~ 1 - lb s == 0 ->
    cast A (dom lnf s false) (bud s) (Some b) = from_unit A (dom lnf s false) (Some ((b - lb s) / (1 - lb s))).
  Proof.
    intros L N. unfold bud. rewrite cast_general; [|reflexivity|].
    - rewrite to_f by exact N. reflexivity.
    - intros (E1 & E2 & E3). apply (bud_diff s L). cbn [lo hi size_of] in *. split; [symmetry; exact E1|]. split; [symmetry; exact E2|]. symmetry. exact E3.
  Qed.
  Lemma of_budget_flat s b : lo s < hi s -> 1 - lb s == 0 -> cast A (dom lnf s false) (bud s) b = from_unit A (dom lnf s false) None.
  Proof.
    intros L N. unfold bud. rewrite cast_general; [|reflexivity|].
    - rewrite to_f_flat by exact N. reflexivity.
    - intros (E1 & E2 & E3). apply (bud_diff s L). cbn [lo hi size_of] in *. split; [symmetry; exact E1|]. split; [symmetry; exact E2|]. symmetry. exact E3.
  Qed.

  (** ** What is needed of the domains of an optimiser *)
  Definition steps (s : desc) (n : Z) (pts : Z -> Q) : Prop :=
    (forall t, t == 0 -> exists q, from_unit A (dom lnf s false) (Some t) = Some q /\ q == pts 0%Z) /\
    (forall k q, (0 <= k <= n - 1)%Z -> q == pts k -> exists t, to_unit A (dom lnf s false) (Some q) = Some t /\ 0 <= t /\ t <= 1 /\
       (t < 1 -> (k < n - 1)%Z /\ forall t', t' == t -> exists q', from_unit A (dom lnf s false) (Some t') = Some q' /\
         cast A (idom 0 (n - 1)) (dom lnf s false) (Some q') = Some (inject_Z k))) /\
    (forall k, (0 <= k <= n - 1)%Z -> exists q, cast A (dom lnf s false) (idom 0 (n - 1)) (Some (inject_Z k)) = Some q /\ q == pts k) /\
    (forall k k' q q', (0 <= k)%Z -> (k < k')%Z -> (k' <= n - 1)%Z -> q == pts k -> q' == pts k' ->
       exists t t', to_unit A (dom lnf s false) (Some q) = Some t /\ to_unit A (dom lnf s false) (Some q') = Some t' /\ t < t').

  Lemma ix_of_t n t k : (2 <= n)%Z -> level n t = k -> from_unit A (idom 0 (n - 1)) (Some t) = Some (inject_Z k).
  Proof. intros N E. rewrite from_i by lia. replace (n - 1 - 0 + 1)%Z with n by lia. rewrite E. reflexivity. Qed.
  Lemma t_of_ix n k : (2 <= n)%Z -> (0 <= k <= n - 1)%Z -> exists t, to_unit A (idom 0 (n - 1)) (Some (inject_Z k)) = Some t /\ t == inject_Z k / inject_Z (n - 1).
  Proof.
    intros N K. eexists. split; [rewrite to_i by lia; reflexivity|]. replace (n - 1 - 0 + 1)%Z with n by lia. replace (n - 1 - 0)%Z with (n - 1)%Z by lia.
    assert (P : 0 < inject_Z (n - 1)) by (apply injZ_pos; lia).
    apply frac_grid; [lia|exact K|]. change (inject_Z 0) with 0. field. lra.
  Qed.

  Lemma steps_float l u n : l < u -> (2 <= n)%Z -> steps (DFloat l u false None) n (fid_at l u n).
  Proof.
    intros LU N. assert (P : 0 < inject_Z (n - 1)) by (apply injZ_pos; lia). assert (NZ : ~ u - l == 0) by lra.
    assert (TT : forall k q, q == fid_at l u n k -> (q - l) / (u - l) == inject_Z k / inject_Z (n - 1)).
    { intros k q E. rewrite E. unfold fid_at. field. split; lra. }
    assert (R : forall k, (0 <= k <= n - 1)%Z -> 0 <= inject_Z k / inject_Z (n - 1) /\ inject_Z k / inject_Z (n - 1) <= 1).
    { intros k K. split.
      - apply Qle_shift_div_l; [exact P|]. rewrite Qmult_0_l. apply injZ_nonneg. lia.
      - apply Qle_shift_div_r; [exact P|]. rewrite Qmult_1_l, <- Zle_Qle. lia. }
    split; [|split; [|split]].
    - intros t E. eexists. split; [apply from_f|]. rewrite E. unfold fid_at. change (inject_Z 0) with 0. field. lra.
    - intros k q K E. eexists. split; [apply to_f, NZ|]. rewrite !(TT k q E). destruct (R k K) as [R1 R2]. split; [exact R1|]. split; [exact R2|].
      intros L. assert (KN : (k < n - 1)%Z).
      { rewrite Zlt_Qlt. apply div_lt_1; assumption. }
      split; [exact KN|]. intros t' T'. eexists. split; [apply from_f|]. rewrite cast_general; [|reflexivity|intros (_ & _ & X); discriminate].
      rewrite to_f by exact NZ. apply ix_of_t; [exact N|]. apply level_grid; [lia|exact K|]. rewrite <- (TT k q E), <- T'. field. lra.
    - intros k K. destruct (t_of_ix n k N K) as (t & E & ET). eexists. split.
      + rewrite cast_general; [|reflexivity|intros (_ & _ & X); discriminate]. rewrite E. apply from_f.
      + rewrite ET. unfold fid_at. ring.
    - intros k k' q q' K KK K' E E'. do 2 eexists. split; [apply to_f, NZ|]. split; [apply to_f, NZ|]. rewrite (TT k q E), (TT k' q' E').
      apply Qlt_shift_div_l; [exact P|]. rewrite Qmult_comm, Qmult_div_r by lra. rewrite <- Zlt_Qlt. exact KK.
  Qed.

  (** Integer fidelities: the fidelity nearest to the point from below *)
  Definition ipt (l u n k : Z) : Z := (l + level (u - l + 1) (inject_Z k / inject_Z (n - 1)))%Z.
  Lemma ipt_eq l u n k : (2 <= n)%Z -> (0 <= k <= n - 1)%Z -> (l < u)%Z -> ipt l u n k = (l + (if Z.eqb k (n - 1) then u - l else (k * (u - l + 1)) / (n - 1)))%Z.
  Proof.
    intros N K LU. unfold ipt. f_equal. set (m := (u - l + 1)%Z). assert (P : 0 < inject_Z (n - 1)) by (apply injZ_pos; lia).
    destruct (Z.eqb_spec k (n - 1)) as [->|NE].
    - rewrite (level_proper _ _ 1) by (field; lra). rewrite level_1 by (unfold m; lia). unfold m. lia.
    - pose proof (Z.mul_div_le (k * m) (n - 1) ltac:(lia)) as D1. pose proof (Z.mul_succ_div_gt (k * m) (n - 1) ltac:(lia)) as D2.
      assert (D0 : (0 <= k * m / (n - 1))%Z) by (apply Z.div_pos; unfold m; nia).
      set (j := (k * m / (n - 1))%Z) in *. assert (JM : (j < m)%Z) by nia.
      assert (EQ : inject_Z k / inject_Z (n - 1) * inject_Z m == inject_Z (k * m) / inject_Z (n - 1)) by (rewrite inject_Z_mult; field; lra).
      apply level_share; [unfold m; lia|lia| |].
      + rewrite EQ. apply Qle_shift_div_l; [exact P|]. rewrite <- inject_Z_mult, <- Zle_Qle. lia.
      + rewrite EQ. apply Qlt_shift_div_r; [exact P|]. rewrite <- inject_Z_mult, <- Zlt_Qlt. nia.
  Qed.
  Lemma ipt_range l u n k : (l < u)%Z -> (l <= ipt l u n k <= u)%Z.
  Proof. intros H. unfold ipt. pose proof (level_range (u - l + 1) (inject_Z k / inject_Z (n - 1)) ltac:(lia)). lia. Qed.
  (** Which index is read back. *)
  Lemma ipt_back l u n k q : (2 <= n)%Z -> (l < u)%Z -> (n <= u - l)%Z -> q == inject_Z (ipt l u n k) ->
    cast A (idom 0 (n - 1)) (idom l u) (Some q) = Some (inject_Z (level n (inject_Z (ipt l u n k - l) / inject_Z (u - l)))).
  Proof.
    intros N LU NU E. rewrite cast_general; [|reflexivity|intros (_ & _ & X); cbn in X; injection X as X; lia].
    rewrite to_i by exact LU. apply ix_of_t; [exact N|]. apply level_proper. replace (u - l)%Z with (u - l + 1 - 1)%Z at 3 by lia.
    apply frac_grid; [lia|pose proof (ipt_range l u n k LU); lia|]. rewrite E, <- (injZ_sub (ipt l u n k) l). replace (u - l + 1 - 1)%Z with (u - l)%Z by lia. reflexivity.
  Qed.
  Lemma ipt_level l u n k : (2 <= n)%Z -> (0 <= k <= n - 1)%Z -> (l < u)%Z -> ((n - 1) * (n - 1) <= u - l)%Z ->
    level n (inject_Z (ipt l u n k - l) / inject_Z (u - l)) = k.
  Proof.
    intros N K LU SQ. rewrite ipt_eq by assumption. assert (P : 0 < inject_Z (u - l)) by (apply injZ_pos; lia).
    destruct (Z.eqb_spec k (n - 1)) as [->|NE].
    - replace (l + (u - l) - l)%Z with (u - l)%Z by lia. rewrite (level_proper _ _ 1) by (field; lra). apply level_1. exact N.
    - replace (l + k * (u - l + 1) / (n - 1) - l)%Z with (k * (u - l + 1) / (n - 1))%Z by lia.
      set (m := (u - l + 1)%Z). assert (EM : (u - l)%Z = (m - 1)%Z) by (unfold m; lia). rewrite EM in *.
      pose proof (Z.mul_div_le (k * m) (n - 1) ltac:(lia)) as D1. pose proof (Z.mul_succ_div_gt (k * m) (n - 1) ltac:(lia)) as D2.
      assert (J0 : (0 <= k * m / (n - 1))%Z) by (apply Z.div_pos; unfold m; nia).
      set (j := (k * m / (n - 1))%Z) in *. clearbody j m.
      assert (EQ : inject_Z j / inject_Z (m - 1) * inject_Z n == inject_Z (j * n) / inject_Z (m - 1)) by (rewrite inject_Z_mult; field; lra).
      apply level_share; [lia|lia| |].
      + rewrite EQ. apply Qle_shift_div_l; [exact P|]. rewrite <- inject_Z_mult, <- Zle_Qle.
        assert (k = 0 \/ 1 <= k)%Z as [->|K1] by lia; [nia|].
        assert (X1 : ((k * m + 1) * n <= (n - 1) * Z.succ j * n)%Z) by (apply Z.mul_le_mono_nonneg_r; lia).
        assert (X2 : (m + n - 1 <= k * (m + n - 1))%Z) by nia.
        apply (Z.mul_le_mono_pos_l _ _ (n - 1)); [lia|]. lia.
      + rewrite EQ. apply Qlt_shift_div_r; [exact P|]. rewrite <- inject_Z_mult, <- Zlt_Qlt.
        assert (X1 : ((n - 1) * j * n <= k * m * n)%Z) by (apply Z.mul_le_mono_nonneg_r; lia).
        assert (X2 : ((k + 1) * (m + n - 1) <= (n - 1) * (m + n - 1))%Z) by (apply Z.mul_le_mono_nonneg_r; lia).
        apply (Z.mul_lt_mono_pos_l (n - 1)); [lia|]. lia.
  Qed.

  Lemma steps_int l u n : (l < u)%Z -> (2 <= n)%Z -> (n <= u - l)%Z -> ((n - 1) * (n - 1) <= u - l)%Z ->
    steps (DInt l u false None) n (fun k => inject_Z (ipt l u n k)).
  Proof.
    intros LU N NU SQ. assert (P : 0 < inject_Z (u - l)) by (apply injZ_pos; lia).
    assert (TT : forall k q, q == inject_Z (ipt l u n k) -> exists t, to_unit A (idom l u) (Some q) = Some t /\ t == inject_Z (ipt l u n k - l) / inject_Z (u - l)).
    { intros k q E. eexists. split; [apply to_i, LU|]. replace (u - l)%Z with (u - l + 1 - 1)%Z at 3 by lia.
      apply frac_grid; [lia|pose proof (ipt_range l u n k LU); lia|]. rewrite E, <- (injZ_sub (ipt l u n k) l). replace (u - l + 1 - 1)%Z with (u - l)%Z by lia. reflexivity. }
    assert (LT : forall k, (0 <= k <= n - 1)%Z -> (ipt l u n k < u)%Z -> (k < n - 1)%Z).
    { intros k K H. destruct (Z.eq_dec k (n - 1)) as [->|]; [|lia]. rewrite ipt_eq in H by lia. rewrite Z.eqb_refl in H. lia. }
    split; [|split; [|split]].
    - intros t E. eexists. split; [apply from_i, LU|]. unfold ipt. rewrite (level_proper _ t 0 E), (level_proper _ (inject_Z 0 / inject_Z (n - 1)) 0); [reflexivity|].
      change (inject_Z 0) with 0. unfold Qdiv. apply Qmult_0_l.
    - intros k q K E. destruct (TT k q E) as (t & ET & TE). exists t. split; [exact ET|]. pose proof (ipt_range l u n k LU) as R.
      split. { rewrite TE. apply Qle_shift_div_l; [exact P|]. rewrite Qmult_0_l. apply injZ_nonneg. lia. }
      split. { rewrite TE. apply Qle_shift_div_r; [exact P|]. rewrite Qmult_1_l, <- Zle_Qle. lia. }
      intros L. split.
      { apply LT; [exact K|]. rewrite TE in L. assert (X : inject_Z (ipt l u n k - l) < inject_Z (u - l)).
        { apply div_lt_1; assumption. }
        rewrite <- Zlt_Qlt in X. lia. }
      intros t' T'. eexists. split; [apply from_i, LU|].
      assert (LV : level (u - l + 1) t' = (ipt l u n k - l)%Z).
      { apply level_grid; [lia|lia|]. rewrite T', TE. replace (u - l + 1 - 1)%Z with (u - l)%Z by lia. reflexivity. }
      rewrite LV. rewrite (ipt_back l u n k); [|lia|lia|lia|rewrite inject_Z_injective; lia]. rewrite ipt_level by lia. reflexivity.
    - intros k K. destruct (t_of_ix n k N K) as (t & E & ET). eexists. split.
      + rewrite cast_general; [|reflexivity|intros (_ & _ & X); cbn in X; injection X as X; lia]. rewrite E. apply from_i. exact LU.
      + unfold ipt. rewrite (level_proper _ _ _ ET). reflexivity.
    - intros k k' q q' K KK K' E E'. destruct (TT k q E) as (t & ET & TE). destruct (TT k' q' E') as (t' & ET' & TE'). exists t, t'.
      split; [exact ET|]. split; [exact ET'|]. destruct (Qlt_le_dec t t') as [|H]; [assumption|].
      apply (level_mono n) in H; [|exact N]. rewrite (level_proper n _ _ TE), (level_proper n _ _ TE'), !ipt_level in H by lia. lia.
  Qed.
End S.
