(** ifBO's constructor. *)
From Verif Require Import Ifbo_spec Ifbo_adjust_proofs Ifbo_proofs Ifbo_cast_proofs Ifbo_run_proofs Space_proofs Space_more_proofs Space_ops_proofs Space_mut_proofs Space_ask_proofs Param_proofs Param_int_proofs Dom_spec Dom_proofs Dom_cast_proofs Py_proofs Enc_proofs Space_spec.
From Coq Require Import Lqa Permutation.
Open Scope Q_scope.
Local Notation length := List.length.

Section S.
  Variables lnf expf : Q -> Q.
  Notation A := (Qar lnf expf).
  Notation T := (option Q).
  Notation wf := (wf lnf expf).

  Lemma in_set k q k' p (s : space T) : In (k', p) (set_key k q s) -> (k' = k /\ p = q) \/ In (k', p) s.
  Proof.
    induction s as [|[x y] s IH]; cbn [set_key].
    - intros [[= <- <-]|[]]. left. auto.
    - destruct (String.eqb_spec k x) as [E|E].
      + intros [[= <- <-]|I]; [left; auto|right; right; exact I].
      + intros [H|I]; [right; left; exact H|]. destruct (IH I) as [H|H]; [left; exact H|right; right; exact H].
  Qed.
  Lemma wf_set k p q (s : space T) : wf s -> lookup k s = Some p -> p_fid q = p_fid p -> preach lnf expf q -> wf (set_key k q s).
  Proof.
    intros (O & R & F) L E RQ. split; [|split].
    - eapply names_ordered; [|exact O]. eapply names_set; eauto.
    - intros k' p' I. destruct (in_set _ _ _ _ _ I) as [[-> ->]|I']; [exact RQ|]. eapply R; exact I'.
    - rewrite (fids_set k p q s L E). exact F.
  Qed.
  Lemma fid_set k p q (s : space T) : lookup k s = Some p -> p_fid q = p_fid p -> s_fidelity (set_key k q s) = s_fidelity s.
  Proof. intros L E. unfold s_fidelity. rewrite (fids_set k p q s L E). reflexivity. Qed.

  Lemma step_some l u step r : fid_step A q_floordiv (Some l) (Some u) step = Ok r -> exists q, step = Some q.
  Proof. destruct step as [q|]; [eauto|]. unfold fid_step. cbn. discriminate. Qed.

  (** The result of an adjustment. *)
  Lemma adjust_float_inv s name p step s' n : wf s -> s_fidelity s = Some name -> lookup name s = Some (PF p) ->
    adjust A q_floordiv s step = Ok (s', n) -> exists l u nl st q, step = Some st /\ 0 < st /\ (1 <= n)%Z /\ fp_log p = false /\
      fp_lower p = Some l /\ fp_upper p = Some u /\ fp_lower q = Some nl /\ fp_upper q = Some u /\
      l <= nl /\ nl < l + st /\ u - nl == inject_Z n * st /\ nl < u /\
      s' = set_key name (PF q) s /\ wf s' /\ s_fidelity s' = Some name /\ map fst s' = map fst s /\
      fp_log q = false /\ fp_fid q = true /\ fp_default q = fp_default p /\ fp_conf q = fp_conf p /\
      fp_dom q = dom lnf (DFloat nl u false None) false.
  Proof.
    intros W F L AD. destruct (fid_lookup lnf expf s name W F) as (p' & L' & FP & R). rewrite L in L'. injection L' as <-.
    destruct (float_fields lnf expf p R) as (l & u & EL & EU & LU & K & D).
    assert (LG : fp_log p = false). { unfold adjust in AD. rewrite F, L in AD. destruct (fp_log p); [discriminate|reflexivity]. }
    assert (FS : exists r, fid_step A q_floordiv (Some l) (Some u) step = Ok r).
    { unfold adjust in AD. rewrite F, L, LG, EL, EU in AD. apply bind_ok in AD. destruct AD as (r & E & _). eauto. }
    destruct FS as ((nl0, n0) & FS). destruct (step_some _ _ _ _ FS) as (st & ->).
    destruct (fid_step_inv lnf expf l u st nl0 n0 ltac:(lra) FS) as (N & SP & _ & EN & B1 & B2).
    assert (NP : 1 <= inject_Z n0) by (change 1 with (inject_Z 1); rewrite <- Zle_Qle; lia).
    assert (ST : st <= u - l).
    { assert (st <= inject_Z n0 * st). { setoid_replace st with (1 * st) at 1 by ring. apply Qmult_le_compat_r; lra. } lra. }
    destruct (adjust_float lnf expf s name p l u st W F L LG EL EU SP ST) as [H1 H2]. rewrite <- EN in H1, H2.
    set (nl := l + (u - l - inject_Z n0 * st)) in *.
    assert (ALL : forall x, fp_default p = Some (Some x) -> nl <= x).
    { intros x E. destruct (Qlt_le_dec x nl) as [X|X]; [|exact X]. rewrite (H2 x E X) in AD. discriminate. }
    destruct (H1 ALL) as (q & EQ & Q1 & Q2 & Q3 & Q4 & Q5 & Q6 & Q7 & Q8). rewrite EQ in AD. injection AD as <- <-.
    assert (PFQ : p_fid (PF q) = p_fid (PF p)) by (cbn in *; congruence).
    exists l, u, nl, st, q. split; [reflexivity|]. split; [exact SP|]. split; [lia|]. split; [exact LG|]. split; [exact EL|]. split; [exact EU|]. split; [exact Q1|].
    split; [exact Q2|]. assert (PP : 0 < inject_Z n0 * st) by (apply Qmult_lt_0_compat; lra).
    split; [unfold nl; lra|]. split; [unfold nl; lra|]. split; [unfold nl; ring|]. split; [unfold nl; lra|]. split; [reflexivity|].
    split; [eapply wf_set; eauto|]. split; [rewrite (fid_set _ _ _ _ L PFQ); exact F|]. split; [eapply names_set; eauto|]. auto.
  Qed.

  Lemma adjust_int_inv s name p (step : Z) s' n : wf s -> s_fidelity s = Some name -> lookup name s = Some (PI p) ->
    adjust A q_floordiv s (Some (inject_Z step)) = Ok (s', n) -> exists q, (0 < step)%Z /\ (1 <= n)%Z /\ ip_log p = false /\
      ip_upper q = ip_upper p /\ (ip_lower p <= ip_lower q)%Z /\ (ip_lower q < ip_lower p + step)%Z /\ (ip_upper q - ip_lower q = n * step)%Z /\
      s' = set_key name (PI q) s /\ wf s' /\ s_fidelity s' = Some name /\ map fst s' = map fst s /\
      ip_log q = false /\ ip_fid q = true /\ ip_default q = ip_default p /\ ip_conf q = ip_conf p /\
      ip_dom q = dom lnf (DInt (ip_lower q) (ip_upper q) false None) false.
  Proof.
    intros W F L AD. destruct (fid_lookup lnf expf s name W F) as (p' & L' & FP & R). rewrite L in L'. injection L' as <-.
    destruct (int_fields lnf expf p R) as (O & K & D).
    assert (LG : ip_log p = false). { unfold adjust in AD. rewrite F, L in AD. destruct (ip_log p); [discriminate|reflexivity]. }
    assert (FS : exists r, fid_step A q_floordiv (Some (inject_Z (ip_lower p))) (Some (inject_Z (ip_upper p))) (Some (inject_Z step)) = Ok r).
    { unfold adjust in AD. rewrite F, L, LG in AD. apply bind_ok in AD. destruct AD as (r & E & _). eauto. }
    destruct FS as ((nl0, n0) & FS).
    assert (LUQ : inject_Z (ip_lower p) <= inject_Z (ip_upper p)) by (rewrite <- Zle_Qle; lia).
    destruct (fid_step_inv lnf expf _ _ _ nl0 n0 LUQ FS) as (N & SP & _ & EN & B1 & B2).
    assert (S0 : (0 < step)%Z) by (rewrite Zlt_Qlt; exact SP).
    assert (ST : (n0 * step <= ip_upper p - ip_lower p)%Z). { rewrite Zle_Qle, inject_Z_mult, injZ_sub. lra. }
    assert (ST1 : (step <= ip_upper p - ip_lower p)%Z) by nia.
    destruct (adjust_int lnf expf s name p step W F L LG S0 ST1) as [H1 H2].
    set (m := ((ip_upper p - ip_lower p) / step)%Z) in *. set (nl := (ip_upper p - m * step)%Z) in *.
    assert (ALL : forall z, ip_default p = Some z -> (nl <= z)%Z).
    { intros z E. destruct (Z.le_gt_cases nl z) as [X|X]; [exact X|]. rewrite (H2 z E X) in AD. discriminate. }
    destruct (H1 ALL) as (q & EQ & Q1 & Q2 & Q3 & Q4 & Q5 & Q6 & Q7 & Q8). rewrite EQ in AD. injection AD as <- <-.
    assert (PFQ : p_fid (PI q) = p_fid (PI p)) by (cbn in *; congruence).
    assert (M : (1 <= m)%Z) by (apply Z.div_le_lower_bound; lia).
    pose proof (Z.mul_div_le (ip_upper p - ip_lower p) step S0) as D1. pose proof (Z.mul_succ_div_gt (ip_upper p - ip_lower p) step S0) as D2. fold m in D1, D2.
    exists q. split; [exact S0|]. split; [exact M|]. split; [exact LG|]. split; [exact Q2|]. rewrite Q1, Q2.
    split; [unfold nl; lia|]. split; [unfold nl; lia|]. split; [unfold nl; lia|]. split; [reflexivity|].
    split; [eapply wf_set; eauto|]. split; [rewrite (fid_set _ _ _ _ L PFQ); exact F|]. split; [eapply names_set; eauto|]. auto.
  Qed.

  Lemma indices_ok n : (2 <= n)%Z -> indices A n false = Ok (dom lnf (DInt 0 (n - 1) false None) false).
  Proof. intros N. unfold indices. apply integer_ok. lia. Qed.

  Lemma new_float_ifbo s name p step o : wf s -> s_fidelity s = Some name -> lookup name s = Some (PF p) -> ifbo_new A q_floordiv s step = Ok o ->
    exists st nl u n, step = Some st /\ fp_upper p = Some u /\ 0 < st /\ u - nl == inject_Z n * st /\ adjust A q_floordiv s step = Ok (ib_space o, n) /\
      ib_min o = Some nl /\ ~ u == 0 /\ is_ifbo lnf expf o (DFloat nl u false None) n (fid_at nl u n).
  Proof.
    intros W F L H. unfold ifbo_new in H. apply bind_ok in H. destruct H as ((s', n) & AD & H). cbn [fst snd] in H.
    destruct (adjust_float_inv s name p step s' n W F L AD) as (l & u & nl & st & q & -> & SP & N & LG & EL & EU & QL & QU & B1 & B2 & B3 & B4 & ES & W' & F' & NM & QG & QF & QD & QC & DM).
    rewrite F' in H. assert (LK : lookup name s' = Some (PF q)) by (rewrite ES, lookup_set_key, String.eqb_refl; reflexivity).
    rewrite LK in H. cbn [bind] in H. rewrite QL, QU, DM in H. cbn [aeqb aZ Qar] in H.
    destruct (Qeq_bool u (inject_Z 0)) eqn:U0; [discriminate|]. apply Qeq_bool_neq in U0. change (inject_Z 0) with 0 in U0.
    cbn [adiv Qar] in H. destruct (Qeq_bool u 0) eqn:U1; [apply Qeq_bool_iff in U1; contradiction|].
    rewrite floating_ok in H. cbn [bind] in H. apply bind_ok in H. destruct H as (ix & IX & [= <-]).
    exists st, nl, u, n. split; [reflexivity|]. split; [exact EU|]. split; [exact SP|]. split; [exact B3|]. split; [exact AD|]. split; [reflexivity|]. split; [exact U0|].
    split; [reflexivity|]. split; [exact B4|]. split; [exact N|]. split; [reflexivity|]. split; [reflexivity|]. split; [reflexivity|].
    split; [|intros N2; split].
    - exists nl. split; [reflexivity|]. unfold fid_at. change (inject_Z 0) with 0. unfold Qdiv. ring.
    - rewrite indices_ok in IX by exact N2. cbn [ib_ix]. congruence.
    - apply steps_float; assumption.
  Qed.

  Lemma new_int_ifbo s name p step o : wf s -> s_fidelity s = Some name -> lookup name s = Some (PI p) -> ifbo_new A q_floordiv s (Some (inject_Z step)) = Ok o ->
    exists nl u n, ip_upper p = u /\ (0 < step)%Z /\ (u - nl = n * step)%Z /\ adjust A q_floordiv s (Some (inject_Z step)) = Ok (ib_space o, n) /\
      ib_min o = Some (inject_Z nl) /\ (1 <= n)%Z /\ ib_bins o = n /\ u <> 0%Z /\
      (((n - 1) * (n - 1) <= u - nl)%Z -> is_ifbo lnf expf o (DInt nl u false None) n (fun k => inject_Z (ipt nl u n k))).
  Proof.
    intros W F L H. unfold ifbo_new in H. apply bind_ok in H. destruct H as ((s', n) & AD & H). cbn [fst snd] in H.
    destruct (adjust_int_inv s name p step s' n W F L AD) as (q & SP & N & LG & QU & B1 & B2 & B3 & ES & W' & F' & NM & QG & QF & QD & QC & DM).
    rewrite F' in H. assert (LK : lookup name s' = Some (PI q)) by (rewrite ES, lookup_set_key, String.eqb_refl; reflexivity).
    rewrite LK in H. cbn [bind] in H. rewrite DM in H. set (nl := ip_lower q) in *. set (u := ip_upper q) in *. cbn [aeqb aZ Qar] in H.
    destruct (Qeq_bool (inject_Z u) (inject_Z 0)) eqn:U0; [discriminate|]. apply Qeq_bool_neq in U0. change (inject_Z 0) with 0 in U0.
    cbn [adiv Qar] in H. destruct (Qeq_bool (inject_Z u) 0) eqn:U1; [apply Qeq_bool_iff in U1; contradiction|].
    rewrite floating_ok in H. cbn [bind] in H. apply bind_ok in H. destruct H as (ix & IX & [= <-]).
    assert (LU : (nl < u)%Z) by nia.
    exists nl, u, n. split; [symmetry; exact QU|]. split; [exact SP|]. split; [exact B3|]. split; [exact AD|]. split; [reflexivity|]. split; [exact N|]. split; [reflexivity|].
    split; [intros E; apply U0; rewrite E; reflexivity|]. intros SQ.
    split; [reflexivity|]. split; [cbn; rewrite <- Zlt_Qlt; exact LU|]. split; [exact N|]. split; [reflexivity|]. split; [reflexivity|]. split; [reflexivity|].
    split; [|intros N2; split].
    - exists (inject_Z nl). split; [reflexivity|]. apply inject_Z_injective. unfold ipt.
      rewrite (level_proper _ _ 0) by (change (inject_Z 0) with 0; unfold Qdiv; ring). rewrite level_0 by lia. lia.
    - rewrite indices_ok in IX by exact N2. cbn [ib_ix]. congruence.
    - apply steps_int; try assumption. nia.
  Qed.
End S.
