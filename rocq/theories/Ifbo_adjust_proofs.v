(** The step size and the bounds of the fidelity. *)
From Verif Require Import Ifbo_spec Space_proofs Space_more_proofs Space_ops_proofs Space_mut_proofs Space_ask_proofs Param_proofs Param_int_proofs Dom_spec Dom_proofs Py_proofs Enc_proofs Space_spec.
From Coq Require Import Lqa Permutation.
Open Scope Q_scope.
Local Notation length := List.length.

Section S.
  Variables lnf expf : Q -> Q.
  Notation A := (Qar lnf expf).
  Notation T := (option Q).
  Notation wf := (wf lnf expf).

  Lemma trunc_floor x : trunc_q (inject_Z x) = x. Proof. apply trunc_q_Z. Qed.
  Lemma floor_bounds x : inject_Z (Qfloor x) <= x /\ x < inject_Z (Qfloor x) + 1.
  Proof. split; [apply Qfloor_le|]. pose proof (Qlt_floor x) as H. rewrite inject_Z_plus in H. exact H. Qed.

  (** The arithmetic. *)
  Lemma fid_step_inv (l u step : Q) nl n : l <= u -> fid_step A q_floordiv (Some l) (Some u) (Some step) = Ok (nl, n) ->
    (0 < n)%Z /\ 0 < step /\ nl = Some (l + (u - l - inject_Z n * step)) /\ n = Qfloor ((u - l) / step) /\
    0 <= u - l - inject_Z n * step /\ u - l - inject_Z n * step < step.
  Proof.
    intros LU. unfold fid_step. cbn [aeqb aZ Qar asub lift2 q_floordiv]. destruct (Qeq_bool step (inject_Z 0)) eqn:E0; [discriminate|].
    apply Qeq_bool_neq in E0. change (inject_Z 0) with 0 in *.
    destruct (Qeq_bool step 0) eqn:E1; [apply Qeq_bool_iff in E1; contradiction|].
    cbn [aint Qar option_map]. rewrite trunc_floor. remember (Qfloor ((u - l) / step)) as m eqn:EN. destruct (Z.leb m 0) eqn:N; [discriminate|].
    apply Z.leb_gt in N. cbn [amul aadd asub Qar lift2 aZ]. intros [= <- <-]. rename m into n.
    destruct (floor_bounds ((u - l) / step)) as [B1 B2]. rewrite <- EN in B1, B2.
    assert (P : 1 <= inject_Z n) by (change 1 with (inject_Z 1); rewrite <- Zle_Qle; lia).
    assert (S : 0 < step).
    { destruct (Qlt_le_dec 0 step) as [S|S]; [exact S|]. exfalso.
      assert (SN : step < 0) by (destruct (Qle_lt_or_eq _ _ S) as [H|H]; [exact H|contradiction]).
      assert (X : (u - l) / step <= 0).
      { assert (E : (u - l) / step == - ((u - l) / (- step))) by (field; intros H; lra).
        rewrite E. assert (0 <= (u - l) / (- step)) by (apply Qle_shift_div_l; lra). lra. }
      lra. }
    assert (E : u - l == (u - l) / step * step) by (field; lra).
    split; [exact N|]. split; [exact S|]. split; [reflexivity|]. split; [reflexivity|].
    assert (M1 : inject_Z n * step <= (u - l) / step * step) by (apply Qmult_le_compat_r; lra).
    assert (M2 : (u - l) / step * step < (inject_Z n + 1) * step) by (apply Qmult_lt_r; assumption).
    set (t := (u - l) / step * step) in *. clearbody t. split; lra.
  Qed.
  Lemma fid_step_ok (l u step : Q) : 0 < step -> step <= u - l ->
    let n := Qfloor ((u - l) / step) in fid_step A q_floordiv (Some l) (Some u) (Some step) = Ok (Some (l + (u - l - inject_Z n * step)), n).
  Proof.
    intros S LU n. unfold fid_step. cbn [aeqb aZ Qar asub lift2 q_floordiv].
    assert (E0 : Qeq_bool step 0 = false) by (apply Qeq_bool_pos, S). change (inject_Z 0) with 0. rewrite !E0.
    cbn [aint Qar option_map]. rewrite trunc_floor. fold n.
    assert (N : (1 <= n)%Z).
    { unfold n. replace 1%Z with (Qfloor 1) by reflexivity. apply Qfloor_resp_le. apply Qle_shift_div_l; lra. }
    destruct (Z.leb n 0) eqn:L; [apply Z.leb_le in L; lia|]. reflexivity.
  Qed.

  (** Replacing a parameter that has the same flag. *)
  Lemma fids_set k p q (s : space T) : lookup k s = Some p -> p_fid q = p_fid p -> s_fidelities (set_key k q s) = s_fidelities s.
  Proof.
    unfold s_fidelities. induction s as [|[k' p'] s IH]; cbn [lookup set_key]; [discriminate|].
    destruct (String.eqb k k') eqn:E; intros L F.
    - injection L as <-. cbn [filter snd]. rewrite F. destruct (p_fid p'); reflexivity.
    - cbn [filter snd]. destruct (p_fid p'); cbn [map]; rewrite IH; auto.
  Qed.
  Lemma names_set k q p (s : space T) : lookup k s = Some p -> map fst (set_key k q s) = map fst s.
  Proof.
    induction s as [|[k' p'] s IH]; cbn [lookup set_key]; [discriminate|].
    destruct (String.eqb k k') eqn:E; intros L; cbn [map fst]; [reflexivity|]. rewrite IH; auto.
  Qed.
  Lemma ss_set k p q (s : space T) : wf s -> lookup k s = Some p -> p_fid q = p_fid p -> search_space (set_key k q s) = Ok (set_key k q s).
  Proof.
    intros (O & _ & F) L E.
    assert (OS : sort_names (set_key k q s) = set_key k q s).
    { apply ordered_id. eapply names_ordered; [|exact O]. eapply names_set; eauto. }
    unfold search_space. rewrite OS, (fids_set k p q s L E).
    destruct (s_fidelities s) as [|a [|b t]]; [reflexivity|reflexivity|cbn in F; lia].
  Qed.

  (** The fidelity of a space. *)
  Lemma fid_lookup (s : space T) name : wf s -> s_fidelity s = Some name -> exists p, lookup name s = Some p /\ p_fid p = true /\ preach lnf expf p.
  Proof.
    intros W F. destruct (proj1 (fidelity_iff lnf expf s name W) F) as (p & I & P). exists p.
    split; [apply In_lookup; [exact (wf_nodup _ _ s W)|exact I]|]. split; [exact P|]. exact (wf_reach _ _ s name p W I).
  Qed.
  Lemma float_fields p : preach lnf expf (PF p) -> exists l u, fp_lower p = Some l /\ fp_upper p = Some u /\ l < u /\ known (fp_conf p) = true /\
    (forall x, fp_default p = Some x -> exists d, x = Some d /\ l <= d /\ d <= u).
  Proof.
    intros (l & u & R). apply freach_good in R. exists l, u. destruct (good_bounds A _ _ _ R) as [-> ->].
    destruct (good_fields A _ _ _ R) as (dom & _ & O & _ & D & K & _). split; [reflexivity|]. split; [reflexivity|].
    split; [exact (bounds_order lnf expf l u O)|]. split; [exact K|]. intros x E. apply D in E.
    apply within_inv in E. destruct E as (a & b & q & [= <-] & [= <-] & -> & H1 & H2). eauto.
  Qed.
  Lemma int_fields p : preach lnf expf (PI p) -> (ip_lower p < ip_upper p)%Z /\ known (ip_conf p) = true /\
    (forall z, ip_default p = Some z -> (ip_lower p <= z <= ip_upper p)%Z).
  Proof.
    intros (l & u & R). apply ireach_good in R. destruct R as (-> & -> & L & _ & D & K & _). split; [exact L|]. split; [exact K|].
    intros z E. exact (D eq_refl z E).
  Qed.

  Lemma floating_ok (l u : Q) : floating A (Some l) (Some u) false None false = Ok (dom lnf (DFloat l u false None) false).
  Proof.
    unfold floating. cbn [log_of bind]. unfold post_init. cbn [cardinality bind is_int].
    rewrite andb_false_r. cbn [andb]. reflexivity.
  Qed.

  (** The new float parameter. *)
  Lemma new_float l u d conf : l < u -> known conf = true -> (forall x, d = Some x -> exists q, x = Some q /\ l <= q /\ q <= u) ->
    exists q, float_parameter A (Some l) (Some u) false true d conf = Ok q /\ fp_lower q = Some l /\ fp_upper q = Some u /\
    fp_log q = false /\ fp_fid q = true /\ fp_default q = d /\ fp_conf q = conf /\ fp_dom q = dom lnf (DFloat l u false None) false /\ preach lnf expf (PF q).
  Proof.
    intros LU K D. eexists. assert (E : float_parameter A (Some l) (Some u) false true d conf =
      Ok (mkF (Some l) (Some u) false true d conf conf None None (is_some d) None None (dom lnf (DFloat l u false None) false))).
    { apply (new_from A (Some l) (Some u) false true d conf); [apply floating_ok| |reflexivity| |exact K].
      - apply not_true_is_false. intros H. apply ale_some in H. lra.
      - intros x E. destruct (D x E) as (q & -> & H). apply within_some. exact H. }
    split; [exact E|]. do 7 (split; [reflexivity|]). exists l, u. eapply fr_new. exact E.
  Qed.

  Lemma adjust_float s name p l u step : wf s -> s_fidelity s = Some name -> lookup name s = Some (PF p) -> fp_log p = false ->
    fp_lower p = Some l -> fp_upper p = Some u -> 0 < step -> step <= u - l ->
    let n := Qfloor ((u - l) / step) in let nl := l + (u - l - inject_Z n * step) in
    ((forall x, fp_default p = Some (Some x) -> nl <= x) ->
      exists q, adjust A q_floordiv s (Some step) = Ok (set_key name (PF q) s, n) /\ fp_lower q = Some nl /\ fp_upper q = Some u /\
      fp_log q = false /\ fp_fid q = true /\ fp_default q = fp_default p /\ fp_conf q = fp_conf p /\
      fp_dom q = dom lnf (DFloat nl u false None) false /\ preach lnf expf (PF q)) /\
    (forall x, fp_default p = Some (Some x) -> x < nl -> adjust A q_floordiv s (Some step) = Err ValueError).
  Proof.
    intros W F L LG EL EU S LU n nl. destruct (fid_lookup s name W F) as (p' & L' & FP & R). rewrite L in L'. injection L' as <-.
    destruct (float_fields p R) as (l' & u' & EL' & EU' & _ & K & D). rewrite EL in EL'. injection EL' as <-. rewrite EU in EU'. injection EU' as <-.
    pose proof (fid_step_ok l u step S LU) as FS. fold n in FS. fold nl in FS. cbv zeta in FS.
    assert (NU : nl < u).
    { unfold nl. destruct (fid_step_inv l u step _ _ ltac:(lra) FS) as (N & _). assert (0 < inject_Z n) by (apply injZ_pos; exact N).
      assert (0 < inject_Z n * step) by (apply Qmult_lt_0_compat; assumption). lra. }
    split.
    - intros DN. destruct (new_float nl u (fp_default p) (fp_conf p) NU K) as (q & EQ & H).
      { intros x E. destruct (D x E) as (d & -> & H1 & H2). exists d. split; [reflexivity|]. split; [apply DN; exact E|exact H2]. }
      exists q. split; [|exact H]. unfold adjust. rewrite F, L, LG, EL, EU, FS. cbn [bind fst snd]. fold nl. rewrite EQ. cbn [bind].
      rewrite (ss_set name (PF p) (PF q) s W L); [reflexivity|]. cbn in *. destruct H as (_ & _ & _ & -> & _). congruence.
    - intros x E X. unfold adjust. rewrite F, L, LG, EL, EU, FS. cbn [bind fst snd]. fold nl.
      unfold float_parameter. rewrite floating_ok. cbn [bind].
      destruct (ale A (Some u) (Some nl)); [reflexivity|]. cbn [andb]. rewrite E.
      replace (ale A (Some nl) (Some x) && ale A (Some x) (Some u)) with false; [reflexivity|].
      symmetry. apply andb_false_iff. left. apply not_true_is_false. intros H. apply ale_some in H. lra.
  Qed.

  (** Integers, integer steps. *)
  Lemma integer_ok l u : (l < u)%Z -> integer A (Some (inject_Z l)) (Some (inject_Z u)) false None false = Ok (dom lnf (DInt l u false None) false).
  Proof.
    intros H. apply (make_total lnf expf (DInt l u false None)). unfold good. cbn. rewrite <- Zlt_Qlt. split; [exact H|]. split; discriminate.
  Qed.
  Lemma new_int x l u d conf : x == inject_Z l -> (l < u)%Z -> known conf = true -> (forall z, d = Some z -> (l <= z <= u)%Z) ->
    exists q, integer_parameter A (Some x) (Some (inject_Z u)) false true (opt_map (aZ A) d) conf = Ok q /\ ip_lower q = l /\ ip_upper q = u /\
    ip_log q = false /\ ip_fid q = true /\ ip_default q = d /\ ip_conf q = conf /\ ip_dom q = dom lnf (DInt l u false None) false /\ preach lnf expf (PI q).
  Proof.
    intros X LU K D.
    assert (RX : round_int A (Some x) = Ok l) by (rewrite round_some; f_equal; apply rint_of_Z; exact X).
    assert (E : exists q, integer_parameter A (Some x) (Some (inject_Z u)) false true (opt_map (aZ A) d) conf = Ok q).
    { unfold integer_parameter. rewrite RX, round_Z. cbn [bind].
      destruct (Z.leb (u - l + 1) 1) eqn:E1; [apply Z.leb_le in E1; lia|].
      assert (RD : res_opt_map (round_int A) (opt_map (aZ A) d) = Ok d).
      { destruct d as [z|]; cbn [opt_map res_opt_map aZ Qar]; [rewrite round_Z|]; reflexivity. }
      rewrite RD. cbn [bind]. change (integer A (aZ A l) (aZ A u)) with (integer A (Some (inject_Z l)) (Some (inject_Z u))).
      rewrite integer_ok by exact LU. cbn [bind]. destruct (Z.leb u l) eqn:E2; [apply Z.leb_le in E2; lia|]. cbn [andb].
      replace (match d with Some z => negb (Z.leb l z && Z.leb z u) | None => false end) with false.
      2: { symmetry. destruct d as [z|]; [|reflexivity]. specialize (D z eq_refl). apply negb_false_iff, andb_true_iff. split; apply Z.leb_le; lia. }
      rewrite K. cbn [negb]. change (asub A (aZ A l) (nearly_half A)) with (flo l). change (aadd A (aZ A u) (nearly_half A)) with (fhi u).
      assert (LUQ : inject_Z l < inject_Z u) by (rewrite <- Zlt_Qlt; exact LU). destruct nhq_lt as [H1 H2].
      destruct (new_float (inject_Z l - nhq) (inject_Z u + nhq) (opt_map (aZ A) d) conf ltac:(lra) K) as (q & EQ & _).
      - destruct d as [z|]; cbn [opt_map]; [|discriminate]. intros ? [= <-]. exists (inject_Z z). split; [reflexivity|]. specialize (D z eq_refl).
        assert (inject_Z l <= inject_Z z) by (rewrite <- Zle_Qle; lia). assert (inject_Z z <= inject_Z u) by (rewrite <- Zle_Qle; lia). lra.
      - unfold flo, fhi. rewrite EQ. cbn [bind]. eauto. }
    destruct E as (q & E). exists q. split; [exact E|].
    destruct (inew_good lnf expf _ _ _ _ _ _ _ l u E RX (round_Z lnf expf u)) as (G & _ & LG & FD & CF & _ & DD).
    pose proof G as (GL & GU & _ & _ & _ & _ & _ & _ & _ & GD & _). split; [exact GL|]. split; [exact GU|]. split; [exact LG|]. split; [exact FD|].
    split. { destruct d as [z|]; cbn [opt_map res_opt_map aZ Qar] in DD; [rewrite round_Z in DD|]; cbn [bind] in DD; congruence. }
    split; [exact CF|]. split.
    - rewrite LG, integer_ok in GD by exact LU. congruence.
    - exists l, u. eapply ir_new; [exact E|exact RX|apply round_Z].
  Qed.
  Lemma adjust_int s name p (step : Z) : wf s -> s_fidelity s = Some name -> lookup name s = Some (PI p) -> ip_log p = false ->
    (0 < step)%Z -> (step <= ip_upper p - ip_lower p)%Z ->
    let n := ((ip_upper p - ip_lower p) / step)%Z in let nl := (ip_upper p - n * step)%Z in
    ((forall z, ip_default p = Some z -> (nl <= z)%Z) ->
      exists q, adjust A q_floordiv s (Some (inject_Z step)) = Ok (set_key name (PI q) s, n) /\ ip_lower q = nl /\ ip_upper q = ip_upper p /\
      ip_log q = false /\ ip_fid q = true /\ ip_default q = ip_default p /\ ip_conf q = ip_conf p /\
      ip_dom q = dom lnf (DInt nl (ip_upper p) false None) false /\ preach lnf expf (PI q)) /\
    (forall z, ip_default p = Some z -> (z < nl)%Z -> adjust A q_floordiv s (Some (inject_Z step)) = Err ValueError).
  Proof.
    intros W F L LG S LU n nl. destruct (fid_lookup s name W F) as (p' & L' & FP & R). rewrite L in L'. injection L' as <-.
    destruct (int_fields p R) as (O & K & D). set (l := ip_lower p) in *. set (u := ip_upper p) in *.
    assert (SQ : 0 < inject_Z step) by (apply injZ_pos; exact S).
    assert (LUQ : inject_Z step <= inject_Z u - inject_Z l) by (rewrite <- injZ_sub, <- Zle_Qle; exact LU).
    pose proof (fid_step_ok (inject_Z l) (inject_Z u) (inject_Z step) SQ LUQ) as FS. cbv zeta in FS.
    assert (EN : Qfloor ((inject_Z u - inject_Z l) / inject_Z step) = n).
    { rewrite (Qfloor_comp _ (inject_Z (u - l) / inject_Z step)) by (rewrite injZ_sub; reflexivity). unfold n.
      apply floor_unique.
      - apply Qle_shift_div_l; [exact SQ|]. rewrite <- inject_Z_mult, <- Zle_Qle. pose proof (Z.mul_div_le (u - l) step S). lia.
      - apply Qlt_shift_div_r; [exact SQ|]. rewrite <- inject_Z_mult, <- Zlt_Qlt. pose proof (Z.mul_succ_div_gt (u - l) step S). lia. }
    rewrite EN in FS. set (x := inject_Z l + (inject_Z u - inject_Z l - inject_Z n * inject_Z step)) in *.
    assert (X : x == inject_Z nl). { unfold x, nl. rewrite injZ_sub, inject_Z_mult. ring. }
    assert (N : (1 <= n)%Z) by (apply Z.div_le_lower_bound; lia).
    assert (NU : (nl < u)%Z) by (unfold nl; nia).
    split.
    - intros DN. destruct (new_int x nl u (ip_default p) (ip_conf p) X NU K) as (q & EQ & H).
      { intros z E. specialize (D z E). specialize (DN z E). lia. }
      exists q. split; [|exact H]. unfold adjust. rewrite F, L, LG. fold l u. cbn [aZ Qar]. rewrite FS. cbn [bind fst snd].
      change (opt_map (fun z : Z => Some (inject_Z z))) with (opt_map (aZ A)). rewrite EQ. cbn [bind].
      rewrite (ss_set name (PI p) (PI q) s W L); [reflexivity|]. cbn in *. destruct H as (_ & _ & _ & -> & _). congruence.
    - intros z E Z. unfold adjust. rewrite F, L, LG. fold l u. cbn [aZ Qar]. rewrite FS. cbn [bind fst snd].
      unfold integer_parameter. rewrite round_some, (rint_of_Z _ _ X), round_Z. cbn [bind].
      destruct (Z.leb (u - nl + 1) 1); [reflexivity|]. rewrite E. cbn [opt_map res_opt_map]. rewrite round_Z. cbn [bind].
      change (integer A (aZ A nl) (aZ A u)) with (integer A (Some (inject_Z nl)) (Some (inject_Z u))).
      rewrite integer_ok by exact NU. cbn [bind]. destruct (Z.leb u nl); [reflexivity|]. cbn [andb].
      replace (Z.leb nl z && Z.leb z u) with false; [reflexivity|]. symmetry. apply andb_false_iff. left. apply Z.leb_gt. exact Z.
  Qed.
End S.
