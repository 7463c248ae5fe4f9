(** Priors around a centre. *)
From Verif Require Import Prior_spec Dom_spec Dom_proofs Dom_cast_proofs Enc_proofs Prior_sample_proofs Prior_logprob_proofs.
From Coq Require Import Lqa Qabs.
Open Scope Q_scope.
Local Notation length := List.length.

Section C.
  Variables lnf expf : Q -> Q.
  Variables (erf erfinv : option Q -> option Q) (cat_logp : list (option Q) -> option Q -> option Q).
  Variables (c_sqrt2 c_log c_inv_sqrt2 e : Q).
  Notation A := (Qar lnf expf).
  Notation tn := (tn_new A erf (Some c_inv_sqrt2) (Some e)).
  Notation logp := (tn_logp A (Some c_log)).
  Notation centre := (center_one A erf (Some c_inv_sqrt2) (Some e)).
  Hypothesis E : 0 < e /\ e < 1 # 2.
  Hypothesis ERF : forall q, exists r, erf (Some q) = Some r.
  Hypothesis ERFI : forall q, exists r, erfinv (Some q) = Some r.

  Lemma altb_some x y : altb A (Some x) (Some y) = true <-> x < y.
  Proof.
    cbn. destruct (Qle_bool y x) eqn:B; cbn; split; intros; try discriminate; try reflexivity.
    - apply Qle_bool_iff in B. lra.
    - apply Qle_bool_false in B. lra.
  Qed.
  Lemma altb_some_false x y : altb A (Some x) (Some y) = false <-> y <= x.
  Proof.
    cbn. destruct (Qle_bool y x) eqn:B; cbn; split; intros; try discriminate; try reflexivity.
    - apply Qle_bool_iff in B. lra.
    - apply Qle_bool_false in B. lra.
  Qed.
  Lemma clip_some x l h : l <= h -> exists v, clip A (Some x) (Some l) (Some h) = Some v /\ l <= v /\ v <= h.
  Proof.
    intros H. unfold clip. destruct (altb A (Some x) (Some l)) eqn:B1; [exists l; split; [reflexivity|lra]|].
    destruct (altb A (Some h) (Some x)) eqn:B2; [exists h; split; [reflexivity|lra]|].
    apply altb_some_false in B1, B2. exists x. split; [reflexivity|lra].
  Qed.
  Lemma adiv_some x y : ~ y == 0 -> adiv A (Some x) (Some y) = Some (x / y).
  Proof. intros N. cbn. destruct (Qeq_bool y 0) eqn:B; [apply Qeq_bool_iff in B; contradiction|reflexivity]. Qed.
  Lemma half_some : half A = Some (1 / 2). Proof. reflexivity. Qed.
  Lemma big_phi_some x : exists v, big_phi A erf (Some c_inv_sqrt2) (Some e) (Some x) = Some v.
  Proof.
    unfold big_phi. rewrite half_some. cbn [amul Qar lift2]. destruct (ERF (x * c_inv_sqrt2)) as (r & ->). cbn [aadd aZ amul asub Qar lift2].
    destruct (clip_some ((1 / 2) * (inject_Z 1 + r)) e (inject_Z 1 - e)) as (v & V & _); [change (inject_Z 1) with 1; lra|]. eauto.
  Qed.

  Lemma tn_ok l s : exists t sc z, tn (Some l) (Some s) (Some 0) (Some 1) = Ok t /\ tn_loc t = Some l /\ tn_scale t = Some sc /\ 0 < sc /\
    (e <= s -> sc = s) /\ tn_a t = Some 0 /\ tn_b t = Some 1 /\ tn_Z t = Some z /\ 0 < z /\ exists pa, tn_phi_a t = Some pa.
  Proof.
    unfold tn_new. set (sc := if altb A (Some s) (Some e) then Some e else Some s).
    assert (SC : exists q, sc = Some q /\ 0 < q /\ (e <= s -> q = s)).
    { unfold sc. destruct (altb A (Some s) (Some e)) eqn:B; [apply altb_some in B; exists e|apply altb_some_false in B; exists s]; repeat split; auto; try lra. }
    destruct SC as (q & -> & Q0 & QS). cbn [asub Qar lift2]. rewrite !adiv_some by lra.
    assert (LT : (0 - l) / q < (1 - l) / q).
    { apply Qmult_lt_r with q; [exact Q0|]. unfold Qdiv. rewrite <- !Qmult_assoc, (Qmult_comm (/ q)), Qmult_inv_r by lra. lra. }
    assert (altb A (Some ((1 - l) / q)) (Some ((0 - l) / q)) = false) as -> by (apply altb_some_false; lra).
    assert (aeqb A (Some ((0 - l) / q)) (Some ((1 - l) / q)) = false) as ->.
    { cbn. apply not_true_is_false. intros B. apply Qeq_bool_iff in B. lra. }
    cbn [orb]. destruct (big_phi_some ((0 - l) / q)) as (pa & PA). destruct (big_phi_some ((1 - l) / q)) as (pb & PB). rewrite PA, PB.
    cbn [asub aZ Qar lift2]. change (inject_Z 1) with 1. destruct (clip_some (pb - pa) e (1 - e)) as (z & Z & Z1 & Z2); [lra|]. rewrite Z.
    eexists _, q, z. split; [reflexivity|]. cbn. repeat split; auto; try lra. eauto.
  Qed.
  Lemma logp_some t l sc z v : tn_loc t = Some l -> tn_scale t = Some sc -> 0 < sc -> tn_Z t = Some z -> 0 < z ->
    logp t (Some v) = Some (c_log - lnf z - ((v - l) / sc) * ((v - l) / sc) * (1 / 2) - lnf sc).
  Proof.
    intros H1 H2 H3 H4 H5. unfold tn_logp. rewrite H1, H2, H4, half_some. cbn [asub Qar lift2]. rewrite adiv_some by lra.
    cbn [amul asub aln Qar lift2]. destruct (Qle_bool z 0) eqn:B1; [apply Qle_bool_iff in B1; lra|].
    destruct (Qle_bool sc 0) eqn:B2; [apply Qle_bool_iff in B2; lra|]. reflexivity.
  Qed.
  Lemma sq_abs x y : Qabs x < Qabs y -> x * x < y * y.
  Proof. intros H. revert H; apply Qabs_case; apply Qabs_case; intros; nra. Qed.
  Lemma sq_abs_le x y : Qabs x <= Qabs y -> x * x <= y * y.
  Proof. intros H. revert H; apply Qabs_case; apply Qabs_case; intros; nra. Qed.

  (** Closer to the centre is likelier. *)
  Lemma truncnorm_order_l l s v w t : tn (Some l) (Some s) (Some 0) (Some 1) = Ok t ->
    exists lv lw, logp t (Some v) = Some lv /\ logp t (Some w) = Some lw /\
      (Qabs (v - l) < Qabs (w - l) -> lw < lv) /\ (Qabs (v - l) <= Qabs (w - l) -> lw <= lv).
  Proof.
    intros T. destruct (tn_ok l s) as (t' & sc & z & T' & H1 & H2 & H3 & _ & _ & _ & H4 & H5 & _).
    assert (t' = t) as -> by congruence. rewrite !(logp_some t l sc z) by auto. eexists _, _. split; [reflexivity|]. split; [reflexivity|].
    assert (I : 0 < / sc) by (apply Qinv_lt_0_compat; exact H3).
    assert (X : forall u, (u - l) / sc * ((u - l) / sc) == ((u - l) * (u - l)) * (/ sc * / sc)) by (intros u; unfold Qdiv; ring).
    assert (I2 : 0 < / sc * / sc) by nra.
    split; intros H; [apply sq_abs in H|apply sq_abs_le in H]; rewrite (X v), (X w).
    - assert ((v - l) * (v - l) * (/ sc * / sc) < (w - l) * (w - l) * (/ sc * / sc)) by (apply Qmult_lt_r; auto). revert H0. generalize ((v - l) * (v - l) * (/ sc * / sc)) ((w - l) * (w - l) * (/ sc * / sc)).
      change (1 / 2) with (1 # 2). generalize (lnf z) (lnf sc). intros. lra.
    - assert ((v - l) * (v - l) * (/ sc * / sc) <= (w - l) * (w - l) * (/ sc * / sc)) by (apply Qmult_le_compat_r; [exact H|apply Qlt_le_weak, I2]).
      revert H0. generalize ((v - l) * (v - l) * (/ sc * / sc)) ((w - l) * (w - l) * (/ sc * / sc)).
      change (1 / 2) with (1 # 2). generalize (lnf z) (lnf sc). intros. lra.
  Qed.
  (** What is drawn lies in the unit interval. *)
  Lemma truncnorm_range_l l s p t : tn (Some l) (Some s) (Some 0) (Some 1) = Ok t ->
    exists v, tn_icdf A erfinv (Some c_sqrt2) (Some e) t (Some p) = Some v /\ 0 <= v /\ v <= 1.
  Proof.
    intros T. destruct (tn_ok l s) as (t' & sc & z & T' & H1 & H2 & H3 & _ & H6 & H7 & H4 & H5 & pa & H8).
    assert (t' = t) as -> by congruence. unfold tn_icdf. rewrite H8, H4, H2, H1, H6, H7. cbn [amul aadd aZ asub Qar lift2].
    destruct (clip_some (pa + p * z) e (inject_Z 1 - e)) as (y & -> & _); [change (inject_Z 1) with 1; lra|]. cbn [amul asub Qar lift2].
    destruct (ERFI (inject_Z 2 * y - inject_Z 1)) as (r & ->). cbn [amul aadd Qar lift2]. apply clip_some. lra.
  Qed.

  (** ** A prior for a numeric range *)
  Notation U := (unit_float_domain A).
  Lemma cast_to_unit s cat d v : ideal lnf expf -> good s -> bins_of s = None -> make lnf expf s cat = Ok d -> legal lnf expf s v ->
    ~ log_coincidence lnf us s -> gives (cast A U d (Some v)) (enc lnf s v).
  Proof.
    intros I G B M L NC. destruct (cast_l lnf expf us s false cat U d v) as (c & w & C1 & C2 & C3 & _); auto.
    - exact good_us.
    - destruct s as [l u g b|l u g b]; [|left; exact Logic.I]. cbn in B. subst b. destruct g; [|left; split; reflexivity].
      right. intros (X & _). destruct G as (_ & P & _). cbn in *. specialize (P eq_refl). lra.
    - exists c. split; [exact C1|]. rewrite C3. rewrite (to_unit_l lnf expf s cat) in C2 by auto.
      rewrite (unit_dom_eq lnf expf) in C2. rewrite from_unit_dom in C2 by exact good_us. injection C2 as <-.
      clear. generalize (enc lnf s v) as y. intros y. unfold dec, raw, Dom_proofs.cell. cbn [us integral is_log Dom_proofs.card width lo]. ring.
  Qed.
  Notation own := (own lnf expf cat_logp (Some c_log)).
  Lemma Qabs_zero x : x == 0 -> Qabs x == 0.
  Proof. intros H. rewrite H. reflexivity. Qed.

  Lemma centre_num s cat d x conf : ideal lnf expf -> good s -> bins_of s = None -> make lnf expf s cat = Ok d -> d_cat d = false ->
    legal lnf expf s x -> 0 <= conf -> conf <= 1 ->
    exists t, centre d (Some (Some x, Some conf)) = Ok (DTrunc t) /\ tn (Some (enc lnf s x)) (Some (1 - conf)) (Some 0) (Some 1) = Ok t.
  Proof.
    intros I G B M DC L C0 C1. unfold center_one. unfold ale. cbn [altb aeqb aZ Qar].
    assert (X0 : (negb (Qle_bool conf (inject_Z 0)) || Qeq_bool (inject_Z 0) conf)%bool = true).
    { destruct (Qle_bool conf (inject_Z 0)) eqn:Z; [|reflexivity]. apply Qle_bool_iff in Z. change (inject_Z 0) with 0 in *. cbn. apply Qeq_bool_iff. lra. }
    assert (X1 : (negb (Qle_bool (inject_Z 1) conf) || Qeq_bool conf (inject_Z 1))%bool = true).
    { destruct (Qle_bool (inject_Z 1) conf) eqn:Z; [|reflexivity]. apply Qle_bool_iff in Z. change (inject_Z 1) with 1 in *. cbn. apply Qeq_bool_iff. lra. }
    rewrite X0, X1. cbn [andb negb]. rewrite DC. rewrite (to_unit_l lnf expf s cat) by auto.
    cbn [asub Qar lift2]. change (inject_Z 0) with 0. change (inject_Z 1) with 1.
    destruct (tn_ok (enc lnf s x) (1 - conf)) as (t & sc & z & T & _). rewrite T. cbn [bind]. exists t. split; reflexivity.
  Qed.

  Lemma own_order s cat d x v w cf t : ideal lnf expf -> good s -> bins_of s = None -> make lnf expf s cat = Ok d ->
    ~ log_coincidence lnf us s -> legal lnf expf s v -> legal lnf expf s w ->
    tn (Some (enc lnf s x)) (Some cf) (Some 0) (Some 1) = Ok t ->
    exists lv lw, own (DTrunc t) d (Some v) lv /\ own (DTrunc t) d (Some w) lw /\
      (Qabs (enc lnf s v - enc lnf s x) < Qabs (enc lnf s w - enc lnf s x) -> lw < lv) /\
      (Qabs (enc lnf s v - enc lnf s x) <= Qabs (enc lnf s w - enc lnf s x) -> lw <= lv).
  Proof.
    intros I G B M NC LV LW T. unfold Prior_spec.own. cbn [dist_dom dist_logp].
    destruct (cast_to_unit s cat d v) as (a & -> & EA); auto. destruct (cast_to_unit s cat d w) as (b & -> & EB); auto.
    destruct (truncnorm_order_l (enc lnf s x) cf a b t T) as (lv & lw & -> & -> & O1 & O2).
    exists lv, lw. split; [exists lv; split; reflexivity|]. split; [exists lw; split; reflexivity|].
    rewrite <- EA, <- EB. auto.
  Qed.
  Lemma enc_inj s cat d v w : ideal lnf expf -> good s -> exact s -> make lnf expf s cat = Ok d -> legal lnf expf s v -> legal lnf expf s w ->
    enc lnf s v == enc lnf s w -> v == w.
  Proof.
    intros I G X M LV LW H.
    destruct (roundtrip_l lnf expf s cat d v) as (a & A1 & A2); auto. destruct (roundtrip_l lnf expf s cat d w) as (b & B1 & B2); auto.
    rewrite (to_unit_l lnf expf s cat) in A1, B1 by auto. apply make_dom in M; auto. subst d. rewrite from_unit_dom in A1, B1 by auto.
    injection A1 as <-. injection B1 as <-. rewrite <- A2, <- B2. apply dec_proper; auto. apply ideal_ok; auto.
  Qed.

  (** ** Parameters *)
  Lemma bind_inv {X Y} (r : res X) (f : X -> res Y) y : bind r f = Ok y -> exists x, r = Ok x /\ f x = Ok y.
  Proof. destruct r; cbn; [eauto|discriminate]. Qed.
  Lemma ale_some x y : ale A (Some x) (Some y) = true <-> x <= y.
  Proof.
    unfold ale. rewrite orb_true_iff, altb_some. cbn [aeqb Qar]. rewrite Qeq_bool_iff. split; [lra|]. intros H. destruct (Qlt_le_dec x y); [auto|right; lra].
  Qed.
  Lemma ale_some_false x y : ale A (Some x) (Some y) = false <-> y < x.
  Proof.
    split; intros H.
    - destruct (Qlt_le_dec y x) as [L|L]; [exact L|]. apply ale_some in L. congruence.
    - apply not_true_is_false. intros L. apply ale_some in L. lra.
  Qed.
  Lemma float_decl l u log fid x conf p : float_parameter A (Some l) (Some u) log fid (Some (Some x)) conf = Ok p ->
    good (DFloat l u log None) /\ make lnf expf (DFloat l u log None) false = Ok (fp_dom p) /\ legal lnf expf (DFloat l u log None) x /\
    fp_default p = Some (Some x) /\ known (fp_conf p) = true.
  Proof.
    intros H. unfold float_parameter in H. apply bind_inv in H. destruct H as (d & D & H).
    destruct (ale A (Some u) (Some l)) eqn:B1; [discriminate|]. apply ale_some_false in B1.
    destruct (log && _)%bool eqn:B2; [discriminate|].
    destruct (ale A (Some l) (Some x) && ale A (Some x) (Some u))%bool eqn:B3; cbn [negb] in H; [|discriminate].
    apply andb_true_iff in B3. destruct B3 as (B3 & B4). apply ale_some in B3, B4.
    destruct (known conf) eqn:K; cbn [negb] in H; [|discriminate]. injection H as <-. cbn [fp_dom fp_default fp_conf].
    split; [|split; [exact D|split; [|auto]]].
    - split; [exact B1|]. split; [|discriminate]. cbn [is_log lo]. intros ->. cbn [andb] in B2. apply orb_false_iff in B2. destruct B2 as (B2 & _).
      change (aZ A 0) with (Some 0) in B2. apply ale_some_false in B2. exact B2.
    - split; [exact B3|]. split; [exact B4|]. split; discriminate.
  Qed.
  Lemma round_int_Z z : round_int A (Some (inject_Z z)) = Ok z.
  Proof. unfold round_int. cbn [arint aint Qar option_map]. rewrite rint_q_Z, trunc_q_Z. reflexivity. Qed.
  Lemma int_decl l u log fid x conf p :
    integer_parameter A (Some (inject_Z l)) (Some (inject_Z u)) log fid (Some (Some (inject_Z x))) conf = Ok p ->
    good (DInt l u log None) /\ make lnf expf (DInt l u log None) false = Ok (ip_dom p) /\ legal lnf expf (DInt l u log None) (inject_Z x) /\
    ip_default p = Some x /\ known (ip_conf p) = true.
  Proof.
    intros H. unfold integer_parameter in H. rewrite !round_int_Z in H. cbn [bind res_opt_map] in H.
    destruct (Z.leb _ 1) eqn:B0; [discriminate|]. apply Z.leb_gt in B0. rewrite round_int_Z in H. cbn [bind] in H.
    apply bind_inv in H. destruct H as (d & D & H). destruct (Z.leb u l) eqn:B1; [discriminate|]. apply Z.leb_gt in B1.
    destruct (log && _)%bool eqn:B2; [discriminate|]. destruct (Z.leb l x && Z.leb x u)%bool eqn:B3; cbn [negb] in H; [|discriminate].
    apply andb_true_iff in B3. destruct B3 as (B3 & B4). apply Z.leb_le in B3, B4.
    destruct (known conf) eqn:K; cbn [negb] in H; [|discriminate].
    apply bind_inv in H. destruct H as (f & F & H). injection H as <-. cbn [ip_dom ip_default ip_conf].
    split; [|split; [exact D|split; [|auto]]].
    - split; [cbn; rewrite <- Zlt_Qlt; lia|]. split; [|discriminate]. cbn [is_log lo]. intros ->. cbn [andb] in B2. apply orb_false_iff in B2. destruct B2 as (B2 & _).
      apply Z.leb_gt in B2. change 0 with (inject_Z 0). rewrite <- Zlt_Qlt. exact B2.
    - split; [cbn; rewrite <- Zle_Qle; exact B3|]. split; [cbn; rewrite <- Zle_Qle; exact B4|]. split; [|discriminate]. intros _. exists x. reflexivity.
  Qed.
  Lemma index_of_nth v : forall cs i, nth_error cs i = Some v -> py_eqb v v = true ->
    (forall j w, nth_error cs j = Some w -> py_eqb w v = true -> j = i) -> index_of v cs = Some i.
  Proof.
    induction cs as [|c cs IH]; intros i N R U1; [destruct i; discriminate|]. cbn [index_of]. destruct (py_eqb c v) eqn:B.
    - f_equal. apply (U1 0%nat c); auto.
    - destruct i as [|i]; [cbn in N; congruence|]. rewrite (IH i); [reflexivity|exact N|exact R|].
      intros j w J W. assert (S j = S i) by (apply (U1 (S j) w); auto). congruence.
  Qed.
  Lemma cat_decl cs v conf p i : categorical_parameter cs (Some v) conf = Ok p -> nth_error cs i = Some v -> py_eqb v v = true ->
    (forall j w, nth_error cs j = Some w -> py_eqb w v = true -> j = i) ->
    let s := DInt 0 (Z.of_nat (length cs) - 1) false None in
    good s /\ (exists d, p_domain A (PC p) = Ok d /\ make lnf expf s false = Ok d) /\ legal lnf expf s (inject_Z (Z.of_nat i)) /\
    cp_default p = Some v /\ cp_default_index p = Some i /\ known (cp_conf p) = true.
  Proof.
    intros H N R U1 s. unfold categorical_parameter in H.
    destruct (Nat.leb_spec (length cs) 1) as [B0|B0]; [discriminate|].
    destruct (negb (forallb choice_type cs)); [discriminate|]. destruct (negb (all_unique cs)); [discriminate|].
    destruct (negb (mem v cs)); [discriminate|]. destruct (known conf) eqn:K; cbn [negb] in H; [|discriminate].
    injection H as <-. cbn [cp_default cp_default_index cp_conf cp_choices p_domain].
    assert (LT : (i < length cs)%nat) by (apply nth_error_Some; congruence).
    assert (G : good s). { split; [cbn; rewrite <- Zlt_Qlt; lia|]. split; discriminate. }
    split; [exact G|]. split.
    { exists (dom lnf s false). split; [|apply make_total; exact G]. exact (make_total lnf expf s G). }
    split.
    { split; [cbn; rewrite <- Zle_Qle; lia|]. split; [cbn; rewrite <- Zle_Qle; lia|]. split; [|discriminate]. intros _. eexists. reflexivity. }
    split; [reflexivity|]. split; [|exact K]. apply index_of_nth; auto.
  Qed.

  Lemma known_score c : known c = true -> exists q, confidence_of A c = Ok (Some q) /\ 0 <= q /\ q <= 1.
  Proof.
    unfold known, confidence_of. cbn [existsb confidences]. intros H.
    destruct (String.eqb c "low") eqn:B1; [eexists; split; [reflexivity|]; split; unfold Qle; cbn; lia|].
    destruct (String.eqb c "medium") eqn:B2; [eexists; split; [reflexivity|]; split; unfold Qle; cbn; lia|].
    destruct (String.eqb c "high") eqn:B3; [eexists; split; [reflexivity|]; split; unfold Qle; cbn; lia|]. discriminate.
  Qed.

  (** Domain and centre of a parameter with a default. *)
  Lemma declared_inv p s x : declared lnf expf p s x ->
    good s /\ bins_of s = None /\ legal lnf expf s x /\
    exists d q, p_domain A p = Ok d /\ make lnf expf s false = Ok d /\ p_center A p = Ok (Some (Some x, Some q)) /\ 0 <= q /\ q <= 1.
  Proof.
    intros [l u log fid y conf p' H|l u log fid y conf p' H|cs v conf p' i H N R U1].
    - apply float_decl in H. destruct H as (G & M & L & D & K). split; [exact G|]. split; [reflexivity|]. split; [exact L|].
      apply known_score in K. destruct K as (q & K & Q0 & Q1). exists (fp_dom p'), q. cbn [p_domain p_center]. rewrite D, K. cbn [bind]. auto.
    - apply int_decl in H. destruct H as (G & M & L & D & K). split; [exact G|]. split; [reflexivity|]. split; [exact L|].
      apply known_score in K. destruct K as (q & K & Q0 & Q1). exists (ip_dom p'), q. cbn [p_domain p_center]. rewrite D, K. cbn [bind]. auto.
    - apply cat_decl with (i := i) in H; auto. destruct H as (G & (d & PD & M) & L & D & DI & K). split; [exact G|]. split; [reflexivity|]. split; [exact L|].
      apply known_score in K. destruct K as (q & K & Q0 & Q1). exists d, q. split; [exact PD|]. cbn [p_center]. rewrite D, DI, K. cbn [bind]. auto.
  Qed.
  Lemma make_not_cat s d : good s -> make lnf expf s false = Ok d -> d_cat d = false.
  Proof. intros G M. apply make_dom in M; auto. subst d. destruct s; reflexivity. Qed.

  Notation priors := (from_parameters A erf (Some c_inv_sqrt2) (Some e)).
  Definition prior_one (p : param (option Q)) : res (dist (option Q)) :=
    bind (p_domain A p) (fun d => bind (p_center A p) (fun c => centre d c)).
  Lemma priors_nth ps ds : priors ps = Ok ds -> Forall2 (fun p d => prior_one p = Ok d) ps ds.
  Proof.
    unfold from_parameters. intros H. apply bind_inv in H. destruct H as (dcs & M & H). apply mapM_ok in M.
    revert ds H. induction M as [|p dc ps dcs P M IH]; intros ds H; cbn [map make_centered] in H.
    - injection H as <-. constructor.
    - apply bind_inv in H. destruct H as (x & X & H). apply bind_inv in H. destruct H as (xs & XS & H). injection H as <-.
      constructor; [|apply IH; exact XS]. unfold prior_one. apply bind_inv in P. destruct P as (d & -> & P). apply bind_inv in P. destruct P as (c & -> & P).
      injection P as <-. exact X.
  Qed.
  Lemma priors_total ps : (forall p, In p ps -> exists d, prior_one p = Ok d) -> exists ds, priors ps = Ok ds.
  Proof.
    intros H. unfold from_parameters.
    assert (M : exists dcs, mapM (fun p => bind (p_domain A p) (fun d => bind (p_center A p) (fun c => Ok (d, c)))) ps = Ok dcs /\
      Forall (fun dc => exists x, centre (fst dc) (snd dc) = Ok x) dcs).
    { induction ps as [|p ps IH]; cbn [mapM]; [eexists; split; [reflexivity|constructor]|].
      destruct (H p (or_introl eq_refl)) as (x & X). unfold prior_one in X. apply bind_inv in X. destruct X as (d & D & X). apply bind_inv in X. destruct X as (c & C & X).
      rewrite D. cbn [bind]. rewrite C. cbn [bind]. destruct IH as (dcs & -> & F); [intros; apply H; right; auto|]. cbn [bind]. eexists. split; [reflexivity|]. constructor; [|exact F]. exists x. exact X. }
    destruct M as (dcs & -> & F). cbn [bind]. clear H. induction F as [|dc dcs (x & X) F (xs & IH)]; cbn [map make_centered]; [eauto|].
    rewrite X. cbn [bind]. rewrite IH. cbn [bind]. eauto.
  Qed.
  Lemma prior_declared p s x : ideal lnf expf -> declared lnf expf p s x ->
    exists t d q, prior_one p = Ok (DTrunc t) /\ p_domain A p = Ok d /\ make lnf expf s false = Ok d /\
      tn (Some (enc lnf s x)) (Some (1 - q)) (Some 0) (Some 1) = Ok t.
  Proof.
    intros I H. apply declared_inv in H. destruct H as (G & B & L & d & q & PD & M & PC & Q0 & Q1).
    destruct (centre_num s false d x q) as (t & C & T); auto; [apply (make_not_cat s); auto|].
    exists t, d, q. unfold prior_one. rewrite PD. cbn [bind]. rewrite PC. cbn [bind]. auto.
  Qed.
  Lemma prior_undeclared p : undeclared lnf expf p -> prior_one p = Ok DUnit.
  Proof.
    intros [l u log fid conf p' H|l u log fid conf p' H|cs conf p' H]; unfold prior_one.
    - cbn [p_domain p_center bind]. unfold float_parameter in H. apply bind_inv in H. destruct H as (d & D & H).
      destruct (ale A u l); [discriminate|]. destruct (log && _)%bool; [discriminate|]. destruct (negb (known conf)); [discriminate|]. injection H as <-. reflexivity.
    - cbn [p_domain p_center bind]. unfold integer_parameter in H. apply bind_inv in H. destruct H as (lz & _ & H). apply bind_inv in H. destruct H as (uz & _ & H).
      destruct (Z.leb _ 1); [discriminate|]. cbn [res_opt_map bind] in H. apply bind_inv in H. destruct H as (d & D & H).
      destruct (Z.leb uz lz); [discriminate|]. destruct (log && _)%bool; [discriminate|]. destruct (negb (known conf)); [discriminate|].
      apply bind_inv in H. destruct H as (f & _ & H). injection H as <-. reflexivity.
    - unfold categorical_parameter in H. destruct (Nat.leb_spec (length cs) 1) as [B0|B0]; [discriminate|].
      destruct (negb (forallb choice_type cs)); [discriminate|]. destruct (negb (all_unique cs)); [discriminate|].
      destruct (negb (known conf)); [discriminate|]. injection H as <-. cbn [p_domain p_center cp_choices cp_default].
      change (indices A (Z.of_nat (length cs)) false) with (make lnf expf (DInt 0 (Z.of_nat (length cs) - 1) false None) false).
      rewrite make_total; [reflexivity|]. split; [cbn; rewrite <- Zlt_Qlt; lia|]. split; discriminate.
  Qed.
End C.
