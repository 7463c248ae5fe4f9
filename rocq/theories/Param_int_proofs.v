(** Proofs about parameters in exact arithmetic: float parameters can always be sampled,
    integer parameters. *)
From Verif Require Import Param_spec Param_proofs Dom_proofs.
From Coq Require Import Lqa.
Open Scope Q_scope.
Local Notation length := List.length.

Section Exact.
  Variables lnf expf : Q -> Q.
  Local Notation A := (Qar lnf expf).
  Local Notation T := (option Q).

  Lemma ale_some a b : ale A (Some a) (Some b) = true <-> a <= b.
  Proof.
    unfold ale. cbn. rewrite orb_true_iff, negb_true_iff. split.
    - intros [H|H]; [apply Qle_bool_false in H; lra|apply Qeq_bool_eq in H; lra].
    - intros H. destruct (Qle_bool b a) eqn:L; [|auto]. apply Qle_bool_iff in L. right.
      apply Qeq_bool_iff. lra.
  Qed.
  Lemma ale_inv x y : ale A x y = true -> exists a b, x = Some a /\ y = Some b /\ a <= b.
  Proof.
    destruct x as [a|], y as [b|]; try (cbn; discriminate). intros H. exists a, b. split; [auto|]. split; [auto|].
    apply ale_some, H.
  Qed.
  Lemma within_inv l u x : within A l u x = true -> exists a b q, l = Some a /\ u = Some b /\ x = Some q /\ a <= q /\ q <= b.
  Proof.
    unfold within. intros H. apply andb_true_iff in H. destruct H as [H1 H2].
    apply ale_inv in H1. apply ale_inv in H2. destruct H1 as (a & q & -> & -> & L). destruct H2 as (q' & b & [= <-] & -> & U).
    exists a, b, q. auto.
  Qed.
  Lemma within_some a b q : within A (Some a) (Some b) (Some q) = true <-> a <= q /\ q <= b.
  Proof. unfold within. rewrite andb_true_iff, !ale_some. reflexivity. Qed.
  Lemma not_within a b q : within A (Some a) (Some b) (Some q) = false <-> ~ (a <= q /\ q <= b).
  Proof. rewrite <- within_some. destruct (within A (Some a) (Some b) (Some q)); split; congruence. Qed.

  (** Clipping. *)
  Lemma clipped a b x : a <= b -> within A (Some a) (Some b) (py_min A (Some b) (py_max A (Some a) x)) = true.
  Proof.
    intros L. unfold py_max, py_min. destruct x as [q|]; cbn [altb Qar].
    - destruct (Qle_bool q a) eqn:E; cbn [negb].
      + destruct (Qle_bool b a) eqn:E'; cbn [negb]; apply within_some; lra.
      + apply Qle_bool_false in E. destruct (Qle_bool b q) eqn:E'; cbn [negb]; apply within_some;
          [|apply Qle_bool_false in E']; lra.
    - destruct (Qle_bool b a) eqn:E'; cbn [negb]; apply within_some; lra.
  Qed.

  (** Bounds of an existing parameter that are numbers are in order. *)
  Lemma bounds_order a b : ale A (Some b) (Some a) = false -> a < b.
  Proof. intros H. destruct (Qlt_le_dec a b); [auto|]. assert (X : ale A (Some b) (Some a) = true) by (apply ale_some; auto). congruence. Qed.

  Lemma sample_total a b p draw : fgood A (Some a) (Some b) p ->
    exists q x, f_sample A p draw = Ok q /\ fp_value q = Some (Some x) /\ a <= x /\ x <= b.
  Proof.
    intros G. destruct (good_fields A _ _ p G) as (dom & _ & L & _ & _ & _ & _). apply bounds_order in L.
    destruct (good_bounds A _ _ p G) as [LB UB].
    assert (W : within A (Some a) (Some b) (f_sample_value A p draw) = true).
    { unfold f_sample_value. rewrite LB, UB. apply clipped. lra. }
    unfold f_sample. rewrite (clone_same A _ _ p G). cbn [bind].
    destruct (set_cases A _ _ _ (Some (f_sample_value A p draw)) (score_good A _ _ p (fp_conf p) G))
      as [(? & [= <-] & W' & _)|[(? & _)|(? & n & [= <-] & _ & N & S)]]; [congruence|discriminate|].
    rewrite S. unfold then_ok. cbn [snd fst]. destruct (within_inv _ _ _ W) as (? & ? & q & [= <-] & [= <-] & Q0 & L1 & L2).
    eexists _, q. split; [reflexivity|]. cbn [fp_value f_with_value]. rewrite Q0. auto.
  Qed.

  (** ** Integers *)
  Definition nh : Q := 499999 # 1000000.
  Lemma nearly_half_nh : exists q, nearly_half A = Some q /\ q == nh.
  Proof. exists (inject_Z 499999 / inject_Z 1000000). split; [reflexivity|reflexivity]. Qed.
  Definition nhq : Q := inject_Z 499999 / inject_Z 1000000.
  Lemma nhq_nh : nhq == nh. Proof. reflexivity. Qed.
  Lemma nhq_lt : 0 < nhq /\ nhq < 1 # 2.
  Proof. rewrite nhq_nh. unfold nh. split; reflexivity. Qed.

  Lemma round_some q : round_int A (Some q) = Ok (rint_q q).
  Proof. unfold round_int. cbn. rewrite trunc_q_Z. reflexivity. Qed.
  Lemma round_Z z : round_int A (Some (inject_Z z)) = Ok z.
  Proof. rewrite round_some, rint_q_Z. reflexivity. Qed.
  Lemma z_within_some l u q : z_within A l u (Some q) = true <-> inject_Z l <= q /\ q <= inject_Z u.
  Proof. unfold z_within. cbn [aZ Qar]. apply within_some. Qed.
  Lemma z_within_inv l u x : z_within A l u x = true -> exists q, x = Some q /\ inject_Z l <= q /\ q <= inject_Z u.
  Proof. destruct x as [q|]; [|cbn; discriminate]. intros H. apply z_within_some in H. eauto. Qed.
  Lemma rint_within l u q : inject_Z l <= q -> q <= inject_Z u -> (l <= rint_q q <= u)%Z.
  Proof. intros H1 H2. destruct (rint_between q l u H1 H2) as [X Y]. rewrite <- Zle_Qle in X, Y. lia. Qed.
  (** Rounding from the widened range. *)
  Lemma rint_widened l u q : inject_Z l - nhq <= q -> q <= inject_Z u + nhq -> (l <= rint_q q <= u)%Z.
  Proof.
    intros H1 H2. destruct (rint_near q) as [N1 N2]. destruct nhq_lt as [P H].
    split.
    - assert (X : inject_Z (l - 1) < inject_Z (rint_q q)) by (replace (l - 1)%Z with (l + -1)%Z by lia; rewrite inject_Z_plus; change (inject_Z (-1)) with (-(1)); lra).
      rewrite <- Zlt_Qlt in X. lia.
    - assert (X : inject_Z (rint_q q) < inject_Z (u + 1)) by (rewrite inject_Z_plus; change (inject_Z 1) with 1; lra).
      rewrite <- Zlt_Qlt in X. lia.
  Qed.

  Definition flo (l : Z) : T := Some (inject_Z l - nhq).
  Definition fhi (u : Z) : T := Some (inject_Z u + nhq).

  (** The invariant: [d] the default of the object is consistent, if [dc]; the value too, if [vc]. *)
  Definition igood (dc vc : bool) (l u : Z) (p : iparam T) : Prop :=
    ip_lower p = l /\ ip_upper p = u /\ (l < u)%Z /\ (ip_log p = true -> (0 < l)%Z) /\
    (dc = true -> forall z, ip_default p = Some z -> (l <= z <= u)%Z) /\
    known (ip_conf p) = true /\ ip_prior p = is_some (ip_default p) /\
    fgood A (flo l) (fhi u) (ip_float p) /\ fp_log (ip_float p) = ip_log p /\
    integer A (Some (inject_Z l)) (Some (inject_Z u)) (ip_log p) None false = Ok (ip_dom p) /\
    (vc = true -> forall z, ip_value p = Some z -> (l <= z <= u)%Z).

  Lemma leb_false_lt x y : Z.leb x y = false -> (y < x)%Z. Proof. apply Z.leb_gt. Qed.

  Lemma inew_good lx ux log fid d c p l u : integer_parameter A lx ux log fid d c = Ok p ->
    round_int A lx = Ok l -> round_int A ux = Ok u ->
    igood true true l u p /\ ip_value p = None /\ ip_log p = log /\ ip_fid p = fid /\ ip_conf p = c /\ ip_score p = c /\
    res_opt_map (round_int A) d = Ok (ip_default p).
  Proof.
    intros P L U. unfold integer_parameter in P. rewrite L, U in P. cbn [bind] in P.
    destruct (Z.leb (u - l + 1) 1) eqn:E1; [discriminate|].
    destruct (res_opt_map (round_int A) d) as [dz|] eqn:D; cbn [bind] in P; [|discriminate].
    destruct (integer A (aZ A l) (aZ A u) log None false) as [dom|] eqn:DM; cbn [bind] in P; [|discriminate].
    destruct (Z.leb u l) eqn:E2; [discriminate|].
    destruct (log && (Z.leb l 0 || Z.leb u 0)) eqn:E3; [discriminate|].
    destruct (match dz with Some z => negb (Z.leb l z && Z.leb z u) | None => false end) eqn:E4; [discriminate|].
    destruct (known c) eqn:K; cbn [negb] in P; [|discriminate].
    destruct (float_parameter A (asub A (aZ A l) (nearly_half A)) (aadd A (aZ A u) (nearly_half A)) log fid d c) as [f|] eqn:F;
      cbn [bind] in P; [|discriminate].
    injection P as <-. cbn [ip_value ip_log ip_fid ip_conf ip_score ip_default].
    split; [|auto 10].
    unfold igood. cbn [ip_lower ip_upper ip_log ip_default ip_conf ip_prior ip_float ip_dom ip_value ip_norm].
    apply leb_false_lt in E2. do 3 (split; [auto|]). split.
    { intros ->. cbn [andb] in E3. apply orb_false_iff in E3. destruct E3 as [E3 _]. apply leb_false_lt in E3. exact E3. }
    split.
    { intros _ z ->. apply negb_false_iff, andb_true_iff in E4. destruct E4 as [X Y]. apply Z.leb_le in X, Y. auto. }
    do 2 (split; [auto|]).
    change (asub A (aZ A l) (nearly_half A)) with (flo l) in F. change (aadd A (aZ A u) (nearly_half A)) with (fhi u) in F.
    split; [exact (new_good A _ _ _ _ _ _ _ F)|].
    destruct (new_fields A _ _ _ _ _ _ _ F) as (? & _ & _ & _ & _ & _ & ->). split; [reflexivity|]. split; [exact DM|]. discriminate.
  Qed.

  (** The constructor accepts what the invariant promises. *)
  Lemma inew_total l u p : igood true false l u p ->
    exists c, integer_parameter A (Some (inject_Z l)) (Some (inject_Z u)) (ip_log p) (ip_fid p)
      (opt_map (aZ A) (ip_default p)) (ip_conf p) = Ok c /\ igood true true l u c /\ ip_value c = None /\
      ip_log c = ip_log p /\ ip_fid c = ip_fid p /\ ip_conf c = ip_conf p /\ ip_score c = ip_conf p /\ ip_default c = ip_default p /\
      ip_dom c = ip_dom p.
  Proof.
    intros (L & U & LU & LG & D & K & PR & F & FL & DM & _).
    assert (X : exists c, integer_parameter A (Some (inject_Z l)) (Some (inject_Z u)) (ip_log p) (ip_fid p)
      (opt_map (aZ A) (ip_default p)) (ip_conf p) = Ok c /\ ip_dom c = ip_dom p).
    { unfold integer_parameter. rewrite !round_Z. cbn [bind].
      destruct (Z.leb (u - l + 1) 1) eqn:E1; [apply Z.leb_le in E1; lia|].
      assert (RD : res_opt_map (round_int A) (opt_map (aZ A) (ip_default p)) = Ok (ip_default p)).
      { destruct (ip_default p) as [z|]; cbn [opt_map res_opt_map aZ Qar]; [rewrite round_Z|]; reflexivity. }
      rewrite RD. cbn [bind].
      change (integer A (aZ A l) (aZ A u)) with (integer A (Some (inject_Z l)) (Some (inject_Z u))). rewrite DM. cbn [bind].
      destruct (Z.leb u l) eqn:E2; [apply Z.leb_le in E2; lia|].
      replace (ip_log p && (Z.leb l 0 || Z.leb u 0)) with false.
      2: { symmetry. destruct (ip_log p); [|reflexivity]. cbn [andb]. specialize (LG eq_refl). apply orb_false_iff.
           split; apply Z.leb_gt; lia. }
      replace (match ip_default p with Some z => negb (Z.leb l z && Z.leb z u) | None => false end) with false.
      2: { symmetry. destruct (ip_default p) as [z|] eqn:DE; [|reflexivity]. specialize (D eq_refl z eq_refl).
           apply negb_false_iff, andb_true_iff. split; apply Z.leb_le; lia. }
      rewrite K. cbn [negb].
      change (asub A (aZ A l) (nearly_half A)) with (flo l). change (aadd A (aZ A u) (nearly_half A)) with (fhi u).
      destruct (good_fields A _ _ _ F) as (fd & FD & FO & FG & _ & _ & _). rewrite FL in FD, FG.
      rewrite (new_from A (flo l) (fhi u) (ip_log p) (ip_fid p) (opt_map (aZ A) (ip_default p)) (ip_conf p) fd FD FO FG); [| |exact K].
      - cbn [bind]. eexists. split; reflexivity.
      - intros x. destruct (ip_default p) as [z|] eqn:DE; cbn [opt_map]; [|discriminate]. intros [= <-].
        specialize (D eq_refl z eq_refl). unfold flo, fhi. apply within_some. destruct nhq_lt.
        assert (inject_Z l <= inject_Z z) by (rewrite <- Zle_Qle; lia). assert (inject_Z z <= inject_Z u) by (rewrite <- Zle_Qle; lia).
        lra. }
    destruct X as (c & C & DC). exists c. split; [exact C|].
    destruct (inew_good _ _ _ _ _ _ _ l u C (round_Z l) (round_Z u)) as (G & V & LG' & FD' & CF & SC & DF).
    split; [exact G|]. do 5 (split; [assumption|]). split; [|assumption].
    destruct (ip_default p) as [z|]; cbn [opt_map res_opt_map aZ Qar] in DF; [rewrite round_Z in DF|]; cbn [bind] in DF; congruence.
  Qed.

  Lemma igood_with dc vc l u p v n f : igood dc false l u p -> fgood A (flo l) (fhi u) f -> fp_log f = ip_log p ->
    (vc = true -> forall z, v = Some z -> (l <= z <= u)%Z) -> igood dc vc l u (i_with p v n f).
  Proof.
    intros (L & U & LU & LG & D & K & PR & F & FL & DM & _) GF FL' V.
    unfold igood, i_to_norm, i_with. cbn [ip_lower ip_upper ip_log ip_default ip_conf ip_prior ip_float ip_dom ip_value ip_norm]. auto 20.
  Qed.
  Lemma igood_weak dc vc l u p : igood dc vc l u p -> igood dc false l u p.
  Proof. unfold igood. intuition discriminate. Qed.
  Lemma igood_weaker dc vc l u p : igood dc vc l u p -> igood false false l u p.
  Proof. unfold igood. intuition discriminate. Qed.
  Lemma igood_float dc vc l u p : igood dc vc l u p -> fgood A (flo l) (fhi u) (ip_float p).
  Proof. unfold igood. tauto. Qed.
  Lemma igood_log dc vc l u p : igood dc vc l u p -> fp_log (ip_float p) = ip_log p.
  Proof. unfold igood. tauto. Qed.

  Lemma z_in_widened l u z : (l <= z <= u)%Z -> within A (flo l) (fhi u) (Some (inject_Z z)) = true.
  Proof.
    intros H. unfold flo, fhi. apply within_some. destruct nhq_lt.
    assert (inject_Z l <= inject_Z z) by (rewrite <- Zle_Qle; lia). assert (inject_Z z <= inject_Z u) by (rewrite <- Zle_Qle; lia). lra.
  Qed.

  Lemma with_value_log (f : fparam T) v n : fp_log (f_with_value f v n) = fp_log f. Proof. reflexivity. Qed.

  (** Setting: refused, and nothing happens, or accepted, and rounded. *)
  Lemma iset_cases dc l u p v : igood dc false l u p ->
    (exists x, v = Some x /\ z_within A l u x = false /\ i_set_value A p v = (p, Err ValueError)) \/
    (v = None /\ exists f, fgood A (flo l) (fhi u) f /\ fp_log f = ip_log p /\ i_set_value A p v = (i_with p None None f, Ok tt)) \/
    (exists q f n, v = Some (Some q) /\ inject_Z l <= q /\ q <= inject_Z u /\ fgood A (flo l) (fhi u) f /\ fp_log f = ip_log p /\
      f_to_norm A f (aZ A (rint_q q)) = Ok n /\
      i_set_value A p v = (i_with p (Some (rint_q q)) (Some n) f, Ok tt)).
  Proof.
    intros G. pose proof G as (L & U & LU & LG & D & K & PR & F & FL & DM & _). destruct v as [x|].
    - unfold i_set_value. rewrite L, U. destruct (z_within A l u x) eqn:W; cbn [negb].
      + right; right. destruct (z_within_inv l u x W) as (q & -> & L1 & L2). rewrite round_some.
        pose proof (rint_within l u q L1 L2) as RW. pose proof (z_in_widened l u _ RW) as ZW.
        change (Some (inject_Z (rint_q q))) with (aZ A (rint_q q)) in ZW.
        destruct (set_cases A _ _ _ (Some (aZ A (rint_q q))) F) as [(? & [= <-] & W' & _)|[(? & _)|(x & n & X & _ & N & S)]];
          [exfalso; exact (eq_true_false_abs _ ZW W')|discriminate|]. apply (f_equal (fun o => match o with Some y => y | None => x end)) in X. cbv beta iota in X. subst x.
        pose proof (set_good A _ _ _ (Some (aZ A (rint_q q))) F) as GF. rewrite S in GF. cbn [fst] in GF.
        rewrite S. unfold i_to_norm. cbn [i_with ip_float].
        assert (N' : f_to_norm A (f_with_value (ip_float p) (Some (aZ A (rint_q q))) (Some n)) (aZ A (rint_q q)) = Ok n).
        { rewrite <- N. apply to_norm_same; reflexivity. }
        rewrite N'. eexists q, _, n. do 3 (split; [auto|]). split; [exact GF|]. split; [exact FL|]. split; [exact N'|reflexivity].
      + left. eauto.
    - right; left. split; [auto|]. eexists. split; [apply (set_good A _ _ _ None F)|]. split; [exact FL|]. reflexivity.
  Qed.
  Lemma iset_good dc vc l u p v : igood dc vc l u p -> igood dc vc l u (fst (i_set_value A p v)).
  Proof.
    intros G. pose proof (igood_weak _ _ _ _ _ G) as GW.
    destruct (iset_cases dc l u p v GW) as [(x & _ & _ & E)|[(_ & f & GF & LF & E)|(q & f & n & _ & L1 & L2 & GF & LF & N & E)]];
      rewrite E; cbn [fst]; [exact G| |].
    - apply igood_with; auto. discriminate.
    - apply igood_with; auto. intros _ z [= <-]. apply rint_within; auto.
  Qed.
  Lemma idefault_log (f : fparam T) v : fp_log (fst (f_set_default A f v)) = fp_log f.
  Proof. destruct v as [x|]; cbn; [|reflexivity]. destruct (ale A (fp_lower f) x && ale A x (fp_upper f)); reflexivity. Qed.
  Lemma idefault_norm (f : fparam T) v x : f_to_norm A (fst (f_set_default A f v)) x = f_to_norm A f x.
  Proof. destruct v as [y|]; [|apply to_norm_same; reflexivity]. unfold f_set_default.
    destruct (negb _); [reflexivity|]. apply to_norm_same; reflexivity. Qed.
  Lemma idefault_good dc vc l u p v : igood dc vc l u p -> (dc = true -> exists x, snd (i_set_default A p v) = Ok x) ->
    igood dc vc l u (fst (i_set_default A p v)).
  Proof.
    intros G OK. pose proof G as (L & U & LU & LG & D & K & PR & F & FL & DM & V).
    assert (H : forall d y, (dc = true -> forall z, d = Some z -> (l <= z <= u)%Z) ->
      igood dc vc l u (i_with_default p d (is_some d) (fst (f_set_default A (ip_float p) y)))).
    { intros d y H. unfold igood, i_to_norm, i_with_default.
      cbn [ip_lower ip_upper ip_log ip_default ip_conf ip_prior ip_float ip_dom ip_value ip_norm].
      do 4 (split; [auto|]). split; [exact H|]. do 2 (split; [auto|]). split; [apply default_good, F|].
      split; [rewrite idefault_log; auto|]. auto. }
    unfold i_set_default in *. destruct v as [x|]; cbn [fst]; [|apply (H None None); discriminate].
    destruct (round_int A x) as [z|] eqn:R; [|exact G].
    pose proof (H (Some z) (Some (aZ A z))) as H'.
    destruct (f_set_default A (ip_float p) (Some (aZ A z))) as [f r] eqn:E. cbn [fst snd] in *. apply H'.
    intros DC z' [= <-]. destruct (OK DC) as [y ->]. unfold f_set_default in E.
    destruct (good_bounds A _ _ _ F) as [FB UB]. rewrite FB, UB in E. fold (within A (flo l) (fhi u) (aZ A z)) in E.
    destruct (within A (flo l) (fhi u) (aZ A z)) eqn:W; cbn [negb] in E; [|discriminate].
    apply within_some in W. destruct W as [W1 W2]. pose proof (rint_widened l u _ W1 W2) as RW. rewrite rint_q_Z in RW. exact RW.
  Qed.
  Lemma iconf_good dc vc l u p c : igood dc vc l u p -> igood dc vc l u (fst (i_set_confidence p c)).
  Proof.
    intros (L & U & LU & LG & D & K & PR & F & FL & DM & V).
    unfold i_set_confidence. pose proof (conf_good A _ _ _ c F) as CG. unfold f_set_confidence in *.
    destruct (known c); cbn [fst snd] in *; unfold igood, i_to_norm, i_with;
      cbn [ip_lower ip_upper ip_log ip_default ip_conf ip_prior ip_float ip_dom ip_value ip_norm]; [|auto 20].
    do 7 (split; [auto|]). split; [exact CG|]. split; [exact FL|]. auto.
  Qed.
  Lemma iload_good dc vc l u p x : igood dc vc l u p -> (vc = true -> z_within A l u x = true) -> igood dc vc l u (fst (i_load A p x)).
  Proof.
    intros G H. unfold i_load. destruct (round_int A x) eqn:R; [|exact G]. cbn [fst]. apply igood_with.
    - exact (igood_weak _ _ _ _ _ G).
    - exact (igood_float _ _ _ _ _ G).
    - exact (igood_log _ _ _ _ _ G).
    - intros VC z [= <-]. destruct (z_within_inv l u x (H VC)) as (q & -> & L1 & L2). rewrite round_some in R.
      injection R as <-. apply rint_within; auto.
  Qed.

  (** [clone] and [set_value]: with a value within the bounds. *)
  Lemma then_iset l u c z q : igood true true l u c -> then_ok (i_set_int A c (Some z)) = Ok q ->
    igood true true l u q /\ ip_value q = Some z /\ (l <= z <= u)%Z /\
    ip_log q = ip_log c /\ ip_fid q = ip_fid c /\ ip_conf q = ip_conf c /\ ip_score q = ip_score c /\
    ip_default q = ip_default c /\ ip_dom q = ip_dom c.
  Proof.
    intros G S. unfold i_set_int in S. cbn [opt_map aZ Qar] in S. apply then_ok_inv in S. destruct S as [y S].
    pose proof (iset_good true true l u c (Some (Some (inject_Z z))) G) as GQ.
    destruct (iset_cases true l u c (Some (Some (inject_Z z))) (igood_weak _ _ _ _ _ G)) as
      [(? & _ & _ & E)|[(? & _)|(r & f & n & [= <-] & L1 & L2 & _ & _ & _ & E)]]; [congruence|discriminate|].
    rewrite E in S, GQ. injection S as <- _. cbn [fst] in GQ. split; [exact GQ|]. cbn [i_with ip_value ip_log ip_fid ip_conf ip_score ip_default ip_dom].
    rewrite rint_q_Z. split; [auto|]. rewrite <- Zle_Qle in L1, L2. auto 20.
  Qed.
  Lemma iset_total l u c z : igood true true l u c -> (l <= z <= u)%Z -> exists q, then_ok (i_set_int A c (Some z)) = Ok q.
  Proof.
    intros G R. unfold i_set_int. cbn [opt_map aZ Qar].
    destruct (iset_cases true l u c (Some (Some (inject_Z z))) (igood_weak _ _ _ _ _ G)) as
      [(? & [= <-] & W & _)|[(? & _)|(r & f & n & _ & _ & _ & _ & _ & _ & E)]]; [|discriminate|].
    - assert (X : z_within A l u (Some (inject_Z z)) = true) by (apply z_within_some; rewrite <- !Zle_Qle; lia). congruence.
    - rewrite E. eexists. reflexivity.
  Qed.
  Lemma iclone_good dc l u p q : igood dc true l u p \/ igood dc false l u p -> i_clone A p = Ok q -> dc = true ->
    igood true true l u q /\ ip_value q = ip_value p /\
    ip_log q = ip_log p /\ ip_fid q = ip_fid p /\ ip_conf q = ip_conf p /\ ip_score q = ip_conf p /\
    ip_default q = ip_default p /\ ip_dom q = ip_dom p.
  Proof.
    intros G C ->. assert (G' : igood true false l u p) by (destruct G as [G|G]; [apply igood_weak in G|]; exact G). clear G.
    destruct (inew_total l u p G') as (c & N & GC & VC & LC & FC & CC & SC & DC & DD).
    pose proof G' as (L & U & _). unfold i_clone in C. rewrite L, U in C. cbn [aZ Qar] in C, N. rewrite N in C. cbn [bind] in C.
    destruct (ip_value p) as [z|].
    - destruct (then_iset l u c z q GC C) as (GQ & VQ & _ & E1 & E2 & E3 & E4 & E5 & E6).
      split; [exact GQ|]. split; [exact VQ|]. repeat split; congruence.
    - injection C as <-. auto 20.
  Qed.
  Lemma iclone_total l u p : igood true true l u p -> exists q, i_clone A p = Ok q.
  Proof.
    intros G. destruct (inew_total l u p (igood_weak _ _ _ _ _ G)) as (c & N & GC & _).
    pose proof G as (L & U & _ & _ & _ & _ & _ & _ & _ & _ & V). unfold i_clone. rewrite L, U. cbn [aZ Qar] in *. rewrite N. cbn [bind].
    destruct (ip_value p) as [z|]; [|eauto]. apply iset_total with (l := l) (u := u); auto.
  Qed.

  (** Without the assumption that the default is consistent: the constructor checks it. *)
  Lemma iclone_good' dc vc l u p q : igood dc vc l u p -> i_clone A p = Ok q ->
    igood true true l u q /\ ip_value q = ip_value p.
  Proof.
    intros G C. pose proof G as (L & U & _). unfold i_clone in C. rewrite L, U in C. cbn [aZ Qar] in C.
    destruct (integer_parameter A (Some (inject_Z l)) (Some (inject_Z u)) (ip_log p) (ip_fid p)
      (opt_map (fun z => Some (inject_Z z)) (ip_default p)) (ip_conf p)) as [c|] eqn:N; cbn [bind] in C; [|discriminate].
    destruct (inew_good _ _ _ _ _ _ _ l u N (round_Z l) (round_Z u)) as (GC & VC & _).
    destruct (ip_value p) as [z|].
    - destruct (then_iset l u c z q GC C) as (GQ & VQ & _). auto.
    - injection C as <-. auto.
  Qed.
  Lemma iclone_set_good dc vc l u p z c q : igood dc vc l u p -> i_clone A p = Ok c -> then_ok (i_set_int A c (Some z)) = Ok q ->
    igood true true l u q /\ ip_value q = Some z /\ (l <= z <= u)%Z.
  Proof.
    intros G C S. destruct (iclone_good' dc vc l u p c G C) as [GC _]. destruct (then_iset l u c z q GC S) as (GQ & VQ & R & _). auto.
  Qed.

  Lemma ineighbour_loop_good dc vc l u p cur : igood dc vc l u p -> forall draws n qs, i_neighbour_loop A p cur n draws = Ok qs ->
    length qs = n /\ forall q, In q qs -> igood true true l u q /\ exists z, ip_value q = Some z /\ (l <= z <= u)%Z /\ z <> cur.
  Proof.
    intros G. induction draws as [|x draws IH]; intros [|n] qs; cbn [i_neighbour_loop]; try discriminate;
      try (intros [= <-]; split; [reflexivity|intros q []]).
    destruct (altb A x (aZ A 0) || altb A (aZ A 1) x); [apply IH|].
    destruct (i_of_norm A p x) as [v|]; cbn [bind]; [|discriminate].
    destruct (Z.eqb v cur) eqn:VC; [apply IH|]. apply Z.eqb_neq in VC.
    destruct (i_clone A p) as [c|] eqn:C; cbn [bind]; [|discriminate].
    destruct (then_ok (i_set_int A c (Some v))) as [q0|] eqn:S; cbn [bind]; [|discriminate].
    destruct (i_neighbour_loop A p cur n draws) as [l0|] eqn:R; cbn [bind]; [|discriminate].
    intros [= <-]. destruct (IH n l0 R) as [L I]. split; [cbn; auto|]. intros q [<-|J]; [|auto].
    destruct (iclone_set_good dc vc l u p v c q0 G C S) as (GQ & VQ & W). split; [auto|]. eauto.
  Qed.
  Lemma ineighbours_good dc vc l u p n draws qs : igood dc vc l u p -> i_neighbours A p n draws = Ok qs ->
    length qs = n /\ forall q, In q qs -> igood true true l u q /\ exists z, ip_value q = Some z /\ (l <= z <= u)%Z /\ ip_value p <> Some z.
  Proof.
    intros G. unfold i_neighbours. destruct (ip_value p) as [x|]; [|discriminate].
    destruct (i_to_norm A p x); cbn [bind]; [|discriminate]. intros N.
    destruct (ineighbour_loop_good dc vc l u p x G _ _ _ N) as [L I]. split; [exact L|]. intros q J. destruct (I q J) as (GQ & z & Z0 & R & D).
    split; [exact GQ|]. exists z. split; [auto|]. split; [auto|]. congruence.
  Qed.
  Lemma isample_good dc vc l u p draw q : igood dc vc l u p -> i_sample A p draw = Ok q ->
    igood true true l u q /\ exists z, ip_value q = Some z /\ (l <= z <= u)%Z.
  Proof.
    intros G. unfold i_sample. destruct (i_sample_value A p draw) as [z|]; cbn [bind]; [|discriminate].
    destruct (i_clone A p) as [c|] eqn:C; cbn [bind]; [|discriminate]. intros S.
    destruct (iclone_set_good dc vc l u p z c q G C S) as (GQ & VQ & R). eauto.
  Qed.
  Lemma imutate_good dc vc l u p parent s draw draws q : igood dc vc l u p -> i_mutate A p parent s draw draws = Ok q ->
    igood true true l u q /\ match parent with Some r => ip_value r | None => ip_value p end <> ip_value q.
  Proof.
    intros G. unfold i_mutate. destruct (ip_fid p); [discriminate|].
    match goal with |- bind ?c _ = _ -> _ => set (child := c) end.
    assert (H : forall r, child = Ok r -> igood true true l u r).
    { subst child. intros r. destruct s; [| |discriminate].
      - destruct (i_clone A p) as [c|] eqn:C; cbn [bind]; [|discriminate].
        destruct (i_sample A c draw); cbn [bind]; [|discriminate]. intros [= <-]. eapply iclone_good'; eauto.
      - destruct (i_neighbours A p 1 draws) as [qs|] eqn:N; cbn [bind]; [|discriminate].
        destruct (ineighbours_good dc vc l u p 1 draws qs G N) as [_ I]. destruct qs as [|q0 qs]; cbn [first]; [discriminate|].
        intros [= <-]. apply I. left; auto. }
    destruct child as [c|]; cbn [bind]; [|discriminate].
    set (par := ip_value match parent with Some q0 => q0 | None => p end).
    destruct (opt_eqb Z.eqb par (ip_value c)) eqn:E; [discriminate|].
    intros [= <-]. split; [auto|]. replace (match parent with Some r => ip_value r | None => ip_value p end) with par by (subst par; destruct parent; reflexivity).
    intros X. rewrite X in E. destruct (ip_value c) as [z|]; cbn in E; [rewrite Z.eqb_refl in E|]; discriminate.
  Qed.
  Lemma icrossover_good dc vc l u p p1 p2 draws q1 q2 : igood dc vc l u p -> i_crossover A p p1 p2 draws = Ok (q1, q2) ->
    forall q, q = q1 \/ q = q2 -> igood true true l u q /\ exists z, ip_value q = Some z /\ (l <= z <= u)%Z.
  Proof.
    intros G. unfold i_crossover. destruct (ip_fid p); [discriminate|].
    destruct (ip_value p1) as [x|]; [|discriminate].
    destruct (ip_value match p2 with Some q => q | None => p end) as [y|]; [|discriminate].
    destruct (i_clone A p) as [c|] eqn:C; cbn [bind]; [|discriminate].
    destruct (iclone_good' dc vc l u p c G C) as [GC _].
    set (v := adiv A (aZ A (x + y)) (aZ A 2)). clearbody v.
    destruct (then_ok (i_set_value A c (Some v))) as [c'|] eqn:S; cbn [bind]; [|discriminate].
    apply then_ok_inv in S. destruct S as [o S].
    pose proof (iset_good true true l u c (Some v) GC) as GC'. rewrite S in GC'. cbn [fst] in GC'.
    destruct (i_neighbours A c' 2 draws) as [qs|] eqn:N; cbn [bind]; [|discriminate].
    destruct (ineighbours_good _ _ l u c' 2 draws qs GC' N) as [_ I].
    destruct qs as [|a [|b [|? ?]]]; try discriminate.
    intros [= <- <-] q [->| ->]; [destruct (I a) as (GQ & z & V & R & _)|destruct (I b) as (GQ & z & V & R & _)]; cbn; eauto.
  Qed.

  Lemma igood_down vc l u p dc : igood true true l u p -> igood dc vc l u p.
  Proof. unfold igood. intros (H1 & H2 & H3 & H4 & H5 & H6 & H7 & H8 & H9 & H10 & H11).
    do 4 (split; [auto|]). split; [intros _; apply H5; reflexivity|]. do 5 (split; [auto|]). intros _. apply H11. reflexivity.
  Qed.

  Lemma ireach_good l u p : ireach A true l u p -> igood true true l u p.
  Proof.
    induction 1.
    - eapply inew_good; eauto.
    - apply iset_good; auto.
    - apply idefault_good; auto.
    - apply iconf_good; auto.
    - apply iload_good; auto.
    - eapply iclone_good'; eauto.
    - eapply isample_good; eauto.
    - eapply ineighbours_good; eauto.
    - eapply imutate_good; eauto.
    - eapply icrossover_good; eauto.
  Qed.
  Lemma ireach_weak ck l u p : ireach A ck l u p -> igood false false l u p.
  Proof.
    induction 1.
    - apply igood_down. eapply inew_good; eauto.
    - apply iset_good; auto.
    - apply idefault_good; auto. discriminate.
    - apply iconf_good; auto.
    - apply iload_good; auto; discriminate.
    - apply igood_down. eapply iclone_good'; eauto.
    - apply igood_down. eapply isample_good; eauto.
    - apply igood_down. eapply ineighbours_good; eauto.
    - apply igood_down. eapply imutate_good; eauto.
    - apply igood_down. eapply icrossover_good; eauto.
  Qed.

  Lemma isample_total l u p draw : igood true true l u p ->
    exists q z, i_sample A p draw = Ok q /\ ip_value q = Some z /\ (l <= z <= u)%Z.
  Proof.
    intros G. pose proof (igood_float _ _ _ _ _ G) as F.
    destruct (good_fields A _ _ _ F) as (fd & _ & FO & _). apply bounds_order in FO.
    destruct (good_bounds A _ _ _ F) as [LB UB].
    assert (W : within A (flo l) (fhi u) (f_sample_value A (ip_float p) draw) = true).
    { unfold f_sample_value. rewrite LB, UB. apply clipped. lra. }
    destruct (within_inv _ _ _ W) as (? & ? & x & [= <-] & [= <-] & X & L1 & L2).
    pose proof (rint_widened l u x L1 L2) as R.
    unfold i_sample, i_sample_value. rewrite X, round_some. cbn [bind].
    destruct (iclone_total l u p G) as [c C]. rewrite C. cbn [bind].
    destruct (iclone_good' _ _ l u p c G C) as [GC _].
    destruct (iset_total l u c (rint_q x) GC R) as [q Q0]. rewrite Q0.
    exists q, (rint_q x). split; [reflexivity|]. destruct (then_iset l u c _ q GC Q0) as (_ & V & R' & _). auto.
  Qed.
End Exact.
