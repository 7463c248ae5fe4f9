(** Local mutation and crossover by values. *)
From Verif Require Import Space_spec Space_proofs Space_more_proofs Space_ops_proofs Space_eq_proofs Param_proofs Param_int_proofs Param_cat_proofs Param_more_proofs Dom_proofs Py_proofs Enc_proofs.
From Coq Require Import Lqa Permutation Qabs.
Open Scope nat_scope.
Local Notation length := List.length.

Section S.
  Variables lnf expf : Q -> Q.
  Notation A := (Qar lnf expf).
  Notation T := (option Q).
  Notation preach := (preach lnf expf).
  Notation wf := (wf lnf expf).
  Notation kept := (kept lnf expf).
  Hypothesis ID : ideal lnf expf.

  Lemma paired_and (R R' : string -> param T -> param T -> Prop) s c : paired R s c -> paired R' s c -> paired (fun k p q => R k p q /\ R' k p q) s c.
  Proof. intros H. induction H as [|a b s c (E & HX) _ IH]; intros K; inversion K as [|? ? ? ? (_ & KX) K']; subst; constructor; auto. apply IH. exact K'. Qed.
  Lemma equal_loop_false incl o0 : forall s o, comparable lnf expf s o -> NoDup (map fst s) ->
    (forall k q, In (k, q) o -> lookup k o0 = Some q) -> equal_loop A s o0 incl = Ok false ->
    exists k p q, In (k, p) s /\ In (k, q) o /\ p_fid p && negb incl = false /\ ~ alike_at lnf expf p q.
  Proof.
    intros s o C. induction C as [|(k, p) (k', q) s o (E & ((R & R' & D) & VV)) C IH]; intros N L; [discriminate|].
    cbn [fst snd] in *. subst k'. inversion N as [|? ? N1 N2]; subst. cbn [equal_loop].
    assert (IH' : equal_loop A s o0 incl = Ok false -> exists k0 p0 q0, In (k0, p0) ((k, p) :: s) /\ In (k0, q0) ((k, q) :: o) /\
      p_fid p0 && negb incl = false /\ ~ alike_at lnf expf p0 q0).
    { intros H. destruct IH as (k0 & p0 & q0 & I1 & I2 & H'); auto.
      - intros k1 q1 I1. apply L. right. exact I1.
      - exists k0, p0, q0. split; [right; exact I1|]. split; [right; exact I2|exact H']. }
    destruct (p_fid p && negb incl) eqn:F; [exact IH'|]. rewrite (L k q (or_introl eq_refl)).
    destruct (p_equal_ok lnf expf ID p q R R' D VV) as (b1 & PE & H1). rewrite PE. cbn [bind]. destruct b1; [exact IH'|].
    intros _. exists k, p, q. split; [left; reflexivity|]. split; [left; reflexivity|]. split; [exact F|]. intros X. apply H1 in X. discriminate.
  Qed.
  Lemma is_equal_false s o incl : comparable lnf expf s o -> NoDup (map fst s) -> is_equal_value A s o incl = Ok false ->
    exists k p q, In (k, p) s /\ In (k, q) o /\ p_fid p && negb incl = false /\ ~ alike_at lnf expf p q.
  Proof.
    intros C N. unfold is_equal_value. rewrite (names_eqb s o (paired_names _ _ _ C)). cbn [negb]. apply equal_loop_false; auto.
    intros k q I. apply In_lookup; [|exact I]. rewrite (paired_names _ _ _ C). exact N.
  Qed.

  (** ** local_mutation *)
  Lemma mutate_once_inv c cats coins draws r : wf c -> mutate_once A c cats coins draws = Ok r ->
    wf r /\ kept c r /\ paired (fun k p q => p_value A q = p_value A p \/
      (touched cats p = true /\ (exists v, p_value A q = Some v) /\ differ (p_value A p) (p_value A q))) c r.
  Proof.
    intros W S. unfold mutate_once in S.
    match type of S with bind (each ?g c) _ = _ => set (f := g) in S end.
    assert (H : forall k p q, In (k, p) c -> f k p = Ok q -> (preach q /\ p_def q = p_def p) /\ (p_value A q = p_value A p \/
      (touched cats p = true /\ (exists v, p_value A q = Some v) /\ differ (p_value A p) (p_value A q)))).
    { intros k p q I. pose proof (wf_reach _ _ c k p W I) as R.
      assert (CL : p_clone A p = Ok q -> (preach q /\ p_def q = p_def p) /\ p_value A q = p_value A p).
      { intros C. destruct (clone_ok lnf expf p R) as (q' & C' & X1 & X2 & X3). rewrite C' in C. injection C as <-. auto. }
      assert (MU : touched cats p = true -> p_mutate A p (draws k) = Ok q -> (preach q /\ p_def q = p_def p) /\
        (touched cats p = true /\ (exists v, p_value A q = Some v) /\ differ (p_value A p) (p_value A q))).
      { intros TO M. destruct (mutate_inv lnf expf p _ q R M) as (X1 & X2 & X3 & X4). auto. }
      unfold f, touched in *. destruct (p_fid p); cbn [orb negb andb] in *.
      - intros C. destruct (CL C). auto.
      - destruct (coins k); cbn [negb]; [|intros C; destruct (CL C); auto].
        destruct p as [p|p|p|p].
        + intros M. destruct (MU eq_refl M). auto.
        + intros M. destruct (MU eq_refl M). auto.
        + destruct cats; [intros M; destruct (MU eq_refl M); auto|intros C; destruct (CL C); auto].
        + intros C; destruct (CL C); auto. }
    apply (each_ss lnf expf c r f W) in S; [|intros k p q I F; apply (H k p q I F)]. apply each_iff in S.
    assert (K : kept c r) by (eapply paired_impl; [exact S|]; intros k p q I _ F; apply (H k p q I F)).
    split; [apply (kept_wf lnf expf c r W K)|]. split; [exact K|]. eapply paired_impl; [exact S|]. intros k p q I _ F. apply (H k p q I F).
  Qed.
  Lemma hp_same (s c : space T) : paired (fun _ p q => p_value A q = p_value A p) s c -> hp_values A c = hp_values A s.
  Proof. unfold hp_values. induction 1 as [|(k, p) (k', q) s c (E & V) _ IH]; cbn in *; [reflexivity|]. subst. rewrite V, IH. reflexivity. Qed.
  Lemma hp_paired (s c : space T) : hp_values A c = hp_values A s -> paired (fun _ p q => p_value A q = p_value A p) s c.
  Proof.
    unfold hp_values. revert c. induction s as [|(k, p) s IH]; intros [|(k', q) c] E; try discriminate; [constructor|].
    cbn in E. injection E as -> V E. constructor; [split; [reflexivity|exact V]|apply IH; exact E].
  Qed.
  (** Values are set where they were, and more. *)
  Lemma comparable_of c r : wf c -> kept c r -> legal_space lnf expf c ->
    paired (fun _ p q => p_value A q = p_value A p \/ exists v, p_fid p = false /\ p_value A q = Some v) c r -> comparable lnf expf c r.
  Proof.
    intros W K LG H. unfold comparable.
    assert (X : paired (fun _ p q => (preach q /\ p_def q = p_def p) /\ (p_value A q = p_value A p \/ exists v, p_fid p = false /\ p_value A q = Some v)) c r).
    { clear -K H. revert H. induction K as [|a b s c (E & KX) K IH]; intros H; inversion H as [|? ? ? ? (_ & HX) H']; subst; constructor; auto. apply IH. exact H'. }
    eapply paired_impl; [exact X|]. intros k p q I _ ((R & E) & V). split; [split; [apply (wf_reach _ _ c k p W I)|auto]|].
    destruct V as [V|(v & F & V)].
    - rewrite V. destruct (p_value A p) as [x|]; [right; eauto|left; auto].
    - destruct (LG k p I F) as (x & VX & _). right. eauto.
  Qed.
  Lemma local_mutation_inv c cats coins draws n i r : wf c -> legal_space lnf expf c -> local_mutation A c cats coins draws i n = Ok r ->
    wf r /\ kept c r /\
    paired (fun k p q => p_value A q = p_value A p \/
      (touched cats p = true /\ (exists v, p_value A q = Some v) /\ differ (p_value A p) (p_value A q))) c r /\
    (hp_values A r = hp_values A c \/
     exists k p q, In (k, p) c /\ In (k, q) r /\ touched cats p = true /\ ~ alike_at lnf expf p q).
  Proof.
    intros W LG. revert i. induction n as [|n IH]; intros i S; cbn [local_mutation] in S.
    - destruct (s_clone_ok lnf expf c W) as (r' & C & WR & K & V). rewrite C in S. injection S as <-. split; [exact WR|]. split; [exact K|].
      split; [|left; exact V]. eapply paired_impl; [apply hp_paired; exact V|]. cbn. auto.
    - apply bind_ok in S. destruct S as (new & M & S). apply bind_ok in S. destruct S as (e & EQ & S).
      destruct e; [exact (IH _ S)|]. injection S as <-. destruct (mutate_once_inv c cats _ _ new W M) as (WN & K & H).
      split; [exact WN|]. split; [exact K|]. split; [exact H|]. right.
      assert (C : comparable lnf expf c new).
      { apply comparable_of; auto. eapply paired_impl; [exact H|]. intros k p q _ _ [V|(TO & (v & V) & _)]; [left; exact V|right].
        exists v. split; [|exact V]. unfold touched in TO. destruct (p_fid p); [discriminate|reflexivity]. }
      destruct (is_equal_false c new false C (wf_nodup _ _ c W) EQ) as (k & p & q & I1 & I2 & F & NA).
      exists k, p, q. split; [exact I1|]. split; [exact I2|]. split; [|exact NA].
      destruct (paired_in_r _ _ _ _ _ H I2) as (p' & I3 & X).
      assert (p' = p) as -> by (pose proof (In_lookup k c p (wf_nodup _ _ c W) I1); pose proof (In_lookup k c p' (wf_nodup _ _ c W) I3); congruence).
      destruct X as [X|(X & _)]; [|exact X]. exfalso. apply NA. unfold alike_at. rewrite X. destruct (p_value A p) as [v|] eqn:V; [|exact Logic.I].
      apply (alike_refl lnf expf p v (wf_reach _ _ c k p W I1) V).
  Qed.

  (** ** custom_crossover *)
  Lemma set_same p q : preach p -> preach q -> p_def q = p_def p ->
    exists r, p_set A p (p_value A q) = Ok r /\ preach r /\ p_def r = p_def p /\ p_value A r = p_value A q.
  Proof.
    intros R R' E. destruct (p_value A q) as [v|] eqn:V.
    - apply set_ok; auto. rewrite <- E. apply (value_legal lnf expf q v R' V).
    - assert (X : exists r, p_set A p None = Ok r /\ p_value A r = None).
      { destruct p as [p|p|p|p], q as [q|q|q|q]; try discriminate E; try discriminate V; cbn.
        - eexists. split; reflexivity.
        - eexists. split; reflexivity.
        - eexists. split; reflexivity. }
      destruct X as (r & S & VR). exists r. split; [exact S|]. destruct (set_inv lnf expf p None r R S). auto.
  Qed.
  Lemma cross_once_ok c1 c2 coins : wf c1 -> wf c2 -> s_def c2 = s_def c1 ->
    exists r, cross_once A c1 c2 coins = Ok r /\ wf r /\ kept c1 r /\
      paired (fun k p q => if negb (p_fid p) && coins k then exists p2, lookup k c2 = Some p2 /\ p_value A q = p_value A p2 else p_value A q = p_value A p) c1 r.
  Proof.
    intros W1 W2 E. unfold cross_once. destruct (s_clone_ok lnf expf c1 W1) as (d & C & WD & K & V). rewrite C. cbn [bind].
    match goal with |- exists r, each ?g d = _ /\ _ => set (f := g) end.
    assert (EO : forall k q, In (k, q) d -> exists q2, lookup k c2 = Some q2 /\ preach q2 /\ p_def q2 = p_def q).
    { intros k q I. destruct (paired_in_r _ _ _ _ _ K I) as (p & I' & _ & D). pose proof (def_lookup c1 c2 E k) as X.
      rewrite (In_lookup k c1 p (wf_nodup _ _ c1 W1) I') in X. destruct (lookup k c2) as [q2|] eqn:L2; [|contradiction].
      exists q2. split; [reflexivity|]. split; [apply (wf_reach _ _ c2 k q2 W2), lookup_In, L2|congruence]. }
    assert (ST : forall k q, In (k, q) d -> exists r, f k q = Ok r /\ (preach r /\ p_def r = p_def q) /\
      if negb (p_fid q) && coins k then exists p2, lookup k c2 = Some p2 /\ p_value A r = p_value A p2 else p_value A r = p_value A q).
    { intros k q I. pose proof (wf_reach _ _ d k q WD I) as R. unfold f. destruct (negb (p_fid q) && coins k); [|eauto 10].
      destruct (EO k q I) as (q2 & L2 & R2 & D2). rewrite L2. destruct (set_same q q2 R R2 D2) as (r & S & X1 & X2 & X3). eauto 10. }
    destruct (each_total f d) as [r ER]; [intros k q I; destruct (ST k q I) as (r & X & _); eauto|].
    exists r. split; [exact ER|]. apply each_iff in ER.
    assert (KD : kept d r).
    { eapply paired_impl; [exact ER|]. intros k q r0 I _ F. destruct (ST k q I) as (r1 & F1 & X & _). cbv beta in F; rewrite F1 in F. injection F as <-. exact X. }
    assert (K1 : kept c1 r) by (eapply kept_trans; eauto).
    split; [apply (kept_wf lnf expf c1 r W1 K1)|]. split; [exact K1|].
    assert (KV : paired (fun _ p q => p_def q = p_def p /\ p_value A q = p_value A p) c1 d).
    { clear -K V. apply hp_paired in V. revert V. induction K as [|a b s c (Ek & KX) K IH]; intros H; inversion H as [|? ? ? ? (_ & HX) H']; subst; constructor; [tauto|]. apply IH. exact H'. }
    eapply paired_trans; [exact KV| |].
    - eapply paired_impl; [exact ER|]. intros k q r0 I _ F. destruct (ST k q I) as (r1 & F1 & _ & X). cbv beta in F; rewrite F1 in F. injection F as <-. exact X.
    - intros k p q u (D & VQ) X. cbn in X. rewrite (def_fid _ _ D) in X. destruct (negb (p_fid p) && coins k); [exact X|congruence].
  Qed.
  Notation mixed := (mixed lnf expf).
  Lemma crossover_loop_inv c1 c2 coins n i r : wf c1 -> wf c2 -> s_def c2 = s_def c1 -> legal_space lnf expf c1 -> legal_space lnf expf c2 ->
    crossover_loop A c1 c2 coins i n = Ok (Some r) ->
    wf r /\ kept c1 r /\ mixed c1 c2 r /\ exists k p q, In (k, p) c1 /\ In (k, q) r /\ p_fid p = false /\ ~ alike_at lnf expf q p.
  Proof.
    intros W1 W2 E L1 L2. revert i. induction n as [|n IH]; intros i S; cbn [crossover_loop] in S; [discriminate|].
    destruct (cross_once_ok c1 c2 (coins i) W1 W2 E) as (d & C & WD & K & H). rewrite C in S. cbn [bind] in S.
    apply bind_ok in S. destruct S as (e & EQ & S). destruct e; [exact (IH _ S)|]. rewrite (wf_ss lnf expf d WD) in S. injection S as <-.
    assert (M : mixed c1 c2 d).
    { eapply paired_impl; [exact H|]. intros k p q _ _ X. cbn in X. destruct (p_fid p); cbn [negb andb] in X; [left; exact X|].
      destruct (coins i k); [right; split; [reflexivity|exact X]|left; exact X]. }
    split; [exact WD|]. split; [exact K|]. split; [exact M|].
    assert (CM : comparable lnf expf d c1).
    { assert (X : paired (fun k p q => (In (k, p) c1 /\ preach q /\ p_def q = p_def p) /\ (p_value A q = p_value A p \/ (p_fid p = false /\ exists p2, lookup k c2 = Some p2 /\ p_value A q = p_value A p2))) c1 d).
      { eapply paired_impl; [exact (paired_and _ _ _ _ K M)|]. intros k p q I _ (X & Y). cbv beta in X, Y. tauto. }
      unfold comparable. clear -X W1 W2 L1 L2 E.
      assert (Y : paired (fun _ p q => (preach q /\ preach p /\ p_def p = p_def q) /\
        ((p_value A q = None /\ p_value A p = None) \/ exists v w, p_value A q = Some v /\ p_value A p = Some w)) c1 d).
      { eapply paired_impl; [exact X|]. intros k p q I _ ((_ & R & D) & V). split; [split; [exact R|]; split; [apply (wf_reach _ _ c1 k p W1 I)|congruence]|].
        destruct V as [V|(F & p2 & LK & V)].
        - rewrite V. destruct (p_value A p); [right; eauto|left; auto].
        - destruct (L1 k p I F) as (x & VX & _).
          assert (F2 : p_fid p2 = false).
          { pose proof (def_lookup c1 c2 E k) as DL. rewrite (In_lookup k c1 p (wf_nodup _ _ c1 W1) I), LK in DL. apply def_fid in DL. congruence. }
          destruct (L2 k p2 (lookup_In k c2 p2 LK) F2) as (y & VY & _). right. exists y, x. split; congruence. }
      clear -Y. induction Y as [|(k, p) (k', q) s c (Ek & KX) K IH]; constructor; [cbn in *; subst k'; split; [reflexivity|tauto]|exact IH]. }
    destruct (is_equal_false d c1 true CM (wf_nodup _ _ d WD) EQ) as (k & q & p & I1 & I2 & _ & NA).
    exists k, p, q. split; [exact I2|]. split; [exact I1|]. split; [|exact NA].
    destruct (paired_in_r _ _ _ _ _ M I1) as (p' & I3 & X).
    assert (p' = p) as -> by (pose proof (In_lookup k c1 p (wf_nodup _ _ c1 W1) I2); pose proof (In_lookup k c1 p' (wf_nodup _ _ c1 W1) I3); congruence).
    destruct X as [X|(X & _)]; [|exact X]. exfalso. apply NA. unfold alike_at. rewrite <- X. destruct (p_value A q) as [v|] eqn:V; [|exact Logic.I].
    apply (alike_refl lnf expf q v (wf_reach _ _ d k q WD I1) V).
  Qed.
  (** It never raises, if the fall-back can be sampled. *)
  Lemma crossover_loop_ok c1 c2 coins n i : wf c1 -> wf c2 -> s_def c2 = s_def c1 -> legal_space lnf expf c1 -> legal_space lnf expf c2 ->
    exists r, crossover_loop A c1 c2 coins i n = Ok r.
  Proof.
    intros W1 W2 E L1 L2. revert i. induction n as [|n IH]; intros i; cbn [crossover_loop]; [eauto|].
    destruct (cross_once_ok c1 c2 (coins i) W1 W2 E) as (d & C & WD & K & H). rewrite C. cbn [bind].
    assert (CM : comparable lnf expf d c1).
    { unfold comparable.
      assert (Y : paired (fun _ p q => (preach q /\ preach p /\ p_def p = p_def q) /\
        ((p_value A q = None /\ p_value A p = None) \/ exists v w, p_value A q = Some v /\ p_value A p = Some w)) c1 d).
      { assert (X : paired (fun k p q => (preach q /\ p_def q = p_def p) /\ (if negb (p_fid p) && coins i k then exists p2, lookup k c2 = Some p2 /\ p_value A q = p_value A p2 else p_value A q = p_value A p)) c1 d).
        { clear -K H. revert H. induction K as [|a b s c (Ek & KX) K IH]; intros H; inversion H as [|? ? ? ? (_ & HX) H']; subst; constructor; [tauto|]. apply IH. exact H'. }
        eapply paired_impl; [exact X|]. intros k p q I _ ((R & D) & V). split; [split; [exact R|]; split; [apply (wf_reach _ _ c1 k p W1 I)|congruence]|].
        destruct (p_fid p) eqn:F; cbn [negb andb] in V.
        { rewrite V. destruct (p_value A p); [right; eauto|left; auto]. }
        destruct (L1 k p I F) as (x & VX & _). destruct (coins i k).
        - destruct V as (p2 & LK & V).
          assert (F2 : p_fid p2 = false).
          { pose proof (def_lookup c1 c2 E k) as DL. rewrite (In_lookup k c1 p (wf_nodup _ _ c1 W1) I), LK in DL. apply def_fid in DL. congruence. }
          destruct (L2 k p2 (lookup_In k c2 p2 LK) F2) as (y & VY & _). right. exists y, x. split; congruence.
        - right. exists x, x. split; congruence. }
      clear -Y. induction Y as [|(k, p) (k', q) s c (Ek & KX) K IH]; constructor; [cbn in *; subst k'; split; [reflexivity|tauto]|exact IH]. }
    destruct (is_equal_iff lnf expf ID d c1 true CM (wf_nodup _ _ d WD)) as (b & EB & _). rewrite EB. cbn [bind]. destruct b; [apply IH|].
    rewrite (wf_ss lnf expf d WD). cbn [bind]. eauto.
  Qed.
End S.
