(** Default configurations, dictionaries, mutation and crossover of configurations. *)
From Verif Require Import Space_spec Space_proofs Space_more_proofs Param_proofs Param_int_proofs Param_cat_proofs Param_more_proofs Dom_proofs Py_proofs Enc_proofs.
From Coq Require Import Lqa Permutation.
Open Scope nat_scope.
Local Notation length := List.length.

Section Fold.
  Context {P V : Type} (step : list (string * P) -> string * V -> res (list (string * P))).
  Variable I : list (string * P) -> Prop.
  Variable R : string -> V -> option P -> option P -> Prop.
  Definition run (l : list (string * V)) (r : res (list (string * P))) := fold_left (fun r kv => bind r (fun c => step c kv)) l r.
  Lemma run_err l e : run l (Err e) = Err e.
  Proof. unfold run. induction l as [|x l IH]; cbn; auto. Qed.
  Lemma run_inv l : NoDup (map fst l) ->
    (forall c kv c', I c -> In kv l -> step c kv = Ok c' ->
       I c' /\ (forall k, k <> fst kv -> lookup k c' = lookup k c) /\ R (fst kv) (snd kv) (lookup (fst kv) c) (lookup (fst kv) c')) ->
    forall c c', I c -> run l (Ok c) = Ok c' ->
    I c' /\ (forall k, ~ In k (map fst l) -> lookup k c' = lookup k c) /\
    (forall k v, In (k, v) l -> R k v (lookup k c) (lookup k c')).
  Proof.
    induction l as [|(k0, v0) l IH]; intros N H c c' IC E.
    - injection E as <-. split; [exact IC|]. split; [auto|]. intros ? ? [].
    - cbn in N. inversion N as [|? ? N1 N2]; subst. unfold run in E. cbn [fold_left bind] in E. destruct (step c (k0, v0)) as [c1|e] eqn:S.
      2:{ fold (run l (Err e)) in E. rewrite run_err in E. discriminate. }
      destruct (H c (k0, v0) c1 IC (or_introl eq_refl) S) as (I1 & L1 & R1). cbn [fst snd] in *.
      destruct (IH N2 (fun c kv c' X Y => H c kv c' X (or_intror Y)) c1 c' I1 E) as (I2 & L2 & R2).
      split; [exact I2|]. split.
      + intros k NI. rewrite L2 by (intros X; apply NI; right; exact X). apply L1. intros ->. apply NI. left. reflexivity.
      + intros k v [[= <- <-]|IN].
        * rewrite L2 by exact N1. exact R1.
        * specialize (R2 k v IN). rewrite L1 in R2; [exact R2|]. intros ->. apply N1. apply (in_map fst) in IN. exact IN.
  Qed.
  Lemma run_total l : (forall c kv, I c -> In kv l -> exists c', step c kv = Ok c' /\ I c') ->
    forall c, I c -> exists c', run l (Ok c) = Ok c'.
  Proof.
    induction l as [|kv l IH]; intros H c IC; [eexists; reflexivity|]. destruct (H c kv IC (or_introl eq_refl)) as (c1 & S & I1).
    unfold run. cbn [fold_left bind]. rewrite S. apply IH; auto. intros c0 kv0 X Y. apply H; auto. right. exact Y.
  Qed.
End Fold.

Section S.
  Variables lnf expf : Q -> Q.
  Notation A := (Qar lnf expf).
  Notation T := (option Q).
  Notation preach := (preach lnf expf).
  Notation wf := (wf lnf expf).
  Notation kept := (kept lnf expf).

  Lemma kept_lookup s c k p : kept s c -> lookup k s = Some p -> exists q, lookup k c = Some q /\ preach q /\ p_def q = p_def p.
  Proof.
    intros K L. pose proof (paired_lookup _ _ _ K k) as H. rewrite L in H. destruct (lookup k c) as [q|]; [|contradiction]. eauto.
  Qed.
  Lemma kept_lookup_r s c k q : kept s c -> lookup k c = Some q -> exists p, lookup k s = Some p /\ preach q /\ p_def q = p_def p.
  Proof.
    intros K L. pose proof (paired_lookup _ _ _ K k) as H. rewrite L in H. destruct (lookup k s) as [p|]; [|contradiction]. eauto.
  Qed.

  (** ** Default configurations *)
  Definition default_step (ign im : bool) (c : space T) (kv : string * param T) : res (space T) :=
    if p_fid (snd kv) && ign then Ok c
    else match p_default A (snd kv) with
         | None => if im then Ok c else Err ValueError
         | Some d => match lookup (fst kv) c with
                     | None => Err KeyError
                     | Some p => bind (p_set A p (Some d)) (fun q => Ok (set_key (fst kv) q c))
                     end
         end.
  Lemma sample_default_run s ign im n draws : s_sample_default A s ign im n draws =
    bind (s_sample A s ign n draws) (fun c => run (default_step ign im) s (Ok c)).
  Proof. reflexivity. Qed.
  Lemma default_step_inv s ign im c kv c' : wf s -> kept s c -> In kv s -> default_step ign im c kv = Ok c' ->
    kept s c' /\ (forall k, k <> fst kv -> lookup k c' = lookup k c) /\
    match lookup (fst kv) c, lookup (fst kv) c' with
    | Some q, Some q' =>
        if p_fid (snd kv) && ign then q' = q
        else match p_default A (snd kv) with None => im = true /\ q' = q | Some d => p_value A q' = Some d end
    | _, _ => False
    end.
  Proof.
    intros W K I S. destruct kv as (k0, p). cbn [fst snd] in *. unfold default_step in S. cbn [fst snd] in S.
    pose proof (In_lookup k0 s p (wf_nodup _ _ s W) I) as L. destruct (kept_lookup s c k0 p K L) as (q & LC & RQ & EQ).
    rewrite LC in *. destruct (p_fid p && ign).
    - injection S as <-. rewrite LC. auto.
    - destruct (p_default A p) as [d|] eqn:D.
      + apply bind_ok in S. destruct S as (q' & SE & [= <-]).
        assert (LG : legal (p_def q) d) by (rewrite EQ; apply (default_legal lnf expf); [apply (wf_reach _ _ s k0 p W I)|exact D]).
        destruct (set_ok lnf expf q d RQ LG) as (q1 & S1 & R1 & E1 & V1). rewrite S1 in SE. injection SE as <-.
        split; [eapply kept_set; eauto; [apply (wf_nodup _ _ s W)|congruence]|]. split.
        * intros k NE. rewrite lookup_set_key. destruct (String.eqb_spec k k0); [contradiction|reflexivity].
        * rewrite lookup_set_key, String.eqb_refl. exact V1.
      + destruct im; [|discriminate]. injection S as <-. rewrite LC. auto.
  Qed.
  Lemma s_default_inv s ign im n draws c : wf s -> s_sample_default A s ign im n draws = Ok c ->
    wf c /\ kept s c /\
    forall k p, lookup k s = Some p -> exists q, lookup k c = Some q /\
      if p_fid p && ign then p_value A q = p_value A p
      else match p_default A p with
           | None => im = true /\ exists v, p_value A q = Some v /\ legal (p_def p) v
           | Some d => p_value A q = Some d
           end.
  Proof.
    intros W S. rewrite sample_default_run in S. apply bind_ok in S. destruct S as (c0 & S & RU).
    destruct (s_sample_inv lnf expf s ign n draws c0 W S) as (W0 & K0 & V0).
    destruct (run_inv (default_step ign im) (fun c => kept s c) (fun k p a b => match a, b with
        | Some q, Some q' => if p_fid p && ign then q' = q else match p_default A p with None => im = true /\ q' = q | Some d => p_value A q' = Some d end
        | _, _ => False end) s (wf_nodup _ _ s W)) with (c := c0) (c' := c) as (K & _ & H); auto.
    { intros c1 kv c2 K1 I ST. exact (default_step_inv s ign im c1 kv c2 W K1 I ST). }
    split; [apply (kept_wf lnf expf s c W K)|]. split; [exact K|]. intros k p L. specialize (H k p (lookup_In k s p L)).
    pose proof (paired_lookup _ _ _ V0 k) as HV. rewrite L in HV. destruct (lookup k c0) as [q0|]; [|contradiction].
    destruct (lookup k c) as [q|]; [|contradiction]. exists q. split; [reflexivity|]. destruct (p_fid p && ign); [subst q; exact HV|].
    destruct (p_default A p) as [d|]; [exact H|]. destruct H as [-> ->]. auto.
  Qed.
  Lemma s_default_ok s ign im n draws : wf s -> 0 < n ->
    (forall k p, In (k, p) s -> p_fid p && ign = false -> fits p (draws k 0)) ->
    (forall k p, In (k, p) s -> p_fid p && ign = false -> im = true \/ p_default A p <> None) ->
    exists c, s_sample_default A s ign im n draws = Ok c.
  Proof.
    intros W N D H. rewrite sample_default_run. destruct (s_sample_ok lnf expf s ign n draws W N D) as [c0 C0]. rewrite C0. cbn [bind].
    destruct (s_sample_inv lnf expf s ign n draws c0 W C0) as (_ & K0 & _).
    apply (run_total (default_step ign im) (fun c => kept s c)); [|exact K0].
    intros c (k, p) K I. assert (E : exists c', default_step ign im c (k, p) = Ok c').
    { unfold default_step. cbn [fst snd]. destruct (p_fid p && ign) eqn:F; [eauto|].
      pose proof (In_lookup k s p (wf_nodup _ _ s W) I) as L. destruct (kept_lookup s c k p K L) as (q & LC & RQ & EQ).
      destruct (p_default A p) as [d|] eqn:DF.
      - rewrite LC. assert (LG : legal (p_def q) d) by (rewrite EQ; apply (default_legal lnf expf); [apply (wf_reach _ _ s k p W I)|exact DF]).
        destruct (set_ok lnf expf q d RQ LG) as (q1 & S1 & _). rewrite S1. cbn [bind]. eauto.
      - destruct (H k p I F) as [->|X]; [eauto|congruence]. }
    destruct E as [c' E]. exists c'. split; [exact E|]. apply (default_step_inv s ign im c (k, p) c' W K I E).
  Qed.
  Lemma s_default_missing s ign n draws k p : wf s -> In (k, p) s -> p_fid p && ign = false -> p_default A p = None ->
    forall c, s_sample_default A s ign false n draws <> Ok c.
  Proof.
    intros W I F D c S. destruct (s_default_inv s ign false n draws c W S) as (_ & _ & H).
    destruct (H k p (In_lookup k s p (wf_nodup _ _ s W) I)) as (q & _ & X). rewrite F, D in X. destruct X. discriminate.
  Qed.

  (** ** Dictionaries *)
  Lemma serialize_ok s : complete lnf expf s -> exists d, s_serialize A s = Ok d /\ map (fun kv => (fst kv, Some (snd kv))) d = hp_values A s.
  Proof.
    unfold s_serialize, hp_values. induction s as [|(k, p) s IH]; intros C; cbn [mapM map fst snd]; [exists []; auto|].
    destruct (C k p (or_introl eq_refl)) as (v & V & _). rewrite V. cbn [bind].
    destruct IH as (d & -> & E); [intros k' p' I; apply (C k' p'); right; exact I|]. cbn [bind]. exists ((k, v) :: d). cbn. rewrite E. auto.
  Qed.
  Lemma serialize_inv s d : s_serialize A s = Ok d -> map (fun kv => (fst kv, Some (snd kv))) d = hp_values A s.
  Proof.
    unfold s_serialize, hp_values. revert d. induction s as [|(k, p) s IH]; intros d; cbn [mapM map fst snd]; [intros [= <-]; auto|].
    destruct (p_value A p) as [v|]; [|discriminate]. cbn [bind]. intros H. apply bind_ok in H. destruct H as (d' & H & [= <-]).
    cbn. rewrite (IH d' H). reflexivity.
  Qed.
  Lemma serialize_err s e : s_serialize A s = Err e -> e = ValueError /\ exists k p, In (k, p) s /\ p_value A p = None.
  Proof.
    unfold s_serialize. induction s as [|(k, p) s IH]; cbn [mapM fst snd]; [discriminate|].
    destruct (p_value A p) as [v|] eqn:V; cbn [bind].
    - destruct (mapM _ s) as [d|e']; cbn [bind]; [discriminate|]. intros [= ->]. destruct (IH eq_refl) as (-> & k' & p' & I & N).
      split; [reflexivity|]. exists k', p'. split; [right; exact I|exact N].
    - intros [= <-]. split; [reflexivity|]. exists k, p. split; [left; reflexivity|exact V].
  Qed.

  Definition load_step (c : space T) (kv : string * option (hval T)) : res (space T) :=
    match lookup (fst kv) c with
    | None => Err KeyError
    | Some p => bind (p_load A p (snd kv)) (fun q => Ok (set_key (fst kv) q c))
    end.
  Lemma from_dict_run s d : s_from_dict A s d = bind (s_clone A s) (fun c => run load_step d (Ok c)).
  Proof. reflexivity. Qed.
  Lemma lookup_kept_in s c k : kept s c -> lookup k s = None -> lookup k c = None.
  Proof.
    intros K L. pose proof (paired_lookup _ _ _ K k) as H. rewrite L in H. destruct (lookup k c); [contradiction|reflexivity].
  Qed.
  (** Loading legal values. *)
  Lemma from_dict_ok s d : wf s -> NoDup (map fst d) ->
    (forall k v, In (k, v) d -> exists x p, v = Some x /\ lookup k s = Some p /\ legal (p_def p) x) ->
    exists c, s_from_dict A s d = Ok c /\ wf c /\ kept s c /\
      forall k p, lookup k s = Some p -> exists q, lookup k c = Some q /\
        p_value A q = match lookup k d with Some v => v | None => p_value A p end.
  Proof.
    intros W N H. rewrite from_dict_run. destruct (s_clone_ok lnf expf s W) as (c0 & C0 & W0 & K0 & V0). rewrite C0. cbn [bind].
    assert (ST : forall c kv, kept s c -> In kv d -> exists c', load_step c kv = Ok c' /\ kept s c' /\
      (forall k, k <> fst kv -> lookup k c' = lookup k c) /\
      match lookup (fst kv) c' with Some q => p_value A q = snd kv | None => False end).
    { intros c (k, v) K I. destruct (H k v I) as (x & p & -> & L & LG). unfold load_step. cbn [fst snd].
      destruct (kept_lookup s c k p K L) as (q & LC & RQ & EQ). rewrite LC. rewrite <- EQ in LG.
      destruct (load_ok lnf expf q x RQ LG) as (q' & S & R' & E' & V'). rewrite S. cbn [bind]. eexists. split; [reflexivity|].
      split; [apply (kept_set lnf expf s c k p q' K (wf_nodup _ _ s W) (lookup_In _ _ _ L) R'); congruence|]. split.
      - intros k0 NE. rewrite lookup_set_key. destruct (String.eqb_spec k0 k); [contradiction|reflexivity].
      - rewrite lookup_set_key, String.eqb_refl. exact V'. }
    destruct (run_total load_step (fun c => kept s c) d) with (c := c0) as [c C]; auto.
    { intros c kv K I. destruct (ST c kv K I) as (c' & S & K' & _). eauto. }
    exists c. split; [exact C|].
    destruct (run_inv load_step (fun c => kept s c) (fun k v a b => match b with Some q => p_value A q = v | None => False end) d N) with (c := c0) (c' := c)
      as (K & L1 & L2); auto.
    { intros c1 kv c2 K1 I S. destruct (ST c1 kv K1 I) as (c' & S' & X). rewrite S' in S. injection S as <-. exact X. }
    split; [apply (kept_wf lnf expf s c W K)|]. split; [exact K|]. intros k p L. destruct (kept_lookup s c k p K L) as (q & LC & _). exists q.
    split; [exact LC|]. destruct (lookup k d) as [v|] eqn:LD.
    - specialize (L2 k v (lookup_In k d v LD)). rewrite LC in L2. exact L2.
    - apply lookup_None in LD. specialize (L1 k LD). rewrite LC in L1.
      assert (X : forall k, option_map (p_value A) (lookup k c0) = option_map (p_value A) (lookup k s)).
      { clear -V0. unfold hp_values in V0. intros k. revert s V0. induction c0 as [|(k1, p1) c0 IH]; intros [|(k2, p2) s] V0; try discriminate; [reflexivity|].
        cbn in V0. injection V0 as -> E1 E2. cbn. destruct (String.eqb k k2); [cbn; congruence|apply IH; exact E2]. }
      specialize (X k). rewrite L, <- L1 in X. injection X. auto.
  Qed.
  Lemma from_dict_unknown s d k : wf s -> In k (map fst d) -> lookup k s = None -> forall c, s_from_dict A s d <> Ok c.
  Proof.
    intros W I L c. rewrite from_dict_run. destruct (s_clone_ok lnf expf s W) as (c0 & C0 & _ & K0 & _). rewrite C0. cbn [bind].
    assert (L0 := lookup_kept_in s c0 k K0 L). clear K0 C0. revert c0 L0 I. induction d as [|(k1, v1) d IH]; intros c0 L0 I; [destruct I|].
    change (run load_step ((k1, v1) :: d) (Ok c0)) with (run load_step d (load_step c0 (k1, v1))).
    unfold load_step at 2. cbn [fst snd]. destruct (lookup k1 c0) as [p|] eqn:E.
    - destruct (p_load A p v1) as [q|]; cbn [bind]; [|intros H; discriminate (eq_trans (eq_sym (run_err load_step d _)) H)].
      destruct I as [<-|I]; [cbn in L0; congruence|]. apply IH; [|exact I]. rewrite lookup_set_key. destruct (String.eqb_spec k k1); [congruence|exact L0].
    - intros H. discriminate (eq_trans (eq_sym (run_err load_step d KeyError)) H).
  Qed.

  (** ** Mutation *)
  Lemma mutatable_in (s : space T) k p : In (k, p) (s_mutatable s) -> In (k, p) s /\ p_fid p = false /\ mutatable p = true.
  Proof. unfold s_mutatable. intros H. apply filter_In in H. cbn in H. destruct H as [H E]. apply andb_true_iff in E. rewrite negb_true_iff in E. tauto. Qed.
  Lemma smbo_inv s picks draws n i c : wf s -> smbo A s picks draws i n = Ok c -> wf c /\ kept s c /\
    exists name p, lookup name s = Some p /\ p_fid p = false /\ mutatable p = true /\
      paired (fun k p q => if String.eqb k name then differ (p_value A p) (p_value A q) else p_value A q = p_value A p) s c.
  Proof.
    intros W. revert i. induction n as [|n IH]; intros i; cbn [smbo]; [discriminate|].
    destruct (nth_error (s_mutatable s) (picks i)) as [(name, p)|] eqn:NT; [|discriminate].
    destruct (p_mutate A p (draws i)) as [q|] eqn:M; [|apply IH].
    apply nth_error_In in NT. apply mutatable_in in NT. destruct NT as (I & F & MU). pose proof (wf_reach _ _ s name p W I) as R.
    destruct (mutate_inv lnf expf p _ q R M) as (RQ & EQ & _ & DF).
    set (f := fun k p => if String.eqb k name then Ok q else p_clone A p).
    assert (H : forall k p' q', In (k, p') s -> f k p' = Ok q' -> (preach q' /\ p_def q' = p_def p') /\
      if String.eqb k name then differ (p_value A p') (p_value A q') else p_value A q' = p_value A p').
    { intros k p' q' I'. unfold f. destruct (String.eqb_spec k name) as [->|].
      - intros [= <-]. assert (p' = p) as -> by (pose proof (In_lookup name s p (wf_nodup _ _ s W) I); pose proof (In_lookup name s p' (wf_nodup _ _ s W) I'); congruence).
        auto.
      - intros C. destruct (clone_ok lnf expf p' (wf_reach _ _ s k p' W I')) as (q1 & C1 & X1 & X2 & X3). rewrite C1 in C. injection C as <-. auto. }
    intros S. apply (each_ss lnf expf s c f W) in S; [|intros k p' q' I' X; apply (H k p' q' I' X)]. apply each_iff in S.
    assert (K : kept s c) by (eapply paired_impl; [exact S|]; intros k p' q' I' _ X; apply (H k p' q' I' X)).
    split; [apply (kept_wf lnf expf s c W K)|]. split; [exact K|]. exists name, p. split; [apply In_lookup; [apply (wf_nodup _ _ s W)|exact I]|].
    split; [exact F|]. split; [exact MU|]. eapply paired_impl; [exact S|]. intros k p' q' I' _ X. apply (H k p' q' I' X).
  Qed.
  Lemma s_mutate_inv s n picks draws c : wf s -> s_mutate A s n picks draws = Ok c -> smbo A s picks draws 0 n = Ok c.
  Proof.
    intros W S. unfold s_mutate in S. apply bind_ok in S. destruct S as (d & S & S'). destruct (smbo_inv s picks draws n 0 d W S) as (WD & _).
    rewrite (wf_ss lnf expf d WD) in S'. congruence.
  Qed.
  Lemma smbo_none s picks draws n i : s_mutatable s = [] -> smbo A s picks draws i n = Err ValueError.
  Proof. intros E. destruct n; cbn [smbo]; [reflexivity|]. rewrite E. destruct (picks i); reflexivity. Qed.
  (** It succeeds at the first draw that works. *)
  Lemma smbo_ok s picks draws n i j name p q : wf s -> (j < n) -> nth_error (s_mutatable s) (picks (i + j)) = Some (name, p) ->
    p_mutate A p (draws (i + j)) = Ok q -> (forall j', picks (i + j') < length (s_mutatable s)) -> exists c, smbo A s picks draws i n = Ok c.
  Proof.
    intros W. revert i j. induction n as [|n IH]; intros i j L NT M PK; [lia|]. cbn [smbo].
    destruct (nth_error (s_mutatable s) (picks i)) as [(name', p')|] eqn:NT'.
    2:{ apply nth_error_None in NT'. specialize (PK 0). rewrite Nat.add_0_r in PK. lia. }
    destruct (p_mutate A p' (draws i)) as [q'|] eqn:M'.
    - apply nth_error_In in NT'. apply mutatable_in in NT'. destruct NT' as (I & F & MU). pose proof (wf_reach _ _ s name' p' W I) as R.
      destruct (mutate_inv lnf expf p' _ q' R M') as (RQ & EQ & _ & DF).
      set (f := fun k p => if String.eqb k name' then Ok q' else p_clone A p). destruct (each_total f s) as [c C].
      { intros k p0 I0. unfold f. destruct (String.eqb k name'); [eauto|].
        destruct (clone_ok lnf expf p0 (wf_reach _ _ s k p0 W I0)) as (q1 & C1 & _). eauto. }
      exists c. apply (each_ss lnf expf s c f W); [|exact C]. intros k p0 q0 I0. unfold f. destruct (String.eqb_spec k name') as [->|].
      + intros [= <-]. assert (p0 = p') as -> by (pose proof (In_lookup name' s p' (wf_nodup _ _ s W) I); pose proof (In_lookup name' s p0 (wf_nodup _ _ s W) I0); congruence). auto.
      + intros C0. destruct (clone_ok lnf expf p0 (wf_reach _ _ s k p0 W I0)) as (q1 & C1 & X1 & X2 & X3). rewrite C1 in C0. injection C0 as <-. auto.
    - destruct j as [|j]; [rewrite Nat.add_0_r in *; congruence|]. replace (i + S j) with (S i + j) in * by lia.
      apply (IH (S i) j); auto; [lia|]. intros j'. replace (S i + j') with (i + S j') by lia. apply PK.
  Qed.

  (** ** Crossover *)
  Lemma cross_inv o n coins draws : forall s' r1 r2,
    (forall k p, In (k, p) s' -> preach p /\ exists q, lookup k o = Some q /\ preach q /\ p_def q = p_def p) ->
    simple_crossover A s' o n coins draws = Ok (r1, r2) ->
    length r1 <= length s' /\ (length r1 = length s' ->
      paired (fun k p a => (preach a /\ p_def a = p_def p) /\ if crossed coins k p then exists v, p_value A a = Some v else p_value A a = p_value A p) s' r1 /\
      paired (fun k p b => (preach b /\ p_def b = p_def p) /\ if crossed coins k p then exists v, p_value A b = Some v
                           else exists q, lookup k o = Some q /\ p_value A b = p_value A q) s' r2).
  Proof.
    induction s' as [|(k, p) s' IH]; intros r1 r2 H E; cbn [simple_crossover] in E.
    - injection E as <- <-. split; [reflexivity|]. intros _. split; constructor.
    - destruct (H k p (or_introl eq_refl)) as (R & q & L & RQ & EQ). rewrite L in E. apply bind_ok in E. destruct E as ((h1, h2) & HD & E).
      apply bind_ok in E. destruct E as ((t1, t2) & TL & [= <- <-]). cbn [fst snd].
      destruct (IH t1 t2 (fun k p I => H k p (or_intror I)) TL) as (LE & IH'). clear IH.
      fold (crossed coins k p) in HD. destruct (crossed coins k p) eqn:CR.
      + destruct (tries _ 0 n) as [(a, b)|] eqn:TR.
        * injection HD as <- <-. apply tries_some in TR. destruct TR as (j & _ & _ & C).
          destruct (crossover_inv lnf expf p q _ a b R RQ EQ C) as ((RA & EA & VA) & (RB & EB & VB)).
          cbn [app length]. split; [lia|]. intros LE'. destruct IH' as [P1 P2]; [lia|].
          split; constructor; auto; cbn [fst snd]; rewrite CR; auto.
        * injection HD as <- <-. cbn [app length]. split; [lia|]. intros. lia.
      + apply bind_ok in HD. destruct HD as (a & CA & HD). apply bind_ok in HD. destruct HD as (b & CB & [= <- <-]).
        destruct (clone_ok lnf expf p R) as (a' & CA' & RA & EA & VA). rewrite CA' in CA. injection CA as <-.
        destruct (clone_ok lnf expf q RQ) as (b' & CB' & RB & EB & VB). rewrite CB' in CB. injection CB as <-.
        cbn [app length]. split; [lia|]. intros LE'. destruct IH' as [P1 P2]; [lia|].
        split; constructor; auto; cbn [fst snd]; rewrite CR; split; auto; split; auto.
        * split; [exact RB|congruence].
        * exists q. auto.
  Qed.
  Lemma def_lookup s o : s_def o = s_def s -> forall k,
    match lookup k s, lookup k o with Some p, Some q => p_def q = p_def p | None, None => True | _, _ => False end.
  Proof.
    unfold s_def. revert o. induction s as [|(k1, p1) s IH]; intros [|(k2, p2) o] E k; try discriminate; [exact I|]. cbn in E.
    injection E as -> E1 E2. cbn. destruct (String.eqb k k1); [exact E1|apply IH; exact E2].
  Qed.
  Lemma s_crossover_inv s o n coins draws a b : wf s -> wf o -> s_def o = s_def s -> s_crossover A s o n coins draws = Ok (a, b) ->
    (wf a /\ kept s a /\ paired (fun k p a => if crossed coins k p then exists v, p_value A a = Some v else p_value A a = p_value A p) s a) /\
    (wf b /\ kept s b /\ paired (fun k p b => if crossed coins k p then exists v, p_value A b = Some v
                           else exists q, lookup k o = Some q /\ p_value A b = p_value A q) s b).
  Proof.
    intros W WO E S. unfold s_crossover in S. apply bind_ok in S. destruct S as ((r1, r2) & C & S). cbn [fst snd] in S.
    destruct (Nat.eqb_spec (length s) (length r1)) as [LE|]; cbn [negb] in S; [|discriminate].
    apply bind_ok in S. destruct S as (a' & SA & S). apply bind_ok in S. destruct S as (b' & SB & [= -> ->]).
    destruct (cross_inv o n coins draws s r1 r2) as (_ & H); auto.
    { intros k p I. split; [apply (wf_reach _ _ s k p W I)|]. pose proof (def_lookup s o E k) as D.
      rewrite (In_lookup k s p (wf_nodup _ _ s W) I) in D. destruct (lookup k o) as [q|] eqn:LO; [|contradiction]. exists q.
      split; [reflexivity|]. split; [apply (wf_reach _ _ o k q WO), lookup_In, LO|exact D]. }
    destruct (H (eq_sym LE)) as [P1 P2].
    assert (K1 : kept s r1) by (eapply paired_impl; [exact P1|]; cbn; tauto).
    assert (K2 : kept s r2) by (eapply paired_impl; [exact P2|]; cbn; tauto).
    rewrite (kept_ss lnf expf s r1 W K1) in SA. rewrite (kept_ss lnf expf s r2 W K2) in SB. injection SA as <-. injection SB as <-.
    split; (split; [apply (kept_wf lnf expf s _ W); assumption|split; [assumption|]]).
    - eapply paired_impl; [exact P1|]. cbn. tauto.
    - eapply paired_impl; [exact P2|]. cbn. tauto.
  Qed.
End S.
