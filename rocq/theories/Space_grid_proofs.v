(** Grids. *)
From Verif Require Import Space_spec Space_proofs Space_more_proofs Space_ops_proofs Param_proofs Param_int_proofs Param_cat_proofs Param_more_proofs Dom_proofs Py_proofs Enc_proofs.
From Coq Require Import Lqa Permutation Qabs.
Open Scope nat_scope.
Local Notation length := List.length.

(** ** itertools.product *)
Lemma product_length {B} (ls : list (list B)) : length (product ls) = fold_right Nat.mul 1 (map (@length B) ls).
Proof.
  induction ls as [|l ls IH]; [reflexivity|]. cbn [product map fold_right]. rewrite <- IH.
  induction l as [|x l IHl]; [reflexivity|]. cbn [flat_map]. rewrite app_length, map_length, IHl. cbn [length]. lia.
Qed.
Lemma product_in {B} (ls : list (list B)) vs : In vs (product ls) <-> Forall2 (fun v l => In v l) vs ls.
Proof.
  revert vs. induction ls as [|l ls IH]; intros vs; cbn [product].
  - split; [intros [<-|[]]; constructor|]. intros H. inversion H. left. reflexivity.
  - rewrite in_flat_map. split.
    + intros (x & I & J). apply in_map_iff in J. destruct J as (t & <- & J). constructor; [exact I|]. apply IH. exact J.
    + intros H. inversion H as [|x ? t ? I J]; subst. exists x. split; [exact I|]. apply in_map. apply IH. exact J.
Qed.
(** Two tuples differ at some position. *)
Definition apart {B} (R : B -> B -> Prop) (a b : list B) : Prop :=
  exists i x y, nth_error a i = Some x /\ nth_error b i = Some y /\ R x y.
Lemma FOP_app {B} (R : B -> B -> Prop) l m : ForallOrdPairs R l -> ForallOrdPairs R m -> (forall x y, In x l -> In y m -> R x y) ->
  ForallOrdPairs R (l ++ m).
Proof.
  intros H K X. induction H as [|a l F H IH]; [exact K|]. cbn. constructor.
  - apply Forall_app. split; [exact F|]. apply Forall_forall. intros y I. apply X; [left; reflexivity|exact I].
  - apply IH. intros x y I J. apply X; [right; exact I|exact J].
Qed.
Lemma FOP_map {B C} (f : B -> C) (R : B -> B -> Prop) (R' : C -> C -> Prop) l : (forall x y, In x l -> In y l -> R x y -> R' (f x) (f y)) ->
  ForallOrdPairs R l -> ForallOrdPairs R' (map f l).
Proof.
  intros H F. induction F as [|a l F G IH]; cbn; constructor.
  - rewrite Forall_map. rewrite Forall_forall in F. apply Forall_forall. intros x I. apply H; [left; reflexivity|right; exact I|]. apply F. exact I.
  - apply IH. intros x y I J. apply H; right; assumption.
Qed.
Lemma product_apart {B} (R : B -> B -> Prop) (ls : list (list B)) : Forall (ForallOrdPairs R) ls -> ForallOrdPairs (apart R) (product ls).
Proof.
  induction 1 as [|l ls H _ IH]; cbn [product]; [repeat constructor|].
  induction H as [|x l F H IHl]; cbn [flat_map]; [constructor|]. apply FOP_app; [|exact IHl|].
  - eapply FOP_map; [|exact IH]. intros a b _ _ (i & u & v & N1 & N2 & X). exists (S i), u, v. auto.
  - intros a b I J. apply in_map_iff in I. destruct I as (t & <- & _). apply in_flat_map in J. destruct J as (y & J1 & J2).
    apply in_map_iff in J2. destruct J2 as (t' & <- & _). exists 0, x, y. rewrite Forall_forall in F. auto.
Qed.
Lemma FOP_nth {B} (R : B -> B -> Prop) l : (forall i j x y, i < j -> nth_error l i = Some x -> nth_error l j = Some y -> R x y) <-> ForallOrdPairs R l.
Proof.
  split.
  - induction l as [|a l IH]; intros H; constructor.
    + apply Forall_forall. intros x I. apply In_nth_error in I. destruct I as [j N]. apply (H 0 (S j)); [lia|reflexivity|exact N].
    + apply IH. intros i j x y L N1 N2. apply (H (S i) (S j)); [lia|exact N1|exact N2].
  - induction 1 as [|a l F _ IH]; intros i j x y L N1 N2; [destruct i; discriminate|]. destruct j as [|j]; [lia|]. cbn in N2. destruct i as [|i]; cbn in N1.
    + injection N1 as <-. rewrite Forall_forall in F. apply F. eapply nth_error_In. exact N2.
    + eapply IH; [|exact N1|exact N2]. lia.
Qed.

Lemma repeats {B} (dec : forall x y : B, {x = y} + {x <> y}) (l : list B) :
  NoDup l \/ exists j k x, j <> k /\ nth_error l j = Some x /\ nth_error l k = Some x.
Proof.
  induction l as [|a l IH]; [left; constructor|]. destruct (in_dec dec a l) as [I|I].
  - right. apply In_nth_error in I. destruct I as [k N]. exists 0, (S k), a. auto.
  - destruct IH as [N|(j & k & x & D & N1 & N2)]; [left; constructor; auto|]. right. exists (S j), (S k), x. split; [lia|]. auto.
Qed.

Section S.
  Variables lnf expf : Q -> Q.
  Notation A := (Qar lnf expf).
  Notation T := (option Q).
  Notation preach := (preach lnf expf).
  Notation wf := (wf lnf expf).
  Hypothesis ID : ideal lnf expf.
  Notation nth_point := (nth_point lnf expf).

  (** ** linspace *)
  Lemma linspace_nth n e j x : nth_error (linspace A n e) j = Some x -> j < n /\ exists q, x = Some q /\ (q == place n e j)%Q.
  Proof.
    unfold linspace, place. intros N.
    assert (J : j < n).
    { pose proof (proj1 (nth_error_Some _ j) (ltac:(rewrite N; discriminate))) as J. rewrite map_length, seq_length in J. exact J. }
    split; [exact J|]. rewrite (nth_map_seq _ n 0 j J) in N. rewrite Nat.add_0_l in N. injection N as <-.
    set (d := if e then n - 1 else n). destruct (Nat.eqb d 0) eqn:D.
    - apply Nat.eqb_eq in D. rewrite D. assert (j = 0) as -> by (unfold d in D; destruct e; lia). eexists. split; [reflexivity|]. reflexivity.
    - apply Nat.eqb_neq in D. assert (DQ : ~ (inject_Z (Z.of_nat d) == 0)%Q) by (unfold Qeq; cbn; lia).
      destruct (e && Nat.ltb 1 n && Nat.eqb j (n - 1)) eqn:L.
      + apply andb_true_iff in L. destruct L as [L L2]. apply andb_true_iff in L. destruct L as [-> L1]. apply Nat.eqb_eq in L2. subst j.
        eexists. split; [reflexivity|]. subst d. cbv iota in *. field. exact DQ.
      + cbn [aadd amul adiv aZ Qar]. 
        assert (Z : Qeq_bool (inject_Z (Z.of_nat d)) 0 = false) by (destruct (Qeq_bool (inject_Z (Z.of_nat d)) 0) eqn:X; [apply Qeq_bool_iff in X; contradiction|reflexivity]).
        cbn. rewrite ?Z. eexists. split; [reflexivity|]. field. exact DQ.
  Qed.
  Lemma linspace_length n e : length (linspace A n e) = n.
  Proof. unfold linspace. rewrite map_length, seq_length. reflexivity. Qed.

  Lemma exp_proper x y : (x == y)%Q -> (expf x == expf y)%Q.
  Proof.
    intros H. destruct ID as (_ & _ & EM & _). apply Qle_antisym; apply EM; rewrite H; apply Qle_refl.
  Qed.
  Lemma ln_proper x y : (x == y)%Q -> (lnf x == lnf y)%Q.
  Proof. destruct ID as (_ & P & _). apply P. Qed.
  Lemma fraction_proper p a b a' b' t t' : (a == a')%Q -> (b == b')%Q -> (t == t')%Q -> (fraction lnf expf p a b t == fraction lnf expf p a' b' t')%Q.
  Proof.
    intros H1 H2 H3. unfold fraction. destruct (fp_log p).
    - apply exp_proper. rewrite (ln_proper _ _ H1), (ln_proper _ _ H2), H3. reflexivity.
    - rewrite H1, H2, H3. reflexivity.
  Qed.
  Lemma grid_f a b p t q : fgood A (Some a) (Some b) p -> (q == t)%Q ->
    exists v, f_of_norm A p (Some q) = Ok v /\ grid_point lnf expf (DF (Some a) (Some b) (fp_log p) (fp_fid p) (fp_default p) (fp_conf p)) t (HN v).
  Proof.
    intros G E. rewrite (of_norm_is lnf expf a b p q G). eexists. split; [reflexivity|]. cbn [grid_point]. eexists. split; [reflexivity|].
    pose proof (fraction_proper p a b a b q t (Qeq_refl _) (Qeq_refl _) E) as X. unfold fraction in *. destruct (fp_log p); exact X.
  Qed.
  Lemma grid_i l u p t q : igood lnf expf true true l u p -> (q == t)%Q ->
    exists z, i_of_norm A p (Some q) = Ok z /\ grid_point lnf expf (DI l u (ip_log p) (ip_fid p) (ip_default p) (ip_conf p)) t (HN (aZ A z)).
  Proof.
    intros G E. destruct G as (_ & _ & _ & _ & _ & _ & _ & GF & LG & _). unfold i_of_norm.
    unfold flo, fhi in GF. rewrite (of_norm_is lnf expf _ _ _ q GF). cbn [bind]. rewrite round_some. eexists. split; [reflexivity|]. cbn [grid_point].
    cbn [aZ Qar]. do 3 f_equal. rewrite <- LG.
    assert (N1 : (inject_Z l - nhq == inject_Z l - (499999 # 1000000))%Q) by reflexivity.
    assert (N2 : (inject_Z u + nhq == inject_Z u + (499999 # 1000000))%Q) by reflexivity.
    pose proof (fraction_proper (ip_float p) _ _ _ _ q t N1 N2 E) as X. unfold fraction in X |- *.
    destruct (fp_log (ip_float p)); apply rint_proper; exact X.
  Qed.

  (** ** The grid of one parameter *)
  Lemma mapM_points {B C} (f : B -> res C) (xs : list B) : (forall j x, nth_error xs j = Some x -> exists v, f x = Ok v) ->
    exists vs, mapM f xs = Ok vs /\ length vs = length xs /\ forall j x v, nth_error xs j = Some x -> nth_error vs j = Some v -> f x = Ok v.
  Proof.
    intros H. destruct (mapM_total f xs) as [vs M]; [intros x I; apply In_nth_error in I; destruct I as [j N]; eauto|].
    exists vs. split; [exact M|]. apply mapM_ok, Forall2_nth in M. destruct M as [L M]. split; [symmetry; exact L|exact M].
  Qed.
  Lemma p_grid_ok p n e : preach p -> exists vs, p_grid A p n e = Ok vs /\ length vs = points n (p_def p) /\
    forall j v, nth_error vs j = Some v -> nth_point n e (p_def p) j v.
  Proof.
    destruct p as [p|p|p|p]; cbn [Space_spec.preach p_grid p_def points nth_point].
    - intros (a & b & R). pose proof (freach_good A _ _ p R) as G. destruct (good_bounds A _ _ p G) as [Ea Eb]. rewrite Ea, Eb.
      destruct (mapM_points (fun x => bind (f_of_norm A p x) (fun v => Ok (HN v))) (linspace A n e)) as (vs & M & L & H).
      { intros j x N. apply linspace_nth in N. destruct N as (_ & q & -> & E). destruct (grid_f a b p _ q G E) as (v & -> & _). cbn. eauto. }
      exists vs. split; [exact M|]. split; [rewrite L; apply linspace_length|]. intros j v N.
      assert (J : j < length (linspace A n e)) by (rewrite <- L; apply nth_error_Some; rewrite N; discriminate).
      destruct (nth_some _ _ J) as [x X]. pose proof (H j x v X N) as F. apply linspace_nth in X. destruct X as (J' & q & -> & E).
      split; [exact J'|]. destruct (grid_f a b p _ q G E) as (v' & V & P). rewrite V in F. cbn in F. injection F as <-. exact P.
    - intros (l & u & R). pose proof (ireach_good lnf expf _ _ p R) as G. pose proof G as G0. destruct G0 as (El & Eu & _). rewrite El, Eu.
      destruct (mapM_points (fun x => bind (i_of_norm A p x) (fun z => Ok (HN (aZ A z)))) (linspace A n e)) as (vs & M & L & H).
      { intros j x N. apply linspace_nth in N. destruct N as (_ & q & -> & E). destruct (grid_i l u p _ q G E) as (v & -> & _). cbn. eauto. }
      exists vs. split; [exact M|]. split; [rewrite L; apply linspace_length|]. intros j v N.
      assert (J : j < length (linspace A n e)) by (rewrite <- L; apply nth_error_Some; rewrite N; discriminate).
      destruct (nth_some _ _ J) as [x X]. pose proof (H j x v X N) as F. apply linspace_nth in X. destruct X as (J' & q & -> & E).
      split; [exact J'|]. destruct (grid_i l u p _ q G E) as (v' & V & P). rewrite V in F. cbn [bind] in F.
      apply (f_equal (fun r => match r with Ok x => x | Err _ => v end)) in F. cbv beta iota in F. rewrite <- F. exact P.
    - intros _. eexists. split; [reflexivity|]. split; [apply map_length|]. intros j v N. rewrite nth_error_map in N.
      destruct (nth_error (cp_choices p) j) as [x|]; [|discriminate]. cbn in N. injection N as <-. eauto.
    - intros _. eexists. split; [reflexivity|]. split; [reflexivity|]. intros [|j] v N; [|destruct j; discriminate]. injection N as <-. auto.
  Qed.

  (** The values are legal, with the end point or without. *)
  Lemma place_unit n e j : j < n -> (0 <= place n e j)%Q /\ (place n e j <= 1)%Q.
  Proof.
    intros J. unfold place. set (d := if e then n - 1 else n).
    assert (JD : j <= d) by (unfold d; destruct e; lia).
    destruct (Nat.eq_dec d 0) as [E|E].
    - rewrite E. replace j with 0 by lia. split; intros H; discriminate H.
    - assert (D : (0 < inject_Z (Z.of_nat d))%Q) by (change 0%Q with (inject_Z 0); rewrite <- Zlt_Qlt; lia). split.
      + apply Qle_shift_div_l; [exact D|]. rewrite Qmult_0_l. change 0%Q with (inject_Z 0). rewrite <- Zle_Qle. lia.
      + apply Qle_shift_div_r; [exact D|]. rewrite Qmult_1_l, <- Zle_Qle. lia.
  Qed.
  Lemma place_step n j k : j < k -> k < n -> (place n true j + 1 / inject_Z (Z.of_nat (n - 1)) <= place n true k)%Q.
  Proof.
    intros J K. unfold place. assert (D : (0 < inject_Z (Z.of_nat (n - 1)))%Q) by (change 0%Q with (inject_Z 0); rewrite <- Zlt_Qlt; lia).
    set (d := inject_Z (Z.of_nat (n - 1))) in *.
    assert (X : (inject_Z (Z.of_nat j) / d + 1 / d == (inject_Z (Z.of_nat j) + 1) / d)%Q) by (field; lra).
    rewrite X. unfold Qdiv. apply Qmult_le_compat_r; [|apply Qlt_le_weak, Qinv_lt_0_compat; exact D].
    change 1%Q with (inject_Z 1). rewrite <- inject_Z_plus, <- Zle_Qle. lia.
  Qed.
  Lemma place_mono n e j k : j < k -> k < n -> (place n e j < place n e k)%Q.
  Proof.
    intros J K. unfold place. set (d := if e then n - 1 else n). assert (D : (0 < inject_Z (Z.of_nat d))%Q).
    { change 0%Q with (inject_Z 0). rewrite <- Zlt_Qlt. unfold d. destruct e; lia. }
    unfold Qdiv. apply Qmult_lt_compat_r; [apply Qinv_lt_0_compat; exact D|]. rewrite <- Zlt_Qlt. lia.
  Qed.
  Lemma fraction_legal l u p t : igood lnf expf true true l u p -> (0 <= t)%Q -> (t <= 1)%Q ->
    (l <= rint_q (fraction lnf expf (ip_float p) (inject_Z l - nhq) (inject_Z u + nhq) t) <= u)%Z.
  Proof.
    intros (_ & _ & _ & _ & _ & _ & _ & GF & _) H1 H2. unfold flo, fhi in GF.
    destruct (fraction_in lnf expf ID _ _ _ t GF H1 H2). apply rint_widened; auto.
  Qed.
  Lemma point_legal p n e j v : preach p -> nth_point n e (p_def p) j v -> legal (p_def p) v.
  Proof.
    destruct p as [p|p|p|p]; cbn [Space_spec.preach p_def Space_spec.nth_point].
    - intros (a & b & R). pose proof (freach_good A _ _ p R) as G. destruct (good_bounds A _ _ p G) as [Ea Eb]. rewrite Ea, Eb.
      cbn [grid_point legal]. intros (J & x & -> & X). destruct (place_unit n e j J) as [P1 P2].
      destruct (fraction_in lnf expf ID a b p _ G P1 P2) as [F1 F2]. unfold fraction in F1, F2.
      destruct (fp_log p); rewrite X; auto.
    - intros (l & u & R). pose proof (ireach_good lnf expf _ _ p R) as G. pose proof G as G0. destruct G0 as (El & Eu & _ & _ & _ & _ & _ & GF & LG & _).
      rewrite El, Eu. cbn [grid_point legal]. intros (J & ->). eexists. split; [reflexivity|]. destruct (place_unit n e j J) as [P1 P2].
      pose proof (fraction_legal l u p _ G P1 P2) as F. unfold fraction in F. rewrite LG in F. 
      assert (N1 : (inject_Z l - nhq == inject_Z l - (499999 # 1000000))%Q) by reflexivity.
      assert (N2 : (inject_Z u + nhq == inject_Z u + (499999 # 1000000))%Q) by reflexivity.
      pose proof (fraction_proper (ip_float p) _ _ _ _ _ _ N1 N2 (Qeq_refl (place n e j))) as X. unfold fraction in X. rewrite LG in X.
      apply rint_proper in X. destruct (ip_log p); cbv beta iota zeta in F, X |- *; rewrite <- X; exact F.
    - intros (cs & R & NN). pose proof (creach_good _ p R) as G. destruct G as (E & (_ & TY & _) & _). rewrite E. intros (x & N & ->). cbn [legal].
      apply nth_error_In in N. exists x. split; [exact N|]. rewrite forallb_forall in TY. apply choice_refl; [auto|]. intros ->. contradiction.
    - intros (_ & X) (_ & ->). reflexivity.
  Qed.

  (** ** Without repetition *)
  Lemma points_differ p n j k v w : preach p -> roomy n (p_def p) -> j < k ->
    nth_point n true (p_def p) j v -> nth_point n true (p_def p) k w -> differ (Some v) (Some w).
  Proof.
    destruct p as [p|p|p|p]; cbn [Space_spec.preach p_def Space_spec.nth_point roomy].
    - intros (a & b & R) _ JK. pose proof (freach_good A _ _ p R) as G. destruct (good_bounds A _ _ p G) as [Ea Eb]. rewrite Ea, Eb.
      cbn [grid_point]. intros (_ & x & -> & X) (K & y & -> & Y). cbn [differ]. pose proof (place_mono n true j k JK K) as M.
      pose proof (good_order lnf expf a b p G) as AB. intros E. destruct (fp_log p) eqn:LG.
      + pose proof (log_positive lnf expf a b p G LG) as P. destruct ID as (LM & LP & _ & _ & LE & _). pose proof (LM a b P AB) as LL.
        rewrite X, Y in E. apply LP in E. rewrite !LE in E. nra.
      + rewrite X, Y in E. nra.
    - intros (l & u & R). pose proof (ireach_good lnf expf _ _ p R) as G. pose proof G as G0. destruct G0 as (El & Eu & LU & _).
      rewrite El, Eu. intros (LG & N) JK. cbn [grid_point]. rewrite LG. cbv zeta iota. intros (J & ->) (K & ->). cbn [differ].
      pose proof (place_step n j k JK K) as ST. intros E. apply (proj1 (inject_Z_injective _ _)) in E.
      match type of E with rint_q ?x = rint_q ?y => pose proof (rint_near x) as N1; pose proof (rint_near y) as N2; rewrite E in N1 end.
      unfold near in N1, N2.
      assert (D : (0 < inject_Z (Z.of_nat (n - 1)))%Q) by (change 0%Q with (inject_Z 0); rewrite <- Zlt_Qlt; lia).
      assert (W : (inject_Z (Z.of_nat (n - 1)) <= inject_Z u - inject_Z l)%Q).
      { unfold Qminus. rewrite <- inject_Z_opp, <- inject_Z_plus, <- Zle_Qle. lia. }
      set (d := inject_Z (Z.of_nat (n - 1))) in *. set (a := inject_Z l) in *. set (b := inject_Z u) in *.
      set (pj := place n true j) in *. set (pk := place n true k) in *.
      assert (X : (1 < (1 / d) * (b - a + (999998 # 1000000)))%Q).
      { apply Qlt_le_trans with ((1 / d) * (d + (999998 # 1000000)))%Q.
        - assert (Y : ((1 / d) * (d + (999998 # 1000000)) == 1 + (999998 # 1000000) * / d)%Q) by (field; lra).
          rewrite Y. pose proof (Qinv_lt_0_compat d D). lra.
        - apply Qmult_le_l; [unfold Qdiv; rewrite Qmult_1_l; apply Qinv_lt_0_compat; exact D|]. lra. }
      set (o := (1 / d)%Q) in *.
      assert (Y : (pj * (b + (499999 # 1000000) - (a - (499999 # 1000000))) + (a - (499999 # 1000000)) + 1 <
                   pk * (b + (499999 # 1000000) - (a - (499999 # 1000000))) + (a - (499999 # 1000000)))%Q).
      { assert (Z : ((pj + o) * (b - a + (999998 # 1000000)) <= pk * (b - a + (999998 # 1000000)))%Q) by (apply Qmult_le_compat_r; [exact ST|lra]).
        nra. }
      unfold near in *. lra.
    - intros (cs & R & NN) _ JK. pose proof (creach_good _ p R) as G. destruct G as (E & (_ & TY & UN) & _). rewrite E.
      intros (x & N1 & ->) (y & N2 & ->). cbn [differ]. eapply unique_nth; eauto.
    - intros _ _ JK (-> & _) (-> & _). lia.
  Qed.
  Lemma p_grid_apart p n vs : preach p -> roomy n (p_def p) -> p_grid A p n true = Ok vs ->
    ForallOrdPairs (fun v w => differ (Some v) (Some w)) vs.
  Proof.
    intros R RO E. destruct (p_grid_ok p n true R) as (vs' & E' & _ & H). rewrite E' in E. injection E as <-.
    apply FOP_nth. intros i j v w L N1 N2. eapply points_differ; eauto.
  Qed.
  (** More points than integers. *)
  Lemma integers_repeat l u p n : ireach A true l u p -> (u - l + 1 < Z.of_nat n)%Z ->
    exists vs j k v, p_grid A (PI p) n true = Ok vs /\ j <> k /\ nth_error vs j = Some v /\ nth_error vs k = Some v.
  Proof.
    intros R L. assert (PR : preach (PI p)) by (exists l, u; exact R). destruct (p_grid_ok (PI p) n true PR) as (vs & E & LE & H).
    pose proof (ireach_good lnf expf _ _ p R) as G. destruct G as (El & Eu & LU & _).
    set (g := fun v : hval T => match v with HN (Some x) => Qnum x | _ => 0%Z end).
    set (zs := map (fun i => (l + Z.of_nat i)%Z) (seq 0 (Z.to_nat (u - l + 1)))).
    assert (VZ : forall j v, nth_error vs j = Some v -> exists z, v = HN (Some (inject_Z z)) /\ (l <= z <= u)%Z).
    { intros j v N. apply H in N. pose proof (point_legal (PI p) n true j v PR N) as LG.
      cbn [p_def] in LG. rewrite El, Eu in LG. cbn [legal] in LG. destruct v as [[x|]|]; try contradiction. destruct LG as (z & -> & Z). eauto. }
    destruct (repeats Z.eq_dec (map g vs)) as [ND|(j & k & z & JK & N1 & N2)].
    - exfalso. assert (IN : incl (map g vs) zs).
      { intros z I. apply in_map_iff in I. destruct I as (v & <- & I). apply In_nth_error in I. destruct I as [j N].
        destruct (VZ j v N) as (z & -> & Z). cbn. unfold zs. apply in_map_iff. exists (Z.to_nat (z - l)). split; [lia|]. apply in_seq. lia. }
      pose proof (NoDup_incl_length ND IN) as LL. unfold zs in LL. rewrite !map_length, seq_length, LE in LL. cbn [p_def points] in LL. lia.
    - rewrite nth_error_map in N1, N2. destruct (nth_error vs j) as [v|] eqn:V; [|discriminate]. destruct (nth_error vs k) as [w|] eqn:W; [|discriminate].
      destruct (VZ j v V) as (z1 & -> & _). destruct (VZ k w W) as (z2 & -> & _). cbn in N1, N2. injection N1 as ->. injection N2 as ->. 
      exists vs, j, k, (HN (Some (inject_Z z))). auto.
  Qed.

  (** ** The grid of a space *)
  Lemma s_grid_ok s n e : wf s -> exists ranges,
    Forall2 (fun kv vs => p_grid A (snd kv) n e = Ok vs) s ranges /\
    s_grid A s n e = Ok (map (combine (map fst s)) (product ranges)).
  Proof.
    intros W. unfold s_grid. destruct (mapM_total (fun kv => p_grid A (snd kv) n e) s) as [ranges M].
    { intros (k, p) I. destruct (p_grid_ok p n e (wf_reach lnf expf s k p W I)) as (vs & E & _). eauto. }
    exists ranges. rewrite M. cbn [bind]. apply mapM_ok in M. split; [exact M|]. f_equal. apply map_ext_in. intros vs I. apply ordered_id.
    apply product_in in I. apply Forall2_len in I. apply Forall2_len in M. unfold s_names. destruct W as (O & _).
    apply (names_ordered s); [|exact O]. clear -I M. revert vs ranges I M. induction s as [|(k, p) s IH]; intros [|v vs] [|r ranges] I M; cbn in *; try discriminate; [reflexivity|].
    f_equal. apply (IH vs ranges); lia.
  Qed.
  Lemma s_grid_in s n e g c : wf s -> s_grid A s n e = Ok g -> In c g ->
    paired (fun k p v => exists j, nth_point n e (p_def p) j v) s c.
  Proof.
    intros W E I. destruct (s_grid_ok s n e W) as (ranges & M & E'). rewrite E' in E. injection E as <-. apply in_map_iff in I.
    destruct I as (vs & <- & I). apply product_in in I.
    assert (R : forall k p, In (k, p) s -> preach p) by (intros k p J; apply (wf_reach _ _ s k p W J)). clear W E'.
    revert vs I. induction M as [|(k, p) r s ranges G M IH]; intros vs I; inversion I as [|v ? vs' ? I1 I2]; subst; [constructor|].
    cbn [map combine fst]. constructor; [|apply IH; [intros; apply (R k0); right; assumption|exact I2]]. split; [reflexivity|]. cbn [snd fst] in *.
    destruct (p_grid_ok p n e (R k p (or_introl eq_refl))) as (vs & G' & _ & H). rewrite G' in G. injection G as <-.
    apply In_nth_error in I1. destruct I1 as [j N]. exists j. apply H. exact N.
  Qed.
  Lemma s_grid_all s n e g js : wf s -> s_grid A s n e = Ok g -> Forall2 (fun kv j => j < points n (p_def (snd kv))) s js ->
    exists c, In c g /\ map fst c = map fst s /\ Forall2 (fun kv jv => nth_point n e (p_def (snd kv)) (fst jv) (snd (snd jv))) s (combine js c).
  Proof.
    intros W E J. destruct (s_grid_ok s n e W) as (ranges & M & E'). rewrite E' in E. injection E as <-.
    assert (R : forall k p, In (k, p) s -> preach p) by (intros k p X; apply (wf_reach _ _ s k p W X)). clear W E'.
    assert (X : exists vs, Forall2 (fun v l => In v l) vs ranges /\ map fst (combine (map fst s) vs) = map fst s /\
      Forall2 (fun kv jv => nth_point n e (p_def (snd kv)) (fst jv) (snd (snd jv))) s (combine js (combine (map fst s) vs))).
    { revert js J. induction M as [|(k, p) r s ranges G M IH]; intros js J; inversion J as [|? j ? js' J1 J2]; subst.
      - exists []. repeat constructor.
      - destruct (IH (fun k0 p0 I => R k0 p0 (or_intror I)) js' J2) as (vs & X1 & X2 & X3). cbn [snd] in *.
        destruct (p_grid_ok p n e (R k p (or_introl eq_refl))) as (r' & G' & L & H). rewrite G' in G. injection G as <-. rewrite <- L in J1.
        destruct (nth_some _ _ J1) as [v N]. exists (v :: vs). split; [constructor; [eapply nth_error_In; exact N|exact X1]|].
        cbn [map combine fst]. rewrite X2. split; [reflexivity|]. constructor; [cbn; apply H; exact N|exact X3]. }
    destruct X as (vs & X1 & X2 & X3). exists (combine (map fst s) vs). split; [apply in_map, product_in, X1|]. auto.
  Qed.
  Lemma s_grid_length s n e g : wf s -> s_grid A s n e = Ok g ->
    length g = fold_right Nat.mul 1 (map (fun kv => points n (p_def (snd kv))) s).
  Proof.
    intros W E. destruct (s_grid_ok s n e W) as (ranges & M & E'). rewrite E' in E. injection E as <-. rewrite map_length, product_length.
    assert (R : forall k p, In (k, p) s -> preach p) by (intros k p X; apply (wf_reach _ _ s k p W X)). clear W E'.
    induction M as [|(k, p) r s ranges G M IH]; [reflexivity|]. cbn [map fold_right snd] in *.
    destruct (p_grid_ok p n e (R k p (or_introl eq_refl))) as (r' & G' & L & H). rewrite G' in G. injection G as <-. rewrite L, IH; [reflexivity|].
    intros k0 p0 I. apply (R k0). right. exact I.
  Qed.
  Lemma s_grid_apart s n g : wf s -> s_grid A s n true = Ok g -> (forall k p, In (k, p) s -> roomy n (p_def p)) ->
    forall i j c d, nth_error g i = Some c -> nth_error g j = Some d -> i < j ->
    exists k v w, In (k, v) c /\ In (k, w) d /\ differ (Some v) (Some w).
  Proof.
    intros W E RO. destruct (s_grid_ok s n true W) as (ranges & M & E'). rewrite E' in E. injection E as <-.
    assert (F : ForallOrdPairs (apart (fun v w => differ (Some v) (Some w))) (product ranges)).
    { apply product_apart. apply Forall_forall. intros r I. apply In_nth_error in I. destruct I as [i N]. apply Forall2_nth in M. destruct M as [L M].
      assert (B : i < length s) by (rewrite L; apply nth_error_Some; rewrite N; discriminate). destruct (nth_some s i B) as [(k, p) NS].
      pose proof (M i _ _ NS N) as G. apply nth_error_In in NS. eapply p_grid_apart; [apply (wf_reach _ _ s k p W NS)|apply (RO k p NS)|exact G]. }
    intros i j c d N1 N2 L. rewrite nth_error_map in N1, N2.
    destruct (nth_error (product ranges) i) as [a|] eqn:P1; [|discriminate]. destruct (nth_error (product ranges) j) as [b|] eqn:P2; [|discriminate].
    cbn in N1, N2. injection N1 as <-. injection N2 as <-.
    destruct (proj2 (FOP_nth _ _) F i j a b L P1 P2) as (m & v & w & M1 & M2 & D).
    apply nth_error_In, product_in, Forall2_len in P1. apply Forall2_len in M.
    assert (B : m < length (map fst s)) by (rewrite map_length, M, <- P1; apply nth_error_Some; rewrite M1; discriminate).
    destruct (nth_some _ _ B) as [k K]. exists k, v, w. split; [|split; [|exact D]].
    - clear -K M1. revert m a K M1. induction (map fst s) as [|x l IH]; intros [|m] [|y a] K M1; cbn in *; try discriminate.
      + injection K as <-. injection M1 as <-. left. reflexivity.
      + right. eapply IH; eauto.
    - clear -K M2. revert m b K M2. induction (map fst s) as [|x l IH]; intros [|m] [|y a] K M1; cbn in *; try discriminate.
      + injection K as <-. injection M1 as <-. left. reflexivity.
      + right. eapply IH; eauto.
  Qed.
End S.
