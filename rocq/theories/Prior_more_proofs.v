(** Weights of choices, samples of priors, columns, and the weighting of acquisition functions. *)
From Verif Require Import Prior_spec Dom_spec Dom_proofs Dom_cast_proofs Enc_proofs Enc_round_proofs
  Prior_sample_proofs Prior_logprob_proofs Prior_center_proofs Prior_weighted_proofs Space_spec Space_more_proofs.
From Coq Require Import Lqa Permutation.
Open Scope Q_scope.
Local Notation length := List.length.
Local Notation legal := Dom_spec.legal.

Section M.
  Variables lnf expf : Q -> Q.
  Notation A := (Qar lnf expf).
  Notation U := (unit_float_domain A).

  (** ** Weights *)
  Lemma firstn_repeat {X} (w : X) : forall n i, (i <= n)%nat -> firstn i (repeat w n) = repeat w i.
  Proof. induction n as [|n IH]; intros [|i] H; cbn; try reflexivity; try lia. f_equal. apply IH. lia. Qed.
  Lemma skipn_repeat {X} (w : X) : forall n i, (i <= n)%nat -> skipn i (repeat w n) = repeat w (n - i).
  Proof. induction n as [|n IH]; intros [|i] H; cbn [skipn repeat Nat.sub]; try reflexivity; try lia. apply IH. lia. Qed.
  Lemma sumq_repeat w n : sumq (repeat w n) == inject_Z (Z.of_nat n) * w.
  Proof.
    induction n as [|n IH]; cbn [repeat sumq fold_right]; [change (inject_Z (Z.of_nat 0)) with 0; ring|]. fold (sumq (repeat w n)). rewrite IH, Nat2Z.inj_succ.
    unfold Z.succ. rewrite inject_Z_plus. ring.
  Qed.
  Lemma sumq_app a b : sumq (a ++ b) == sumq a + sumq b.
  Proof. unfold sumq. induction a as [|x a IH]; cbn [app fold_right]; [ring|]. rewrite IH. ring. Qed.
  Lemma map_repeat {X Y} (f : X -> Y) x n : map f (repeat x n) = repeat (f x) n.
  Proof. induction n; cbn; congruence. Qed.

  Lemma cat_weights_l n d i conf : indices A n true = Ok d -> (2 <= n)%Z -> (0 <= i < n)%Z -> 0 <= conf -> conf <= 1 ->
    exists ws, cat_weights A d (Some (inject_Z i)) (Some conf) = Ok (map Some ws) /\ Z.of_nat (length ws) = n /\
      sumq ws == 1 /\ Forall (fun w => 0 <= w) ws /\ nth_error ws (Z.to_nat i) = Some conf /\
      forall j w, nth_error ws j = Some w -> j <> Z.to_nat i -> w == (1 - conf) / inject_Z (n - 1).
  Proof.
    intros H N I C0 C1. pose (s := DInt 0 (n - 1) false None).
    assert (G : good s). { split; [cbn; rewrite <- Zlt_Qlt; lia|]. split; discriminate. }
    assert (M : make lnf expf s true = Ok d) by exact H. assert (D := make_dom lnf expf s true d G M).
    unfold cat_weights, as_integer_domain. assert (DC : d_card d = Some n).
    { rewrite D. cbn [dom d_card s]. cbn. f_equal. lia. }
    assert (DT : d_cat d = true) by (rewrite D; reflexivity).
    rewrite DC, DT, H. cbn [bind]. rewrite DC. destruct (Z.eqb_spec (n - 1) 0); [lia|].
    destruct (cast_self_l lnf expf s true true d d (inject_Z i) G M M) as (c & -> & CI).
    { split; [cbn; rewrite <- Zle_Qle; lia|]. split; [cbn; rewrite <- Zle_Qle; lia|]. split; [|discriminate]. intros _. eexists. reflexivity. }
    cbn [aint Qar option_map].
    assert (TI : trunc_q c = i).
    { assert (X : inject_Z (trunc_q c) == inject_Z i).
      { destruct (gives_dtype lnf expf (Some false) (Some c) (inject_Z i)) as (w & E & W); [exists c; auto|right; exists i; reflexivity|].
        cbn in E. injection E as <-. exact W. }
      apply (proj1 (inject_Z_injective _ _)). exact X. }
    rewrite TI. assert (P : 0 < inject_Z (n - 1)) by (change 0 with (inject_Z 0); rewrite <- Zlt_Qlt; lia).
    assert (DV : adiv A (asub A (aZ A 1) (Some conf)) (aZ A (n - 1)) = Some ((1 - conf) / inject_Z (n - 1))).
    { cbn [asub aZ Qar lift2]. apply adiv_some. lra. }
    rewrite DV. set (w := (1 - conf) / inject_Z (n - 1)).
    assert (W0 : 0 <= w) by (apply Qle_shift_div_l; [exact P|lra]).
    exists (repeat w (Z.to_nat i) ++ conf :: repeat w (Z.to_nat (n - 1 - i))).
    split; [|split; [|split; [|split; [|split]]]].
    - unfold py_set. destruct (Z.ltb_spec i 0); [lia|]. rewrite repeat_length. destruct (Z.leb_spec (Z.of_nat (Z.to_nat n)) i); [lia|].
      assert (Z.ltb i 0 = false) as -> by (apply Z.ltb_ge; lia). cbn [orb]. f_equal.
      rewrite map_app. cbn [map]. rewrite !map_repeat, firstn_repeat by lia. f_equal. f_equal.
      rewrite skipn_repeat by lia. f_equal. lia.
    - rewrite app_length. cbn [List.length]. rewrite !repeat_length. lia.
    - rewrite sumq_app. cbn [sumq fold_right]. fold (sumq (repeat w (Z.to_nat (n - 1 - i)))). rewrite !sumq_repeat, !Z2Nat.id by lia.
      assert (X : inject_Z (n - 1 - i) == inject_Z (n - 1) - inject_Z i) by apply injZ_sub. rewrite X.
      unfold w. field. lra.
    - apply Forall_app. split; [apply Forall_forall; intros x J; apply repeat_spec in J; subst; exact W0|].
      constructor; [exact C0|]. apply Forall_forall; intros x J; apply repeat_spec in J; subst; exact W0.
    - rewrite nth_error_app2 by (rewrite repeat_length; lia). rewrite repeat_length, Nat.sub_diag. reflexivity.
    - intros j x J NJ. destruct (Nat.lt_ge_cases j (Z.to_nat i)) as [L|L].
      + rewrite nth_error_app1 in J by (rewrite repeat_length; exact L). apply nth_error_In, repeat_spec in J. subst. reflexivity.
      + rewrite nth_error_app2 in J by (rewrite repeat_length; exact L). rewrite repeat_length in J.
        destruct (j - Z.to_nat i)%nat as [|m] eqn:E; [lia|]. cbn in J. apply nth_error_In, repeat_spec in J. subst. reflexivity.
  Qed.

  (** ** Samples of a prior *)
  Lemma draws_desc d x : draws lnf expf d x -> exists s' cat v, good s' /\ exact s' /\ is_log s' = false /\
    make lnf expf s' cat = Ok (dist_dom A d) /\ x = Some v /\ legal lnf expf s' v /\
    (forall dt, exists v', to_dtype A dt x = Some v' /\ legal lnf expf s' v').
  Proof.
    intros [v H0 H1|t v H0 H1|ws n d' k H N K].
    1,2: exists us, false, v; split; [exact good_us|]; split; [exact Logic.I|]; split; [reflexivity|]; split; [reflexivity|]; split; [reflexivity|];
      (assert (LU : forall q, 0 <= q -> q <= 1 -> legal lnf expf us q) by (intros q Q0 Q1; split; [exact Q0|]; split; [exact Q1|]; split; discriminate));
      split; [apply LU; auto|]; intros [[|]|]; cbn [to_dtype atrunc Qar option_map]; eexists; (split; [reflexivity|]); try (apply LU; auto);
      assert (TV : inject_Z (trunc_q v) == 0 \/ inject_Z (trunc_q v) == 1)
        by (destruct (Qlt_le_dec v 1) as [L|L]; [left; rewrite trunc_unit by auto; reflexivity|
            right; assert (V : v == inject_Z 1) by (change (inject_Z 1) with 1; lra);
            destruct (gives_dtype lnf expf (Some false) (Some v) (inject_Z 1)) as (w & E & W); [exists v; auto|right; exists 1%Z; reflexivity|];
            cbn in E; injection E as <-; exact W]);
      (destruct TV as [TV|TV]; apply LU; rewrite TV; lra).
    exists (DInt 0 (n - 1) false None), true, (inject_Z k).
    assert (L : legal lnf expf (DInt 0 (n - 1) false None) (inject_Z k)).
    { split; [cbn; rewrite <- Zle_Qle; lia|]. split; [cbn; rewrite <- Zle_Qle; lia|]. split; [|discriminate]. intros _. eexists. reflexivity. }
    split; [split; [cbn; rewrite <- Zlt_Qlt; lia|split; discriminate]|]. split; [split; reflexivity|]. split; [reflexivity|]. split; [exact H|]. split; [reflexivity|].
    split; [exact L|]. intros [[|]|]; cbn [to_dtype atrunc Qar option_map]; eexists; (split; [reflexivity|]); auto. rewrite trunc_q_Z. exact L.
  Qed.
  Lemma spread_made n ss to : targets lnf expf n ss to ->
    length (spread n to) = n /\ length ss = n /\ Forall2 (fun s d => exists cat, make lnf expf s cat = Ok d) ss (spread n to).
  Proof.
    intros TG. destruct (spread_targets lnf expf n ss to TG) as (L1 & L2 & _). split; [exact L1|]. split; [exact L2|].
    destruct TG as (G & _ & H). destruct to as [d|ds]; cbn [spread].
    - destruct H as (s & cat & M & ->). clear -M. induction n; cbn [repeat]; constructor; eauto.
    - tauto.
  Qed.
  Lemma cast_row_legal (ds : list (dist (option Q))) dt : forall ss fs r, ideal lnf expf -> Forall good ss ->
    Forall2 (fun s d => exists cat, make lnf expf s cat = Ok d) ss fs -> Forall2 (draws lnf expf) ds r -> length ss = length ds -> dtype_fits ss dt ->
    legal_row lnf expf ss (map (to_dtype A dt) (map (fun p => cast A (snd (snd p)) (fst (snd p)) (fst p))
       (combine (map (to_dtype A dt) r) (combine (map (dist_dom A) ds) fs)))).
  Proof.
    induction ds as [|d ds IH]; intros ss fs r I G F D LE DT; inversion D as [|? x ? r' DX D']; subst; destruct ss as [|s ss]; try discriminate.
    - inversion F; subst. constructor.
    - inversion F as [|? f ? fs' (cat & MF) F']; subst. inversion G as [|? ? GS GR]; subst. cbn [map combine fst snd]. constructor.
      + destruct (draws_desc d x DX) as (s' & cat' & v & G' & X' & NL & M & -> & _ & DD). destruct (DD dt) as (v' & -> & L').
        destruct (cast_l lnf expf s s' cat cat' f (dist_dom A d) v') as (c & w & C & _ & _ & CL); auto.
        { intros (_ & X & _). congruence. }
        rewrite C. destruct (gives_dtype lnf expf dt (Some c) c) as (c' & -> & EC).
        * exists c. split; reflexivity.
        * destruct DT as [DT|DT]; [left; exact DT|right]. inversion DT; subst. destruct CL as (_ & _ & CL & _). auto.
        * exists c'. split; [reflexivity|]. eapply legal_proper; [symmetry; exact EC|exact CL].
      + apply IH; auto. destruct DT as [DT|DT]; [left; exact DT|right; inversion DT; auto].
  Qed.
  Lemma centered_legal_l ds ss to raw dt : ideal lnf expf -> targets lnf expf (length ds) ss to -> Forall (Forall2 (draws lnf expf) ds) raw ->
    dtype_fits ss dt ->
    exists y, centered_sample A ds raw to dt = Ok y /\ length y = length raw /\ Forall (legal_row lnf expf ss) y.
  Proof.
    intros I TG D DT. destruct (spread_made _ _ _ TG) as (L1 & L2 & F). unfold centered_sample, translate_as, translate.
    assert (GS : Forall good ss) by (destruct TG; auto).
    cbn [spread]. rewrite map_length, Nat.eqb_refl, L1, Nat.eqb_refl. cbn [negb].
    assert (E : (match to with | inl _ | _ => Ok (map (fun row => map (fun p => cast A (snd (snd p)) (fst (snd p)) (fst p)) (combine row (combine (map (dist_dom A) ds) (spread (length ds) to)))) (map (map (to_dtype A dt)) raw)) end) = Ok (map (fun row => map (fun p => cast A (snd (snd p)) (fst (snd p)) (fst p)) (combine row (combine (map (dist_dom A) ds) (spread (length ds) to)))) (map (map (to_dtype A dt)) raw)))
      by (destruct to; reflexivity).
    cbn [bind]. eexists. split; [reflexivity|]. split; [rewrite !map_length; reflexivity|].
    rewrite !map_map. apply Forall_forall. intros y Y. apply in_map_iff in Y. destruct Y as (r & <- & R).
    rewrite Forall_forall in D. apply cast_row_legal; auto.
  Qed.
  (** With an integer dtype the draws are cut off first. *)
  Lemma centered_integer_l ds ss to raw : ideal lnf expf -> targets lnf expf (length ds) ss to -> Forall (fun s => integral s = true) ss ->
    (forall d, In d ds -> dist_dom A d = U) -> Forall (unit_row (length ds)) raw -> (forall r q, In r raw -> In (Some q) r -> q < 1) ->
    exists y, centered_sample A ds raw to (Some false) = Ok y /\ length y = length raw /\ Forall (corner ss (repeat false (length ds))) y.
  Proof.
    intros I TG IN DU R LT. unfold centered_sample. rewrite (map_trunc lnf expf (length ds)) by auto.
    assert (ED : map (dist_dom A) ds = repeat U (length ds)).
    { clear -DU. induction ds as [|d ds IH]; [reflexivity|]. cbn [map repeat List.length]. f_equal; [apply DU; left; reflexivity|apply IH; intros; apply DU; right; auto]. }
    rewrite ED.
    assert (TE : forall x, translate A (length ds) x (inr (repeat U (length ds))) to = translate A (length ds) x (inl U) (inr (spread (length ds) to))).
    { intros x. unfold translate. destruct to; cbn [spread]; rewrite ?repeat_length; reflexivity. }
    assert (TG' : targets lnf expf (length ds) ss (inr (spread (length ds) to))).
    { destruct (spread_made _ _ _ TG) as (L1 & L2 & F). destruct TG as (G & L & _). split; [exact G|]. split; [exact L|]. split; [exact L1|exact F]. }
    destruct (spread_made _ _ _ TG) as (L1 & L2 & F).
    unfold translate_as. rewrite TE.
    destruct (translate_as_unit lnf expf (length ds) ss (inr (spread (length ds) to)) (map (fun _ => repeat (Some 0) (length ds)) raw) (Some false)) as (y & E & FY); auto.
    { intros r J. apply in_map_iff in J. destruct J as (? & <- & _). apply repeat_length. }
    { intros r J. apply in_map_iff in J. destruct J as (? & <- & _). apply Forall_forall. intros v V. apply repeat_spec in V. subst. discriminate. }
    { right. exact IN. }
    exists y. split; [exact E|]. destruct TG as (G & L & _).
    apply Forall2_right with (P := corner ss (repeat false (length ds))) in FY.
    - rewrite map_length in FY. tauto.
    - intros a b J D. apply in_map_iff in J. destruct J as (? & <- & _). rewrite <- L2 in *. apply (decoded_zeros lnf expf); auto.
  Qed.

  (** ** Columns *)
  Lemma ordered_app {X} (l l' : list (string * X)) : ordered l -> ordered l' ->
    (ordered (l ++ l') <-> forall k v k' v', In (k, v) l -> In (k', v') l' -> String.ltb k k' = true).
  Proof.
    intros O O'. induction O as [|k v l H O IH]; cbn [app].
    - split; [intros _ ? ? ? ? []|auto].
    - split.
      + intros OO. inversion OO; subst. intros k1 v1 k2 v2 [[= <- <-]|J] J2.
        * apply (H2 k2 v2). apply in_app_iff. right. exact J2.
        * eapply (proj1 IH H4); eauto.
      + intros HH. constructor.
        * intros k2 v2 J. apply in_app_iff in J. destruct J as [J|J]; [eapply H; eauto|]. eapply HH; [left; reflexivity|exact J].
        * apply (proj2 IH). intros. eapply HH; [right|]; eauto.
  Qed.
  Lemma ordered_filter {X} (f : string * X -> bool) l : ordered l -> ordered (filter f l).
  Proof.
    intros O. induction O as [|k v l H O IH]; cbn [filter]; [constructor|]. destruct (f (k, v)); [|exact IH].
    constructor; [|exact IH]. intros k' v' J. apply filter_In in J. eapply H. apply J.
  Qed.
  Lemma ordered_map {X Y} (f : string * X -> Y) l : ordered (map (fun kv => (fst kv, f kv)) l) <-> ordered l.
  Proof.
    induction l as [|(k, v) l IH]; cbn [map fst]; split; intros O; try constructor; inversion O; subst.
    - intros k' v' J. apply (H1 k' (f (k', v'))). apply in_map_iff. exists (k', v'). auto.
    - apply IH. auto.
    - intros k' v' J. apply in_map_iff in J. destruct J as ((k2 & v2) & [= <- <-] & J). eapply H1; eauto.
    - apply IH. auto.
  Qed.
  Lemma sorted_names_iff {X} (l : list (string * X)) : NoDup (map fst l) -> (map fst (sort_names l) = map fst l <-> ordered l).
  Proof.
    intros N. split.
    - intros E. assert (O := sort_ordered l N). apply (names_ordered (sort_names l) l); [|exact O]. symmetry. exact E.
    - intros O. rewrite ordered_id by exact O. reflexivity.
  Qed.
  Lemma columns_l s en : is_space lnf expf s -> bo_encoder A s = Ok en ->
    (map fst (transformers en) = map fst (bo_params s) <->
     forall n p c q, In (n, p) (s_numerical s) -> In (c, q) (s_categoricals s) -> String.ltb n c = true).
  Proof.
    intros S B. apply space_wf in S. destruct S as (O & _ & _). unfold bo_encoder in B.
    assert (N : NoDup (map fst (bo_params s))).
    { unfold bo_params, s_numerical, s_categoricals. rewrite map_app. assert (ND := ordered_nodup s O). clear B O.
      assert (SUB : forall (f g : string * param (option Q) -> bool), (forall x, f x = true -> g x = false) -> NoDup (map fst (filter f s) ++ map fst (filter g s))).
      { intros f g FG. induction s as [|(k, p) l IH]; [constructor|]. cbn [map fst] in ND. inversion ND; subst. specialize (IH H2).
        assert (NF : forall h : string * param (option Q) -> bool, ~ In k (map fst (filter h l))).
        { intros h J. apply in_map_iff in J. destruct J as ((k2 & v2) & E & J). cbn in E. subst k2. apply filter_In in J. apply H1, in_map_iff. exists (k, v2). tauto. }
        cbn [filter]. destruct (f (k, p)) eqn:FK.
        - rewrite (FG _ FK). cbn [map fst app]. constructor; [|exact IH]. rewrite in_app_iff. intros [J|J]; eapply NF; eauto.
        - destruct (g (k, p)); [|exact IH]. cbn [map fst]. apply NoDup_Add with (a := k) (l := map fst (filter f l) ++ map fst (filter g l)).
          + apply Add_app.
          + split; [exact IH|]. rewrite in_app_iff. intros [J|J]; eapply NF; eauto. }
      apply SUB. intros (k, p). cbn [snd]. destruct p; try discriminate; auto. }
    apply (default_names lnf expf) in B; [|rewrite map_map; exact N]. destruct B as (B & _).
    rewrite B. rewrite <- (map_map (fun kv => (fst kv, enc_param (snd kv))) fst) with (l := bo_params s) at 2 || idtac.
    assert (E : map fst (map (fun kv => (fst kv, enc_param (snd kv))) (bo_params s)) = map fst (bo_params s)) by (rewrite map_map; reflexivity).
    rewrite <- E. rewrite sorted_names_iff by (rewrite E; exact N).
    rewrite (ordered_map (fun kv => enc_param (snd kv))). unfold bo_params.
    rewrite ordered_app by (apply ordered_filter; exact O). tauto.
  Qed.
End M.

(** ** The weighting of acquisition functions *)
Section P.
  Variables lnf expf : Q -> Q.
  Notation A := (Qar lnf expf).
  Lemma pibo_log_l power x a p : pibo_weight A power true (Some x) (Some a) (Some p) = Some (a + (p + x)).
  Proof. reflexivity. Qed.
  Lemma pibo_exp_l n ndims design : ndims <> 0%nat ->
    pibo_exp_term A n ndims design = Ok (Some (expf (inject_Z (Z.of_nat design - Z.of_nat n) / inject_Z (Z.of_nat ndims)))) .
  Proof.
    intros N. unfold pibo_exp_term. destruct (Nat.eqb_spec ndims 0); [contradiction|].
    replace (- (Z.of_nat n - Z.of_nat design))%Z with (Z.of_nat design - Z.of_nat n)%Z by lia.
    assert (P : 0 < inject_Z (Z.of_nat ndims)) by (change 0 with (inject_Z 0); rewrite <- Zlt_Qlt; lia).
    cbn [aZ Qar]. rewrite adiv_some by lra. reflexivity.
  Qed.
  Lemma pibo_exp_mono_l n n' ndims design : ndims <> 0%nat -> (forall x y, x < y -> expf x < expf y) -> (n < n')%nat ->
    exists a b, pibo_exp_term A n ndims design = Ok (Some a) /\ pibo_exp_term A n' ndims design = Ok (Some b) /\ b < a.
  Proof.
    intros N M L. rewrite !pibo_exp_l by exact N. eexists _, _. split; [reflexivity|]. split; [reflexivity|]. apply M.
    assert (P : 0 < inject_Z (Z.of_nat ndims)) by (change 0 with (inject_Z 0); rewrite <- Zlt_Qlt; lia).
    unfold Qdiv. apply Qmult_lt_r; [apply Qinv_lt_0_compat; exact P|]. rewrite <- Zlt_Qlt. lia.
  Qed.
End P.
