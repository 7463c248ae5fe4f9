(** Proofs about parameters: normalised values, neighbours, mutation, priors. *)
From Verif Require Import Param_spec Param_proofs Param_int_proofs Param_cat_proofs Dom_proofs.
From Coq Require Import Lqa.
Open Scope Q_scope.
Local Notation length := List.length.

Section Exact.
  Variables lnf expf : Q -> Q.
  Local Notation A := (Qar lnf expf).
  Hypothesis ID : ideal lnf expf.

  Lemma log_positive a b p : fgood A (Some a) (Some b) p -> fp_log p = true -> 0 < a.
  Proof.
    intros G LG. destruct (good_fields A _ _ p G) as (dom & _ & _ & L & _). rewrite LG in L. cbn [andb] in L.
    apply orb_false_iff in L. destruct L as [L _]. cbn [aZ Qar] in L.
    destruct (Qlt_le_dec 0 a) as [|X]; [auto|]. exfalso.
    assert (Y : ale A (Some a) (Some (inject_Z 0)) = true) by (apply ale_some; exact X). congruence.
  Qed.
  Lemma ln_le x y : 0 < x -> x <= y -> lnf x <= lnf y.
  Proof.
    destruct ID as (M & P & _). intros X L. destruct (Qle_lt_or_eq _ _ L) as [H|H]; [pose proof (M x y X H); lra|].
    rewrite (P x y H). lra.
  Qed.
  Lemma good_order a b p : fgood A (Some a) (Some b) p -> a < b.
  Proof. intros G. destruct (good_fields A _ _ p G) as (dom & _ & L & _). apply bounds_order in L. exact L. Qed.

  Lemma of_norm_is a b p t : fgood A (Some a) (Some b) p -> f_of_norm A p (Some t) = Ok (Some (fraction lnf expf p a b t)).
  Proof.
    intros G. destruct (good_fields A _ _ p G) as (dom & _ & _ & _ & _ & _ & E).
    unfold f_of_norm, f_bounds, fraction. destruct (fp_log p) eqn:LG.
    - pose proof (log_positive a b p G LG) as P. pose proof (good_order a b p G) as L.
      rewrite E. cbn. 
      replace (Qle_bool a 0) with false by (symmetry; apply not_true_is_false; intros X; apply Qle_bool_iff in X; lra).
      replace (Qle_bool b 0) with false by (symmetry; apply not_true_is_false; intros X; apply Qle_bool_iff in X; lra).
      reflexivity.
    - rewrite E. reflexivity.
  Qed.
  Lemma fraction_in a b p t : fgood A (Some a) (Some b) p -> 0 <= t -> t <= 1 -> a <= fraction lnf expf p a b t /\ fraction lnf expf p a b t <= b.
  Proof.
    intros G T0 T1. pose proof (good_order a b p G) as L. unfold fraction. destruct (fp_log p) eqn:LG.
    - pose proof (log_positive a b p G LG) as P. destruct ID as (M & PR & EM & EL & _).
      pose proof (M a b P L) as LL. split.
      + apply (Qle_trans _ (expf (lnf a))); [rewrite (EL a P); lra|]. apply EM. nra.
      + apply (Qle_trans _ (expf (lnf b))); [apply EM; nra|]. rewrite (EL b); lra.
    - split; nra.
  Qed.

  (** The normalised value is in the unit interval and gives the value back. *)
  Lemma norm_unit a b p x : fgood A (Some a) (Some b) p -> fp_value p = Some (Some x) ->
    exists n, fp_norm p = Some (Some n) /\ 0 <= n /\ n <= 1 /\ fraction lnf expf p a b n == x.
  Proof.
    intros G V. destruct (good_value A _ _ p _ G V) as (W & n & N & NV). apply within_some in W. destruct W as [W1 W2].
    pose proof (good_order a b p G) as L.
    destruct (good_fields A _ _ p G) as (dom & _ & _ & _ & _ & _ & E).
    unfold f_to_norm, f_bounds in N. unfold fraction. destruct (fp_log p) eqn:LG.
    - pose proof (log_positive a b p G LG) as P. rewrite E in N. cbn in N.
      replace (Qle_bool a 0) with false in N by (symmetry; apply not_true_is_false; intros X; apply Qle_bool_iff in X; lra).
      replace (Qle_bool b 0) with false in N by (symmetry; apply not_true_is_false; intros X; apply Qle_bool_iff in X; lra).
      replace (Qle_bool x 0) with false in N by (symmetry; apply not_true_is_false; intros X; apply Qle_bool_iff in X; lra).
      destruct ID as (M & PR & EM & EL & _). pose proof (M a b P L) as LL.
      pose proof (ln_le a x P W1) as L1. pose proof (ln_le x b ltac:(lra) W2) as L2.
      assert (D : lnf b - lnf a > 0) by lra.
      cbn [lift2 adiv Qar] in N. cbn in N.
      destruct (Qeq_bool (lnf b - lnf a) 0) eqn:Z; [apply Qeq_bool_eq in Z; lra|].
      assert (NX : n = Some ((lnf x - lnf a) / (lnf b - lnf a))) by congruence. subst n.
      exists ((lnf x - lnf a) / (lnf b - lnf a)). split; [exact NV|]. split; [apply Qle_shift_div_l; lra|].
      split; [apply Qle_shift_div_r; lra|].
      assert (Y : (lnf x - lnf a) / (lnf b - lnf a) * (lnf b - lnf a) + lnf a == lnf x) by (field; lra).
      assert (EP : forall u v, u == v -> expf u == expf v) by (intros u v UV; apply Qle_antisym; apply EM; rewrite UV; lra).
      rewrite (EP _ _ Y). apply EL. lra.
    - rewrite E in N. cbn in N. destruct (Qeq_bool (b - a) 0) eqn:Z; [apply Qeq_bool_eq in Z; lra|].
      assert (NX : n = Some ((x - a) / (b - a))) by congruence. subst n.
      exists ((x - a) / (b - a)). split; [exact NV|]. split; [apply Qle_shift_div_l; lra|].
      split; [apply Qle_shift_div_r; lra|]. field. lra.
  Qed.

  (** Enough draws in the unit interval give enough neighbours. *)
  Lemma neighbour_loop_total a b p : fgood A (Some a) (Some b) p ->
    forall draws n, (forall x, In x draws -> x <> None) -> (n <= length (filter in_unit draws))%nat ->
    exists qs, f_neighbour_loop A p n draws = Ok qs.
  Proof.
    intros G. induction draws as [|x draws IH]; intros [|n] NN L; cbn [f_neighbour_loop]; eauto; [cbn in L; lia|].
    cbn [filter] in L. destruct x as [q|]; [|exfalso; apply (NN None); [left; auto|auto]].
    assert (NN' : forall x, In x draws -> x <> None) by (intros; apply NN; right; auto).
    destruct (altb A (Some q) (aZ A 0) || altb A (aZ A 1) (Some q)) eqn:O.
    - apply IH; [exact NN'|]. destruct (in_unit (Some q)) eqn:U; [|exact L]. exfalso. cbn in U, O.
      apply andb_true_iff in U. destruct U as [U1 U2]. change (inject_Z 0) with 0 in O. change (inject_Z 1) with 1 in O.
      rewrite U1, U2 in O. discriminate.
    - apply orb_false_iff in O. destruct O as [O1 O2]. cbn in O1, O2. apply negb_false_iff, Qle_bool_iff in O1, O2.
      change (inject_Z 0) with 0 in O1. change (inject_Z 1) with 1 in O2.
      rewrite (of_norm_is a b p q G). cbn [bind]. rewrite (clone_same A _ _ p G). cbn [bind].
      destruct (fraction_in a b p q G O1 O2) as [F1 F2].
      pose proof (proj2 (within_some lnf expf a b _) (conj F1 F2)) as W.
      destruct (set_cases A _ _ _ (Some (Some (fraction lnf expf p a b q))) (score_good A _ _ p (fp_conf p) G))
        as [(? & [= <-] & W' & _)|[(? & _)|(? & m & [= <-] & _ & N & S0)]]; [congruence|discriminate|].
      rewrite S0. unfold then_ok. cbn [snd fst bind].
      destruct (IH n NN') as [qs Q0].
      { destruct (in_unit (Some q)); cbn [length] in L; lia. }
      rewrite Q0. cbn [bind]. eauto.
  Qed.
  Lemma neighbours_total a b p x draws n : fgood A (Some a) (Some b) p -> fp_value p = Some x ->
    (forall x, In x draws -> x <> None) -> (n <= length (filter in_unit draws))%nat ->
    exists qs, f_neighbours A p n draws = Ok qs /\ length qs = n.
  Proof.
    intros G V NN L. unfold f_neighbours. rewrite V. destruct (good_to_norm A _ _ p x G) as [y ->]. cbn [bind].
    destruct (neighbour_loop_total a b p G draws n NN L) as [qs Q0]. exists qs. split; [auto|].
    apply (neighbour_loop_good A _ _ p G _ _ _ Q0).
  Qed.
End Exact.

Section Simple.
  Variables lnf expf : Q -> Q.
  Local Notation A := (Qar lnf expf).
  Lemma f_simple_raises a b p draw draws : fgood A (Some a) (Some b) p -> f_mutate A p None Simple draw draws = Err ValueError.
  Proof.
    intros G. unfold f_mutate. destruct (fp_fid p); [reflexivity|]. rewrite (clone_same A _ _ p G). cbn [bind].
    destruct (sample_total lnf expf a b _ draw (score_good A _ _ p (fp_conf p) G)) as (q & y & S0 & _). rewrite S0. cbn [bind].
    cbn [f_score_as fp_value]. destruct (fp_value p) as [x|] eqn:V; [|reflexivity].
    destruct (good_value A _ _ p x G V) as (W & _). destruct (within_inv _ _ _ _ _ W) as (? & ? & r & _ & _ & -> & _).
    unfold opt_T_eqb, opt_eqb. cbn. rewrite (proj2 (Qeq_bool_iff r r) (Qeq_refl r)). reflexivity.
  Qed.
  Lemma i_simple_raises l u p draw draws : igood lnf expf true true l u p -> i_mutate A p None Simple draw draws = Err ValueError.
  Proof.
    intros G. unfold i_mutate. destruct (ip_fid p); [reflexivity|]. destruct (iclone_total lnf expf l u p G) as [c C]. rewrite C. cbn [bind].
    destruct (iclone_good' lnf expf _ _ l u p c G C) as [GC V].
    destruct (isample_total lnf expf l u c draw GC) as (q & z & S0 & _). rewrite S0. cbn [bind]. rewrite V.
    destruct (ip_value p) as [x|]; cbn; [rewrite Z.eqb_refl|]; reflexivity.
  Qed.
End Simple.

(** ** The prior over choices *)
Lemma sum_ones n : fold_right Qplus 0 (map (fun _ : nat => 1) (seq 0 n)) == inject_Z (Z.of_nat n).
Proof.
  generalize 0%nat. induction n as [|n IH]; intros k; cbn [seq map fold_right]; [reflexivity|]. rewrite IH.
  rewrite Nat2Z.inj_succ. unfold Z.succ. rewrite inject_Z_plus. ring.
Qed.
Lemma sum_weights s i k n : 
  fold_right Qplus 0 (map (fun j => if Nat.eqb j i then s else 1) (seq k n)) ==
  inject_Z (Z.of_nat n) + (if Nat.leb k i && Nat.ltb i (k + n) then s - 1 else 0).
Proof.
  revert k; induction n as [|n IH]; intros k; cbn [seq map fold_right].
  - replace (Nat.leb k i && Nat.ltb i (k + 0)) with false; [reflexivity|]. symmetry. apply andb_false_iff.
    destruct (Nat.leb_spec k i); [right; apply Nat.ltb_ge; lia|left; reflexivity].
  - rewrite IH. rewrite Nat2Z.inj_succ. unfold Z.succ. rewrite inject_Z_plus. change (inject_Z 1) with 1.
    destruct (Nat.eqb_spec k i) as [->|NE].
    + replace (Nat.leb (S i) i) with false by (symmetry; apply Nat.leb_gt; lia).
      rewrite Nat.leb_refl. replace (Nat.ltb i (i + S n)) with true by (symmetry; apply Nat.ltb_lt; lia). cbn [andb]. ring.
    + replace (Nat.leb (S k) i && Nat.ltb i (S k + n)) with (Nat.leb k i && Nat.ltb i (k + S n)); [ring|].
      replace (S k + n)%nat with (k + S n)%nat by lia. f_equal.
      destruct (Nat.leb_spec k i), (Nat.leb_spec (S k) i); auto; lia.
Qed.
Lemma c_score_pos c : 2 <= c_score c.
Proof. unfold c_score. destruct (String.eqb c "low"); [lra|]. destruct (String.eqb c "medium"); unfold inject_Z, Qle; cbn; lia. Qed.
Lemma fold_div l t : ~ t == 0 -> fold_right Qplus 0 (map (fun x => x / t) l) == fold_right Qplus 0 l / t.
Proof. intros T. induction l as [|x l IH]; cbn [map fold_right]; [field; auto|]. rewrite IH. field. auto. Qed.

Lemma c_probs vc cs p d : cgood vc cs p -> cp_default p = Some d ->
  exists i ps, position cs d i /\ c_prior_probabilities p = Ok ps /\ length ps = length cs /\
    fold_right Qplus 0 ps == 1 /\ (forall x, In x ps -> 0 < x) /\
    forall j x y, j <> i -> nth_error ps i = Some x -> nth_error ps j = Some y -> x == c_score (cp_score p) * y.
Proof.
  intros (C & (L & TY & U) & _ & _ & D & _) DE. rewrite DE in D. destruct D as (i & I & DI).
  pose proof (index_of_some _ _ _ I) as PO. pose proof (index_bound _ _ _ I) as IB.
  unfold c_prior_probabilities. rewrite DI, C. cbv zeta.
  pose proof (sum_weights (c_score (cp_score p)) i 0 (length cs)) as SW.
  cbn [Nat.leb andb] in SW. rewrite Nat.add_0_l in SW. replace (Nat.ltb i (length cs)) with true in SW by (symmetry; apply Nat.ltb_lt; lia).
  pose proof (c_score_pos (cp_score p)) as SP.
  set (s := c_score (cp_score p)) in *. clearbody s.
  set (w := fun j => if Nat.eqb j i then s else 1) in *.
  assert (T : 0 < fold_right Qplus 0 (map w (seq 0 (length cs)))).
  { rewrite SW. assert (0 <= inject_Z (Z.of_nat (length cs))) by (change 0 with (inject_Z 0); rewrite <- Zle_Qle; lia). lra. }
  set (t := fold_right Qplus 0 (map w (seq 0 (length cs)))) in *.
  exists i, (map (fun x => x / t) (map w (seq 0 (length cs)))). split; [exact PO|]. split; [reflexivity|].
  split; [rewrite !map_length, seq_length; reflexivity|]. split; [rewrite fold_div by lra; fold t; field; lra|].
  assert (W : forall j, 0 < w j) by (intros j; unfold w; destruct (Nat.eqb j i); lra).
  split.
  - intros x X. apply in_map_iff in X. destruct X as (y & <- & Y). apply in_map_iff in Y. destruct Y as (j & <- & _).
    specialize (W j). apply Qlt_shift_div_l; lra.
  - intros j x y J NX NY. rewrite map_map in NX, NY.
    assert (SQ : forall k v, nth_error (map (fun x => w x / t) (seq 0 (length cs))) k = Some v -> v = w k / t).
    { intros k v. rewrite nth_error_map. destruct (nth_error (seq 0 (length cs)) k) as [r|] eqn:R; [|discriminate]. cbn [option_map].
      assert (K : (k < length cs)%nat) by (rewrite <- (seq_length (length cs) 0); apply nth_error_Some; congruence).
      rewrite (nth_error_nth' _ 0%nat) in R by (rewrite seq_length; exact K). rewrite seq_nth in R by exact K.
      cbn [plus] in R. assert (r = k) by congruence. subst r. intros X. assert (w k / t = v) by congruence. auto. }
    rewrite (SQ i x NX), (SQ j y NY). unfold w. rewrite Nat.eqb_refl. destruct (Nat.eqb_spec j i); [contradiction|]. field. lra.
Qed.

(** ** Clones are equal to the original unless the confidence was changed *)
Section CloneEq.
  Variables lnf expf : Q -> Q.
  Local Notation A := (Qar lnf expf).
  Lemma Qeq_refl_b q : Qeq_bool q q = true. Proof. apply Qeq_bool_iff, Qeq_refl. Qed.
  Lemma f_clone_eqb a b p q : fgood A (Some a) (Some b) p -> f_clone A p = Ok q ->
    f_eqb A p q = String.eqb (fp_score p) (fp_conf p).
  Proof.
    intros G C. rewrite (clone_same A _ _ p G) in C. assert (q = f_score_as p (fp_conf p)) by congruence. subst q.
    destruct (good_bounds A _ _ p G) as [L U]. unfold f_eqb. cbn [f_score_as fp_lower fp_upper fp_log fp_fid fp_value fp_default fp_score].
    rewrite L, U, !Bool.eqb_reflx. cbn [aeqb Qar]. rewrite !Qeq_refl_b. cbn [andb].
    assert (O : forall x : option (option Q), (forall y, x = Some y -> within A (Some a) (Some b) y = true) -> opt_T_eqb A x x = true).
    { intros [y|] H; [|reflexivity]. specialize (H y eq_refl). destruct (within_inv _ _ _ _ _ H) as (? & ? & r & _ & _ & -> & _).
      unfold opt_T_eqb, opt_eqb. cbn. apply Qeq_refl_b. }
    rewrite (O (fp_value p)) by (intros y V; apply (good_value A _ _ p y G V)).
    destruct (good_fields A _ _ p G) as (dom & _ & _ & _ & D & _). rewrite (O (fp_default p)) by (exact D). reflexivity.
  Qed.
  Lemma opt_Z_refl x : opt_eqb Z.eqb x x = true. Proof. destruct x; cbn; [apply Z.eqb_refl|reflexivity]. Qed.
  Lemma i_clone_eqb l u p q : igood lnf expf true true l u p -> i_clone A p = Ok q ->
    i_eqb p q = String.eqb (ip_score p) (ip_conf p).
  Proof.
    intros G C. destruct (iclone_good lnf expf true l u p q (or_introl G) C eq_refl) as ((L & U & _) & V & LG & F & CO & S0 & D & _).
    destruct G as (L' & U' & _). unfold i_eqb. rewrite L, U, L', U', V, LG, F, D, S0, !Z.eqb_refl, !Bool.eqb_reflx, !opt_Z_refl. reflexivity.
  Qed.
End CloneEq.
Lemma choice_of_refl c v : choice_type c = true -> py_eqb c v = true -> py_eqb v v = true.
Proof.
  intros T E. destruct (choice_kinds c T) as [[s ->]|[x X]].
  - apply str_eqb in E. subst v. cbn. apply String.eqb_refl.
  - destruct (choice_eqb_num c v x X E) as (y & Y & XY). rewrite (Py_proofs.py_eqb_num v v y Y), Y.
    destruct x, y; cbn in *; try discriminate; auto. apply Z.eqb_refl.
Qed.
Lemma list_refl cs : forallb choice_type cs = true -> no_nan cs -> list_eqb py_eqb cs cs = true.
Proof.
  induction cs as [|c cs IH]; intros T N; [reflexivity|]. cbn in T. apply andb_true_iff in T. destruct T as [T1 T2].
  cbn. rewrite (choice_refl c T1) by (intros ->; apply N; left; auto). apply IH; auto. intros H; apply N; right; auto.
Qed.
Lemma c_clone_eqb cs p q : cgood true cs p -> no_nan cs -> c_clone p = Ok q -> c_eqb p q = String.eqb (cp_score p) (cp_conf p).
Proof.
  intros G N C. rewrite (cclone_same cs p G) in C. assert (q = c_score_as p (cp_conf p)) by congruence. subst q.
  destruct G as (E & (_ & TY & _) & _ & _ & D & V). specialize (V eq_refl).
  unfold c_eqb. cbn [c_score_as cp_choices cp_value cp_default cp_prior cp_score]. rewrite E, (list_refl cs TY N), Bool.eqb_reflx.
  assert (O : forall x, match x with None => True | Some v => exists i, index_of v cs = Some i end -> opt_py_eqb x x = true).
  { intros [v|] H; [|reflexivity]. destruct H as [i H]. destruct (proj1 (index_of_some _ _ _ H)) as (c & NC & CE).
    cbn. apply (choice_of_refl c v); auto. apply nth_error_In in NC. rewrite forallb_forall in TY. auto. }
  rewrite (O (cp_value p)) by (destruct (cp_value p); [destruct V as (i & I & _); eauto|exact I]).
  rewrite (O (cp_default p)) by (destruct (cp_default p); [destruct D as (i & I & _); eauto|exact I]). reflexivity.
Qed.
