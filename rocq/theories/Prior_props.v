(** C51 - C54, C91 - C95: samplers, priors, and their use in Bayesian optimization. *)
From Verif Require Import Prior_spec Dom_spec Dom_proofs Dom_cast_proofs Dom_props Enc_proofs Prior_sample_proofs Prior_logprob_proofs
  Prior_center_proofs Param_props Space_spec.
From Coq Require Import Lqa Permutation Qabs.
Open Scope Q_scope.
Local Notation length := List.length.
Local Notation get := Param_props.get.
Local Notation legal := Dom_spec.legal.
Local Notation PA := Param_props.PA.
Local Notation U := (unit_float_domain PA).

(** ** Material for the examples *)
Definition ex_id (x : option Q) : option Q := x.
Lemma ex_numeric : numeric ex_id. Proof. intros q. exists q. reflexivity. Qed.
Definition ex_e : Q := 1 # 1000000.
Lemma ex_small : small ex_e. Proof. split; reflexivity. Qed.
Lemma ex_targets_unit n : targets pln pexp n (repeat us n) (inl U).
Proof.
  split; [apply Forall_forall; intros s I; apply repeat_spec in I; subst; exact good_us|].
  split; [apply Forall_forall; intros s I; apply repeat_spec in I; subst; discriminate|].
  exists us, false. split; reflexivity.
Qed.
Lemma ex_targets_two : targets pln pexp 2 [ex_int; ex_log] (inr [pdom ex_int; pdom ex_log]).
Proof.
  split; [constructor; [exact ex_int_good|constructor; [exact ex_log_good|constructor]]|].
  split; [constructor; [discriminate|constructor; [|constructor]]; apply ideal_ok; [exact ideal_p|exact ex_log_good]|].
  split; [reflexivity|]. constructor; [exists false; apply pdom_made, ex_int_good|]. constructor; [exists false; apply pdom_made, ex_log_good|constructor].
Qed.

(** ** C51: borders *)

(** Asked for [n] points of [d] columns, the border sampler gives different corners of the ranges
    asked for: [n] of them, or all [2^d] if [n] is at least that. *)
Theorem border_corners : forall lnf expf d n perm ss to dt, targets lnf expf d ss to -> length ss = d ->
  Permutation perm (seq 0 (2 ^ d)) -> dtype_fits ss dt ->
  exists rows cs, border_sample (Qar lnf expf) d (Num n) perm to dt = Ok rows /\ Forall2 (corner ss) cs rows /\ NoDup cs /\
    length cs = Nat.min n (2 ^ d) /\ (2 ^ d <= n -> forall c, length c = d -> In c cs)%nat.
Proof. exact border_num_l. Qed.
Example border_corners_ex : targets pln pexp 2 [ex_int; ex_log] (inr [pdom ex_int; pdom ex_log]) /\
  Permutation [2; 0; 3; 1]%nat (seq 0 (2 ^ 2)) /\ dtype_fits [ex_int; ex_log] None /\
  border_sample PA 2 (Num 3) [2; 0; 3; 1]%nat (inl U) None = Ok [[Some 0; Some 1]; [Some 0; Some 0]; [Some 1; Some 1]].
Proof.
  split; [exact ex_targets_two|]. split.
  - apply NoDup_Permutation; [repeat constructor; cbn; intuition discriminate|repeat constructor; cbn; intuition discriminate|]. cbn. intuition.
  - split; [left; discriminate|]. lazy. reflexivity.
Qed.
(** Asked for a shape it gives the points of that shape, or refuses if there are too many. *)
Theorem border_shape : forall lnf expf d l t perm ss to dt, total (Shape l) = Ok t -> targets lnf expf d ss to -> length ss = d ->
  Permutation perm (seq 0 (2 ^ d)) -> dtype_fits ss dt ->
  ((t <= 2 ^ d)%nat -> exists rows cs, border_sample (Qar lnf expf) d (Shape l) perm to dt = Ok rows /\ Forall2 (corner ss) cs rows /\
     NoDup cs /\ length cs = t /\ (t = 2 ^ d -> forall c, length c = d -> In c cs)%nat) /\
  ((2 ^ d < t)%nat -> border_sample (Qar lnf expf) d (Shape l) perm to dt = Err ValueError).
Proof. exact border_shape_l. Qed.
Example border_shape_ex : total (Shape [2; 2]%nat) = Ok 4%nat /\ targets pln pexp 2 [us; us] (inl U) /\
  Permutation [0; 1; 2; 3]%nat (seq 0 (2 ^ 2)) /\ dtype_fits [us; us] (Some true) /\
  border_sample PA 2 (Shape [2; 2]%nat) [0; 1; 2; 3]%nat (inl U) (Some true) = Ok [[Some 0; Some 0]; [Some 1; Some 0]; [Some 0; Some 1]; [Some 1; Some 1]].
Proof. split; [reflexivity|]. split; [exact (ex_targets_unit 2)|]. split; [apply Permutation_refl|]. split; [left; discriminate|]. lazy. reflexivity. Qed.
(** Different corners are different points. *)
Theorem corners_differ : forall ss c c' r r', Forall good ss -> corner ss c r -> corner ss c' r' -> c <> c' ->
  exists i v v', nth_error r i = Some (Some v) /\ nth_error r' i = Some (Some v') /\ ~ v == v'.
Proof. exact corners_differ_l. Qed.
Example corners_differ_ex : Forall good [ex_int; ex_log] /\ corner [ex_int; ex_log] [false; true] [Some 3; Some 3] /\
  corner [ex_int; ex_log] [true; true] [Some 7; Some 3].
Proof.
  split; [constructor; [exact ex_int_good|constructor; [exact ex_log_good|constructor]]|].
  split; (split; [reflexivity|]); repeat (constructor; [eexists; split; reflexivity|]); constructor.
Qed.

(** ** C52: log-probabilities *)
Section LogProb.
  Variables lnf expf : Q -> Q.
  Variables (cat_logp : list (option Q) -> option Q -> option Q) (c_log : option Q).
  Notation logprob := (log_prob (Qar lnf expf) cat_logp c_log).
  Notation owns := (owns lnf expf cat_logp c_log).

  (** The claim holds if at most the first parameter has a prior. *)
  Theorem log_prob_sum_partial : forall d0 k fs x tss, length fs = S k -> Forall2 (owns (d0 :: repeat DUnit k) fs) x tss ->
    exists lps, logprob (d0 :: repeat DUnit k) (length fs) x (inr fs) = Ok lps /\ Forall2 (fun lp ts => gives lp (sumq ts)) lps tss.
  Proof. exact (log_prob_first_l lnf expf cat_logp c_log). Qed.

  (** What is computed if the parameters with a prior come first: all but the first of them are
      divided by the number of parameters. *)
  Theorem log_prob_value : forall d0 (is : list (dist (option Q))) k fs x tss, length fs = length (d0 :: is ++ repeat DUnit k) ->
    (forall d, In d (d0 :: is) -> informed d = true) -> Forall2 (owns (d0 :: is ++ repeat DUnit k) fs) x tss ->
    exists lps, logprob (d0 :: is ++ repeat DUnit k) (length fs) x (inr fs) = Ok lps /\
      Forall2 (fun lp ts => gives lp (hd 0 ts + (1 / inject_Z (Z.of_nat (length fs))) * sumq (tl ts))) lps tss.
  Proof. exact (log_prob_value_l lnf expf cat_logp c_log). Qed.
End LogProb.

(** If a parameter without a prior precedes one with a prior there is no result, in any
    arithmetic: with the right number of columns it is an IndexError. *)
Theorem log_prob_gap_fails : forall T (A : arith T) cat_logp c_log (ds : list (dist T)) i j d d' width x frm y, (i < j)%nat ->
  nth_error ds i = Some d -> informed d = false -> nth_error ds j = Some d' -> informed d' = true ->
  log_prob A cat_logp c_log ds width x frm <> Ok y.
Proof. exact @log_prob_gap. Qed.
Theorem log_prob_gap_error : forall T (A : arith T) cat_logp c_log (ds : list (dist T)) i j d d' x frm, (i < j)%nat ->
  nth_error ds i = Some d -> informed d = false -> nth_error ds j = Some d' -> informed d' = true ->
  match frm with inl _ => True | inr l => length l = length ds end -> (forall r, In r x -> length r = length ds) ->
  log_prob A cat_logp c_log ds (length ds) x frm = Err IndexError.
Proof. exact @log_prob_gap_index. Qed.

Definition ex_tn : tnorm (option Q) := mkTN (Some 0) (Some (1 # 2)) (Some 0) (Some 1) (Some (1 # 2)) (Some (1 # 2)).
Definition ex_cat (ws : list (option Q)) (v : option Q) : option Q := v.
Example log_prob_gap_ex : nth_error [DUnit; DTrunc ex_tn] 0 = Some DUnit /\ nth_error [DUnit; DTrunc ex_tn] 1 = Some (DTrunc ex_tn) /\
  log_prob PA ex_cat (Some 0) [DUnit; DTrunc ex_tn] 2 [[Some 0; Some (1 # 2)]] (inl U) = Err IndexError.
Proof. split; [reflexivity|]. split; [reflexivity|]. lazy. reflexivity. Qed.
Example log_prob_value_ex : exists t0 t1, owns pln pexp ex_cat (Some 0) (DTrunc ex_tn :: [DTrunc ex_tn] ++ repeat DUnit 1) [U; U; U]
    [Some 0; Some (1 # 2); Some 1] [t0; t1; 0] /\
  (forall d, In d [DTrunc ex_tn; DTrunc ex_tn] -> informed d = true) /\ ~ t1 == 0.
Proof.
  eexists _, _. split; [|split].
  - repeat (constructor; [eexists; split; [lazy; reflexivity|reflexivity]|]). constructor.
  - intros d [<-|[<-|[]]]; reflexivity.
  - lazy. discriminate.
Qed.
Example log_prob_sum_partial_ex : exists ts, owns pln pexp ex_cat (Some 0) (DTrunc ex_tn :: repeat DUnit 1) [U; U] [Some 0; Some (1 # 2)] ts.
Proof. eexists. repeat (constructor; [eexists; split; [lazy; reflexivity|reflexivity]|]). constructor. Qed.

(** ** Priors for parameters *)
Section Prior.
  Variables lnf expf : Q -> Q.
  Variables (erf erfinv : option Q -> option Q) (cat_logp : list (option Q) -> option Q -> option Q).
  Variables (c_sqrt2 c_log c_inv_sqrt2 e : Q).
  Notation A := (Qar lnf expf).
  Notation priors := (from_parameters A erf (Some c_inv_sqrt2) (Some e)).
  Notation own := (own lnf expf cat_logp (Some c_log)).
  Notation logprob := (log_prob A cat_logp (Some c_log)).

  (** C91: a prior can be made of any parameters, declared with or without a default. *)
  Theorem prior_exists : forall ps, ideal lnf expf -> small e -> numeric erf ->
    (forall p, In p ps -> undeclared lnf expf p \/ exists s x, declared lnf expf p s x) ->
    exists ds, priors ps = Ok ds /\ Forall2 (fun p d => undeclared lnf expf p <-> d = DUnit) ps ds.
  Proof.
    intros ps I E ERF H.
    destruct (priors_total lnf expf erf c_inv_sqrt2 e ps) as (ds & D).
    { intros p P. destruct (H p P) as [N|(s & x & X)]; [rewrite (prior_undeclared lnf expf erf c_inv_sqrt2 e p N); eauto|].
      destruct (prior_declared lnf expf erf c_inv_sqrt2 e E ERF p s x I X) as (t & d & q & P1 & _). eauto. }
    exists ds. split; [exact D|]. apply priors_nth in D. revert H. induction D as [|p d ps ds P D IH]; intros H; constructor.
    - split.
      + intros N. rewrite (prior_undeclared lnf expf erf c_inv_sqrt2 e p N) in P. congruence.
      + intros ->. destruct (H p (or_introl eq_refl)) as [N|(s & x & X)]; [exact N|].
        destruct (prior_declared lnf expf erf c_inv_sqrt2 e E ERF p s x I X) as (t & d & q & P1 & _). congruence.
    - apply IH. intros q Q0. apply H. right. exact Q0.
  Qed.

  (** C91: column [i] of the prior belongs to parameter [i]; no value of the parameter is likelier
      than its default, and every other one is less likely (for logarithmic ranges of integers it
      may be as likely).  The case in which the bounds have the logarithms 0 and 1 aside. *)
  Theorem prior_peaks_at_default : forall ps ds i p s x, ideal lnf expf -> small e -> numeric erf ->
    priors ps = Ok ds -> nth_error ps i = Some p -> declared lnf expf p s x -> ~ log_coincidence lnf us s ->
    exists t d, nth_error ds i = Some (DTrunc t) /\ p_domain A p = Ok d /\
      forall v, legal lnf expf s v -> exists lx lv, own (DTrunc t) d (Some x) lx /\ own (DTrunc t) d (Some v) lv /\
        lv <= lx /\ (exact s -> ~ v == x -> lv < lx).
  Proof.
    intros ps ds i p s x I E ERF D N X NC. apply priors_nth in D.
    destruct (prior_declared lnf expf erf c_inv_sqrt2 e E ERF p s x I X) as (t & d & q & P1 & PD & M & T).
    assert (ND : nth_error ds i = Some (DTrunc t)).
    { clear -D N P1. revert i N. induction D as [|p' d' ps ds P D IH]; intros [|i] N; try discriminate; cbn in *; [|apply IH; exact N].
      injection N as ->. congruence. }
    destruct (declared_inv lnf expf p s x X) as (G & B & L & _).
    exists t, d. split; [exact ND|]. split; [exact PD|]. intros v LV.
    destruct (own_order lnf expf erf cat_logp c_log c_inv_sqrt2 e E ERF s false d x x v (1 - q) t I G B M NC L LV T) as (lx & lv & O1 & O2 & O3 & O4).
    assert (Z : Qabs (enc lnf s x - enc lnf s x) == 0) by (apply Qabs_zero; ring).
    exists lx, lv. split; [exact O1|]. split; [exact O2|]. split.
    - apply O4. rewrite Z. apply Qabs_nonneg.
    - intros EX NE. apply O3. rewrite Z. assert (NN : ~ enc lnf s v == enc lnf s x).
      { intros EE. apply NE. eapply enc_inj; eauto. }
      destruct (Qlt_le_dec 0 (Qabs (enc lnf s v - enc lnf s x))) as [LT|LE]; [exact LT|]. exfalso. apply NN.
      revert LE. apply Qabs_case; intros; lra.
  Qed.
  (** C91: the distribution is centred at the default, with a deviation that depends on the
      confidence only. *)
  Theorem prior_spread : forall ps ds i p s x q, ideal lnf expf -> small e -> e <= 1 # 4 -> numeric erf ->
    priors ps = Ok ds -> nth_error ps i = Some p -> declared lnf expf p s x -> deviation (conf_of p) q ->
    exists t d, nth_error ds i = Some (DTrunc t) /\ p_domain A p = Ok d /\ tn_loc t = to_unit A d (Some x) /\
      gives (tn_scale t) q /\ tn_a t = Some 0 /\ tn_b t = Some 1.
  Proof.
    intros ps ds i p s x q I E E4 ERF D N X DV. apply priors_nth in D.
    assert (P1 : prior_one lnf expf erf c_inv_sqrt2 e p = nth i (map Ok ds) (Err KeyError)).
    { clear -D N. revert i N. induction D as [|p' d' ps ds P D IH]; intros [|i] N; try discriminate; cbn [nth_error map nth] in *; [|apply IH; exact N].
      injection N as ->. exact P. }
    destruct (declared_inv lnf expf p s x X) as (G & B & L & d & c & PD & M & PC & C0 & C1).
    destruct (centre_num lnf expf erf c_inv_sqrt2 e E ERF s false d x c) as (t & CT & T); auto; [apply (make_not_cat lnf expf s); auto|].
    unfold prior_one in P1. rewrite PD in P1. cbn [bind] in P1. rewrite PC in P1. cbn [bind] in P1. rewrite CT in P1.
    assert (ND : nth_error ds i = Some (DTrunc t)).
    { clear -P1. revert i P1. induction ds as [|d' ds IH]; intros [|i] P1; try discriminate; cbn [nth_error map nth] in *; [congruence|apply IH; exact P1]. }
    exists t, d. split; [exact ND|]. split; [exact PD|].
    destruct (tn_ok lnf expf erf c_inv_sqrt2 e E ERF (enc lnf s x) (1 - c)) as (t' & sc & z & T' & H1 & H2 & H3 & H0 & H6 & H7 & _).
    assert (t' = t) as -> by congruence. rewrite (to_unit_l lnf expf s false) by auto. split; [exact H1|]. rewrite H2. split; [|auto].
    exists sc. split; [reflexivity|].
    assert (CC : confidence_of A (conf_of p) = Ok (Some c)).
    { clear -PC. destruct p as [p|p|p|p]; cbn [p_center conf_of] in *; [destruct (fp_default p); [|discriminate]|destruct (ip_default p); [|discriminate]
        |destruct (cp_default p); [|discriminate]; destruct (cp_default_index p); [|discriminate]|discriminate]; apply bind_inv in PC;
      destruct PC as (c' & -> & PC); injection PC; intros; congruence. }
    assert (CQ : 1 - c == q). { destruct DV; cbv in CC; injection CC as <-; reflexivity. }
    assert (1 # 4 <= q) by (destruct DV; discriminate). rewrite H0 by lra. exact CQ.
  Qed.
  (** C91: the farther from the default, on the scale of the parameter, the less likely. *)
  Theorem prior_falls_with_distance : forall ps ds i p s x v w a b c, ideal lnf expf -> small e -> numeric erf ->
    priors ps = Ok ds -> nth_error ps i = Some p -> declared lnf expf p s x -> ~ log_coincidence lnf us s ->
    legal lnf expf s v -> legal lnf expf s w ->
    exists t d, nth_error ds i = Some (DTrunc t) /\ p_domain A p = Ok d /\
      (to_unit A d (Some x) = Some a -> to_unit A d (Some v) = Some b -> to_unit A d (Some w) = Some c ->
       Qabs (b - a) < Qabs (c - a) ->
       exists lv lw, own (DTrunc t) d (Some v) lv /\ own (DTrunc t) d (Some w) lw /\ lw < lv).
  Proof.
    intros ps ds i p s x v w a b c I E ERF D N X NC LV LW. apply priors_nth in D.
    destruct (prior_declared lnf expf erf c_inv_sqrt2 e E ERF p s x I X) as (t & d & q & P1 & PD & M & T).
    assert (ND : nth_error ds i = Some (DTrunc t)).
    { clear -D N P1. revert i N. induction D as [|p' d' ps ds P D IH]; intros [|i] N; try discriminate; cbn in *; [|apply IH; exact N].
      injection N as ->. congruence. }
    destruct (declared_inv lnf expf p s x X) as (G & B & L & _).
    exists t, d. split; [exact ND|]. split; [exact PD|]. rewrite !(to_unit_l lnf expf s false) by auto. intros [= <-] [= <-] [= <-] H.
    destruct (own_order lnf expf erf cat_logp c_log c_inv_sqrt2 e E ERF s false d x v w (1 - q) t I G B M NC LV LW T) as (lv & lw & O1 & O2 & O3 & O4).
    exists lv, lw. auto.
  Qed.
  (** C91: what a truncated normal distribution of a prior gives lies in the unit interval. *)
  Theorem prior_draws_in_unit : forall ps ds i t p, small e -> numeric erf -> numeric erfinv -> ideal lnf expf ->
    (forall q, In q ps -> undeclared lnf expf q \/ exists s x, declared lnf expf q s x) ->
    priors ps = Ok ds -> nth_error ds i = Some (DTrunc t) ->
    exists v, tn_icdf A erfinv (Some c_sqrt2) (Some e) t (Some p) = Some v /\ 0 <= v /\ v <= 1.
  Proof.
    intros ps ds i t p E ERF ERFI I H D N. apply priors_nth in D.
    assert (PO : exists q, In q ps /\ prior_one lnf expf erf c_inv_sqrt2 e q = Ok (DTrunc t)).
    { clear -D N. revert i N. induction D as [|p' d' ps ds P D IH]; intros [|i] N; try discriminate; cbn in *.
      - injection N as ->. exists p'. auto.
      - destruct (IH i N) as (q & Q0 & Q1). exists q. auto. }
    destruct PO as (q & Q0 & Q1). destruct (H q Q0) as [X|(s & x & X)]; [rewrite (prior_undeclared lnf expf erf c_inv_sqrt2 e q X) in Q1; discriminate|].
    destruct (prior_declared lnf expf erf c_inv_sqrt2 e E ERF q s x I X) as (t' & d & q' & P1 & _ & _ & T).
    assert (t' = t) as -> by congruence. exact (truncnorm_range_l lnf expf erf erfinv c_sqrt2 c_inv_sqrt2 e E ERF ERFI _ _ p t T).
  Qed.

  (** C52 refuted: for a parameter without a default followed by one with a default there is an
      IndexError instead of the log-probability. *)
  Theorem log_prob_index_fails : ideal lnf expf -> small e -> numeric erf ->
    exists ps ds fs r, length fs = length ps /\ length r = length ps /\ priors ps = Ok ds /\ mapM (p_domain A) ps = Ok fs /\
      (exists ts, owns lnf expf cat_logp (Some c_log) ds fs r ts) /\
      logprob ds (length fs) [r] (inr fs) = Err IndexError.
  Proof.
    intros I E ERF.
    destruct (float_parameter A (Some 0) (Some 1) false false None "medium") as [p1|] eqn:P1; [|discriminate].
    destruct (float_parameter A (Some 0) (Some 1) false false (Some (Some 0)) "medium") as [p2|] eqn:P2; [|discriminate].
    assert (D2 : declared lnf expf (PF p2) us 0) by (eapply declared_float; exact P2).
    assert (U1 : undeclared lnf expf (PF p1)) by (eapply undeclared_float; exact P1).
    destruct (prior_exists [PF p1; PF p2] I E ERF) as (ds & D & _).
    { intros q [<-|[<-|[]]]; [left; exact U1|right; eauto]. }
    assert (F1 : fp_dom p1 = unit_float_domain A) by (injection P1 as <-; reflexivity).
    assert (F2 : fp_dom p2 = unit_float_domain A) by (injection P2 as <-; reflexivity).
    assert (DD := priors_nth lnf expf erf c_inv_sqrt2 e _ _ D). inversion DD as [|? d1 ? ds' Q1 DD']; subst. inversion DD' as [|? d2 ? ds'' Q2 DD'']; subst.
    inversion DD''; subst. rewrite (prior_undeclared lnf expf erf c_inv_sqrt2 e _ U1) in Q1. injection Q1 as <-.
    destruct (prior_declared lnf expf erf c_inv_sqrt2 e E ERF _ _ _ I D2) as (t & d & q & Q2' & PD & M & T). rewrite Q2 in Q2'. injection Q2' as ->.
    exists [PF p1; PF p2], [DUnit; DTrunc t], [unit_float_domain A; unit_float_domain A], [Some 0; Some 0].
    split; [reflexivity|]. split; [reflexivity|]. split; [exact D|]. split; [cbn [mapM p_domain bind]; rewrite F1, F2; reflexivity|]. split.
    - destruct (own_order lnf expf erf cat_logp c_log c_inv_sqrt2 e E ERF us false d 0 0 0 (1 - q) t) as (lv & lw & O1 & _); auto.
      + exact good_us.
      + intros (_ & X & _). discriminate.
      + split; [apply Qle_refl|]. split; [discriminate|]. split; discriminate.
      + split; [apply Qle_refl|]. split; [discriminate|]. split; discriminate.
      + assert (d = unit_float_domain A) as -> by (cbn in PD; congruence).
        exists [0; lv]. constructor; [exists 0; split; reflexivity|]. constructor; [exact O1|]. constructor.
    - apply (log_prob_gap_error _ A cat_logp (Some c_log) [DUnit; DTrunc t] 0 1 DUnit (DTrunc t)); auto. intros r [<-|[]]. reflexivity.
  Qed.
  (** C52 refuted: with two parameters the second counts half. *)
  Theorem log_prob_weight_wrong : ideal lnf expf -> small e -> numeric erf ->
    exists ps ds fs r ts lp, priors ps = Ok ds /\ mapM (p_domain A) ps = Ok fs /\
      owns lnf expf cat_logp (Some c_log) ds fs r ts /\ logprob ds (length fs) [r] (inr fs) = Ok [lp] /\ ~ gives lp (sumq ts).
  Proof.
    intros I E ERF.
    destruct (float_parameter A (Some 0) (Some 1) false false (Some (Some 0)) "medium") as [p2|] eqn:P2; [|discriminate].
    assert (D2 : declared lnf expf (PF p2) us 0) by (eapply declared_float; exact P2).
    destruct (prior_exists [PF p2; PF p2] I E ERF) as (ds & D & _).
    { intros q [<-|[<-|[]]]; right; eauto. }
    assert (F2 : fp_dom p2 = unit_float_domain A) by (injection P2 as <-; reflexivity).
    assert (DD := priors_nth lnf expf erf c_inv_sqrt2 e _ _ D). inversion DD as [|? d1 ? ds' Q1 DD']; subst. inversion DD' as [|? d2 ? ds'' Q2 DD'']; subst.
    inversion DD''; subst.
    destruct (prior_declared lnf expf erf c_inv_sqrt2 e E ERF _ _ _ I D2) as (t & d & q & Q2' & PD & M & T).
    rewrite Q2 in Q2'. injection Q2' as ->. rewrite Q2 in Q1. injection Q1 as <-.
    assert (NC : ~ log_coincidence lnf us us) by (intros (_ & X & _); discriminate).
    assert (L0 : legal lnf expf us 0) by (split; [apply Qle_refl|]; split; [discriminate|]; split; discriminate).
    assert (L1 : legal lnf expf us 1) by (split; [discriminate|]; split; [apply Qle_refl|]; split; discriminate).
    destruct (own_order lnf expf erf cat_logp c_log c_inv_sqrt2 e E ERF us false d 0 0 1 (1 - q) t I good_us eq_refl M NC L0 L1 T) as (l0 & l1 & O0 & O1 & LT & _).
    assert (LT' : l1 < l0) by (apply LT; reflexivity). clear LT.
    assert (d = unit_float_domain A) as -> by (cbn in PD; congruence).
    assert (X : exists v l, own (DTrunc t) (unit_float_domain A) (Some v) l /\ ~ l == 0).
    { destruct (Qeq_dec l0 0) as [Z|Z]; [exists 1, l1|exists 0, l0]; split; auto. lra. }
    destruct X as (v & l & OV & NZ).
    destruct (log_prob_value lnf expf cat_logp (Some c_log) (DTrunc t) [DTrunc t] 0 [unit_float_domain A; unit_float_domain A] [[Some v; Some v]] [[l; l]]) as (lps & LP & V).
    - reflexivity.
    - intros d' [<-|[<-|[]]]; reflexivity.
    - constructor; [|constructor]. constructor; [exact OV|]. constructor; [exact OV|]. constructor.
    - inversion V as [|lp ? lps' ? GV V']; subst. inversion V'; subst.
      exists [PF p2; PF p2], [DTrunc t; DTrunc t], [unit_float_domain A; unit_float_domain A], [Some v; Some v], [l; l], lp.
      split; [exact D|]. split; [cbn [mapM p_domain bind]; rewrite F2; reflexivity|].
      split; [constructor; [exact OV|]; constructor; [exact OV|]; constructor|]. split; [exact LP|].
      intros (w & -> & W). destruct GV as (w' & [= <-] & W'). apply NZ. unfold sumq in *. cbn [hd tl fold_right List.length] in *.
      change (1 / inject_Z (Z.of_nat 2)) with (1 # 2) in W'. lra.
  Qed.

  (** C53 refuted: for a categorical parameter the prior is a normal distribution over the indices;
      a choice next to the default is likelier than one farther away. *)
  Theorem categorical_prior_is_normal : forall ps ds i p s x j k, ideal lnf expf -> small e -> numeric erf ->
    priors ps = Ok ds -> nth_error ps i = Some (PC p) -> declared lnf expf (PC p) s x ->
    (0 <= j < Z.of_nat (length (cp_choices p)))%Z -> (0 <= k < Z.of_nat (length (cp_choices p)))%Z ->
    Qabs (inject_Z j - x) < Qabs (inject_Z k - x) ->
    exists t d lj lk, nth_error ds i = Some (DTrunc t) /\ p_domain A (PC p) = Ok d /\
      own (DTrunc t) d (Some (inject_Z j)) lj /\ own (DTrunc t) d (Some (inject_Z k)) lk /\ lk < lj.
  Proof.
    intros ps ds i p s x j k I E ERF D N X J K H.
    assert (NL : length (cp_choices p) = length (cp_choices p) /\ s = DInt 0 (Z.of_nat (length (cp_choices p)) - 1) false None).
    { inversion X; subst. split; [reflexivity|]. f_equal. unfold categorical_parameter in *.
      match goal with H : _ = Ok p |- _ => revert H end. destruct (Nat.leb _ 1); [discriminate|]. destruct (negb _); [discriminate|]. destruct (negb _); [discriminate|].
      destruct (negb _); [discriminate|]. destruct (negb _); [discriminate|]. intros [= <-]. reflexivity. }
    destruct NL as (_ & ES). destruct (declared_inv lnf expf _ s x X) as (G & B & L & _).
    set (n := Z.of_nat (length (cp_choices p))) in *.
    assert (LG : forall m, (0 <= m < n)%Z -> legal lnf expf s (inject_Z m)).
    { intros m Hm. rewrite ES. split; [cbn; rewrite <- Zle_Qle; lia|]. split; [cbn; rewrite <- Zle_Qle; lia|]. split; [|discriminate]. intros _. eexists. reflexivity. }
    apply priors_nth in D.
    destruct (prior_declared lnf expf erf c_inv_sqrt2 e E ERF (PC p) s x I X) as (t & d & q & P1 & PD & M & T).
    assert (ND : nth_error ds i = Some (DTrunc t)).
    { clear -D N P1. revert i N. induction D as [|p' d' ps ds P D IH]; intros [|i] N; try discriminate; cbn [nth_error] in *; [|apply IH; exact N].
      injection N as ->. congruence. }
    destruct (own_order lnf expf erf cat_logp c_log c_inv_sqrt2 e E ERF s false d x (inject_Z j) (inject_Z k) (1 - q) t I G B M) as (lj & lk & O1 & O2 & O3 & _); auto.
    { rewrite ES. intros (_ & Y & _). discriminate. }
    exists t, d, lj, lk. split; [exact ND|]. split; [exact PD|]. split; [exact O1|]. split; [exact O2|]. apply O3.
    assert (N2 : (2 <= n)%Z). { assert (Z : lo s < hi s) by apply G. rewrite ES in Z. cbn in Z. rewrite <- Zlt_Qlt in Z. lia. }
    assert (EV : forall m, legal lnf expf s m -> enc lnf s m == m / inject_Z (n - 1)).
    { intros m (M0 & M1 & MI & MB).
      assert (P : 0 < inject_Z (n - 1)) by (change 0 with (inject_Z 0); rewrite <- Zlt_Qlt; lia).
      assert (EL : lin lnf s m == m / inject_Z (n - 1)).
      { rewrite ES. unfold lin. cbn [is_log lo width]. replace (n - 1 - 0)%Z with (n - 1)%Z by lia. change (inject_Z 0) with 0. field. lra. }
      unfold enc. rewrite (cell_lin lnf expf I s m); [exact EL|exact G|rewrite ES; split; reflexivity|]. split; [exact M0|]. split; [exact M1|]. split; [exact MI|exact MB]. }
    rewrite (EV x), !EV by auto. unfold Qdiv.
    assert (P : 0 < / inject_Z (n - 1)) by (apply Qinv_lt_0_compat; change 0 with (inject_Z 0); rewrite <- Zlt_Qlt; lia).
    setoid_replace (inject_Z j * / inject_Z (n - 1) - x * / inject_Z (n - 1)) with ((inject_Z j - x) * / inject_Z (n - 1)) by ring.
    setoid_replace (inject_Z k * / inject_Z (n - 1) - x * / inject_Z (n - 1)) with ((inject_Z k - x) * / inject_Z (n - 1)) by ring.
    rewrite !Qabs_Qmult, (Qabs_pos (/ inject_Z (n - 1))) by lra. apply Qmult_lt_r; auto.
  Qed.
End Prior.

(** Examples for the theorems about priors: a float, an integer and a categorical parameter. *)
Definition ex_pf : fparam (option Q) := get no_f (float_parameter PA (Some 1) (Some 9) false false (Some (Some 3)) "medium").
Definition ex_pi : iparam (option Q) := get no_i (integer_parameter PA (Some 1) (Some 5) true false (Some (Some 2)) "high").
Definition ex_pc : cparam := get no_c (categorical_parameter [VStr "a"; VStr "b"; VStr "c"] (Some (VStr "a")) "low").
Definition ex_pu : fparam (option Q) := get no_f (float_parameter PA (Some 0) (Some 2) false false None "low").
Lemma ex_pf_declared : declared pln pexp (PF ex_pf) (DFloat 1 9 false None) 3.
Proof. eapply (declared_float pln pexp 1 9 false false 3 "medium"). lazy. reflexivity. Qed.
Lemma ex_pi_declared : declared pln pexp (PI ex_pi) (DInt 1 5 true None) 2.
Proof. eapply (declared_int pln pexp 1 5 true false 2 "high"). lazy. reflexivity. Qed.
Lemma ex_pc_declared : declared pln pexp (PC ex_pc) (DInt 0 2 false None) 0.
Proof.
  eapply (declared_cat pln pexp [VStr "a"; VStr "b"; VStr "c"] (VStr "a") "low" ex_pc 0); try reflexivity.
  intros [|[|[|[|j]]]] w [= <-]; cbn; try reflexivity; discriminate.
Qed.
Lemma ex_pu_undeclared : undeclared pln pexp (PF ex_pu).
Proof. eapply (undeclared_float pln pexp (Some 0) (Some 2) false false "low"). lazy. reflexivity. Qed.
Definition ex_ps := [PF ex_pf; PI ex_pi; PC ex_pc; PF ex_pu].
Lemma ex_ps_ok p : In p ex_ps -> undeclared pln pexp p \/ exists s x, declared pln pexp p s x.
Proof.
  intros [<-|[<-|[<-|[<-|[]]]]]; [right|right|right|left; exact ex_pu_undeclared]; eexists _, _; [apply ex_pf_declared|apply ex_pi_declared|apply ex_pc_declared].
Qed.
(** In particular the claim of C52 is false. *)
Theorem log_prob_index_refuted : exists ps ds fs r, length fs = length ps /\ length r = length ps /\
  from_parameters PA ex_id (Some (1 # 2)) (Some ex_e) ps = Ok ds /\ mapM (p_domain PA) ps = Ok fs /\
  (exists ts, owns pln pexp ex_cat (Some 0) ds fs r ts) /\ log_prob PA ex_cat (Some 0) ds (length fs) [r] (inr fs) = Err IndexError.
Proof. exact (log_prob_index_fails pln pexp ex_id ex_cat 0 (1 # 2) ex_e ideal_p ex_small ex_numeric). Qed.
(** And also where there is no error. *)
Theorem log_prob_weight_refuted : exists ps ds fs r ts lp,
  from_parameters PA ex_id (Some (1 # 2)) (Some ex_e) ps = Ok ds /\ mapM (p_domain PA) ps = Ok fs /\
  owns pln pexp ex_cat (Some 0) ds fs r ts /\ log_prob PA ex_cat (Some 0) ds (length fs) [r] (inr fs) = Ok [lp] /\ ~ gives lp (sumq ts).
Proof. exact (log_prob_weight_wrong pln pexp ex_id ex_cat 0 (1 # 2) ex_e ideal_p ex_small ex_numeric). Qed.
Example prior_ex : ideal pln pexp /\ small ex_e /\ numeric ex_id /\
  (exists ds t, from_parameters PA ex_id (Some (1 # 2)) (Some ex_e) ex_ps = Ok ds /\ nth_error ds 1 = Some (DTrunc t)) /\
  nth_error ex_ps 1 = Some (PI ex_pi) /\ declared pln pexp (PI ex_pi) (DInt 1 5 true None) 2 /\
  ~ log_coincidence pln us (DInt 1 5 true None) /\
  legal pln pexp (DInt 1 5 true None) 2 /\ legal pln pexp (DInt 1 5 true None) 5.
Proof.
  split; [exact ideal_p|]. split; [exact ex_small|]. split; [exact ex_numeric|]. split.
  { destruct (prior_exists pln pexp ex_id (1 # 2) ex_e ex_ps ideal_p ex_small ex_numeric ex_ps_ok) as (ds & D & F). exists ds.
    destruct (prior_peaks_at_default pln pexp ex_id (fun _ x => x) 0 (1 # 2) ex_e ex_ps ds 0 (PF ex_pf) _ _ ideal_p ex_small ex_numeric D eq_refl ex_pf_declared) as (t0 & _).
    { intros (_ & X & _). discriminate. }
    inversion F as [|? d0 ? l0 _ F1]; subst. inversion F1 as [|? d1 ? l1 H1 F2]; subst.
    assert (P := priors_nth pln pexp ex_id (1 # 2) ex_e ex_ps _ D). inversion P as [|? ? ? ? _ P1]; subst. inversion P1 as [|? ? ? ? Q1 _]; subst.
    destruct (prior_declared pln pexp ex_id (1 # 2) ex_e ex_small ex_numeric _ _ _ ideal_p ex_pi_declared) as (t & _ & _ & Q1' & _).
    exists t. split; [exact D|]. cbn [nth_error]. congruence. }
  split; [reflexivity|]. split; [exact ex_pi_declared|]. split; [intros (_ & _ & _ & X); revert X; lazy; discriminate|].
  split; (split; [discriminate|]; split; [discriminate|]; split; [intros _; eexists; reflexivity|discriminate]).
Qed.
Example prior_spread_ex : ex_e <= 1 # 4 /\ deviation (conf_of (PI ex_pi)) (1 # 4) /\ deviation (conf_of (PC ex_pc)) (3 # 4).
Proof. split; [discriminate|]. split; constructor. Qed.
Example categorical_prior_ex : nth_error ex_ps 2 = Some (PC ex_pc) /\ declared pln pexp (PC ex_pc) (DInt 0 2 false None) 0 /\
  length (cp_choices ex_pc) = 3%nat /\ Qabs (inject_Z 1 - 0) < Qabs (inject_Z 2 - 0).
Proof. split; [reflexivity|]. split; [exact ex_pc_declared|]. split; reflexivity. Qed.

(** C53 refuted: of three choices, the first being the default, the second is likelier than the third. *)
Theorem categorical_prior_refuted : exists p ds t d l1 l2, length (cp_choices p) = 3%nat /\ cp_default_index p = Some 0%nat /\
  from_parameters PA ex_id (Some (1 # 2)) (Some ex_e) [PC p] = Ok ds /\ ds = [DTrunc t] /\ p_domain PA (PC p) = Ok d /\
  own pln pexp ex_cat (Some 0) (DTrunc t) d (Some 1) l1 /\ own pln pexp ex_cat (Some 0) (DTrunc t) d (Some 2) l2 /\ l2 < l1.
Proof.
  destruct (prior_exists pln pexp ex_id (1 # 2) ex_e [PC ex_pc] ideal_p ex_small ex_numeric) as (ds & D & F).
  { intros p [<-|[]]. right. eexists _, _. exact ex_pc_declared. }
  destruct (categorical_prior_is_normal pln pexp ex_id ex_cat 0 (1 # 2) ex_e [PC ex_pc] ds 0 ex_pc _ _ 1 2 ideal_p ex_small ex_numeric D eq_refl ex_pc_declared)
    as (t & d & l1 & l2 & N & PD & O1 & O2 & L); [cbn; lia|cbn; lia|reflexivity|].
  exists ex_pc, ds, t, d, l1, l2. split; [reflexivity|]. split; [reflexivity|]. split; [exact D|]. split; [|auto].
  inversion F as [|? d0 ? l0 _ F1]; subst. inversion F1; subst. injection N as ->. reflexivity.
Qed.

Print Assumptions border_corners.
Print Assumptions border_shape.
Print Assumptions corners_differ.
Print Assumptions log_prob_sum_partial.
Print Assumptions log_prob_value.
Print Assumptions log_prob_gap_fails.
Print Assumptions log_prob_gap_error.
Print Assumptions prior_exists.
Print Assumptions prior_peaks_at_default.
Print Assumptions prior_falls_with_distance.
Print Assumptions prior_spread.
Print Assumptions prior_draws_in_unit.
Print Assumptions log_prob_index_fails.
Print Assumptions log_prob_index_refuted.
Print Assumptions log_prob_weight_wrong.
Print Assumptions log_prob_weight_refuted.
Print Assumptions categorical_prior_is_normal.
Print Assumptions categorical_prior_refuted.
