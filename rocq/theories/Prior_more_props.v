(** C53, C54, C92 - C94: categorical weights, columns, samples, weighted samplers and piBO. *)
From Verif Require Import Prior_spec Dom_spec Dom_proofs Dom_cast_proofs Dom_props Enc_proofs Prior_sample_proofs
  Prior_center_proofs Prior_weighted_proofs Prior_more_proofs Prior_props Param_props Space_props Space_spec.
From Coq Require Import Lqa Permutation Qabs.
Open Scope Q_scope.
Local Notation length := List.length.
Local Notation get := Param_props.get.
Local Notation legal := Dom_spec.legal.
Local Notation PA := Param_props.PA.
Local Notation U := (unit_float_domain PA).

(** ** C53: the weights for a categorical domain *)

(** Given such a domain over the indices [0 .. n-1], the centre gets the confidence and every
    other index the same share of the rest. *)
Theorem categorical_weights : forall lnf expf n d i conf, indices (Qar lnf expf) n true = Ok d -> (2 <= n)%Z -> (0 <= i < n)%Z ->
  0 <= conf -> conf <= 1 ->
  exists ws, cat_weights (Qar lnf expf) d (Some (inject_Z i)) (Some conf) = Ok (map Some ws) /\ Z.of_nat (length ws) = n /\
    sumq ws == 1 /\ Forall (fun w => 0 <= w) ws /\ nth_error ws (Z.to_nat i) = Some conf /\
    forall j w, nth_error ws j = Some w -> j <> Z.to_nat i -> w == (1 - conf) / inject_Z (n - 1).
Proof. exact cat_weights_l. Qed.
Example categorical_weights_ex : exists d, indices PA 3 true = Ok d /\
  match cat_weights PA d (Some 1) (Some (1 # 2)) with Ok ws => map (option_map Qred) ws | Err _ => [] end = [Some (1 # 4); Some (1 # 2); Some (1 # 4)].
Proof. eexists. split; [reflexivity|]. lazy. reflexivity. Qed.
(** C53 refuted: the domain of a categorical parameter's indices is not one that is treated as
    categorical, so a prior made of parameters never has these weights. *)
Theorem categorical_weights_unused : forall T (A : arith T) cs dv conf p d, categorical_parameter cs dv conf = Ok p ->
  p_domain A (PC p) = Ok d -> d_cat d = false.
Proof.
  intros T A cs dv conf p d _ H. cbn [p_domain] in H. unfold indices, integer in H. revert H.
  repeat (match goal with |- context [match ?x with _ => _ end] => destruct x; cbn [bind] end; try discriminate); intros [= <-]; reflexivity.
Qed.
Example categorical_weights_unused_ex : exists d, categorical_parameter [VStr "a"; VStr "b"; VStr "c"] (Some (VStr "a")) "low" = Ok ex_pc /\ p_domain PA (PC ex_pc) = Ok d.
Proof. eexists. split; reflexivity. Qed.
(** Refuted: for a categorical domain of other integers than the indices the index drawn is taken
    for a value; of the values 5, 6 and 7 only 5 can be had. *)
Theorem categorical_offset_refuted : exists d ds, integer PA (Some 5) (Some 7) false None true = Ok d /\
  make_centered PA ex_id (Some (1 # 2)) (Some ex_e) [d] [Some (Some 7, Some 1)] = Ok ds /\
  centered_sample PA ds [[Some 0]; [Some 1]; [Some 2]] (inl d) None = Ok [[Some 0]; [Some 1]; [Some 2]].
Proof. eexists _, _. split; [lazy; reflexivity|]. split; [lazy; reflexivity|]. lazy. reflexivity. Qed.

(** ** C54: the columns of the prior are those of the encoder *)
Theorem columns_partial : forall lnf expf s en, is_space lnf expf s -> bo_encoder (Qar lnf expf) s = Ok en ->
  (map fst (transformers en) = map fst (bo_params s) <->
   forall n p c q, In (n, p) (s_numerical s) -> In (c, q) (s_categoricals s) -> String.ltb n c = true).
Proof. exact columns_l. Qed.

Definition ex_two : list (string * param (option Q)) := [("kernel", PC ex_c); ("lr", PF ex_g)].
Lemma ex_two_space : is_space pln pexp ex_two.
Proof.
  exists ex_two. split; [repeat constructor; cbn; intuition discriminate|]. split; [|reflexivity].
  intros k p [[= <- <-]|[[= <- <-]|[]]]; [exists ex_cs; split; [apply ex_c_reach|apply ex_cs_nan]|exists 1%Q, 9%Q; apply ex_g_reach].
Qed.
Example columns_partial_ex : exists en, is_space pln pexp ex_s /\ bo_encoder PA ex_s = Ok en /\ map fst (transformers en) = ["lr"; "opt"] /\
  map fst (bo_params ex_s) = ["lr"; "opt"].
Proof. eexists. split; [exact ex_s_space|]. split; [lazy; reflexivity|]. split; lazy; reflexivity. Qed.
(** Refuted: a categorical parameter named before a numerical one; the prior's columns are in the
    other order than the encoder's, whose rows it is asked about. *)
Theorem columns_refuted : exists s en, is_space pln pexp s /\ bo_encoder PA s = Ok en /\
  map fst (transformers en) = ["kernel"; "lr"] /\ map fst (bo_params s) = ["lr"; "kernel"].
Proof. exists ex_two. eexists. split; [exact ex_two_space|]. split; [lazy; reflexivity|]. split; lazy; reflexivity. Qed.

(** ** C92: samples *)

(** Uniform draws become legal values, the dtype being no obstacle. *)
Theorem uniform_legal : forall lnf expf n ss to x dt, targets lnf expf n ss to -> Forall (unit_row n) x -> dtype_fits ss dt ->
  exists y, uniform_sample (Qar lnf expf) n x to dt = Ok y /\ length y = length x /\ Forall (legal_row lnf expf ss) y.
Proof. exact uniform_legal_l. Qed.
Theorem sobol_legal : forall lnf expf n sz t ss to x dt, (1 <= n)%nat -> total sz = Ok t -> targets lnf expf n ss to ->
  Forall (unit_row n) x -> dt <> Some false ->
  exists y, sobol_sample (Qar lnf expf) n sz x to dt = Ok y /\ length y = length x /\ Forall (legal_row lnf expf ss) y.
Proof. exact sobol_legal_l. Qed.
Theorem centered_legal : forall lnf expf ds ss to raw dt, ideal lnf expf -> targets lnf expf (length ds) ss to ->
  Forall (Forall2 (draws lnf expf) ds) raw -> dtype_fits ss dt ->
  exists y, centered_sample (Qar lnf expf) ds raw to dt = Ok y /\ length y = length raw /\ Forall (legal_row lnf expf ss) y.
Proof. exact centered_legal_l. Qed.
Lemma ex_unit_rows : Forall (unit_row 2) [[Some (1 # 2); Some (3 # 4)]; [Some 0; Some (1 # 3)]].
Proof. repeat constructor; eexists; (split; [reflexivity|]); split; discriminate. Qed.
Example uniform_legal_ex : targets pln pexp 2 [ex_int; ex_log] (inr [pdom ex_int; pdom ex_log]) /\
  Forall (unit_row 2) [[Some (1 # 2); Some (3 # 4)]; [Some 0; Some (1 # 3)]] /\ dtype_fits [ex_int; ex_log] None /\
  total (Num 2) = Ok 2%nat.
Proof. split; [exact ex_targets_two|]. split; [exact ex_unit_rows|]. split; [left; discriminate|reflexivity]. Qed.
Example centered_legal_ex : ideal pln pexp /\ Forall (Forall2 (draws pln pexp) [DUnit; DTrunc ex_tn]) [[Some (1 # 2); Some (3 # 4)]; [Some 0; Some (1 # 3)]].
Proof. split; [exact ideal_p|]. repeat constructor; discriminate. Qed.

(** Refuted: with an integer dtype, all that a Sobol sampler or a centred prior gives for integer
    ranges is the lowest values. *)
Theorem sobol_integer_dtype : forall lnf expf n sz t ss to x, (1 <= n)%nat -> total sz = Ok t -> targets lnf expf n ss to -> length ss = n ->
  Forall (fun s => integral s = true) ss -> Forall (unit_row n) x -> (forall r q, In r x -> In (Some q) r -> q < 1) ->
  exists y, sobol_sample (Qar lnf expf) n sz x to (Some false) = Ok y /\ length y = length x /\ Forall (corner ss (repeat false n)) y.
Proof. exact sobol_integer_l. Qed.
Theorem centered_integer_dtype : forall lnf expf ds ss to raw, ideal lnf expf -> targets lnf expf (length ds) ss to ->
  Forall (fun s => integral s = true) ss ->
  (forall d, In d ds -> dist_dom (Qar lnf expf) d = unit_float_domain (Qar lnf expf)) -> Forall (unit_row (length ds)) raw ->
  (forall r q, In r raw -> In (Some q) r -> q < 1) ->
  exists y, centered_sample (Qar lnf expf) ds raw to (Some false) = Ok y /\ length y = length raw /\
    Forall (corner ss (repeat false (length ds))) y.
Proof. exact centered_integer_l. Qed.
Example integer_dtype_ex : targets pln pexp 2 [ex_int; ex_int] (inl (pdom ex_int)) /\ Forall (fun s => integral s = true) [ex_int; ex_int] /\
  (forall r q, In r [[Some (1 # 2); Some (3 # 4)]; [Some 0; Some (1 # 3)]] -> In (Some q) r -> q < 1) /\
  (forall d, In d [DUnit; DTrunc ex_tn] -> dist_dom PA d = U).
Proof.
  split.
  { split; [constructor; [exact ex_int_good|constructor; [exact ex_int_good|constructor]]|]. split; [constructor; [discriminate|constructor; [discriminate|constructor]]|].
    exists ex_int, false. split; [apply pdom_made, ex_int_good|reflexivity]. }
  split; [repeat constructor|]. split.
  - intros r q [<-|[<-|[]]] [[= <-]|[[= <-]|[]]]; reflexivity.
  - intros d [<-|[<-|[]]]; reflexivity.
Qed.
(** The dtype thus changes what is sampled, though all values asked for are integers; and it is
    the dtype a weighted sampler asks for if none is given. *)
Theorem integer_dtype_refuted : exists to x y y', sobol_sample PA 1 (Num 1) x to None = Ok y /\
  sobol_sample PA 1 (Num 1) x to (weighted_dtype to None) = Ok y' /\ y = [[Some 6]] /\ y' = [[Some 3]].
Proof.
  exists (inl (pdom ex_int)), [[Some (7 # 10)]]. eexists _, _. split; [lazy; reflexivity|]. split; [lazy; reflexivity|]. split; reflexivity.
Qed.

(** ** C93: weighted samplers *)

(** The probabilities are the weights, divided by their sum. *)
Theorem weighted_probabilities : forall lnf expf cols (ws : list Q), (2 <= length cols)%nat -> length cols = length ws ->
  (forall c, In c cols -> c = hd 0%nat cols) -> ~ sumq ws == 0 ->
  exists ps, weighted_new (Qar lnf expf) cols (map Some ws) = Ok (map Some ps) /\ length ps = length ws /\ sumq ps == 1 /\
    forall i w, nth_error ws i = Some w -> exists p, nth_error ps i = Some p /\ p * sumq ws == w.
Proof. exact weighted_new_l. Qed.
Example weighted_probabilities_ex : (2 <= length [4; 4; 4])%nat /\ length [4; 4; 4]%nat = length [1; 2; 5] /\
  (forall c, In c [4; 4; 4]%nat -> c = hd 0%nat [4; 4; 4]%nat) /\ ~ sumq [1; 2; 5] == 0.
Proof. split; [cbn; lia|]. split; [reflexivity|]. split; [intros c [<-|[<-|[<-|[]]]]; reflexivity|]. lazy. discriminate. Qed.
(** Row [j] is of the sampler chosen for it: if it is the k-th row of that sampler, it is the k-th
    of those the sampler gave; nothing of the uninitialised tensor is left. *)
Theorem weighted_rows : forall T (A : arith T) samplers chosen garbage to dt (y : list (list T)),
  (forall k s n rows, nth_error samplers k = Some s -> s (weighted_dtype to dt) n = Ok rows -> length rows = n) ->
  length garbage = length chosen -> Forall (fun c => (c < length samplers)%nat) chosen ->
  weighted_sample A samplers chosen garbage to dt = Ok y ->
  length y = length chosen /\
  forall j c, nth_error chosen j = Some c ->
    exists s rows r, nth_error samplers c = Some s /\
      s (weighted_dtype to dt) (count_occ Nat.eq_dec chosen c) = Ok rows /\
      nth_error rows (count_occ Nat.eq_dec (firstn j chosen) c) = Some r /\
      nth_error y j = Some (map (to_dtype A (weighted_dtype to dt)) r).
Proof. exact @weighted_rows_l. Qed.
Theorem weighted_total : forall T (A : arith T) samplers chosen garbage to dt,
  (forall s n, In s samplers -> exists rows : list (list T), s (weighted_dtype to dt) n = Ok rows) ->
  exists y, weighted_sample A samplers chosen garbage to dt = Ok y.
Proof. exact @weighted_total_l. Qed.
Definition ex_samplers : list (option bool -> nat -> res (list (list (option Q)))) :=
  [(fun _ n => Ok (map (fun i => [Some (inject_Z (Z.of_nat i))]) (seq 0 n))); (fun _ n => Ok (repeat [Some (1 # 2)] n))].
Example weighted_rows_ex :
  (forall k s n rows, nth_error ex_samplers k = Some s -> s (weighted_dtype (inl U) None) n = Ok rows -> length rows = n) /\
  weighted_sample PA ex_samplers [0; 1; 0]%nat [[None]; [None]; [None]] (inl U) None = Ok [[Some 0]; [Some (1 # 2)]; [Some 1]].
Proof.
  split; [|lazy; reflexivity]. intros [|[|k]] s n rows; [| |destruct k; discriminate]; intros [= <-] [= <-]; [rewrite map_length, seq_length|rewrite repeat_length]; reflexivity.
Qed.

(** The dtype used if none is given holds all the values asked for. *)
Theorem weighted_dtype_fits : forall lnf expf n ss to, targets lnf expf n ss to -> dtype_fits ss (weighted_dtype to None).
Proof.
  intros lnf expf n ss to (G & _ & H).
  assert (B : forall s cat d, good s -> make lnf expf s cat = Ok d -> is_int (d_bounds d) = integral s).
  { intros s cat d Gs M. apply make_dom in M; auto. subst d. destruct s; reflexivity. }
  unfold weighted_dtype. destruct to as [d|ds].
  - destruct H as (s & cat & M & ->). destruct n as [|n]; [right; constructor|]. rewrite (B s cat d) by (auto; inversion G; auto).
    destruct (integral s) eqn:IS; [right|left; discriminate]. apply Forall_forall. intros s' J. apply repeat_spec in J. subst. exact IS.
  - destruct H as (_ & F). destruct (existsb (fun d => negb (is_int (d_bounds d))) ds) eqn:X; [left; discriminate|right].
    induction F as [|s d ss ds (cat & M) F IH]; constructor; inversion G; subst; cbn [existsb] in X; apply orb_false_iff in X; destruct X as (X1 & X2).
    + rewrite <- (B s cat d) by auto. destruct (is_int (d_bounds d)); [reflexivity|discriminate].
    + apply IH; auto.
Qed.
Example weighted_dtype_ex : targets pln pexp 2 [ex_int; ex_log] (inr [pdom ex_int; pdom ex_log]) /\
  weighted_dtype (inr [pdom ex_int; pdom ex_log]) None = Some true.
Proof. split; [exact ex_targets_two|reflexivity]. Qed.

(** ** C94: piBO *)

(** The exponent should scale the prior's weight; for acquisition functions in log space
    it is added to the log-probability instead, so that it never changes which of two points is
    preferred. *)
Theorem pibo_log_exponent_ignored : forall lnf expf power x x' a b p q,
  pibo_weight (Qar lnf expf) power true (Some x) (Some a) (Some p) = Some (a + (p + x)) /\
  forall v w v' w', pibo_weight (Qar lnf expf) power true (Some x) (Some a) (Some p) = Some v ->
    pibo_weight (Qar lnf expf) power true (Some x) (Some b) (Some q) = Some w ->
    pibo_weight (Qar lnf expf) power true (Some x') (Some a) (Some p) = Some v' ->
    pibo_weight (Qar lnf expf) power true (Some x') (Some b) (Some q) = Some w' -> (v < w <-> v' < w').
Proof. intros. split; [reflexivity|]. cbn. intros v w v' w' [= <-] [= <-] [= <-] [= <-]. split; intros; lra. Qed.
(** With the exponent as a factor (log of p^x is x times log p) two points change places. *)
Theorem pibo_log_exponent_refuted : exists x a b p q, a + x * p < b + x * q /\
  exists v w, pibo_weight PA (fun y _ => y) true (Some x) (Some a) (Some p) = Some v /\
    pibo_weight PA (fun y _ => y) true (Some x) (Some b) (Some q) = Some w /\ w < v.
Proof. exists 0, 1, 2, (- (1)), (- (4)). split; [reflexivity|]. eexists _, _. split; [reflexivity|]. split; reflexivity. Qed.
(** The exponent falls with every evaluation, from the size of the initial design on. *)
Theorem pibo_exponent_falls : forall lnf expf n n' ndims design, ndims <> 0%nat -> (forall x y, x < y -> expf x < expf y) -> (n < n')%nat ->
  exists a b, pibo_exp_term (Qar lnf expf) n ndims design = Ok (Some a) /\ pibo_exp_term (Qar lnf expf) n' ndims design = Ok (Some b) /\ b < a.
Proof. exact pibo_exp_mono_l. Qed.
Theorem pibo_exponent_value : forall lnf expf n ndims design, ndims <> 0%nat ->
  pibo_exp_term (Qar lnf expf) n ndims design = Ok (Some (expf (inject_Z (Z.of_nat design - Z.of_nat n) / inject_Z (Z.of_nat ndims)))).
Proof. exact pibo_exp_l. Qed.
Example pibo_exponent_ex : exists a b, pibo_exp_term PA 12 4 10 = Ok (Some a) /\ pibo_exp_term PA 14 4 10 = Ok (Some b) /\ b < a.
Proof. eexists _, _. split; [lazy; reflexivity|]. split; lazy; reflexivity. Qed.
(** Refuted: for a space of constants only there is no exponent. *)
Theorem pibo_no_columns_refuted : exists n design, pibo_exp_term PA n 0 design = Err ZeroDivisionError.
Proof. exists 3%nat, 2%nat. reflexivity. Qed.
(** Refuted: whenever the exponent counts, the acquisition cannot be computed if a parameter
    without a prior precedes one with a prior. *)
Theorem pibo_gap_fails : forall T (A : arith T) cat_logp c_log power log (ds : list (dist T)) i j d d' domains insignificant x points acq y,
  (i < j)%nat -> nth_error ds i = Some d -> informed d = false -> nth_error ds j = Some d' -> informed d' = true ->
  altb A x insignificant = false ->
  bo_weighted A cat_logp c_log power log ds domains insignificant x points acq <> Ok y.
Proof.
  intros T A cat_logp c_log power log ds i j d d' domains ins x points acq y L N1 I1 N2 I2 S0. unfold bo_weighted. rewrite S0. intros H.
  destruct (log_prob A cat_logp c_log ds (length domains) points (inr domains)) as [lps|] eqn:E; [|discriminate].
  exact (log_prob_gap_fails T A cat_logp c_log ds i j d d' (length domains) points (inr domains) lps L N1 I1 N2 I2 E).
Qed.
Example pibo_gap_ex : bo_weighted PA ex_cat (Some 0) (fun y _ => y) true [DUnit; DTrunc ex_tn] [U; U] (Some (1 # 10000)) (Some (1 # 2)) [[Some 0; Some (1 # 2)]] [Some 3] = Err IndexError.
Proof. lazy. reflexivity. Qed.

Print Assumptions categorical_weights.
Print Assumptions categorical_weights_unused.
Print Assumptions categorical_offset_refuted.
Print Assumptions columns_partial.
Print Assumptions columns_refuted.
Print Assumptions uniform_legal.
Print Assumptions sobol_legal.
Print Assumptions centered_legal.
Print Assumptions sobol_integer_dtype.
Print Assumptions centered_integer_dtype.
Print Assumptions integer_dtype_refuted.
Print Assumptions weighted_probabilities.
Print Assumptions weighted_rows.
Print Assumptions weighted_total.
Print Assumptions weighted_dtype_fits.
Print Assumptions pibo_log_exponent_ignored.
Print Assumptions pibo_log_exponent_refuted.
Print Assumptions pibo_exponent_falls.
Print Assumptions pibo_exponent_value.
Print Assumptions pibo_no_columns_refuted.
Print Assumptions pibo_gap_fails.
