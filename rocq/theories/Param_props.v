(** Theorems about hyperparameters. *)
From Verif Require Import Param_spec Param_proofs Param_int_proofs Param_cat_proofs Param_more_proofs Dom_proofs Dom_cast_proofs.
From Coq Require Import Lqa.
Open Scope Q_scope.
Local Notation length := List.length.

(** Concrete parameters for the examples; [pln], [pexp] are an increasing function and its
    inverse. *)
Definition PA := Qar pln pexp.
Definition no_f : fparam (option Q) :=
  mkF None None false false None "" "" None None false None None (mkD (BFloat None None) false None None false false None).
Definition no_i : iparam (option Q) :=
  mkI 0 0 false false None "" "" None None false None no_f (fp_dom no_f).
Definition no_c : cparam := mkC [] None None "" "" None None None false.
Definition get {P} (d : P) (r : res P) : P := match r with Ok p => p | Err _ => d end.
(** Float 1..9 with default 3, linear and log; with the value 4. *)
Definition ex_f : fparam (option Q) := get no_f (float_parameter PA (Some 1) (Some 9) false false (Some (Some 3)) "low").
Definition ex_g : fparam (option Q) := get no_f (float_parameter PA (Some 1) (Some 9) true false (Some (Some 3)) "high").
Definition ex_f4 := fst (f_set_value PA ex_f (Some (Some 4))).
Definition ex_g4 := fst (f_set_value PA ex_g (Some (Some 4))).
Lemma ex_f_reach : freach PA (Some 1) (Some 9) ex_f.
Proof. apply (fr_new PA _ _ false false (Some (Some 3)) "low"). reflexivity. Qed.
Lemma ex_g_reach : freach PA (Some 1) (Some 9) ex_g.
Proof. apply (fr_new PA _ _ true false (Some (Some 3)) "high"). reflexivity. Qed.
Lemma ex_f4_reach : freach PA (Some 1) (Some 9) ex_f4.
Proof. apply fr_set, ex_f_reach. Qed.
Lemma ex_g4_reach : freach PA (Some 1) (Some 9) ex_g4.
Proof. apply fr_set, ex_g_reach. Qed.
(** Integer 1..9 with default 3, linear and log; with the value 4. *)
Definition ex_i : iparam (option Q) := get no_i (integer_parameter PA (Some 1) (Some 9) false false (Some (Some 3)) "medium").
Definition ex_il : iparam (option Q) := get no_i (integer_parameter PA (Some 1) (Some 9) true false (Some (Some 2)) "medium").
Definition ex_i4 := fst (i_set_value PA ex_i (Some (Some (37 # 10)))).
Lemma ex_i_reach c : ireach PA c 1 9 ex_i.
Proof. apply (ir_new PA c 1 9 (Some 1) (Some 9) false false (Some (Some 3)) "medium"); reflexivity. Qed.
Lemma ex_il_reach c : ireach PA c 1 9 ex_il.
Proof. apply (ir_new PA c 1 9 (Some 1) (Some 9) true false (Some (Some 2)) "medium"); reflexivity. Qed.
Lemma ex_i4_reach c : ireach PA c 1 9 ex_i4.
Proof. apply ir_set, ex_i_reach. Qed.
(** Choices "a", 2, 0.5-ish, True is equal to 1 and is left out; default 2; with the value "a". *)
Definition ex_cs : list pyval := [VStr "a"; VInt 2; VBool false; VStr "b"].
Definition ex_c : cparam := get no_c (categorical_parameter ex_cs (Some (VInt 2)) "high").
Definition ex_ca : cparam := fst (c_set_value ex_c (Some (VStr "a"))).
Lemma ex_c_reach c : creach c ex_cs ex_c.
Proof. apply (cr_new c ex_cs (Some (VInt 2)) "high"). reflexivity. Qed.
Lemma ex_ca_reach c : creach c ex_cs ex_ca.
Proof. apply cr_set; [apply ex_c_reach|]. intros _. exists tt. reflexivity. Qed.
Lemma ex_cs_nan : no_nan ex_cs.
Proof. intros [H|[H|[H|[H|[]]]]]; discriminate. Qed.

(** ** Values are legal *)
(** Whatever is done with a float parameter, also after a method has raised, its value is
    between its bounds.  For every arithmetic, so also for binary64. *)
Theorem float_value_within : forall T (A : arith T) l u p x, freach A l u p -> fp_value p = Some x ->
  ale A l x = true /\ ale A x u = true.
Proof. intros T A l u p x R V. apply andb_true_iff. apply (good_value A l u p x (freach_good A l u p R) V). Qed.
Example float_value_within_ex : freach PA (Some 1) (Some 9) ex_f4 /\ fp_value ex_f4 = Some (Some 4).
Proof. split; [exact ex_f4_reach|reflexivity]. Qed.

(** A float parameter that has refused a value, a default or a confidence is what it was. *)
Theorem float_refusal_harmless : forall T (A : arith T) l u p e, freach A l u p ->
  (forall v, snd (f_set_value A p v) = Err e -> fst (f_set_value A p v) = p) /\
  (forall v, snd (f_set_default A p v) = Err e -> fst (f_set_default A p v) = p) /\
  (forall v, snd (f_load A p v) = Err e -> fst (f_load A p v) = p) /\
  (forall c, snd (f_set_confidence p c) = Err e -> fst (f_set_confidence p c) = p).
Proof.
  intros T A l u p e R. apply freach_good in R.
  assert (S0 : forall v, snd (f_set_value A p v) = Err e -> fst (f_set_value A p v) = p).
  { intros v. destruct (set_cases A l u p v R) as [(x & _ & _ & ->)|[(_ & ->)|(x & n & _ & _ & _ & ->)]]; cbn; [auto|discriminate|discriminate]. }
  split; [exact S0|]. split; [|split; [intros v; apply S0|]].
  - intros [v|]; cbn; [|discriminate]. destruct (negb _); cbn; [auto|discriminate].
  - intros c. unfold f_set_confidence. destruct (known c); cbn; [discriminate|auto].
Qed.
Example float_refusal_harmless_ex : freach PA (Some 1) (Some 9) ex_f4 /\
  snd (f_set_value PA ex_f4 (Some (Some 10))) = Err ValueError /\ fp_value (fst (f_set_value PA ex_f4 (Some (Some 10)))) = Some (Some 4).
Proof. split; [exact ex_f4_reach|split; reflexivity]. Qed.

(** A value outside the bounds is refused and one inside them is taken. *)
Theorem float_accepts_iff : forall T (A : arith T) l u p x, freach A l u p ->
  (snd (f_set_value A p (Some x)) = Ok tt <-> ale A l x = true /\ ale A x u = true) /\
  (snd (f_set_value A p (Some x)) = Ok tt -> fp_value (fst (f_set_value A p (Some x))) = Some x).
Proof.
  intros T A l u p x R. apply freach_good in R. rewrite <- andb_true_iff. fold (within A l u x).
  destruct (set_cases A l u p (Some x) R) as [(y & [= <-] & W & ->)|[(? & _)|(y & n & [= <-] & W & _ & ->)]]; [|discriminate|]; cbn.
  - split; [split; [discriminate|congruence]|discriminate].
  - split; [split; auto|reflexivity].
Qed.
Example float_accepts_iff_ex : freach PA (Some 1) (Some 9) ex_f /\ snd (f_set_value PA ex_f (Some (Some 4))) = Ok tt /\
  snd (f_set_value PA ex_f (Some (Some (1 # 2)))) = Err ValueError.
Proof. split; [exact ex_f_reach|split; reflexivity]. Qed.

(** The value of an integer parameter is between its bounds, if nothing outside of them
    was loaded and no default was refused. *)
Theorem integer_value_within : forall lnf expf l u p z, ireach (Qar lnf expf) true l u p -> ip_value p = Some z ->
  (l <= z <= u)%Z.
Proof.
  intros lnf expf l u p z R V. apply ireach_good in R. destruct R as (_ & _ & _ & _ & _ & _ & _ & _ & _ & _ & W).
  apply (W eq_refl z V).
Qed.
Example integer_value_within_ex : ireach PA true 1 9 ex_i4 /\ ip_value ex_i4 = Some 4%Z.
Proof. split; [exact (ex_i4_reach true)|reflexivity]. Qed.

(** An integer parameter refuses exactly the numbers outside its bounds, takes the nearest
    integer of the others, and is what it was after it has refused a value. *)
Theorem integer_set_value : forall lnf expf ck l u p x, ireach (Qar lnf expf) ck l u p ->
  let A := Qar lnf expf in
  (inject_Z l <= x -> x <= inject_Z u ->
     snd (i_set_value A p (Some (Some x))) = Ok tt /\ ip_value (fst (i_set_value A p (Some (Some x)))) = Some (rint_q x)) /\
  (x < inject_Z l \/ inject_Z u < x ->
     i_set_value A p (Some (Some x)) = (p, Err ValueError)).
Proof.
  intros lnf expf ck l u p x R A. apply ireach_weak in R.
  destruct (iset_cases lnf expf false l u p (Some (Some x)) R) as [(y & [= <-] & W & E)|[(? & _)|(y & f & n & [= <-] & W1 & W2 & _ & _ & _ & E)]];
    [|discriminate|]; fold A in E; rewrite E; cbn [fst snd].
  - split; [|auto]. intros H1 H2. assert (X := proj2 (z_within_some lnf expf l u x) (conj H1 H2)). congruence.
  - split; [auto|]. intros [H|H]; lra.
Qed.
Example integer_set_value_ex : ireach PA true 1 9 ex_i /\ inject_Z 1 <= (37 # 10) /\ (37 # 10) <= inject_Z 9 /\ inject_Z 9 < (91 # 10) /\
  ip_value (fst (i_set_value PA ex_i (Some (Some (37 # 10))))) = Some 4%Z.
Proof. split; [exact (ex_i_reach true)|]. repeat split; unfold Qle, Qlt; cbn; lia. Qed.

(** Refuted: an integer parameter that has refused a default has it all the same, and can then
    neither be cloned nor sampled. *)
Theorem integer_default_refuted : exists p x, ireach (Qar pln pexp) true 1 9 p /\
  snd (i_set_default (Qar pln pexp) p (Some x)) = Err ValueError /\
  let p' := fst (i_set_default (Qar pln pexp) p (Some x)) in
  ip_default p = Some 3%Z /\ ip_default p' = Some 20%Z /\ i_clone (Qar pln pexp) p' = Err ValueError /\
  forall draw, exists e, i_sample (Qar pln pexp) p' draw = Err e.
Proof.
  exists ex_i, (Some 20). split; [exact (ex_i_reach true)|]. split; [reflexivity|]. cbv zeta. split; [reflexivity|].
  split; [reflexivity|]. split; [reflexivity|]. intros draw. unfold i_sample. destruct (i_sample_value _ _ draw) as [z|e]; cbn [bind]; [|eauto].
  exists ValueError. reflexivity.
Qed.

(** Refuted: loading a stored value does not check it. *)
Theorem integer_load_refuted : exists p x, ireach (Qar pln pexp) true 1 9 p /\
  snd (i_load (Qar pln pexp) p x) = Ok tt /\ ip_value (fst (i_load (Qar pln pexp) p x)) = Some 100%Z /\
  ip_upper (fst (i_load (Qar pln pexp) p x)) = 9%Z.
Proof. exists ex_i, (Some 100). split; [exact (ex_i_reach true)|]. repeat split. Qed.

(** The value of a categorical parameter is one of its choices, and its index is the position
    of the first equal choice, if no value was refused. *)
Theorem categorical_value_choice : forall cs p v, creach true cs p -> cp_value p = Some v ->
  exists i, position cs v i /\ cp_index p = Some i /\ cp_norm p = Some i.
Proof.
  intros cs p v R V. destruct (creach_good cs p R) as (_ & _ & _ & _ & _ & W). specialize (W eq_refl). rewrite V in W.
  destruct W as (i & I & X). exists i. split; [apply index_of_some, I|exact X].
Qed.
Example categorical_value_choice_ex : creach true ex_cs (fst (c_set_value ex_c (Some (VFloat (FZ 0))))) /\
  cp_index (fst (c_set_value ex_c (Some (VFloat (FZ 0))))) = Some 2%nat.
Proof. split; [|reflexivity]. apply cr_set; [apply ex_c_reach|]. intros _. exists tt. reflexivity. Qed.

(** Refuted: a categorical parameter that has refused a value has it all the same, keeps the
    index of the old one, and can then neither be cloned nor sampled. *)
Theorem categorical_refused_refuted : exists cs p v, creach true cs p /\ snd (c_set_value p (Some v)) = Err ValueError /\
  let p' := fst (c_set_value p (Some v)) in
  cp_value p = Some (VStr "a") /\ cp_value p' = Some v /\ ~ is_choice cs v /\ cp_index p' = Some 0%nat /\
  c_clone p' = Err ValueError /\ forall draw, exists e, c_sample p' draw = Err e.
Proof.
  exists ex_cs, ex_ca, (VStr "z"). split; [apply ex_ca_reach|]. split; [reflexivity|]. cbv zeta. split; [reflexivity|]. split; [reflexivity|].
  split; [intros H; apply index_of_choice in H; discriminate|]. split; [reflexivity|]. split; [reflexivity|].
  intros draw. unfold c_sample. destruct (nth_error _ draw) as [x|]; [|eauto]. exists ValueError. reflexivity.
Qed.

(** A constant keeps its value, whatever it is asked to be. *)
Theorem constant_keeps_value : forall p v, fst (k_set_value p v) = p /\ fst (k_set_default p v) = p /\
  (snd (k_set_value p v) = Ok tt <-> py_eqb v (kp_value p) = true).
Proof.
  intros p v. unfold k_set_value, k_set_default. destruct (py_eqb v (kp_value p)), (py_eqb v (kp_default p)); cbn;
    repeat split; auto; discriminate.
Qed.
Example constant_keeps_value_ex : snd (k_set_value (constant_parameter (VInt 3)) (VFloat (FZ 3))) = Err ValueError /\
  snd (k_set_value (constant_parameter (VInt 3)) (VInt 3)) = Ok tt.
Proof. split; reflexivity. Qed.

(** ** Sampling *)
(** Sampling always succeeds and gives a legal value, whatever is drawn (NaN included). *)
Theorem float_sample_total : forall lnf expf a b p draw, freach (Qar lnf expf) (Some a) (Some b) p ->
  exists q x, f_sample (Qar lnf expf) p draw = Ok q /\ fp_value q = Some (Some x) /\ a <= x /\ x <= b.
Proof. intros lnf expf a b p draw R. apply sample_total, freach_good, R. Qed.
Example float_sample_total_ex : freach PA (Some 1) (Some 9) ex_g4 /\
  fp_value (get no_f (f_sample PA ex_g4 None)) = Some (Some 1) /\ fp_value (get no_f (f_sample PA ex_f4 (Some 12))) = Some (Some 9).
Proof. split; [exact ex_g4_reach|split; reflexivity]. Qed.
(** A draw that is legal (on the scale of the parameter) is the value that is sampled. *)
Theorem float_sample_is_draw : forall lnf expf a b p d q, freach (Qar lnf expf) (Some a) (Some b) p ->
  let v := if fp_log p then expf d else d in a <= v -> v <= b -> f_sample (Qar lnf expf) p (Some d) = Ok q ->
  exists x, fp_value q = Some (Some x) /\ x == v.
Proof.
  intros lnf expf a b p d q R v V1 V2 S0. apply freach_good in R.
  destruct (sample_good _ _ _ p _ q R S0) as (_ & E & _). rewrite E.
  destruct (good_bounds _ _ _ p R) as [L U]. unfold f_sample_value. rewrite L, U. unfold py_min, py_max.
  assert (D : (if fp_log p then aexp (Qar lnf expf) (Some d) else Some d) = Some v) by (unfold v; destruct (fp_log p); reflexivity).
  rewrite D. cbn [altb Qar]. destruct (Qle_bool v a) eqn:X; cbn [negb].
  - apply Qle_bool_iff in X. destruct (Qle_bool b a) eqn:Y; cbn [negb].
    + apply Qle_bool_iff in Y. exists b. split; [reflexivity|lra].
    + exists a. split; [reflexivity|lra].
  - destruct (Qle_bool b v) eqn:Y; cbn [negb].
    + apply Qle_bool_iff in Y. exists b. split; [reflexivity|lra].
    + exists v. split; [reflexivity|lra].
Qed.
Example float_sample_is_draw_ex : freach PA (Some 1) (Some 9) ex_g4 /\ 1 <= pexp (1 # 2) /\ pexp (1 # 2) <= 9 /\
  f_sample PA ex_g4 (Some (1 # 2)) = Ok (get no_f (f_sample PA ex_g4 (Some (1 # 2)))).
Proof. split; [exact ex_g4_reach|]. split; [|split; [|reflexivity]]; unfold Qle; cbn; lia. Qed.
Theorem integer_sample_total : forall lnf expf l u p draw, ireach (Qar lnf expf) true l u p ->
  exists q z, i_sample (Qar lnf expf) p draw = Ok q /\ ip_value q = Some z /\ (l <= z <= u)%Z.
Proof. intros lnf expf l u p draw R. apply isample_total, ireach_good, R. Qed.
Example integer_sample_total_ex : ireach PA true 1 9 ex_i4 /\
  ip_value (get no_i (i_sample PA ex_i4 (Some (13 # 2)))) = Some 6%Z /\ ip_value (get no_i (i_sample PA ex_i4 (Some 100))) = Some 9%Z.
Proof. split; [exact (ex_i4_reach true)|split; reflexivity]. Qed.
Theorem categorical_sample_total : forall cs p draw, creach true cs p -> no_nan cs -> (draw < length cs)%nat ->
  exists q x, c_sample p draw = Ok q /\ nth_error cs draw = Some x /\ cp_value q = Some x.
Proof. intros cs p draw R. apply csample_total, creach_good, R. Qed.
Example categorical_sample_total_ex : creach true ex_cs ex_ca /\ no_nan ex_cs /\ (3 < length ex_cs)%nat /\
  cp_value (get no_c (c_sample ex_ca 3)) = Some (VStr "b").
Proof. split; [apply ex_ca_reach|]. split; [apply ex_cs_nan|]. split; [cbn; lia|reflexivity]. Qed.
(** Refuted without the condition on NaN: NaN is accepted as a choice, but drawing it raises. *)
Theorem categorical_sample_nan_refuted : exists cs p, creach true cs p /\ (0 < length cs)%nat /\ c_sample p 0 = Err ValueError.
Proof.
  exists [VFloat FNaN; VInt 1], (get no_c (categorical_parameter [VFloat FNaN; VInt 1] None "low")).
  split; [apply (cr_new true _ None "low"); reflexivity|]. split; [cbn; lia|reflexivity].
Qed.

(** ** Clones *)
(** The clone of a float parameter is the same in all its attributes, save that its confidence
    is the one the original was constructed with. *)
Theorem float_clone : forall T (A : arith T) l u p, freach A l u p -> exists q, f_clone A p = Ok q /\
  fp_lower q = fp_lower p /\ fp_upper q = fp_upper p /\ fp_log q = fp_log p /\ fp_fid q = fp_fid p /\
  fp_default q = fp_default p /\ fp_value q = fp_value p /\ fp_norm q = fp_norm p /\ fp_prior q = fp_prior p /\
  fp_lb q = fp_lb p /\ fp_ld q = fp_ld p /\ fp_dom q = fp_dom p /\ fp_conf q = fp_conf p /\ fp_score q = fp_conf p.
Proof.
  intros T A l u p R. exists (f_score_as p (fp_conf p)). split; [apply (clone_same A l u), freach_good, R|].
  repeat split.
Qed.
Example float_clone_ex : freach PA (Some 1) (Some 9) ex_g4 /\ fp_value (get no_f (f_clone PA ex_g4)) = Some (Some 4).
Proof. split; [exact ex_g4_reach|reflexivity]. Qed.
Theorem integer_clone : forall lnf expf l u p, ireach (Qar lnf expf) true l u p -> exists q, i_clone (Qar lnf expf) p = Ok q /\
  ip_lower q = ip_lower p /\ ip_upper q = ip_upper p /\ ip_log q = ip_log p /\ ip_fid q = ip_fid p /\
  ip_default q = ip_default p /\ ip_value q = ip_value p /\ ip_dom q = ip_dom p /\ ip_conf q = ip_conf p /\ ip_score q = ip_conf p.
Proof.
  intros lnf expf l u p R. apply ireach_good in R. destruct (iclone_total lnf expf l u p R) as [q C]. exists q. split; [exact C|].
  destruct (iclone_good lnf expf true l u p q (or_introl R) C eq_refl) as ((L & U & _) & V & LG & F & CO & S0 & D & DO).
  destruct R as (L' & U' & _). rewrite L, U, L', U'. repeat (split; [first [reflexivity|assumption]|]). assumption.
Qed.
Example integer_clone_ex : ireach PA true 1 9 ex_i4 /\ ip_value (get no_i (i_clone PA ex_i4)) = Some 4%Z.
Proof. split; [exact (ex_i4_reach true)|reflexivity]. Qed.
Theorem categorical_clone : forall cs p, creach true cs p -> exists q, c_clone p = Ok q /\
  cp_choices q = cp_choices p /\ cp_default q = cp_default p /\ cp_default_index q = cp_default_index p /\
  cp_value q = cp_value p /\ cp_index q = cp_index p /\ cp_norm q = cp_norm p /\ cp_prior q = cp_prior p /\
  cp_conf q = cp_conf p /\ cp_score q = cp_conf p.
Proof. intros cs p R. exists (c_score_as p (cp_conf p)). split; [apply (cclone_same cs), creach_good, R|]. repeat split. Qed.
Example categorical_clone_ex : creach true ex_cs ex_ca /\ cp_value (get no_c (c_clone ex_ca)) = Some (VStr "a").
Proof. split; [apply ex_ca_reach|reflexivity]. Qed.
(** A clone is [==] to the original exactly if the confidence is the one given at construction. *)
Theorem clone_equal_iff : forall lnf expf,
  (forall a b p q, freach (Qar lnf expf) (Some a) (Some b) p -> f_clone (Qar lnf expf) p = Ok q ->
     f_eqb (Qar lnf expf) p q = String.eqb (fp_score p) (fp_conf p)) /\
  (forall l u p q, ireach (Qar lnf expf) true l u p -> i_clone (Qar lnf expf) p = Ok q ->
     i_eqb p q = String.eqb (ip_score p) (ip_conf p)) /\
  (forall cs p q, creach true cs p -> no_nan cs -> c_clone p = Ok q -> c_eqb p q = String.eqb (cp_score p) (cp_conf p)).
Proof.
  intros lnf expf. split; [|split].
  - intros a b p q R. apply (f_clone_eqb lnf expf a b), freach_good, R.
  - intros l u p q R. apply (i_clone_eqb lnf expf l u), ireach_good, R.
  - intros cs p q R. apply (c_clone_eqb cs), creach_good, R.
Qed.
Example clone_equal_iff_ex : freach PA (Some 1) (Some 9) ex_f4 /\ f_clone PA ex_f4 = Ok (get no_f (f_clone PA ex_f4)) /\
  f_eqb PA ex_f4 (get no_f (f_clone PA ex_f4)) = true.
Proof. split; [exact ex_f4_reach|split; reflexivity]. Qed.
(** Refuted: a confidence set later is forgotten by clones (and so by samples, neighbours and
    children), which are then different from the original. *)
Theorem clone_confidence_refuted : exists p q, freach (Qar pln pexp) (Some 1) (Some 9) p /\ f_clone (Qar pln pexp) p = Ok q /\
  fp_score p = "high"%string /\ fp_score q = "low"%string /\ f_eqb (Qar pln pexp) p q = false.
Proof.
  exists (fst (f_set_confidence ex_f4 "high")), (get no_f (f_clone PA (fst (f_set_confidence ex_f4 "high")))).
  split; [apply fr_conf, ex_f4_reach|]. repeat split.
Qed.

(** ** Mutation and crossover *)
(** A mutated parameter has a legal value that differs from the parent's. *)
Theorem float_mutation : forall T (A : arith T) l u p parent s draw draws q, freach A l u p ->
  f_mutate A p parent s draw draws = Ok q ->
  opt_T_eqb A (fp_value (match parent with Some r => r | None => p end)) (fp_value q) = false /\
  forall x, fp_value q = Some x -> ale A l x = true /\ ale A x u = true.
Proof.
  intros T A l u p parent s draw draws q R M. destruct (mutate_good A l u p parent s draw draws q (freach_good A l u p R) M) as [G D].
  split; [destruct parent; exact D|]. intros x V. apply andb_true_iff. apply (good_value A l u q x G V).
Qed.
Example float_mutation_ex : freach PA (Some 1) (Some 9) ex_f4 /\
  fp_value (get no_f (f_mutate PA ex_f4 None LocalSearch None [Some 3; Some (1 # 4)])) = Some (Some (12 # 4)).
Proof. split; [exact ex_f4_reach|reflexivity]. Qed.
Theorem integer_mutation : forall lnf expf l u p parent s draw draws q, ireach (Qar lnf expf) true l u p ->
  i_mutate (Qar lnf expf) p parent s draw draws = Ok q ->
  ip_value (match parent with Some r => r | None => p end) <> ip_value q /\
  forall z, ip_value q = Some z -> (l <= z <= u)%Z.
Proof.
  intros lnf expf l u p parent s draw draws q R M.
  destruct (imutate_good lnf expf true true l u p parent s draw draws q (ireach_good _ _ l u p R) M) as [G D].
  split; [destruct parent; exact D|]. intros z V. destruct G as (_ & _ & _ & _ & _ & _ & _ & _ & _ & _ & W).
  apply (W eq_refl z V).
Qed.
Example integer_mutation_ex : ireach PA true 1 9 ex_i4 /\
  ip_value (get no_i (i_mutate PA ex_i4 None LocalSearch None [Some (7 # 18); Some (1 # 2)])) = Some 5%Z.
Proof. split; [exact (ex_i4_reach true)|reflexivity]. Qed.
Theorem categorical_mutation : forall cs p parent s draw q, creach true cs p -> (forall r, parent = Some r -> creach true cs r) ->
  c_mutate p parent s draw = Ok q ->
  opt_py_eqb (cp_value (match parent with Some r => r | None => p end)) (cp_value q) = false /\
  forall v, cp_value q = Some v -> is_choice cs v.
Proof.
  intros cs p parent s draw q R RP M.
  destruct (cmutate_good cs p parent s draw q (creach_good cs p R) (fun r E => creach_good cs r (RP r E)) M) as [G D].
  split; [destruct parent; exact D|]. intros v V. destruct G as (_ & _ & _ & _ & _ & W). specialize (W eq_refl). rewrite V in W.
  destruct W as (i & I & _). apply index_of_choice. rewrite I. reflexivity.
Qed.
Example categorical_mutation_ex : creach true ex_cs ex_ca /\
  cp_value (get no_c (c_mutate ex_ca None LocalSearch 1)) = Some (VBool false) /\
  cp_value (get no_c (c_mutate ex_ca None Simple 1)) = Some (VInt 2) /\ c_mutate ex_ca None Simple 0 = Err ValueError.
Proof. split; [apply ex_ca_reach|repeat split]. Qed.
(** Local search always finds another choice. *)
Theorem categorical_local_search_total : forall cs p v k, creach true cs p -> no_nan cs -> cp_value p = Some v ->
  (k < length cs - 1)%nat ->
  exists q x, c_mutate p None LocalSearch k = Ok q /\ cp_value q = Some x /\ In x cs /\ py_eqb x v = false.
Proof. intros cs p v k R. apply cmutate_total, creach_good, R. Qed.
Example categorical_local_search_total_ex : creach true ex_cs ex_ca /\ no_nan ex_cs /\ cp_value ex_ca = Some (VStr "a") /\ (2 < length ex_cs - 1)%nat.
Proof. split; [apply ex_ca_reach|]. split; [apply ex_cs_nan|]. split; [reflexivity|cbn; lia]. Qed.
(** Refuted: the "simple" mutation of a number raises, whatever is drawn. *)
Theorem numeric_simple_mutation_raises : forall lnf expf,
  (forall a b p draw draws, freach (Qar lnf expf) (Some a) (Some b) p -> f_mutate (Qar lnf expf) p None Simple draw draws = Err ValueError) /\
  (forall l u p draw draws, ireach (Qar lnf expf) true l u p -> i_mutate (Qar lnf expf) p None Simple draw draws = Err ValueError).
Proof.
  intros lnf expf. split.
  - intros a b p draw draws R. apply (f_simple_raises lnf expf a b), freach_good, R.
  - intros l u p draw draws R. apply (i_simple_raises lnf expf l u), ireach_good, R.
Qed.
Example numeric_simple_mutation_raises_ex : freach PA (Some 1) (Some 9) ex_f4 /\ fp_fid ex_f4 = false /\ fp_value ex_f4 = Some (Some 4).
Proof. split; [exact ex_f4_reach|split; reflexivity]. Qed.
(** In particular it is false that it gives a neighbour or another value. *)
Theorem numeric_simple_mutation_refuted : exists p, freach PA (Some 1) (Some 9) p /\ fp_fid p = false /\ fp_value p = Some (Some 4) /\
  forall draw draws, f_mutate PA p None Simple draw draws = Err ValueError.
Proof.
  exists ex_f4. split; [exact ex_f4_reach|]. split; [reflexivity|]. split; [reflexivity|]. intros draw draws.
  exact (proj1 (numeric_simple_mutation_raises pln pexp) _ _ _ draw draws ex_f4_reach).
Qed.
Print Assumptions numeric_simple_mutation_raises.
(** The children of a crossover have legal values; two categorical parents swap theirs. *)
Theorem numeric_crossover : forall lnf expf,
  (forall T (A : arith T) l u p p1 p2 draws q1 q2 q, freach A l u p -> f_crossover A p p1 p2 draws = Ok (q1, q2) ->
     q = q1 \/ q = q2 -> exists x, fp_value q = Some x /\ ale A l x = true /\ ale A x u = true) /\
  (forall l u p p1 p2 draws q1 q2 q, ireach (Qar lnf expf) true l u p -> i_crossover (Qar lnf expf) p p1 p2 draws = Ok (q1, q2) ->
     q = q1 \/ q = q2 -> exists z, ip_value q = Some z /\ (l <= z <= u)%Z).
Proof.
  intros lnf expf. split.
  - intros T A l u p p1 p2 draws q1 q2 q R C Q0.
    destruct (crossover_good A l u p p1 p2 draws q1 q2 (freach_good A l u p R) C q Q0) as (_ & x & V & W).
    exists x. split; [exact V|apply andb_true_iff, W].
  - intros l u p p1 p2 draws q1 q2 q R C Q0.
    destruct (icrossover_good lnf expf true true l u p p1 p2 draws q1 q2 (ireach_good _ _ l u p R) C q Q0) as (_ & z & V & W). eauto.
Qed.
Example numeric_crossover_ex : freach PA (Some 1) (Some 9) ex_f4 /\
  match f_crossover PA ex_f4 ex_f4 None [Some (1 # 2); Some 0] with
  | Ok (q1, q2) => fp_value q1 = Some (Some (10 # 2)) /\ fp_value q2 = Some (Some 1) | Err _ => False end.
Proof. split; [exact ex_f4_reach|lazy; split; reflexivity]. Qed.
Theorem categorical_crossover : forall cs p p1 p2 q1 q2, creach true cs p -> creach true cs p1 -> (forall r, p2 = Some r -> creach true cs r) ->
  c_crossover p p1 p2 = Ok (q1, q2) ->
  cp_value q1 = cp_value (match p2 with Some r => r | None => p end) /\ cp_value q2 = cp_value p1.
Proof.
  intros cs p p1 p2 q1 q2 R R1 R2 C.
  destruct (ccrossover_good cs p p1 p2 q1 q2 (creach_good cs p R) (creach_good cs p1 R1) (fun r E => creach_good cs r (R2 r E)) C) as (_ & _ & V1 & V2).
  split; [destruct p2; exact V1|exact V2].
Qed.
Example categorical_crossover_ex : creach true ex_cs ex_ca /\ creach true ex_cs (get no_c (c_sample ex_ca 3)) /\
  match c_crossover ex_c ex_ca (Some (get no_c (c_sample ex_ca 3))) with
  | Ok (q1, q2) => cp_value q1 = Some (VStr "b") /\ cp_value q2 = Some (VStr "a") | Err _ => False end.
Proof.
  split; [apply ex_ca_reach|]. split; [|lazy; split; reflexivity].
  apply (cr_sample true ex_cs ex_ca 3 (get no_c (c_sample ex_ca 3)) (ex_ca_reach true)). reflexivity.
Qed.

(** ** Normalised values *)
(** The normalised value is in the unit interval and stands for the value. *)
Theorem normalized_value : forall lnf expf a b p x, ideal lnf expf -> freach (Qar lnf expf) (Some a) (Some b) p ->
  fp_value p = Some (Some x) ->
  exists n, fp_norm p = Some (Some n) /\ 0 <= n /\ n <= 1 /\ fraction lnf expf p a b n == x.
Proof. intros lnf expf a b p x I R. apply (norm_unit lnf expf I a b p x), freach_good, R. Qed.
Example normalized_value_ex : ideal pln pexp /\ freach (Qar pln pexp) (Some 1) (Some 9) ex_g4 /\ fp_value ex_g4 = Some (Some 4).
Proof. split; [exact ideal_p|split; [exact ex_g4_reach|reflexivity]]. Qed.
(** Decoding a number of the unit interval gives a legal value. *)
Theorem normalized_decode : forall lnf expf a b p n, ideal lnf expf -> freach (Qar lnf expf) (Some a) (Some b) p ->
  0 <= n -> n <= 1 -> exists x, f_of_norm (Qar lnf expf) p (Some n) = Ok (Some x) /\ a <= x /\ x <= b /\ x == fraction lnf expf p a b n.
Proof.
  intros lnf expf a b p n I R N0 N1. apply freach_good in R. exists (fraction lnf expf p a b n).
  split; [apply (of_norm_is lnf expf a b p n R)|]. destruct (fraction_in lnf expf I a b p n R N0 N1). split; [auto|split; [auto|reflexivity]].
Qed.
Example normalized_decode_ex : ideal pln pexp /\ freach (Qar pln pexp) (Some 1) (Some 9) ex_f4 /\ 0 <= 1 # 4 /\ 1 # 4 <= 1 /\
  f_of_norm PA ex_f4 (Some (1 # 4)) = Ok (Some (12 # 4)).
Proof. split; [exact ideal_p|split; [exact ex_f4_reach|]]. repeat split; unfold Qle; cbn; lia. Qed.
(** The search for neighbours of a float ends as soon as enough draws are in the unit
    interval. *)
Theorem float_neighbours_total : forall lnf expf a b p x draws n, ideal lnf expf -> freach (Qar lnf expf) (Some a) (Some b) p ->
  fp_value p = Some x -> (forall x, In x draws -> x <> None) -> (n <= length (filter in_unit draws))%nat ->
  exists qs, f_neighbours (Qar lnf expf) p n draws = Ok qs /\ length qs = n.
Proof. intros lnf expf a b p x draws n I R. apply (neighbours_total lnf expf I a b p x draws n), freach_good, R. Qed.
Example float_neighbours_total_ex : ideal pln pexp /\ freach (Qar pln pexp) (Some 1) (Some 9) ex_g4 /\ fp_value ex_g4 = Some (Some 4) /\
  (forall x, In x [Some (3 # 2); Some (1 # 4); Some (-1 # 1); Some 1%Q] -> x <> None) /\
  (2 <= length (filter in_unit [Some (3 # 2); Some (1 # 4); Some (-1 # 1); Some 1%Q]))%nat.
Proof.
  split; [exact ideal_p|split; [exact ex_g4_reach|split; [reflexivity|split; [|cbn; lia]]]].
  intros x [<-|[<-|[<-|[<-|[]]]]]; discriminate.
Qed.

(** ** Priors *)
(** The prior of a float is centred at its current default, on the scale of the parameter. *)
Theorem float_prior_centre : forall T (A : arith T) l u p, freach A l u p ->
  f_prior_centre p = (if fp_log p then opt_map (aln A) (fp_default p) else fp_default p) /\
  fp_prior p = is_some (fp_default p).
Proof.
  intros T A l u p R. apply freach_good in R. destruct (good_fields A l u p R) as (dom & _ & _ & _ & _ & _ & E).
  unfold f_prior_centre. split; [|rewrite E; reflexivity].
  rewrite E at 2. cbn [fp_ld]. destruct (fp_log p); reflexivity.
Qed.
Example float_prior_centre_ex : freach PA (Some 1) (Some 9) (fst (f_set_default PA ex_g4 (Some (Some 5)))) /\
  f_prior_centre (fst (f_set_default PA ex_g4 (Some (Some 5)))) = Some (Some (pln 5)).
Proof. split; [apply fr_default, ex_g4_reach|reflexivity]. Qed.
(** Refuted for log integers: the prior stays at the default of the construction. *)
Theorem integer_prior_centre_refuted : exists p x, ireach (Qar pln pexp) true 1 9 p /\ snd (i_set_default (Qar pln pexp) p (Some x)) = Ok tt /\
  let p' := fst (i_set_default (Qar pln pexp) p (Some x)) in
  ip_default p' = Some 8%Z /\ i_prior_centre (Qar pln pexp) p' = Some (Some (pln 2)) /\ ~ pln 2 == pln 8.
Proof.
  exists ex_il, (Some 8). split; [apply ex_il_reach|]. split; [reflexivity|]. cbv zeta. split; [reflexivity|]. split; [reflexivity|].
  destruct ideal_p as (M & _). intros E. assert (L : pln 2 < pln 8) by (apply M; unfold Qlt; cbn; lia). lra.
Qed.
(** The prior over choices: positive weights that add up to one, the default's being the
    confidence score (2, 4 or 6) times each of the others. *)
Theorem categorical_prior : forall cs p d, creach true cs p -> cp_default p = Some d ->
  exists i ps, position cs d i /\ c_prior_probabilities p = Ok ps /\ length ps = length cs /\
    fold_right Qplus 0 ps == 1 /\ (forall x, In x ps -> 0 < x) /\
    forall j x y, j <> i -> nth_error ps i = Some x -> nth_error ps j = Some y ->
      x == (if String.eqb (cp_score p) "low" then 2 else if String.eqb (cp_score p) "medium" then 4 else 6) * y.
Proof. intros cs p d R. apply (c_probs true cs p d), creach_good, R. Qed.
Example categorical_prior_ex : creach true ex_cs ex_ca /\ cp_default ex_ca = Some (VInt 2) /\
  c_prior_probabilities ex_ca = Ok [1 / (1 + (6 + (1 + (1 + 0)))); 6 / (1 + (6 + (1 + (1 + 0)))); 1 / (1 + (6 + (1 + (1 + 0)))); 1 / (1 + (6 + (1 + (1 + 0))))].
Proof. split; [apply ex_ca_reach|split; reflexivity]. Qed.

Print Assumptions float_value_within.
Print Assumptions float_refusal_harmless.
Print Assumptions float_accepts_iff.
Print Assumptions integer_value_within.
Print Assumptions integer_set_value.
Print Assumptions integer_default_refuted.
Print Assumptions integer_load_refuted.
Print Assumptions categorical_value_choice.
Print Assumptions categorical_refused_refuted.
Print Assumptions constant_keeps_value.
Print Assumptions float_sample_total.
Print Assumptions float_sample_is_draw.
Print Assumptions integer_sample_total.
Print Assumptions categorical_sample_total.
Print Assumptions categorical_sample_nan_refuted.
Print Assumptions float_clone.
Print Assumptions integer_clone.
Print Assumptions categorical_clone.
Print Assumptions clone_equal_iff.
Print Assumptions clone_confidence_refuted.
Print Assumptions float_mutation.
Print Assumptions integer_mutation.
Print Assumptions categorical_mutation.
Print Assumptions categorical_local_search_total.
Print Assumptions numeric_simple_mutation_refuted.
Print Assumptions numeric_crossover.
Print Assumptions categorical_crossover.
Print Assumptions normalized_value.
Print Assumptions normalized_decode.
Print Assumptions float_neighbours_total.
Print Assumptions float_prior_centre.
Print Assumptions integer_prior_centre_refuted.
Print Assumptions categorical_prior.
