(** Theorems about mutation, crossover, comparison, grids and identifiers. *)
From Verif Require Import Space_proofs Space_more_proofs Space_ops_proofs Space_eq_proofs Space_mut_proofs Space_grid_proofs Space_ask_proofs Param_props Space_props Param_proofs Param_int_proofs Dom_cast_proofs Enc_spec Enc_proofs Py_proofs Dom_model Space_spec.
From Coq Require Import Lqa Permutation Qabs SpecFloat.
Open Scope nat_scope.
Local Notation length := List.length.
Local Notation get := Param_props.get.

(** ** Mutation and crossover *)
(** A mutated configuration has exactly one value that differs; it is not the fidelity and not
    a constant. *)
Theorem mutation_one_value : forall lnf expf s n picks draws c, is_space lnf expf s -> s_mutate (Qar lnf expf) s n picks draws = Ok c ->
  is_space lnf expf c /\ s_def c = s_def s /\
  exists name p, In (name, p) s /\ p_fid p = false /\ mutatable p = true /\
    paired (fun k p q => if String.eqb k name then differ (p_value (Qar lnf expf) p) (p_value (Qar lnf expf) q)
                         else p_value (Qar lnf expf) q = p_value (Qar lnf expf) p) s c.
Proof.
  intros lnf expf s n picks draws c S E. apply space_wf in S. apply (s_mutate_inv lnf expf s n picks draws c S) in E.
  destruct (smbo_inv lnf expf s picks draws n 0 c S E) as (W & K & name & p & L & X).
  split; [apply space_wf; exact W|]. split; [apply (kept_def lnf expf); exact K|]. exists name, p. split; [apply lookup_In; exact L|exact X].
Qed.
Definition ex_m : space (option Q) := get [] (s_mutate PA ex_1 1 (fun _ => 0) (fun _ => DNums [Some (1 # 2)%Q])).
Example mutation_one_value_ex : is_space pln pexp ex_1 /\ s_mutate PA ex_1 1 (fun _ => 0) (fun _ => DNums [Some (1 # 2)%Q]) = Ok ex_m.
Proof. split; [exact ex_1_space|lazy; reflexivity]. Qed.

(** Mutating with [parent=] never succeeds. *)
Theorem mutation_with_parent_fails : forall (s : space (option Q)) picks i n c, smbo_parent s picks i n <> Ok c.
Proof.
  intros s picks i n c. revert i. induction n as [|n IH]; intros i; cbn [smbo_parent]; [discriminate|].
  destruct (nth_error (s_mutatable s) (picks i)); [apply IH|discriminate].
Qed.
Theorem mutation_with_parent_refuted : exists s, is_space pln pexp s /\ (length (s_mutatable s) > 0)%nat /\
  forall picks i n c, smbo_parent s picks i n <> Ok c.
Proof. exists ex_1. split; [exact ex_1_space|]. split; [lazy; lia|]. intros. apply mutation_with_parent_fails. Qed.

(** The children of a crossover are configurations of the space; what is not crossed is as in
    the first and the second parent. *)
Theorem crossover_children : forall lnf expf s o n coins draws a b, is_space lnf expf s -> is_space lnf expf o -> s_def o = s_def s ->
  s_crossover (Qar lnf expf) s o n coins draws = Ok (a, b) ->
  is_space lnf expf a /\ is_space lnf expf b /\ s_def a = s_def s /\ s_def b = s_def s /\
  paired (fun k p a => if crossed coins k p then exists v, p_value (Qar lnf expf) a = Some v /\ legal (p_def p) v
                       else p_value (Qar lnf expf) a = p_value (Qar lnf expf) p) s a /\
  paired (fun k p b => if crossed coins k p then exists v, p_value (Qar lnf expf) b = Some v /\ legal (p_def p) v
                       else exists q, In (k, q) o /\ p_value (Qar lnf expf) b = p_value (Qar lnf expf) q) s b.
Proof.
  intros lnf expf s o n coins draws a b S O D E. apply space_wf in S. apply space_wf in O.
  destruct (s_crossover_inv lnf expf s o n coins draws a b S O D E) as ((WA & KA & HA) & (WB & KB & HB)).
  split; [apply space_wf; exact WA|]. split; [apply space_wf; exact WB|].
  split; [apply (kept_def lnf expf); exact KA|]. split; [apply (kept_def lnf expf); exact KB|]. split.
  - pose proof (paired_and _ _ _ _ KA HA) as P. eapply paired_impl; [exact P|]. intros k p q _ _ ((R & EQ) & H). cbv beta in H.
    destruct (crossed coins k p); [|exact H]. destruct H as [v V]. exists v. split; [exact V|]. rewrite <- EQ. apply (value_legal lnf expf q v R V).
  - pose proof (paired_and _ _ _ _ KB HB) as P. eapply paired_impl; [exact P|]. intros k p q _ _ ((R & EQ) & H). cbv beta in H.
    destruct (crossed coins k p).
    + destruct H as [v V]. exists v. split; [exact V|]. rewrite <- EQ. apply (value_legal lnf expf q v R V).
    + destruct H as (r & L & V). exists r. split; [apply lookup_In; exact L|exact V].
Qed.
Definition ex_cross := s_crossover PA ex_1 ex_2 1 (fun k => String.eqb k "lr") (fun _ _ => DNums [Some (1 # 8)%Q; Some (3 # 4)%Q]).
Example crossover_children_ex : is_space pln pexp ex_1 /\ is_space pln pexp ex_2 /\ s_def ex_2 = s_def ex_1 /\ is_ok ex_cross = true.
Proof.
  split; [exact ex_1_space|]. split; [exact ex_2_space|]. split; [|lazy; reflexivity].
  transitivity (s_def ex_s); [|symmetry]; eapply sample_legal; [exact ex_s_space|exact ex_2_of|exact ex_s_space|exact ex_1_of].
Qed.

(** ** Comparing configurations *)
(** Configurations count as equal just when all their values are alike, fidelities aside if so
    asked. *)
Theorem equality_iff : forall lnf expf s o incl, ideal lnf expf -> comparable lnf expf s o -> NoDup (map fst s) ->
  exists b, is_equal_value (Qar lnf expf) s o incl = Ok b /\
    (b = true <-> paired (fun _ p q => p_fid p && negb incl = false -> alike_at lnf expf p q) s o).
Proof. intros lnf expf s o incl I. apply is_equal_iff, I. Qed.
Lemma samples_comparable s n1 d1 c1 n2 d2 c2 : is_space pln pexp s -> s_sample PA s false n1 d1 = Ok c1 -> s_sample PA s false n2 d2 = Ok c2 ->
  comparable pln pexp c1 c2.
Proof.
  intros S E1 E2. apply space_wf in S. destruct (s_sample_inv pln pexp s false n1 d1 c1 S E1) as (_ & K1 & H1).
  destruct (s_sample_inv pln pexp s false n2 d2 c2 S E2) as (_ & K2 & H2).
  pose proof (paired_and _ _ _ _ K1 H1) as P1. pose proof (paired_and _ _ _ _ K2 H2) as P2. clear -P1 P2. revert c2 P2.
  induction P1 as [|(k, p) (k1, q1) s c1 (N1 & (R1 & D1) & V1) _ IH]; intros c2 P2; inversion P2 as [|? (k2, q2) ? ? (N2 & (R2 & D2) & V2) P2']; subst; constructor.
  - cbn [fst snd] in *. rewrite andb_false_r in V1, V2. destruct V1 as (v1 & V1 & _). destruct V2 as (v2 & V2 & _). split; [congruence|].
    split; [split; [exact R1|]; split; [exact R2|congruence]|]. right. eauto.
  - apply IH. exact P2'.
Qed.
Lemma ex_comparable : comparable pln pexp ex_1 ex_2.
Proof. exact (samples_comparable ex_s 1 _ ex_1 1 _ ex_2 ex_s_space ex_1_of ex_2_of). Qed.
Example equality_iff_ex : ideal pln pexp /\ comparable pln pexp ex_1 ex_2 /\ NoDup (map fst ex_1).
Proof. split; [exact ideal_p|]. split; [exact ex_comparable|]. repeat constructor; cbn; intuition discriminate. Qed.

(** A configuration is equal to itself and its clone. *)
Theorem equality_reflexive : forall lnf expf s o incl, ideal lnf expf -> is_space lnf expf s -> s_clone (Qar lnf expf) s = Ok o ->
  is_equal_value (Qar lnf expf) s o incl = Ok true.
Proof.
  intros lnf expf s o incl ID S E. apply space_wf in S. destruct (s_clone_ok lnf expf s S) as (o' & E' & W & K & V). rewrite E' in E. injection E as ->.
  pose proof (paired_and _ _ _ _ K (hp_paired lnf expf s o V)) as P.
  assert (C : comparable lnf expf s o).
  { eapply paired_impl; [exact P|]. intros k p q I _ ((R & D) & VQ). cbv beta in VQ. split; [split; [apply (wf_reach lnf expf s k p S I)|auto]|].
    rewrite VQ. destruct (p_value (Qar lnf expf) p); [right; eauto|left; auto]. }
  destruct (is_equal_iff lnf expf ID s o incl C (wf_nodup lnf expf s S)) as (b & EB & H). rewrite EB. f_equal. apply H.
  eapply paired_impl; [exact P|]. intros k p q I _ ((R & D) & VQ) _. cbv beta in VQ. unfold alike_at. rewrite VQ.
  destruct (p_value (Qar lnf expf) p) as [v|] eqn:VP; [|exact Logic.I]. apply (alike_refl lnf expf p v (wf_reach lnf expf s k p S I) VP).
Qed.
Example equality_reflexive_ex : ideal pln pexp /\ is_space pln pexp ex_1 /\ is_ok (s_clone PA ex_1) = true.
Proof. split; [exact ideal_p|]. split; [exact ex_1_space|lazy; reflexivity]. Qed.

(** It is not transitive. *)
Definition ex_at (x : Q) : space (option Q) := [("x", PF (fst (f_set_value PA ex_f (Some (Some x)))))].
Lemma ex_at_space x : search_space (ex_at x) = Ok (ex_at x) -> is_space pln pexp (ex_at x).
Proof.
  intros E. exists (ex_at x). split; [repeat constructor; cbn; tauto|]. split; [|exact E]. intros k p [H|[]].
  apply (f_equal snd) in H. change (PF (fst (f_set_value PA ex_f (Some (Some x)))) = p) in H. rewrite <- H. exists 1%Q, 9%Q. apply (fr_set PA), ex_f_reach.
Qed.
Theorem equality_transitive_refuted : exists a b c, is_space pln pexp a /\ is_space pln pexp b /\ is_space pln pexp c /\
  s_def b = s_def a /\ s_def c = s_def a /\
  is_equal_value PA a b true = Ok true /\ is_equal_value PA b c true = Ok true /\ is_equal_value PA a c true = Ok false.
Proof.
  exists (ex_at 2), (ex_at (2 + (3 # 100000000))), (ex_at (2 + (6 # 100000000))). split; [apply ex_at_space; reflexivity|].
  split; [apply ex_at_space; reflexivity|]. split; [apply ex_at_space; reflexivity|].
  lazy. repeat (split; [reflexivity|]). reflexivity.
Qed.
(** Any two float constants count as equal. *)
Theorem equality_constants_refuted : exists x y, py_eqb (VFloat x) (VFloat y) = false /\
  let s v := [("k", PK (constant_parameter (VFloat v)))] in
  is_space pln pexp (s x) /\ is_space pln pexp (s y) /\ is_equal_value PA (s x) (s y) true = Ok true.
Proof.
  exists (FZ 1), (FZ 2). split; [reflexivity|]. cbv zeta. split; [|split; [|reflexivity]].
  - exists [("k", PK (constant_parameter (VFloat (FZ 1))))]. split; [repeat constructor; cbn; tauto|]. split; [|reflexivity].
    intros k p [[= <- <-]|[]]. split; reflexivity.
  - exists [("k", PK (constant_parameter (VFloat (FZ 2))))]. split; [repeat constructor; cbn; tauto|]. split; [|reflexivity].
    intros k p [[= <- <-]|[]]. split; reflexivity.
Qed.

(** ** Around an incumbent *)
(** Local mutation gives a configuration of the space; the fidelity, the constants and, unless
    told to, the categoricals are as they were; some other value is not alike, or, when all
    attempts have failed, nothing has changed. *)
Theorem local_mutation_changes : forall lnf expf c cats coins draws n r, ideal lnf expf -> is_space lnf expf c -> legal_space lnf expf c ->
  local_mutation (Qar lnf expf) c cats coins draws 0 n = Ok r ->
  is_space lnf expf r /\ s_def r = s_def c /\
  paired (fun k p q => p_value (Qar lnf expf) q = p_value (Qar lnf expf) p \/
    (touched cats p = true /\ (exists v, p_value (Qar lnf expf) q = Some v /\ legal (p_def p) v) /\
     differ (p_value (Qar lnf expf) p) (p_value (Qar lnf expf) q))) c r /\
  (hp_values (Qar lnf expf) r = hp_values (Qar lnf expf) c \/
   exists k p q, In (k, p) c /\ In (k, q) r /\ touched cats p = true /\ ~ alike_at lnf expf p q).
Proof.
  intros lnf expf c cats coins draws n r ID S LG E. apply space_wf in S.
  destruct (local_mutation_inv lnf expf ID c cats coins draws n 0 r S LG E) as (W & K & H & X).
  split; [apply space_wf; exact W|]. split; [apply (kept_def lnf expf); exact K|]. split; [|exact X].
  eapply paired_impl; [exact (paired_and _ _ _ _ K H)|]. intros k p q _ _ ((R & D) & [V|(TO & (v & V) & DF)]); [left; exact V|right].
  split; [exact TO|]. split; [|exact DF]. exists v. split; [exact V|]. rewrite <- D. apply (value_legal lnf expf q v R V).
Qed.
Definition ex_lm := local_mutation PA ex_1 true (fun _ _ => true) (fun _ k => if String.eqb k "opt" then DIdx 2 else DNums [Some (1 # 2)%Q]) 0 2.
Example local_mutation_changes_ex : ideal pln pexp /\ is_space pln pexp ex_1 /\ legal_space pln pexp ex_1 /\ is_ok ex_lm = true.
Proof.
  split; [exact ideal_p|]. split; [exact ex_1_space|]. split; [|lazy; reflexivity].
  intros k p I _. exact (sampled_complete _ _ _ _ ex_s_space ex_1_of k p I).
Qed.

(** Crossover of two configurations: values of one and the other, the fidelity of the first,
    not equal to the first; or a sample when all attempts have failed. *)
Theorem custom_crossover_mixes : forall lnf expf c1 c2 coins draws n r, ideal lnf expf -> is_space lnf expf c1 -> is_space lnf expf c2 ->
  s_def c2 = s_def c1 -> legal_space lnf expf c1 -> legal_space lnf expf c2 ->
  custom_crossover (Qar lnf expf) c1 c2 coins draws n = Ok r ->
  is_space lnf expf r /\ s_def r = s_def c1 /\ legal_space lnf expf r /\
  ((mixed lnf expf c1 c2 r /\ exists k p q, In (k, p) c1 /\ In (k, q) r /\ p_fid p = false /\ ~ alike_at lnf expf q p) \/
   s_sample (Qar lnf expf) c1 true n draws = Ok r).
Proof.
  intros lnf expf c1 c2 coins draws n r ID S1 S2 D L1 L2 E. apply space_wf in S1. apply space_wf in S2. unfold custom_crossover in E.
  apply bind_ok in E. destruct E as ([r'|] & C & E).
  - injection E as ->. destruct (crossover_loop_inv lnf expf ID c1 c2 coins n 0 r S1 S2 D L1 L2 C) as (W & K & M & X).
    split; [apply space_wf; exact W|]. split; [apply (kept_def lnf expf); exact K|]. split; [|left; auto].
    apply (legal_after lnf expf c1 r S1 K). intros k q I F. destruct (paired_in_r _ _ _ _ _ (paired_and _ _ _ _ K M) I) as (p & I' & (RQ & DQ) & V).
    apply def_fid in DQ. destruct V as [V|(_ & p2 & LK & V)].
    + destruct (L1 k p I' ltac:(congruence)) as (v & VP & _). exists v. congruence.
    + pose proof (def_lookup c1 c2 D k) as DL. rewrite (In_lookup k c1 p (wf_nodup _ _ c1 S1) I'), LK in DL. apply def_fid in DL.
      destruct (L2 k p2 (lookup_In k c2 p2 LK) ltac:(congruence)) as (v & VP & _). exists v. congruence.
  - destruct (s_sample_inv lnf expf c1 true n draws r S1 E) as (W & K & H). split; [apply space_wf; exact W|].
    split; [apply (kept_def lnf expf); exact K|]. split; [|right; exact E].
    apply (legal_after lnf expf c1 r S1 K). intros k q I F. destruct (paired_in_r _ _ _ _ _ (paired_and _ _ _ _ K H) I) as (p & I' & (RQ & DQ) & V).
    apply def_fid in DQ. cbv beta in V. replace (p_fid p) with false in V by congruence. cbn [andb] in V. destruct V as (v & V & _). eauto.
Qed.
Definition ex_cc := custom_crossover PA ex_1 ex_2 (fun _ k => String.eqb k "opt") (ex_draws 0 (1 # 4)) 2.
Example custom_crossover_mixes_ex : ideal pln pexp /\ is_space pln pexp ex_1 /\ is_space pln pexp ex_2 /\ s_def ex_2 = s_def ex_1 /\
  legal_space pln pexp ex_1 /\ legal_space pln pexp ex_2 /\ is_ok ex_cc = true.
Proof.
  split; [exact ideal_p|]. split; [exact ex_1_space|]. split; [exact ex_2_space|]. split; [apply crossover_children_ex|].
  split; [intros k p I _; exact (sampled_complete _ _ _ _ ex_s_space ex_1_of k p I)|].
  split; [intros k p I _; exact (sampled_complete _ _ _ _ ex_s_space ex_2_of k p I)|lazy; reflexivity].
Qed.
(** It never raises, as long as the space can be sampled. *)
Theorem custom_crossover_total : forall lnf expf c1 c2 coins draws n, ideal lnf expf -> is_space lnf expf c1 -> is_space lnf expf c2 ->
  s_def c2 = s_def c1 -> legal_space lnf expf c1 -> legal_space lnf expf c2 -> 0 < n ->
  (forall k p, In (k, p) c1 -> p_fid p = false -> fits p (draws k 0)) ->
  exists r, custom_crossover (Qar lnf expf) c1 c2 coins draws n = Ok r.
Proof.
  intros lnf expf c1 c2 coins draws n ID S1 S2 D L1 L2 N F. apply space_wf in S1. apply space_wf in S2. unfold custom_crossover.
  destruct (crossover_loop_ok lnf expf ID c1 c2 coins n 0 S1 S2 D L1 L2) as (r & ->). cbn [bind]. destruct r; [eauto|].
  apply (s_sample_ok lnf expf c1 true n draws S1 N). intros k p I FI. apply (F k p I). rewrite andb_true_r in FI. exact FI.
Qed.
Example custom_crossover_total_ex : legal_space pln pexp ex_2 /\ forall k p, In (k, p) ex_1 -> p_fid p = false -> fits p (ex_draws 0 (1 # 4) k 0).
Proof.
  split; [apply custom_crossover_mixes_ex|]. intros k p [[= <- <-]|[[= <- <-]|[[= <- <-]|[[= <- <-]|[]]]]] _; cbn; auto.
Qed.

(** ** Grids *)
(** The grid of a space exists, has the product of the numbers of points of the parameters
    many entries, and each has for each parameter one of its points. *)
Theorem grid_points : forall lnf expf s n e, ideal lnf expf -> is_space lnf expf s -> exists g, s_grid (Qar lnf expf) s n e = Ok g /\
  length g = fold_right Nat.mul 1 (map (fun kv => points n (p_def (snd kv))) s) /\
  forall c, In c g -> paired (fun _ p v => legal (p_def p) v /\ exists j, nth_point lnf expf n e (p_def p) j v) s c.
Proof.
  intros lnf expf s n e ID S. apply space_wf in S. destruct (s_grid_ok lnf expf ID s n e S) as (r & _ & E). eexists. split; [exact E|].
  split; [exact (s_grid_length lnf expf ID s n e _ S E)|]. intros c I. pose proof (s_grid_in lnf expf ID s n e _ c S E I) as P.
  eapply paired_impl; [exact P|]. intros k p v J _ (j & X). split; [|eauto].
  exact (point_legal lnf expf ID p n e j v (wf_reach lnf expf s k p S J) X).
Qed.
Example grid_points_ex : ideal pln pexp /\ is_space pln pexp ex_s /\
  fold_right Nat.mul 1 (map (fun kv => points 5 (p_def (snd kv))) ex_s) = 100.
Proof. split; [exact ideal_p|split; [exact ex_s_space|reflexivity]]. Qed.

(** Every combination of points is there. *)
Theorem grid_combinations : forall lnf expf s n e g js, ideal lnf expf -> is_space lnf expf s -> s_grid (Qar lnf expf) s n e = Ok g ->
  Forall2 (fun kv j => j < points n (p_def (snd kv))) s js ->
  exists c, In c g /\ map fst c = map fst s /\
    Forall2 (fun kv jv => nth_point lnf expf n e (p_def (snd kv)) (fst jv) (snd (snd jv))) s (combine js c).
Proof. intros lnf expf s n e g js ID S. apply space_wf in S. apply s_grid_all; assumption. Qed.
Example grid_combinations_ex : ideal pln pexp /\ is_space pln pexp ex_s /\ is_ok (s_grid PA ex_s 2 true) = true /\
  Forall2 (fun kv j => j < points 5 (p_def (snd kv))) ex_s [0; 4; 2; 3].
Proof.
  split; [exact ideal_p|]. split; [exact ex_s_space|]. split; [lazy; reflexivity|].
  change ex_s with [("arch", PK (constant_parameter (VStr "mlp"))); ("epochs", PI ex_fid); ("lr", PF ex_g); ("opt", PC ex_c)].
  repeat first [apply Forall2_nil | apply Forall2_cons; [apply Nat.ltb_lt; reflexivity|]].
Qed.

(** And only once: any two entries differ, if there are at least as many integers as points and
    no integers on a log scale. *)
Theorem grid_distinct_partial : forall lnf expf s n g, ideal lnf expf -> is_space lnf expf s -> s_grid (Qar lnf expf) s n true = Ok g ->
  (forall k p, In (k, p) s -> roomy n (p_def p)) ->
  forall i j c d, nth_error g i = Some c -> nth_error g j = Some d -> i < j ->
  exists k v w, In (k, v) c /\ In (k, w) d /\ differ (Some v) (Some w).
Proof. intros lnf expf s n g ID S. apply space_wf in S. apply (s_grid_apart lnf expf ID s n g S). Qed.
Example grid_distinct_partial_ex : ideal pln pexp /\ is_space pln pexp ex_s /\ forall k p, In (k, p) ex_s -> roomy 9 (p_def p).
Proof.
  split; [exact ideal_p|]. split; [exact ex_s_space|]. intros k p [[= <- <-]|[[= <- <-]|[[= <- <-]|[[= <- <-]|[]]]]]; cbn; auto. split; [reflexivity|lia].
Qed.
(** With more points than integers there are repetitions, though they are said to be removed. *)
Theorem grid_repetitions : forall lnf expf l u p n, ideal lnf expf -> ireach (Qar lnf expf) true l u p -> (u - l + 1 < Z.of_nat n)%Z ->
  exists g j k c, s_grid (Qar lnf expf) [("i", PI p)] n true = Ok g /\ j <> k /\ nth_error g j = Some c /\ nth_error g k = Some c.
Proof.
  intros lnf expf l u p n ID R L. destruct (integers_repeat lnf expf ID l u p n R L) as (vs & j & k & v & E & JK & N1 & N2).
  unfold s_grid. cbn [mapM snd]. rewrite E. cbn [bind s_names map fst product]. eexists _, j, k, [("i", v)]. split; [reflexivity|]. split; [exact JK|].
  assert (X : forall i, nth_error vs i = Some v -> nth_error (map (fun vs0 => sort_names (combine ["i"] vs0)) (flat_map (fun x => map (cons x) [[]]) vs)) i = Some [("i", v)]).
  { clear. induction vs as [|a vs IH]; intros [|i] N; try discriminate; cbn in *; [congruence|]. apply IH. exact N. }
  split; apply X; assumption.
Qed.
Example grid_repetitions_ex : ideal pln pexp /\ ireach PA true 1 9 ex_i /\ (9 - 1 + 1 < Z.of_nat 10)%Z.
Proof. split; [exact ideal_p|]. split; [apply ex_i_reach|reflexivity]. Qed.
Theorem grid_repetition_refuted : exists s n g j k c, (exists p, s = [("i", PI p)] /\ ireach PA true 1 9 p) /\
  s_grid PA s n true = Ok g /\ j <> k /\ nth_error g j = Some c /\ nth_error g k = Some c.
Proof.
  destruct grid_repetitions_ex as (I & R & L). destruct (grid_repetitions pln pexp _ _ _ _ I R L) as (g & j & k & c & H).
  exists [("i", PI ex_i)], 10%nat, g, j, k, c. split; [exists ex_i; split; [reflexivity|exact R]|exact H].
Qed.
(** The fidelity is not fixed. *)
Theorem grid_fidelity_refuted : exists s g c d, is_space pln pexp s /\ s_fidelity s = Some "epochs" /\ s_grid PA s 2 true = Ok g /\
  In c g /\ In d g /\ lookup "epochs" c = Some (HN (Some 1%Q)) /\ lookup "epochs" d = Some (HN (Some 9%Q)).
Proof.
  pose (g := get [] (s_grid PA ex_s 2 true)).
  exists ex_s, g, (nth 0 g []), (nth 15 g []). split; [exact ex_s_space|]. split; [reflexivity|]. split; [lazy; reflexivity|].
  split; [apply nth_In; lazy; lia|]. split; [apply nth_In; lazy; lia|]. split; lazy; reflexivity.
Qed.
(** In binary64 the last point can be above the upper bound: the grid of a float between 0.6 and
    1.8 ends with 1.8000000000000003, the clipped grid being thrown away. *)
Definition B := Bar 53 1024 (fun x => x) (fun x => x).
(** 0.6, 1.8, 1.8000000000000003 *)
Definition b06 : spec_float := S754_finite false 5404319552844595 (-53).
Definition b18 : spec_float := S754_finite false 8106479329266893 (-52).
Theorem grid_binary64_refuted : exists p v vs, float_parameter B b06 b18 false false None "low" = Ok p /\
  p_grid B (PF p) 2 true = Ok (v :: [HN vs]) /\ altb B b18 vs = true.
Proof.
  pose (p := get (mkF b06 b06 false false None "" "" None None false None None (mkD (BFloat b06 b06) false None None false false None))
                 (float_parameter B b06 b18 false false None "low")).
  exists p. eexists. exists (S754_finite false 8106479329266894 (-52)). split; [lazy; reflexivity|]. split; [lazy; reflexivity|lazy; reflexivity].
Qed.

(** ** Identifiers and grid search *)
(** The decimal representations of different numbers differ. *)
Theorem decimal_injective : forall m n, py_str_nat m = py_str_nat n -> m = n.
Proof. exact str_nat_inj. Qed.
Example decimal_injective_ex : py_str_nat 120 = "120" /\ py_str_nat 0 = "0".
Proof. split; reflexivity. Qed.

(** Random search never gives an identifier twice. *)
Theorem random_search_ids : forall T (A : arith T) s ign n l,
  asked (fun k c => exists draws, random_ask A s ign n draws k = Ok c) l -> NoDup (map sc_id l).
Proof.
  intros T A s ign n l. apply asked_ids with (f := S); [congruence|]. intros k c (draws & E). unfold random_ask in E. apply bind_ok in E.
  destruct E as (x & _ & [= <-]). cbn. f_equal. lia.
Qed.
Example random_search_ids_ex : asked (fun k c => exists draws, random_ask PA ex_s false 1 draws k = Ok c)
  [mkSampled (hp_values PA ex_1) "1" None; mkSampled (hp_values PA ex_2) "2" None].
Proof.
  apply (asked_snoc _ [_]); [apply (asked_snoc _ []); [constructor|]|].
  - exists (ex_draws 0 (1 # 4)). reflexivity.
  - exists (ex_draws 3 (1 # 2)). reflexivity.
Qed.
(** Nor does Bayesian optimisation, whatever the model proposes. *)
Theorem bayesian_ids : forall C (design : list C) l,
  asked (fun k c => exists model, bo_ask design model k = Ok c) l -> NoDup (map sc_id l).
Proof.
  intros C design l. apply asked_ids with (f := S); [congruence|]. intros k c (model & E). unfold bo_ask in E. rewrite Nat.add_1_r in E.
  destruct (nth_error design k); [injection E as <-; reflexivity|]. apply bind_ok in E. destruct E as (x & _ & [= <-]). reflexivity.
Qed.
Example bayesian_ids_ex : asked (fun k c => exists model, bo_ask [7] model k = Ok c) [mkSampled 7 "1" None; mkSampled 9 "2" None].
Proof. apply (asked_snoc _ [_]); [apply (asked_snoc _ []); [constructor|]|]; exists (Ok 9); reflexivity. Qed.
(** The initial design is proposed first and in order. *)
Theorem bayesian_design_first : forall C (design : list C) l, asked (fun k c => exists model, bo_ask design model k = Ok c) l ->
  forall i, i < length design -> i < length l -> nth_error (map sc_config l) i = nth_error design i.
Proof.
  intros C design l A i D L. destruct (nth_some l i L) as [c N]. rewrite nth_error_map, N. cbn. destruct (asked_nth _ l A i c N) as (m & E).
  unfold bo_ask in E. destruct (nth_error design i) as [x|] eqn:X; [injection E as <-; reflexivity|]. apply nth_error_None in X. lia.
Qed.
Example bayesian_design_first_ex : asked (fun k c => exists model, bo_ask [7] model k = Ok c) [mkSampled 7 "1" None; mkSampled 9 "2" None] /\
  0 < length [7] /\ 0 < 2.
Proof. split; [exact bayesian_ids_ex|cbn; lia]. Qed.
(** Nor does grid search, whether it shuffles the same way each time or not. *)
Theorem grid_search_ids : forall C (configs : list C) l,
  asked (fun k c => exists shuffled, grid_ask configs shuffled k = Ok c) l -> NoDup (map sc_id l).
Proof.
  intros C configs l. apply asked_ids with (f := fun k => k); [auto|]. intros k c (sh & E). unfold grid_ask in E.
  destruct (Nat.ltb k (length configs)); [|discriminate]. destruct (nth_error sh k) as [i|]; [|discriminate].
  destruct (nth_error configs i); [|discriminate]. injection E as <-. reflexivity.
Qed.
Example grid_search_ids_ex : asked (fun k c => exists shuffled, grid_ask [7; 8] shuffled k = Ok c) [mkSampled 8 "0" None; mkSampled 8 "1" None].
Proof. apply (asked_snoc _ [_]); [apply (asked_snoc _ []); [constructor|]|]; [exists [1; 0]|exists [0; 1]]; reflexivity. Qed.

(** With a seed, grid search proposes every configuration of the grid exactly once and refuses
    after that.  [shuffled] are the positions in the order the seed gives. *)
Theorem grid_search_each_once_partial : forall C (configs : list C) shuffled l, Permutation shuffled (seq 0 (length configs)) ->
  asked (fun k c => grid_ask configs shuffled k = Ok c) l ->
  (length l < length configs -> exists c, grid_ask configs shuffled (length l) = Ok c) /\
  (length l = length configs -> Permutation (map sc_config l) configs /\ grid_ask configs shuffled (length l) = Err ValueError) /\
  length l <= length configs.
Proof.
  intros C configs sh l P A. pose proof (grid_next configs sh (length l) P) as N. split; [|split].
  - intros L. rewrite (proj2 (Nat.ltb_lt _ _) L) in N. exact N.
  - intros L. split; [exact (grid_all configs sh l P A L)|]. rewrite (proj2 (Nat.ltb_ge _ _)) in N by lia. exact N.
  - apply (grid_asked configs sh l P A).
Qed.
Example grid_search_each_once_partial_ex : Permutation [1; 0] (seq 0 (length [7; 8])) /\
  asked (fun k c => grid_ask [7; 8] [1; 0] k = Ok c) [mkSampled 8 "0" None; mkSampled 7 "1" None].
Proof. split; [apply perm_swap|]. apply (asked_snoc _ [_]); [apply (asked_snoc _ []); [constructor|]|]; reflexivity. Qed.
(** Without a seed, which is the default, the order is drawn anew each time: a configuration can
    be proposed twice and another one never. *)
Theorem grid_search_no_seed_refuted : exists (configs : list nat) l c, NoDup configs /\ In c configs /\
  asked (fun k c => exists shuffled, Permutation shuffled (seq 0 (length configs)) /\ grid_ask configs shuffled k = Ok c) l /\
  length l = length configs /\ ~ In c (map sc_config l) /\ ~ NoDup (map sc_config l).
Proof.
  exists [7; 8], [mkSampled 8 "0" None; mkSampled 8 "1" None], 7. split; [repeat constructor; cbn; lia|]. split; [cbn; auto|]. split.
  - apply (asked_snoc _ [_]); [apply (asked_snoc _ []); [constructor|]|]; [exists [1; 0]; split; [apply perm_swap|reflexivity]|exists [0; 1]; split; [apply Permutation_refl|reflexivity]].
  - split; [reflexivity|]. split; [cbn; lia|]. intros N. inversion N as [|? ? X _]. apply X. left. reflexivity.
Qed.

Print Assumptions mutation_one_value.
Print Assumptions mutation_with_parent_fails.
Print Assumptions mutation_with_parent_refuted.
Print Assumptions crossover_children.
Print Assumptions equality_iff.
Print Assumptions equality_reflexive.
Print Assumptions equality_transitive_refuted.
Print Assumptions equality_constants_refuted.
Print Assumptions local_mutation_changes.
Print Assumptions custom_crossover_mixes.
Print Assumptions custom_crossover_total.
Print Assumptions grid_points.
Print Assumptions grid_combinations.
Print Assumptions grid_distinct_partial.
Print Assumptions grid_repetitions.
Print Assumptions grid_repetition_refuted.
Print Assumptions grid_fidelity_refuted.
Print Assumptions grid_binary64_refuted.
Print Assumptions decimal_injective.
Print Assumptions random_search_ids.
Print Assumptions bayesian_ids.
Print Assumptions bayesian_design_first.
Print Assumptions grid_search_ids.
Print Assumptions grid_search_each_once_partial.
Print Assumptions grid_search_no_seed_refuted.
