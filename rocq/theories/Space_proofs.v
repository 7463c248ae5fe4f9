(** One parameter: what its methods keep. *)
From Verif Require Import Space_spec Param_proofs Param_int_proofs Param_cat_proofs Param_more_proofs Dom_proofs Py_proofs Enc_proofs.
From Coq Require Import Lqa Permutation.
Open Scope nat_scope.
Local Notation length := List.length.

Lemma bind_ok {B C} (r : res B) (f : B -> res C) c : bind r f = Ok c -> exists b, r = Ok b /\ f b = Ok c.
Proof. destruct r; cbn; [eauto|discriminate]. Qed.

Section S.
  Variables lnf expf : Q -> Q.
  Notation A := (Qar lnf expf).
  Notation par := (param (option Q)).

  (** ** Floats *)
  Lemma f_set_def p v q r : f_set_value A p v = (q, r) -> p_def (PF q) = p_def (PF p).
  Proof.
    unfold f_set_value. destruct v as [x|]; [|intros [= <- _]; reflexivity].
    destruct (negb _); [intros [= <- _]; reflexivity|]. destruct (f_to_norm A p x); intros [= <- _]; reflexivity.
  Qed.
  Lemma f_clone_def l u p q : fgood A l u p -> f_clone A p = Ok q -> p_def (PF q) = p_def (PF p) /\ fp_value q = fp_value p.
  Proof. intros G. rewrite (clone_same A l u p G). intros [= <-]. auto. Qed.
  Lemma f_nb_def l u p : fgood A l u p -> forall draws n qs q, f_neighbour_loop A p n draws = Ok qs -> In q qs -> p_def (PF q) = p_def (PF p).
  Proof.
    intros G draws. induction draws as [|x draws IH]; intros n qs q; destruct n as [|n]; cbn [f_neighbour_loop];
      try (intros [= <-] []); try discriminate.
    destruct (_ || _); [apply IH|]. intros H. apply bind_ok in H. destruct H as (v & _ & H).
    apply bind_ok in H. destruct H as (c & C & H). apply bind_ok in H. destruct H as (d & D & H). apply bind_ok in H. destruct H as (l0 & L & H).
    injection H as <-. intros [<-|I]; [|eapply IH; eauto].
    apply then_ok_inv in D. destruct D as [y D]. rewrite (f_set_def _ _ _ _ D). apply (f_clone_def l u p c G C).
  Qed.
  Lemma f_nbs_def l u p n draws qs q : fgood A l u p -> f_neighbours A p n draws = Ok qs -> In q qs -> p_def (PF q) = p_def (PF p).
  Proof.
    intros G. unfold f_neighbours. destruct (fp_value p); [|discriminate]. intros H. apply bind_ok in H. destruct H as (y & _ & H).
    eapply f_nb_def; eauto.
  Qed.
  Lemma f_mutate_def l u p draw draws q : fgood A l u p -> f_mutate A p None LocalSearch draw draws = Ok q -> p_def (PF q) = p_def (PF p).
  Proof.
    intros G. unfold f_mutate. destruct (fp_fid p); [discriminate|]. intros H. apply bind_ok in H. destruct H as (c & C & H).
    destruct (opt_T_eqb _ _ _); [discriminate|]. injection H as <-. apply bind_ok in C. destruct C as (qs & N & F).
    destruct qs as [|c' qs]; [discriminate|]. injection F as <-. eapply f_nbs_def; eauto. left. reflexivity.
  Qed.
  Lemma f_cross_def l u p p1 p2 draws q1 q2 : fgood A l u p -> f_crossover A p p1 p2 draws = Ok (q1, q2) ->
    p_def (PF q1) = p_def (PF p) /\ p_def (PF q2) = p_def (PF p).
  Proof.
    intros G. unfold f_crossover. destruct (fp_fid p); [discriminate|]. destruct (fp_value p1) as [x|]; [|discriminate].
    destruct (fp_value _) as [y|]; [|discriminate]. intros H. apply bind_ok in H. destruct H as (c & C & H).
    apply bind_ok in H. destruct H as (d & D & H). apply bind_ok in H. destruct H as (qs & N & H).
    destruct (clone_set_good A l u p _ c d G C D) as (GD & _ & _).
    assert (E : p_def (PF d) = p_def (PF p)).
    { apply then_ok_inv in D. destruct D as [y0 D]. rewrite (f_set_def _ _ _ _ D). apply (f_clone_def l u p c G C). }
    destruct qs as [|a [|b [|? ?]]]; try discriminate. injection H as <- <-.
    split; rewrite <- E; eapply f_nbs_def; eauto; [left|right; left]; reflexivity.
  Qed.

  (** ** Integers *)
  Lemma i_set_def p v q r : i_set_value A p v = (q, r) -> p_def (PI q) = p_def (PI p).
  Proof.
    unfold i_set_value. destruct v as [x|]; [|intros [= <- _]; reflexivity].
    destruct (negb _); [intros [= <- _]; reflexivity|]. destruct (round_int A x) as [z|]; [|intros [= <- _]; reflexivity].
    destruct (f_set_value A (ip_float p) (Some (aZ A z))) as [f [r'|]]; [|intros [= <- _]; reflexivity].
    destruct (i_to_norm A (i_with p (Some z) (ip_norm p) f) z); intros [= <- _]; reflexivity.
  Qed.
  Lemma i_load_def p v q r : i_load A p v = (q, r) -> p_def (PI q) = p_def (PI p).
  Proof. unfold i_load. destruct (round_int A v); intros [= <- _]; reflexivity. Qed.
  Lemma i_clone_def l u p q : igood lnf expf true true l u p -> i_clone A p = Ok q -> p_def (PI q) = p_def (PI p) /\ ip_value q = ip_value p.
  Proof.
    intros G C. destruct (iclone_good lnf expf true l u p q (or_introl G) C eq_refl) as (GQ & V & L & F & CF & _ & D & _).
    split; [|exact V]. cbn. destruct G as (L1 & U1 & _), GQ as (L2 & U2 & _). rewrite L1, L2, U1, U2, L, F, CF, D. reflexivity.
  Qed.
  Lemma i_nb_def l u p cur : igood lnf expf true true l u p -> forall draws n qs q, i_neighbour_loop A p cur n draws = Ok qs -> In q qs ->
    p_def (PI q) = p_def (PI p).
  Proof.
    intros G draws. induction draws as [|x draws IH]; intros n qs q; destruct n as [|n]; cbn [i_neighbour_loop];
      try (intros [= <-] []); try discriminate.
    destruct (_ || _); [apply IH|]. intros H. apply bind_ok in H. destruct H as (v & _ & H). destruct (Z.eqb v cur); [revert H; apply IH|].
    apply bind_ok in H. destruct H as (c & C & H). apply bind_ok in H. destruct H as (d & D & H). apply bind_ok in H. destruct H as (l0 & L & H).
    injection H as <-. intros [<-|I]; [|eapply IH; eauto].
    apply then_ok_inv in D. destruct D as [y D]. rewrite (i_set_def _ _ _ _ D). apply (i_clone_def l u p c G C).
  Qed.
  Lemma i_nbs_def l u p n draws qs q : igood lnf expf true true l u p -> i_neighbours A p n draws = Ok qs -> In q qs -> p_def (PI q) = p_def (PI p).
  Proof.
    intros G. unfold i_neighbours. destruct (ip_value p); [|discriminate]. intros H. apply bind_ok in H. destruct H as (y & _ & H).
    eapply i_nb_def; eauto.
  Qed.
  Lemma i_mutate_def l u p draw draws q : igood lnf expf true true l u p -> i_mutate A p None LocalSearch draw draws = Ok q -> p_def (PI q) = p_def (PI p).
  Proof.
    intros G. unfold i_mutate. destruct (ip_fid p); [discriminate|]. intros H. apply bind_ok in H. destruct H as (c & C & H).
    destruct (opt_eqb _ _ _); [discriminate|]. injection H as <-. apply bind_ok in C. destruct C as (qs & N & F).
    destruct qs as [|c' qs]; [discriminate|]. injection F as <-. eapply i_nbs_def; eauto. left. reflexivity.
  Qed.
  Lemma i_cross_def l u p p1 p2 draws q1 q2 : igood lnf expf true true l u p -> i_crossover A p p1 p2 draws = Ok (q1, q2) ->
    p_def (PI q1) = p_def (PI p) /\ p_def (PI q2) = p_def (PI p).
  Proof.
    intros G. unfold i_crossover. destruct (ip_fid p); [discriminate|]. destruct (ip_value p1) as [x|]; [|discriminate].
    destruct (ip_value _) as [y|]; [|discriminate]. intros H. apply bind_ok in H. destruct H as (c & C & H).
    apply bind_ok in H. destruct H as (d & D & H). apply bind_ok in H. destruct H as (qs & N & H).
    apply then_ok_inv in D. destruct D as [y0 D].
    assert (E : p_def (PI d) = p_def (PI p)) by (rewrite (i_set_def _ _ _ _ D); apply (i_clone_def l u p c G C)).
    assert (GD : igood lnf expf true true l u d).
    { pose proof (iset_good lnf expf true true l u c (Some (adiv A (aZ A (x + y)) (aZ A 2)))
        (proj1 (iclone_good lnf expf true l u p c (or_introl G) C eq_refl))) as X. rewrite D in X. exact X. }
    destruct qs as [|a [|b [|? ?]]]; try discriminate. injection H as <- <-.
    split; rewrite <- E; eapply i_nbs_def; eauto; [left|right; left]; reflexivity.
  Qed.

  (** ** Categoricals *)
  Lemma c_set_def p v q r : c_set_value p v = (q, r) -> p_def (PC q) = p_def (PC p).
  Proof. unfold c_set_value. destruct v as [x|]; [destruct (index_of x (cp_choices p))|]; intros [= <- _]; reflexivity. Qed.
  Lemma c_clone_def cs p q : cgood true cs p -> c_clone p = Ok q -> p_def (PC q) = p_def (PC p) /\ cp_value q = cp_value p.
  Proof. intros G. rewrite (cclone_same cs p G). intros [= <-]. auto. Qed.
  Lemma c_nb_def cs p av : cgood true cs p -> forall draws qs q, c_neighbour_loop p av draws = Ok qs -> In q qs -> p_def (PC q) = p_def (PC p).
  Proof.
    intros G draws. induction draws as [|k draws IH]; intros qs q; cbn [c_neighbour_loop]; [intros [= <-] []|].
    destruct (nth_error av k) as [i|]; [|discriminate]. destruct (nth_error (cp_choices p) i) as [x|]; [|discriminate].
    intros H. apply bind_ok in H. destruct H as (c & C & H). apply bind_ok in H. destruct H as (d & D & H). apply bind_ok in H. destruct H as (l0 & L & H).
    injection H as <-. intros [<-|I]; [|eapply IH; eauto].
    apply then_ok_inv in D. destruct D as [y D]. rewrite (c_set_def _ _ _ _ D). apply (c_clone_def cs p c G C).
  Qed.
  Lemma c_mutate_def cs p draw q : cgood true cs p -> c_mutate p None LocalSearch draw = Ok q -> p_def (PC q) = p_def (PC p).
  Proof.
    intros G. unfold c_mutate. intros H. apply bind_ok in H. destruct H as (c & C & H).
    destruct (opt_py_eqb _ _); [discriminate|]. injection H as <-. apply bind_ok in C. destruct C as (qs & N & F).
    destruct qs as [|c' qs]; [discriminate|]. injection F as <-. unfold c_neighbours in N. destruct (cp_index p); [|discriminate].
    eapply c_nb_def; eauto. left. reflexivity.
  Qed.
  (** In a crossover the first child is a clone of the other parent, the second one of this one. *)
  Lemma c_cross_def cs cs' p p1 q1 q2 : cgood true cs p -> cgood true cs' p1 -> c_crossover p p1 None = Ok (q1, q2) ->
    p_def (PC q1) = p_def (PC p1) /\ p_def (PC q2) = p_def (PC p).
  Proof.
    intros G G1. unfold c_crossover. destruct (cp_value p1) as [x|]; [|discriminate]. destruct (cp_value p) as [y|] eqn:VP; [|discriminate].
    intros H. apply bind_ok in H. destruct H as (c & C & H). apply bind_ok in H. destruct H as (d & D & H).
    apply bind_ok in H. destruct H as (c' & C' & H). apply bind_ok in H. destruct H as (d' & D' & H). injection H as <- <-.
    apply then_ok_inv in D, D'. destruct D as [z D], D' as [z' D'].
    rewrite (c_set_def _ _ _ _ D), (c_set_def _ _ _ _ D'). split; [apply (c_clone_def cs' p1 c G1 C)|apply (c_clone_def cs p c' G C')].
  Qed.

  (** ** Any parameter *)
  Lemma def_fid p q : p_def p = p_def q -> p_fid p = p_fid q.
  Proof. destruct p, q; cbn; intros E; try discriminate; [injection E|injection E| |]; auto. Qed.
  Lemma def_default p q : p_def p = p_def q -> kp_default (match p with PK k => k | _ => constant_parameter VNone end) =
    kp_value (match p with PK k => k | _ => constant_parameter VNone end) ->
    kp_default (match q with PK k => k | _ => constant_parameter VNone end) =
    kp_value (match q with PK k => k | _ => constant_parameter VNone end) -> p_default A p = p_default A q.
  Proof.
    destruct p, q; cbn; intros E; try discriminate; [injection E|injection E|injection E|injection E]; intros; congruence.
  Qed.
  Lemma preach_default p q : preach lnf expf p -> preach lnf expf q -> p_def p = p_def q -> p_default A p = p_default A q.
  Proof.
    intros R R' E. apply def_default; auto; [destruct p|destruct q]; try reflexivity; [apply R|apply R'].
  Qed.

  Lemma clone_ok p : preach lnf expf p -> exists q, p_clone A p = Ok q /\ preach lnf expf q /\ p_def q = p_def p /\ p_value A q = p_value A p.
  Proof.
    destruct p as [p|p|p|p]; cbn [preach p_clone].
    - intros (a & b & R). pose proof (freach_good A _ _ p R) as G. pose proof (clone_same A _ _ p G) as C. rewrite C. cbn [bind].
      eexists. split; [reflexivity|]. split; [|split; reflexivity]. exists a, b. eapply fr_clone; eauto.
    - intros (l & u & R). pose proof (ireach_good lnf expf l u p R) as G. destruct (iclone_total lnf expf l u p G) as [q C]. rewrite C. cbn [bind].
      eexists. split; [reflexivity|]. destruct (i_clone_def l u p q G C) as [E V]. split; [|split; [exact E|cbn; rewrite V; reflexivity]].
      exists l, u. eapply ir_clone; eauto.
    - intros (cs & R & NN). pose proof (creach_good cs p R) as G. pose proof (cclone_same cs p G) as C. rewrite C. cbn [bind].
      eexists. split; [reflexivity|]. split; [|split; reflexivity]. exists cs. split; [eapply cr_clone; eauto|exact NN].
    - intros (D & E). eexists. split; [reflexivity|]. split; [split; [reflexivity|exact E]|]. split; reflexivity.
  Qed.

  (** The value that there is is legal. *)
  Lemma value_legal p v : preach lnf expf p -> p_value A p = Some v -> legal (p_def p) v.
  Proof.
    destruct p as [p|p|p|p]; cbn [preach p_value p_def].
    - intros (a & b & R) V. pose proof (freach_good A _ _ p R) as G. destruct (good_bounds A _ _ p G) as [-> ->].
      destruct (fp_value p) as [x|] eqn:VP; [|discriminate]. injection V as <-.
      destruct (good_value A _ _ p x G VP) as [W _]. destruct (within_inv lnf expf _ _ _ W) as (a' & b' & y & [= <-] & [= <-] & -> & L1 & L2).
      cbn. auto.
    - intros (l & u & R) V. pose proof (ireach_good lnf expf l u p R) as G. destruct (ip_value p) as [z|] eqn:VP; [|discriminate].
      injection V as <-. cbn. pose proof G as (L & U & _ & _ & _ & _ & _ & _ & _ & _ & W). rewrite L, U. exists z. split; [reflexivity|].
      apply (W eq_refl z VP).
    - intros (cs & R & NN) V. pose proof (creach_good cs p R) as G. destruct (cp_value p) as [x|] eqn:VP; [|discriminate].
      injection V as <-. cbn. pose proof G as (C & _ & _ & _ & _ & W). specialize (W eq_refl). rewrite VP in W. destruct W as (i & I & _).
      rewrite C. apply index_of_choice. rewrite I. reflexivity.
    - intros _ [= <-]. reflexivity.
  Qed.
  Lemma default_legal p v : preach lnf expf p -> p_default A p = Some v -> legal (p_def p) v.
  Proof.
    destruct p as [p|p|p|p]; cbn [preach p_default p_def].
    - intros (a & b & R) V. pose proof (freach_good A _ _ p R) as G. destruct (good_bounds A _ _ p G) as [-> ->].
      destruct (fp_default p) as [x|] eqn:VP; [|discriminate]. injection V as <-.
      destruct (good_fields A _ _ p G) as (_ & _ & _ & _ & W & _). specialize (W x VP).
      destruct (within_inv lnf expf _ _ _ W) as (a' & b' & y & [= <-] & [= <-] & -> & L1 & L2). cbn. auto.
    - intros (l & u & R) V. pose proof (ireach_good lnf expf l u p R) as G. destruct (ip_default p) as [z|] eqn:VP; [|discriminate].
      injection V as <-. cbn. pose proof G as (L & U & _ & _ & W & _). rewrite L, U. exists z. split; [reflexivity|].
      apply (W eq_refl z VP).
    - intros (cs & R & NN) V. pose proof (creach_good cs p R) as G. destruct (cp_default p) as [x|] eqn:VP; [|discriminate].
      injection V as <-. cbn. pose proof G as (C & _ & _ & _ & W & _). rewrite VP in W. destruct W as (i & I & _).
      rewrite C. apply index_of_choice. rewrite I. reflexivity.
    - intros (D & _) [= <-]. cbn. exact D.
  Qed.

  (** Setting a legal value. *)
  Lemma set_ok p v : preach lnf expf p -> legal (p_def p) v ->
    exists q, p_set A p (Some v) = Ok q /\ preach lnf expf q /\ p_def q = p_def p /\ p_value A q = Some v.
  Proof.
    destruct p as [p|p|p|p]; cbn [preach p_def].
    - intros (a & b & R) L. pose proof (freach_good A _ _ p R) as G. destruct (good_bounds A _ _ p G) as [E1 E2]. rewrite E1, E2 in L.
      destruct v as [[x|]|]; try contradiction. cbn in L. cbn [p_set].
      destruct (set_cases A _ _ p (Some (Some x)) G) as [(y & [= <-] & W & E)|[(? & _)|(y & n & [= <-] & W & _ & E)]]; [|discriminate|].
      + assert (X := proj2 (within_some lnf expf a b x) L). congruence.
      + rewrite E. unfold pair_res, then_ok. cbn [snd fst bind]. eexists. split; [reflexivity|]. split; [|split; reflexivity].
        exists a, b. pose proof (fr_set A _ _ p (Some (Some x)) R) as X. rewrite E in X. exact X.
    - intros (l & u & R) L. pose proof (ireach_good lnf expf l u p R) as G. pose proof G as (E1 & E2 & _). rewrite E1, E2 in L.
      destruct v as [[x|]|]; cbn in L; try contradiction. destruct L as (z & -> & L). cbn [p_set].
      destruct (iset_total lnf expf l u p z G L) as [q T]. unfold i_set_int in T. cbn [opt_map aZ Qar] in T.
      pose proof (then_iset lnf expf l u p z q G T) as (_ & V & _).
      unfold pair_res. rewrite T. cbn [bind]. eexists. split; [reflexivity|]. apply then_ok_inv in T. destruct T as [y T].
      split; [|split; [exact (i_set_def _ _ _ _ T)|cbn; rewrite V; reflexivity]].
      exists l, u. pose proof (ir_set A true l u p (Some (Some (inject_Z z))) R) as X. rewrite T in X. exact X.
    - intros (cs & R & NN) L. pose proof (creach_good cs p R) as G. pose proof G as (E1 & _). rewrite E1 in L.
      destruct v as [|x]; cbn in L; try contradiction. cbn [p_set]. destruct (cset_total cs p x G L) as [q T].
      unfold pair_res. rewrite T. cbn [bind]. eexists. split; [reflexivity|]. apply then_ok_inv in T. destruct T as [y T].
      split; [|split; [exact (c_set_def _ _ _ _ T)|]].
      + exists cs. split; [|exact NN]. pose proof (cr_set true cs p (Some x) R) as X. rewrite T in X. apply X. intros _. exists y. reflexivity.
      + unfold c_set_value in T. destruct (index_of x (cp_choices p)); [|discriminate]. injection T as <- _. reflexivity.
    - intros (D & E) L. destruct v as [|x]; cbn in L; try contradiction. subst x. cbn [p_set]. unfold pair_res, then_ok, k_set_value.
      rewrite E. cbn [snd fst bind]. eexists. split; [reflexivity|]. split; [split; auto|]. split; reflexivity.
  Qed.
  (** Whatever value was accepted. *)
  Lemma set_inv p v q : preach lnf expf p -> p_set A p v = Ok q -> preach lnf expf q /\ p_def q = p_def p.
  Proof.
    destruct p as [p|p|p|p]; cbn [preach].
    - intros (a & b & R) S. assert (exists w, pair_res PF (f_set_value A p w) = Ok q) as [w W] by (destruct v as [[]|]; try discriminate; eauto).
      apply bind_ok in W. destruct W as (q0 & T & [= <-]). apply then_ok_inv in T. destruct T as [y T].
      split; [|exact (f_set_def _ _ _ _ T)]. exists a, b. pose proof (fr_set A _ _ p w R) as X. rewrite T in X. exact X.
    - intros (l & u & R) S. assert (exists w, pair_res PI (i_set_value A p w) = Ok q) as [w W] by (destruct v as [[]|]; try discriminate; eauto).
      apply bind_ok in W. destruct W as (q0 & T & [= <-]). apply then_ok_inv in T. destruct T as [y T].
      split; [|exact (i_set_def _ _ _ _ T)]. exists l, u. pose proof (ir_set A true _ _ p w R) as X. rewrite T in X. exact X.
    - intros (cs & R & NN) S. assert (exists w, pair_res PC (c_set_value p w) = Ok q) as [w W] by (destruct v as [[]|]; try discriminate; eauto).
      apply bind_ok in W. destruct W as (q0 & T & [= <-]). apply then_ok_inv in T. destruct T as [y T].
      split; [|exact (c_set_def _ _ _ _ T)]. exists cs. split; [|exact NN]. pose proof (cr_set true cs p w R) as X. rewrite T in X.
      apply X. intros _. exists y. reflexivity.
    - intros (D & E) S. assert (exists w, pair_res PK (k_set_value p w) = Ok q) as [w W] by (destruct v as [[]|]; try discriminate; eauto).
      apply bind_ok in W. destruct W as (q0 & T & [= <-]). apply then_ok_inv in T. destruct T as [y T].
      unfold k_set_value in T. destruct (py_eqb w (kp_value p)); [|discriminate]. injection T as <- _. split; [split; auto|reflexivity].
  Qed.
  Lemma load_ok p v : preach lnf expf p -> legal (p_def p) v ->
    exists q, p_load A p (Some v) = Ok q /\ preach lnf expf q /\ p_def q = p_def p /\ p_value A q = Some v.
  Proof.
    intros R L. destruct p as [p|p|p|p]; try (exact (set_ok _ v R L)).
    destruct R as (l & u & R). pose proof (ireach_good lnf expf l u p R) as G. pose proof G as (E1 & E2 & _). cbn [p_def] in L.
    destruct v as [[x|]|]; cbn in L; try contradiction. destruct L as (z & -> & L). rewrite E1, E2 in L. cbn [p_load].
    destruct (i_load A p (Some (inject_Z z))) as [q r] eqn:T. pose proof T as T'. unfold i_load in T'. rewrite round_Z in T'. injection T' as <- <-.
    unfold pair_res, then_ok. cbn [snd fst bind]. eexists. split; [reflexivity|]. split; [|split; reflexivity].
    exists l, u. pose proof (ir_load A true l u p (Some (inject_Z z)) R) as X. rewrite T in X. apply X. intros _. apply z_within_some.
    rewrite <- !Zle_Qle. exact L.
  Qed.

  (** Sampling. *)
  Lemma sample_inv p d q : preach lnf expf p -> p_sample A p d = Ok q ->
    preach lnf expf q /\ p_def q = p_def p /\ exists v, p_value A q = Some v /\ legal (p_def p) v.
  Proof.
    intros R S. assert (H : preach lnf expf q /\ p_def q = p_def p /\ exists v, p_value A q = Some v).
    { destruct p as [p|p|p|p]; cbn [preach] in R; destruct d as [x|n|xs]; cbn [p_sample] in S; try discriminate.
      - destruct R as (a & b & R). pose proof (freach_good A _ _ p R) as G. apply bind_ok in S. destruct S as (q0 & S & [= <-]).
        destruct (sample_good A _ _ p x q0 G S) as (_ & V & _). split; [exists a, b; eapply fr_sample; eauto|].
        split; [|cbn; rewrite V; eexists; reflexivity].
        unfold f_sample in S. apply bind_ok in S. destruct S as (c & C & S). apply then_ok_inv in S. destruct S as [y S].
        rewrite (f_set_def _ _ _ _ S). apply (f_clone_def _ _ p c G C).
      - destruct R as (l & u & R). pose proof (ireach_good lnf expf l u p R) as G. apply bind_ok in S. destruct S as (q0 & S & [= <-]).
        destruct (isample_good lnf expf true true l u p x q0 G S) as (_ & z & V & _). split; [exists l, u; eapply ir_sample; eauto|].
        split; [|cbn; rewrite V; eexists; reflexivity].
        unfold i_sample in S. apply bind_ok in S. destruct S as (z0 & _ & S). apply bind_ok in S. destruct S as (c & C & S).
        apply then_ok_inv in S. destruct S as [y S]. rewrite (i_set_def _ _ _ _ S). apply (i_clone_def _ _ p c G C).
      - destruct R as (cs & R & NN). pose proof (creach_good cs p R) as G. apply bind_ok in S. destruct S as (q0 & S & [= <-]).
        destruct (csample_good true cs p n q0 G S) as (_ & w & _ & V). split; [exists cs; split; [eapply cr_sample; eauto|exact NN]|].
        split; [|cbn; rewrite V; eexists; reflexivity].
        unfold c_sample in S. destruct (nth_error (cp_choices p) n); [|discriminate]. apply bind_ok in S. destruct S as (c & C & S).
        apply then_ok_inv in S. destruct S as [y S]. rewrite (c_set_def _ _ _ _ S). apply (c_clone_def _ p c G C).
      - destruct R as (D & E). cbn in S. unfold pair_res, then_ok, k_set_value in S. cbn in S. rewrite E in S. injection S as <-.
        split; [split; [reflexivity|exact E]|]. split; [reflexivity|eexists; reflexivity].
      - destruct R as (D & E). cbn in S. unfold pair_res, then_ok, k_set_value in S. cbn in S. rewrite E in S. injection S as <-.
        split; [split; [reflexivity|exact E]|]. split; [reflexivity|eexists; reflexivity].
      - destruct R as (D & E). cbn in S. unfold pair_res, then_ok, k_set_value in S. cbn in S. rewrite E in S. injection S as <-.
        split; [split; [reflexivity|exact E]|]. split; [reflexivity|eexists; reflexivity]. }
    destruct H as (R' & E & v & V). split; [exact R'|]. split; [exact E|]. exists v. split; [exact V|]. rewrite <- E.
    apply value_legal; auto.
  Qed.
  Lemma sample_ok p d : preach lnf expf p -> fits p d -> exists q, p_sample A p d = Ok q.
  Proof.
    destruct p as [p|p|p|p]; cbn [preach]; destruct d as [x|n|xs]; cbn [fits p_sample]; try contradiction.
    - intros (a & b & R) _. pose proof (freach_good A _ _ p R) as G. destruct (sample_total lnf expf a b p x G) as (q & y & -> & _).
      eexists. reflexivity.
    - intros (l & u & R) _. pose proof (ireach_good lnf expf l u p R) as G. destruct (isample_total lnf expf l u p x G) as (q & y & -> & _).
      eexists. reflexivity.
    - intros (cs & R & NN) F. pose proof (creach_good cs p R) as G. pose proof G as (C & _). rewrite C in F.
      destruct (csample_total cs p n G NN F) as (q & y & -> & _). eexists. reflexivity.
    - intros (D & E) _. cbn. unfold pair_res, then_ok, k_set_value. cbn. rewrite E. eexists. reflexivity.
    - intros (D & E) _. cbn. unfold pair_res, then_ok, k_set_value. cbn. rewrite E. eexists. reflexivity.
    - intros (D & E) _. cbn. unfold pair_res, then_ok, k_set_value. cbn. rewrite E. eexists. reflexivity.
  Qed.

  (** Mutation. *)
  Lemma mutate_inv p d q : preach lnf expf p -> p_mutate A p d = Ok q ->
    preach lnf expf q /\ p_def q = p_def p /\ (exists v, p_value A q = Some v) /\ differ (p_value A p) (p_value A q).
  Proof.
    intros R S. destruct p as [p|p|p|p]; cbn [preach] in R; destruct d as [x|n|xs]; cbn [p_mutate] in S; try discriminate;
      apply bind_ok in S; destruct S as (q0 & S & [= <-]).
    - destruct R as (a & b & R). pose proof (freach_good A _ _ p R) as G.
      destruct (mutate_good A _ _ p None LocalSearch _ xs q0 G S) as (G0 & NE).
      split; [exists a, b; eapply fr_mutate; eauto|]. split; [eapply f_mutate_def; eauto|].
      unfold f_mutate in S. destruct (fp_fid p); [discriminate|]. apply bind_ok in S. destruct S as (c & C & S).
      destruct (opt_T_eqb _ _ _); [discriminate|]. injection S as <-. apply bind_ok in C. destruct C as (qs & N & F).
      pose proof N as N'. unfold f_neighbours in N'. destruct (fp_value p) as [x|] eqn:VP; [|discriminate]. clear N'.
      destruct (neighbours_good A _ _ p 1 xs qs G N) as [_ H].
      destruct qs as [|c' qs]; [discriminate|]. injection F as <-. destruct (H c' (or_introl eq_refl)) as (_ & y & V & W).
      cbn [p_value]. rewrite V in NE |- *. cbn [opt_map]. rewrite VP. cbn. split; [eauto|].
      destruct (within_inv lnf expf _ _ _ W) as (_ & _ & y' & _ & _ & -> & _).
      destruct (good_value A _ _ p x G VP) as [W' _]. destruct (within_inv lnf expf _ _ _ W') as (_ & _ & x' & _ & _ & -> & _).
      intros E. apply Qeq_bool_iff in E. cbn in NE. congruence.
    - destruct R as (l & u & R). pose proof (ireach_good lnf expf l u p R) as G.
      destruct (imutate_good lnf expf true true l u p None LocalSearch _ xs q0 G S) as (G0 & NE).
      split; [exists l, u; eapply ir_mutate; eauto|]. split; [eapply i_mutate_def; eauto|].
      unfold i_mutate in S. destruct (ip_fid p); [discriminate|]. apply bind_ok in S. destruct S as (c & C & S).
      destruct (opt_eqb _ _ _); [discriminate|]. injection S as <-. apply bind_ok in C. destruct C as (qs & N & F).
      pose proof N as N'. unfold i_neighbours in N'. destruct (ip_value p) as [x|] eqn:VP; [|discriminate]. clear N'.
      destruct (ineighbours_good lnf expf true true l u p 1 xs qs G N) as [_ H].
      destruct qs as [|c' qs]; [discriminate|]. injection F as <-. destruct (H c' (or_introl eq_refl)) as (_ & y & V & W).
      cbn [p_value]. rewrite V in NE |- *. rewrite VP. cbn. split; [eauto|]. intros E. apply (proj1 (inject_Z_injective x y)) in E. subst y. destruct W as [_ W]. rewrite VP in W. apply W. reflexivity.
    - destruct R as (cs & R & NN). pose proof (creach_good cs p R) as G.
      destruct (cmutate_good cs p None LocalSearch n q0 G ltac:(discriminate) S) as (G0 & NE).
      split; [exists cs; split; [eapply cr_mutate; [exact R| |exact S]; discriminate|exact NN]|]. split; [eapply c_mutate_def; eauto|].
      unfold c_mutate in S. apply bind_ok in S. destruct S as (c & C & S).
      destruct (opt_py_eqb _ _); [discriminate|]. injection S as <-. apply bind_ok in C. destruct C as (qs & N & F).
      destruct (cneighbours_good cs p [n] qs G N) as (_ & x & VP & H).
      destruct qs as [|c' qs]; [discriminate|]. injection F as <-. destruct (H c' (or_introl eq_refl)) as (_ & y & V & _).
      cbn [p_value]. rewrite V in NE |- *. rewrite VP in NE |- *. cbn. cbn in NE. split; [eauto|exact NE].
  Qed.
  Lemma mutate_fid p d q : p_mutate A p d = Ok q -> p_fid p = false.
  Proof.
    destruct p as [p|p|p|p]; destruct d as [x|n|xs]; cbn [p_mutate p_fid]; try discriminate; auto; intros S; apply bind_ok in S; destruct S as (q0 & S & _).
    - unfold f_mutate in S. destruct (fp_fid p); [discriminate|reflexivity].
    - unfold i_mutate in S. destruct (ip_fid p); [discriminate|reflexivity].
  Qed.

  (** Crossover. *)
  Lemma cat p q q1 q2 : (exists cs, creach true cs p /\ no_nan cs) -> (exists cs, creach true cs q /\ no_nan cs) ->
    p_def (PC q) = p_def (PC p) -> c_crossover p q None = Ok (q1, q2) ->
    (preach lnf expf (PC q1) /\ p_def (PC q1) = p_def (PC p) /\ exists v, p_value A (PC q1) = Some v) /\
    (preach lnf expf (PC q2) /\ p_def (PC q2) = p_def (PC p) /\ exists v, p_value A (PC q2) = Some v).
  Proof.
    intros (cs & R & NN) (cs' & R' & NN') E S. pose proof (creach_good cs p R) as G. pose proof (creach_good cs' q R') as G'.
    assert (cs' = cs) as -> by (destruct G as (<- & _), G' as (<- & _); injection E; auto).
    destruct (c_cross_def cs cs p q q1 q2 G G' S) as [E1 E2].
    pose proof S as S'. unfold c_crossover in S'. destruct (cp_value q) as [x|] eqn:VQ; [|discriminate].
    destruct (cp_value p) as [y|] eqn:VP; [|discriminate]. clear S'.
    destruct (ccrossover_good cs p q None q1 q2 G G' ltac:(discriminate) S) as (_ & _ & V1 & V2).
    split; (split; [exists cs; split; [eapply cr_cross; [exact R|exact R'| |exact S|auto]; discriminate|exact NN]|]).
    - split; [congruence|]. cbn. rewrite V1, VP. eexists. reflexivity.
    - split; [congruence|]. cbn. rewrite V2, VQ. eexists. reflexivity.
  Qed.
  Lemma crossover_inv p q d a b : preach lnf expf p -> preach lnf expf q -> p_def q = p_def p -> p_crossover A p q d = Ok (a, b) ->
    (preach lnf expf a /\ p_def a = p_def p /\ exists v, p_value A a = Some v) /\
    (preach lnf expf b /\ p_def b = p_def p /\ exists v, p_value A b = Some v).
  Proof.
    intros R R' E S. destruct p as [p|p|p|p], q as [q|q|q|q]; cbn [preach] in R, R'; destruct d as [x|n|xs]; cbn [p_crossover] in S; try discriminate;
      apply bind_ok in S; destruct S as ((q1 & q2) & S & [= <- <-]).
    - destruct R as (l & u & R). pose proof (freach_good A _ _ p R) as G. destruct (f_cross_def _ _ _ _ _ _ _ _ G S) as [E1 E2].
      pose proof (crossover_good A _ _ _ _ _ _ _ _ G S) as H.
      destruct (H q1 (or_introl eq_refl)) as (_ & v1 & V1 & _). destruct (H q2 (or_intror eq_refl)) as (_ & v2 & V2 & _).
      split; (split; [exists l, u; eapply fr_cross; eauto|split; [assumption|cbn; rewrite ?V1, ?V2; eexists; reflexivity]]).
    - destruct R as (l & u & R). pose proof (ireach_good lnf expf _ _ p R) as G. destruct (i_cross_def _ _ _ _ _ _ _ _ G S) as [E1 E2].
      pose proof (icrossover_good lnf expf _ _ _ _ _ _ _ _ _ _ G S) as H.
      destruct (H q1 (or_introl eq_refl)) as (_ & v1 & V1 & _). destruct (H q2 (or_intror eq_refl)) as (_ & v2 & V2 & _).
      split; (split; [exists l, u; eapply ir_cross; eauto|split; [assumption|cbn; rewrite ?V1, ?V2; eexists; reflexivity]]).
    - eapply cat; eauto.
    - eapply cat; eauto.
    - eapply cat; eauto.
  Qed.
End S.
