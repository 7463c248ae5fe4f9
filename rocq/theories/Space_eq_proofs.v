(** Comparing configurations, local mutation, and crossover by values. *)
From Verif Require Import Space_spec Space_proofs Space_more_proofs Space_ops_proofs Param_proofs Param_int_proofs Param_cat_proofs Param_more_proofs Dom_proofs Py_proofs Enc_proofs.
From Coq Require Import Lqa Permutation Qabs.
Open Scope nat_scope.
Local Notation length := List.length.

(** ** Choices *)
Lemma position_index cs v i : position cs v i <-> index_of v cs = Some i.
Proof.
  split; [|apply index_of_some]. revert i. induction cs as [|c cs IH]; intros i ((x & N & E) & H); [destruct i; discriminate|].
  cbn [index_of]. destruct i as [|i].
  - injection N as ->. rewrite E. reflexivity.
  - rewrite (H 0 c ltac:(lia) eq_refl). rewrite (IH i); [reflexivity|]. split; [eauto|]. intros j d L ND. apply (H (S j) d); [lia|exact ND].
Qed.
Lemma fl_eqb_trans x y z : fl_eqb x y = true -> fl_eqb y z = true -> fl_eqb x z = true.
Proof. intros H1 H2. apply (fl_eqb_euclid x z y); [exact H1|]. rewrite fl_eqb_sym. exact H2. Qed.
(** For a choice [c]: equal to [v], then [v] and [w] are equal just when [c] and [w] are. *)
Lemma choice_eqb_both c v w : choice_type c = true -> py_eqb c v = true -> py_eqb v w = py_eqb c w.
Proof.
  intros TY E. destruct (choice_kinds c TY) as [[s ->]|[x X]].
  - apply str_eqb in E. subst v. reflexivity.
  - destruct (choice_eqb_num c v x X E) as (y & Y & XY). rewrite (py_eqb_num v w y Y), (py_eqb_num c w x X).
    destruct (as_num w) as [z|]; [|reflexivity].
    destruct (fl_eqb x z) eqn:XZ.
    + apply (fl_eqb_trans y x z); [rewrite fl_eqb_sym; exact XY|exact XZ].
    + destruct (fl_eqb y z) eqn:YZ; [|reflexivity]. assert (X1 := fl_eqb_trans x y z XY YZ). congruence.
Qed.
Lemma choices_equal cs v w i j : forallb choice_type cs = true -> all_unique cs = true -> index_of v cs = Some i -> index_of w cs = Some j ->
  (py_eqb v w = true <-> i = j).
Proof.
  intros TY U IV IW. destruct (index_of_some _ _ _ IV) as ((c & N & E) & _). assert (TC : choice_type c = true).
  { rewrite forallb_forall in TY. apply TY. eapply nth_error_In; eauto. }
  rewrite (choice_eqb_both c v w TC E). split.
  - intros H. destruct (Nat.eq_dec i j) as [|NE]; [assumption|]. rewrite (other_choice cs w j i c TY U IW NE N) in H. discriminate.
  - intros <-. destruct (index_of_some _ _ _ IW) as ((c' & N' & E') & _). congruence.
Qed.

Section S.
  Variables lnf expf : Q -> Q.
  Notation A := (Qar lnf expf).
  Notation T := (option Q).
  Notation preach := (preach lnf expf).
  Notation wf := (wf lnf expf).
  Notation kept := (kept lnf expf).

  Hypothesis ID : ideal lnf expf.

  Lemma rint_zero x : rint_q x = 0%Z <-> (Qabs x <= 1 # 2)%Q.
  Proof.
    rewrite Qabs_Qle_condition. split.
    - intros E. pose proof (rint_near x) as N. unfold near in N. rewrite E in N. change (inject_Z 0) with 0%Q in N. lra.
    - intros [L1 L2]. unfold rint_q. assert (H1 := Qfloor_le x). assert (H2 := Qlt_floor x).
      assert (F : Qfloor x = (-1)%Z \/ Qfloor x = 0%Z).
      { assert ((-2 < Qfloor x)%Z) by (rewrite Zlt_Qlt; rewrite inject_Z_plus in H2; change (inject_Z 1) with 1%Q in H2; change (inject_Z (-2)) with (-2)%Q; lra).
        assert ((Qfloor x < 1)%Z) by (rewrite Zlt_Qlt; change (inject_Z 1) with 1%Q; lra). lia. }
      destruct F as [-> | ->].
      + change (inject_Z (-1)) with (-1)%Q. destruct (Qcompare (x - -1) (1 # 2)) eqn:C; try reflexivity. apply Qlt_alt in C. lra.
      + change (inject_Z 0) with 0%Q. destruct (Qcompare (x - 0) (1 # 2)) eqn:C; try reflexivity. apply Qgt_alt in C. lra.
  Qed.
  Lemma rounds_iff x y : rounds_apart A (Some x) (Some y) = false <-> (Qabs (x - y) <= 1 # 200000000)%Q.
  Proof.
    unfold rounds_apart, decimals. cbn [asub amul adiv arint aZ aeqb Qar lift2 option_map].
    replace (Qeq_bool (inject_Z 100000000) 0) with false by reflexivity. rewrite negb_false_iff. rewrite Qeq_bool_iff.
    set (r := rint_q ((x - y) * inject_Z 100000000)). transitivity (r = 0%Z).
    - split; [|intros ->; reflexivity]. intros E. assert (X : (inject_Z r == 0)%Q).
      { setoid_replace (inject_Z r)%Q with (inject_Z r / inject_Z 100000000 * inject_Z 100000000)%Q by (field; discriminate). rewrite E. reflexivity. }
      change 0%Q with (inject_Z 0) in X. apply (proj1 (inject_Z_injective r 0)) in X. exact X.
    - unfold r. rewrite rint_zero. rewrite Qabs_Qmult. change (Qabs (inject_Z 100000000)) with 100000000%Q. split; intros; lra.
  Qed.

  Definition pos (log : bool) (a b x : Q) : Q := (if log then (lnf x - lnf a) / (lnf b - lnf a) else (x - a) / (b - a))%Q.
  Lemma to_norm_is a b p x : fgood A (Some a) (Some b) p -> (a <= x)%Q -> f_to_norm A p (Some x) = Ok (Some (pos (fp_log p) a b x)).
  Proof.
    intros G LX. pose proof (good_order lnf expf a b p G) as L.
    destruct (good_fields A _ _ p G) as (dom & _ & _ & _ & _ & _ & E). unfold f_to_norm, f_bounds, pos. destruct (fp_log p) eqn:LG.
    - pose proof (log_positive lnf expf a b p G LG) as P. rewrite E. cbn.
      replace (Qle_bool a 0) with false by (symmetry; apply not_true_is_false; intros X; apply Qle_bool_iff in X; lra).
      replace (Qle_bool b 0) with false by (symmetry; apply not_true_is_false; intros X; apply Qle_bool_iff in X; lra).
      replace (Qle_bool x 0) with false by (symmetry; apply not_true_is_false; intros X; apply Qle_bool_iff in X; lra).
      destruct ID as (M & _). pose proof (M a b P L) as LL. cbn [lift2].
      destruct (Qeq_bool (lnf b - lnf a) 0) eqn:Z; [apply Qeq_bool_eq in Z; lra|]. reflexivity.
    - rewrite E. cbn. destruct (Qeq_bool (b - a) 0) eqn:Z; [apply Qeq_bool_eq in Z; lra|]. reflexivity.
  Qed.

  Lemma p_equal_some p q v w : preach p -> preach q -> p_def q = p_def p -> p_value A p = Some v -> p_value A q = Some w ->
    exists b, p_equal A p q = Ok b /\ (b = true <-> alike lnf (p_def p) v w).
  Proof.
    intros R R' E V W. pose proof (value_legal lnf expf p v R V) as LV. pose proof (value_legal lnf expf q w R' W) as LW. rewrite E in LW.
    destruct p as [p|p|p|p], q as [q|q|q|q]; try discriminate E; cbn [p_equal p_value p_def] in *.
    - destruct R as (a & b & R), R' as (a' & b' & R'). pose proof (freach_good A _ _ p R) as G. pose proof (freach_good A _ _ q R') as G'.
      destruct (good_bounds A _ _ p G) as [E1 E2]. destruct (good_bounds A _ _ q G') as [E1' E2']. injection E as Y1 Y2 Y3 _ _ _.
      assert (a' = a) as -> by congruence. assert (b' = b) as -> by congruence. rewrite E1, E2 in LV, LW |- *.
      destruct (fp_value p) as [x|]; [|discriminate]. injection V as <-. destruct (fp_value q) as [y|]; [|discriminate]. injection W as <-.
      destruct x as [x|]; [|contradiction]. destruct y as [y|]; [|contradiction]. cbn in LV, LW.
      rewrite (to_norm_is a b p x G) by tauto. cbn [bind]. rewrite (to_norm_is a b q y G') by tauto. cbn [bind]. rewrite Y3.
      eexists. split; [reflexivity|]. rewrite negb_true_iff, rounds_iff. cbn [alike]. reflexivity.
    - destruct (ip_value p) as [x|]; [|discriminate]. injection V as <-. destruct (ip_value q) as [y|]; [|discriminate]. injection W as <-.
      eexists. split; [reflexivity|]. cbn. rewrite Z.eqb_eq. symmetry. apply inject_Z_injective.
    - destruct R as (cs & R & NN), R' as (cs' & R' & NN'). pose proof (creach_good cs p R) as G. pose proof (creach_good cs' q R') as G'.
      injection E as Y1 _ _. pose proof G as (C & (_ & TY & U) & _ & _ & _ & GV). pose proof G' as (C' & _ & _ & _ & _ & GV').
      assert (cs' = cs) as -> by congruence. specialize (GV eq_refl). specialize (GV' eq_refl).
      destruct (cp_value p) as [x|] eqn:VP; [|discriminate]. injection V as <-. destruct (cp_value q) as [y|] eqn:VQ; [|discriminate]. injection W as <-.
      destruct GV as (i & IX & _), GV' as (j & IY & _). rewrite C, C', IX, IY. cbn [alike].
      assert (X : (exists k, position cs x k /\ position cs y k) <-> i = j).
      { split.
        - intros (k & P1 & P2). apply position_index in P1, P2. congruence.
        - intros <-. exists i. rewrite !position_index. auto. }
      destruct (is_float (Some x)).
      + eexists. split; [reflexivity|]. rewrite Nat.eqb_eq, X. reflexivity.
      + eexists. split; [reflexivity|]. rewrite X. cbn. apply (choices_equal cs); auto.
    - destruct R as (_ & RE), R' as (_ & RE'). injection E as Y. injection V as <-. injection W as <-. cbn [alike].
      destruct (is_float (Some (kp_value p))).
      + eexists. split; [reflexivity|]. rewrite RE, RE'. cbn. tauto.
      + eexists. split; [reflexivity|]. rewrite Y, RE. tauto.
  Qed.
  Lemma p_equal_none p q : p_def q = p_def p -> p_value A p = None -> p_value A q = None -> p_equal A p q = Ok true.
  Proof.
    intros E V W. destruct p as [p|p|p|p], q as [q|q|q|q]; try discriminate E; cbn [p_equal p_value] in *; try discriminate.
    - destruct (fp_value p); [discriminate|]. destruct (fp_value q); [discriminate|]. reflexivity.
    - destruct (ip_value p); [discriminate|]. destruct (ip_value q); [discriminate|]. reflexivity.
    - destruct (cp_value p); [discriminate|]. destruct (cp_value q); [discriminate|]. reflexivity.
  Qed.
  Lemma abs_self y : (Qabs (y - y) <= 1 # 200000000)%Q.
  Proof. rewrite Qabs_Qle_condition. split; lra. Qed.
  Lemma alike_refl p v : preach p -> p_value A p = Some v -> alike lnf (p_def p) v v.
  Proof.
    intros R V. pose proof (value_legal lnf expf p v R V) as L. destruct p as [p|p|p|p]; cbn [p_def] in *.
    - destruct R as (a & b & R). destruct (good_bounds A _ _ p (freach_good A _ _ p R)) as [E1 E2]. rewrite E1, E2 in *.
      destruct v as [[x|]|]; try contradiction. cbn [alike]. cbv zeta. apply abs_self.
    - destruct v as [[x|]|]; try contradiction. cbn. reflexivity.
    - destruct v as [|x]; try contradiction. cbn in *. apply index_of_choice in L. destruct (index_of x (cp_choices p)) as [i|] eqn:I; [|discriminate].
      exists i. apply index_of_some in I. auto.
    - destruct v; try contradiction. exact I.
  Qed.

  (** Two configurations of the same space that have the same values set. *)
  Notation comparable := (comparable lnf expf).
  Notation alike_at := (alike_at lnf expf).
  Lemma p_equal_ok p q : preach p -> preach q -> p_def q = p_def p ->
    ((p_value A p = None /\ p_value A q = None) \/ exists v w, p_value A p = Some v /\ p_value A q = Some w) ->
    exists b, p_equal A p q = Ok b /\ (b = true <-> alike_at p q).
  Proof.
    intros R R' E [(V & W)|(v & w & V & W)]; unfold alike_at; rewrite V, W.
    - exists true. rewrite (p_equal_none p q E V W). tauto.
    - apply p_equal_some; auto.
  Qed.
  Lemma names_eqb s o : map fst o = map fst s -> list_eqb String.eqb (s_names (T:=T) s) (s_names (T:=T) o) = true.
  Proof.
    unfold s_names. intros ->. induction (map fst s) as [|x l IH]; cbn; [reflexivity|]. rewrite String.eqb_refl. exact IH.
  Qed.
  Lemma equal_loop_iff incl o0 : forall s o, comparable s o -> NoDup (map fst s) ->
    (forall k q, In (k, q) o -> lookup k o0 = Some q) ->
    exists b, equal_loop A s o0 incl = Ok b /\ (b = true <-> paired (fun _ p q => p_fid p && negb incl = false -> alike_at p q) s o).
  Proof.
    intros s o C. induction C as [|(k, p) (k', q) s o (E & ((R & R' & D) & VV)) C IH]; intros N L.
    - exists true. split; [reflexivity|]. split; [constructor|reflexivity].
    - cbn [fst snd] in *. subst k'. inversion N as [|? ? N1 N2]; subst. destruct IH as (b & EL & IH); auto.
      { intros k1 q1 I1. apply L. right. exact I1. }
      cbn [equal_loop]. destruct (p_fid p && negb incl) eqn:F.
      + exists b. split; [exact EL|]. rewrite IH. split.
        * intros H. constructor; [|exact H]. split; [reflexivity|]. cbn. congruence.
        * intros H. inversion H; subst. assumption.
      + rewrite (L k q (or_introl eq_refl)). destruct (p_equal_ok p q R R' D VV) as (b1 & PE & H1). rewrite PE. cbn [bind].
        destruct b1.
        * exists b. split; [exact EL|]. rewrite IH. split.
          -- intros H. constructor; [|exact H]. split; [reflexivity|]. cbn. intros _. apply H1. reflexivity.
          -- intros H. inversion H; subst. assumption.
        * exists false. split; [reflexivity|]. split; [discriminate|]. intros H. inversion H as [|? ? ? ? (_ & X) _]; subst. cbn in X.
          apply H1. apply X. exact F.
  Qed.
  Lemma is_equal_iff s o incl : comparable s o -> NoDup (map fst s) ->
    exists b, is_equal_value A s o incl = Ok b /\ (b = true <-> paired (fun _ p q => p_fid p && negb incl = false -> alike_at p q) s o).
  Proof.
    intros C N. unfold is_equal_value. rewrite (names_eqb s o (paired_names _ _ _ C)). cbn [negb]. apply equal_loop_iff; auto.
    intros k q I. apply In_lookup; [|exact I]. rewrite (paired_names _ _ _ C). exact N.
  Qed.
End S.
