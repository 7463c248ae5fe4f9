(** ifBO: the runs. *)
From Verif Require Import Ifbo_spec Ifbo_adjust_proofs Ifbo_proofs Ifbo_cast_proofs Param_proofs Param_int_proofs Dom_spec Dom_proofs Dom_cast_proofs Py_proofs.
From Coq Require Import Lqa Permutation.
Open Scope Q_scope.
Local Notation length := List.length.

Section S.
  Variables lnf expf : Q -> Q.
  Notation A := (Qar lnf expf).
  Notation T := (option Q).
  Context {C V : Type} (enc : C -> V) (dec : V -> C) (o : ifbo T).
  Variables (s : desc) (n : Z) (pts : Z -> Q).

  Definition is_ifbo : Prop :=
    is_log s = false /\ lo s < hi s /\ (1 <= n)%Z /\ ib_bins o = n /\ ib_fid o = dom lnf s false /\ ib_budget o = bud lnf s /\
    (exists q, ib_min o = Some q /\ q == pts 0%Z) /\
    ((2 <= n)%Z -> ib_ix o = dom lnf (DInt 0 (n - 1) false None) false /\ steps lnf expf s n pts).

  Definition fid_ok (x : T) (k : Z) : Prop :=
    (0 <= k <= n - 1)%Z /\ ((x = None /\ k = 0%Z /\ lb s == 1) \/ exists q, x = Some q /\ q == pts k).
  Definition inv (ts : list (trial T C)) : Prop :=
    forall t, In t ts -> exists c k, t_id t = ifbo_id c k /\ fid_ok (t_fid t) k /\
      ((0 < k)%Z -> In (ifbo_id c (k - 1)) (map t_id ts)).

  Definition cnum (t : trial T C) : nat := match cid_of (t_id t) with Ok c => c | Err _ => O end.
  Lemma cnum_id t c k : t_id t = ifbo_id c k -> cnum t = c.
  Proof. intros E. unfold cnum. rewrite E, cid_of_id. reflexivity. Qed.

  Lemma nan_some (q : Q) : is_nan A (Some q) = false. Proof. unfold is_nan. cbn. rewrite Qeq_bool_refl. reflexivity. Qed.
  Lemma b_trans (x y z : row T V) : budget_le A x y = true -> budget_le A y z = true -> budget_le A x z = true.
  Proof.
    unfold budget_le. destruct (r_budget z) as [c|]; [|reflexivity]. rewrite nan_some. cbn [orb].
    destruct (r_budget y) as [b|]; [|intros _; discriminate]. rewrite nan_some. cbn [orb].
    destruct (r_budget x) as [a|]; [|discriminate]. rewrite !ale_some. lra.
  Qed.
  Lemma b_total (x y : row T V) : budget_le A x y = false -> budget_le A y x = true.
  Proof.
    unfold budget_le. destruct (r_budget x) as [a|]; [|reflexivity]. destruct (r_budget y) as [b|]; [|discriminate].
    rewrite !nan_some. cbn [orb]. intros H. apply ale_some.
    destruct (Qlt_le_dec a b) as [L|L]; [|exact L]. assert (X : ale A (Some a) (Some b) = true) by (apply ale_some; lra). congruence.
  Qed.
  Lemma lt_some (a b : Q) : altb A (Some a) (Some b) = true -> a < b.
  Proof. cbn. intros H. apply negb_true_iff in H. destruct (Qlt_le_dec a b) as [L|L]; [exact L|]. apply Qle_bool_iff in L. congruence. Qed.

  Hypothesis IS : is_ifbo.

  (** The answers. *)
  Definition starts (ts : list (trial T C)) (r : sampled (C * T)) : Prop :=
    exists new, sc_id r = ifbo_id new 0 /\ sc_previous r = None /\ fid_ok (snd (sc_config r)) 0 /\
      (forall t c k, In t ts -> t_id t = ifbo_id c k -> (c < new)%nat).
  Definition continues (ts : list (trial T C)) (r : sampled (C * T)) : Prop :=
    exists t c k q, In t ts /\ t_id t = ifbo_id c k /\ (0 <= k)%Z /\ (k + 1 <= n - 1)%Z /\ known_loss A t /\ lb s < 1 /\
      sc_id r = ifbo_id c (k + 1) /\ sc_previous r = Some (t_id t) /\ sc_config r = (dec (enc (t_config t)), Some q) /\ q == pts (k + 1) /\
      (forall t' k', In t' ts -> known_loss A t' -> (0 <= k')%Z -> t_id t' = ifbo_id c k' -> (k' <= k)%Z).

  Lemma lb_cases : lb s == 1 \/ ~ 1 - lb s == 0.
  Proof. destruct (Qeq_dec (lb s) 1) as [E|E]; [left; exact E|right]. intros H. apply E. lra. Qed.

  (** What can be continued has an index. *)
  Lemma cont_index t k : (2 <= n)%Z -> fid_ok (t_fid (t : trial T C)) k ->
    altb A (cast A (ib_budget o) (ib_fid o) (t_fid t)) (d_upper A (ib_budget o)) = true ->
    as_int A (cast A (ib_ix o) (ib_fid o) (cast A (ib_fid o) (ib_budget o) (cast A (ib_budget o) (ib_fid o) (t_fid t)))) = Ok k.
  Proof.
    intros N2 (K & FK) E4. destruct IS as (LG & LU & N1 & IB & IF & IU & _ & I2).
    assert (UB : d_upper A (ib_budget o) = Some 1) by (rewrite IU; reflexivity).
    destruct (I2 N2) as [IX (S0 & S1 & S2 & S3)]. rewrite UB, IF, IU in E4. destruct FK as [(FK & _)|(q & FK & QK)].
    { rewrite FK, to_budget_nan in E4 by assumption. discriminate. }
    rewrite FK in *. destruct (S1 k q K QK) as (t0 & T0 & T1 & T2 & T3).
    rewrite (to_budget lnf expf s q t0 LG LU T0) in E4. apply lt_some in E4.
    assert (L1 : lb s < 1).
    { destruct (Qlt_le_dec (lb s) 1) as [L|L]; [exact L|]. exfalso.
      assert (Y : 0 <= (1 - t0) * (lb s - 1)) by (apply Qmult_le_0_compat; lra). lra. }
    assert (TL : t0 < 1).
    { destruct (Qlt_le_dec t0 1) as [L|L]; [exact L|]. assert (t0 == 1) by lra. exfalso. rewrite H in E4. lra. }
    destruct (T3 TL) as (KN & T4). rewrite IF, IU, (to_budget lnf expf s q t0 LG LU T0), of_budget by (try exact LU; lra).
    destruct (T4 ((t0 * (1 - lb s) + lb s - lb s) / (1 - lb s))) as (qb & F1 & F2); [field; lra|].
    rewrite F1, IX, F2. apply as_int_Z.
  Qed.

  Lemma ask_answers ts design r : inv ts -> asks A enc dec o design ts r -> starts ts r \/ continues ts r.
  Proof.
    intros IV (acq & am & sm & H). destruct IS as (LG & LU & N1 & IB & IF & IU & (q0 & IM & IM0) & I2).
    assert (ID : forall t, In t ts -> exists k, t_id t = ifbo_id (cnum t) k).
    { intros t I. destruct (IV t I) as (c & k & E & _). exists k. rewrite (cnum_id t c k E). exact E. }
    assert (LB : d_lower A (ib_budget o) = Some (lb s)) by (rewrite IU; reflexivity).
    assert (UB : d_upper A (ib_budget o) = Some 1) by (rewrite IU; reflexivity).
    apply (ask_cases A enc dec o design acq am sm ts cnum r ID) in H. destruct H as [(c & new & E1 & E2 & E3 & E4)|(t & k & E1 & E2 & E3 & E4 & E5 & E6 & E7 & E8 & E9)].
    - left. exists new. split; [exact E1|]. split; [exact E3|]. split.
      + destruct E4 as [E4|[E4 NB]]; rewrite E4; cbn [snd]; (split; [lia|]).
        * right. exists q0. split; assumption.
        * rewrite IB in NB. destruct (I2 ltac:(lia)) as [_ (S0 & _)]. rewrite LB, IF, IU. destruct lb_cases as [EL|EL].
          -- left. rewrite of_budget_flat by (try exact LU; lra). rewrite from_nan by exact LG. auto.
          -- right. rewrite of_budget by assumption. apply S0. field. exact EL.
      + intros t c' k I E. specialize (E2 t I). rewrite (cnum_id t c' k E) in E2. exact E2.
    - right. rewrite IB in E3. destruct (I2 ltac:(lia)) as [IX (S0 & S1 & S2 & S3)].
      destruct (IV t E1) as (c & k0 & EI & (K0 & FK) & PR). rewrite (cnum_id t c k0 EI) in *.
      rewrite UB, IF, IU in E4. destruct FK as [(FK & _)|(q & FK & QK)].
      { rewrite FK, to_budget_nan in E4 by assumption. discriminate. }
      rewrite FK in *. destruct (S1 k0 q K0 QK) as (t0 & T0 & T1 & T2 & T3).
      rewrite (to_budget lnf expf s q t0 LG LU T0) in E4. apply lt_some in E4.
      assert (L1 : lb s < 1).
      { destruct (Qlt_le_dec (lb s) 1) as [L|L]; [exact L|]. exfalso.
        assert (X : (1 - t0) * (1 - lb s) <= 0).
        { assert (Y : 0 <= (1 - t0) * (lb s - 1)) by (apply Qmult_le_0_compat; lra). lra. }
        lra. }
      assert (TL : t0 < 1).
      { destruct (Qlt_le_dec t0 1) as [L|L]; [exact L|]. assert (t0 == 1) by lra. exfalso. rewrite H in E4. lra. }
      destruct (T3 TL) as (KN & T4). rewrite IF, IU, (to_budget lnf expf s q t0 LG LU T0), of_budget in E6 by (try exact LU; lra).
      destruct (T4 ((t0 * (1 - lb s) + lb s - lb s) / (1 - lb s))) as (qb & F1 & F2); [field; lra|].
      rewrite F1, IX, F2, as_int_Z in E6. injection E6 as <-.
      destruct (S2 (k0 + 1)%Z ltac:(lia)) as (q2 & Q2 & Q3).
      exists t, c, k0, q2. split; [exact E1|]. split; [exact EI|]. split; [lia|]. split; [lia|]. split; [exact E2|]. split; [exact L1|].
      split; [exact E7|]. split; [rewrite E8, EI; reflexivity|]. split; [|split; [exact Q3|]].
      { rewrite E9, IF, IX. change (aZ A (k0 + 1)) with (Some (inject_Z (k0 + 1))). rewrite Q2. reflexivity. }
      intros t' k' I' KL K' EI'. destruct (Z.le_gt_cases k' k0) as [L|L]; [exact L|]. exfalso.
      destruct (IV t' I') as (c' & k'' & EI2 & (K2 & FK') & _). rewrite EI' in EI2. apply ifbo_id_inj in EI2; [|lia|lia]. destruct EI2 as [<- <-].
      destruct FK' as [(_ & FK' & _)|(q' & FK' & QK')]; [lia|].
      destruct (S3 k0 k' q q' ltac:(lia) L ltac:(lia) QK QK') as (ta & tb & TA & TB & TAB).
      assert (HB : budget_le A (row_of A enc o t' c) (row_of A enc o t c) = true).
      { eapply (keep_high A b_trans b_total); [apply (E5 t' I' KL), (cnum_id t' c k' EI')| |reflexivity].
        apply in_map_iff. exists t'. split; [rewrite (cnum_id t' c k' EI'); reflexivity|].
        apply filter_In. split; [exact I'|]. rewrite KL. reflexivity. }
      unfold budget_le in HB. cbn [row_of r_budget] in HB. rewrite IF, IU, FK, FK' in HB.
      rewrite (to_budget lnf expf s q ta LG LU TA), (to_budget lnf expf s q' tb LG LU TB), nan_some in HB. cbn [orb] in HB. apply ale_some in HB.
      assert (X : 0 < (tb - ta) * (1 - lb s)) by (apply Qmult_lt_0_compat; lra). lra.
  Qed.

  Lemma run_inv ts design : ifbo_run A enc dec o design ts -> inv ts.
  Proof.
    induction 1 as [|ts r R IH AS NW|ts id c f x R IH|ts ts' R IH P].
    - intros t [].
    - intros t [<-|I]; cbn [t_id t_fid map].
      + destruct (ask_answers ts design r IH AS) as [(new & E & _ & F & _)|(t & c & k & q & I & EI & K & KN & _ & _ & E & _ & F & Q & _)].
        * exists new, 0%Z. split; [exact E|]. split; [exact F|]. lia.
        * exists c, (k + 1)%Z. split; [exact E|]. split; [split; [lia|]; right; exists q; split; [rewrite F; reflexivity|exact Q]|]. intros _. right.
          replace (k + 1 - 1)%Z with k by lia. rewrite <- EI. apply in_map. exact I.
      + destruct (IH t I) as (c & k & E & F & H). exists c, k. split; [exact E|]. split; [exact F|]. intros K. right. apply H, K.
    - intros t [<-|I].
      + exact (IH (mkTr id c f None) (or_introl eq_refl)).
      + exact (IH t (or_intror I)).
    - intros t I. destruct (IH t (Permutation_in t (Permutation_sym P) I)) as (c & k & E & F & H). exists c, k. split; [exact E|]. split; [exact F|].
      intros K. eapply Permutation_in; [apply Permutation_map, P|]. apply H, K.
  Qed.

  (** Identifiers are new if nothing is pending. *)
  Lemma ask_fresh ts design r : inv ts -> asks A enc dec o design ts r -> (forall t, In t ts -> known_loss A t) -> ~ In (sc_id r) (map t_id ts).
  Proof.
    intros IV AS KL I. apply in_map_iff in I. destruct I as (t' & E' & I').
    destruct (ask_answers ts design r IV AS) as [(new & E & _ & _ & F)|(t & c & k & q & I & EI & K & KN & _ & _ & E & _ & _ & _ & F)].
    - specialize (F t' new 0%Z I' ltac:(rewrite E', E; reflexivity)). lia.
    - specialize (F t' (k + 1)%Z I' (KL t' I') ltac:(lia) ltac:(rewrite E', E; reflexivity)). lia.
  Qed.
  Lemma finished_known (t : trial T C) : finished t <-> known_loss A t.
  Proof.
    unfold finished, known_loss, loss_of. destruct (t_report t) as [[[x|]|]|]; cbn [asub Qar aZ lift2]; try rewrite nan_some; try tauto.
    - unfold is_nan; cbn. intuition discriminate.
    - unfold nan, is_nan; cbn. intuition discriminate.
  Qed.

  (** There is an answer. *)
  Lemma best_of_total acq argmax (l : list (row T V)) : good_scores acq argmax -> l <> [] -> exists x r, best_of acq argmax l = Ok (Some x, r).
  Proof.
    intros (G1 & G2 & G3) N. unfold best_of.
    assert (NA : acq l <> []). { intros E. apply N. pose proof (G1 l) as H. rewrite E in H. destruct l; [reflexivity|discriminate]. }
    specialize (G3 (acq l) NA). set (i := argmax (acq l)) in *.
    destruct (nth_error (acq l) i) as [x|] eqn:E1; [|apply nth_error_None in E1; lia].
    destruct (nth_error l i) as [r|] eqn:E2; [|apply nth_error_None in E2; rewrite <- G1 in E2; lia].
    destruct x as [x|]; [eauto|]. apply nth_error_In in E1. destruct (G2 l E1).
  Qed.
  Definition numbered (b : option (T * row T V)) : Prop := match b with Some (Some _, _) => True | _ => False end.
  Lemma better_numbered b x (r : row T V) : (b = None \/ numbered b) -> numbered (better A b (Some x, r)).
  Proof.
    intros [->|H]; unfold better; cbn [fst].
    - rewrite nan_some. exact I.
    - destruct b as [[[y|] ry]|]; try destruct H. destruct (altb A (fst (Some y, ry)) (Some x)); exact I.
  Qed.
  Lemma samplers_total acq argmax samplers : good_scores acq argmax -> (forall s, In s samplers -> fst s <> [] /\ forall v, snd s v <> []) ->
    forall b, (b = None \/ numbered b) -> exists c, fold_samplers A o acq argmax samplers b = Ok c /\ (c = None \/ numbered c) /\ (samplers <> [] \/ numbered b -> numbered c).
  Proof.
    intros G. unfold fold_samplers. induction samplers as [|s0 l IH]; cbn [fold_left]; intros GS b B.
    { exists b. split; [reflexivity|]. split; [exact B|]. intros [[]|H]; [reflexivity|exact H]. }
    destruct (GS s0 (or_introl eq_refl)) as [F1 F2].
    assert (NR : forall vs : list V, vs <> [] -> new_rows A o vs <> []) by (intros [|v vs] N; [contradiction|discriminate]).
    change (bind (Ok b) (fun b : option (T * row T V) => try_sampler A o acq argmax b s0)) with (try_sampler A o acq argmax b s0).
    unfold try_sampler. destruct (best_of_total acq argmax (new_rows A o (fst s0)) G (NR _ F1)) as (x & r & E). rewrite E. cbn [bind snd].
    destruct (best_of_total acq argmax (new_rows A o (snd s0 (r_vals r))) G (NR _ (F2 _))) as (x' & r' & E'). rewrite E'. cbn [bind].
    assert (NB : numbered (better A (better A b (Some x, r)) (Some x', r'))) by (apply better_numbered; right; apply better_numbered; exact B).
    destruct (IH (fun s H => GS s (or_intror H)) _ (or_intror NB)) as (c & C1 & C2 & C3). exists c. split; [exact C1|]. split; [exact C2|]. intros _. apply C3. right. exact NB.
  Qed.
  Lemma acquire_total acq argmax (rows : list (row T V)) samplers : good_scores acq argmax -> good_samplers samplers -> exists r, acquire A o acq argmax rows samplers = Ok (Some r).
  Proof.
    intros G (GN & GS). unfold acquire. set (ex := filter _ (keep_highest A rows)).
    assert (X : exists b, match ex with [] => Ok None | _ => bind (best_of acq argmax ex) (fun c => Ok (Some c)) end = Ok b /\ (b = None \/ numbered b)).
    { destruct ex as [|y l]; [exists None; auto|]. destruct (best_of_total acq argmax (y :: l) G ltac:(discriminate)) as (x & r & E). rewrite E. cbn [bind].
      eexists. split; [reflexivity|]. right. exact I. }
    destruct X as (b & EB & B). rewrite EB. cbn [bind]. destruct (samplers_total acq argmax samplers G GS b B) as (c & EC & _ & HC). rewrite EC. cbn [bind].
    specialize (HC (or_introl GN)). destruct c as [c|]; [|destruct HC]. cbn [opt_map]. eauto.
  Qed.
  Lemma nan_none : nan A = None. Proof. reflexivity. Qed.
  Definition unit_or_nan (x : T) : Prop := match x with None => True | Some q => 0 <= q /\ q <= 1 end.
  Lemma not_lt (a b : Q) : b <= a -> altb A (Some a) (Some b) = false.
  Proof. intros H. cbn. apply negb_false_iff, Qle_bool_iff. exact H. Qed.
  Lemma max_unit l x : unit_or_nan x -> (forall y, In y l -> unit_or_nan y) -> unit_or_nan (t_max A x l) /\ unit_or_nan (t_min A x l).
  Proof.
    unfold t_max, t_min. revert x.
    assert (G : forall f : T -> T -> T, (forall a b, unit_or_nan a -> unit_or_nan b -> unit_or_nan (f a b)) -> forall l x, unit_or_nan x -> (forall y, In y l -> unit_or_nan y) -> unit_or_nan (fold_left f l x)).
    { intros f F. induction l0 as [|y l0 IH]; cbn [fold_left]; intros x X H; [exact X|]. apply IH; [apply F; [exact X|apply H; left; reflexivity]|]. intros z Z. apply H. right. exact Z. }
    intros x X H. split; apply G; try assumption; intros a b HA HB; (destruct (is_nan A a || is_nan A b); [exact I|]); unfold py_max, py_min.
    - destruct (altb A a b); assumption.
    - destruct (altb A b a); assumption.
  Qed.
  Lemma loss_unit ts (t : trial T C) : losses_in_range ts -> In t ts -> unit_or_nan (loss_of A t).
  Proof.
    intros L I. unfold loss_of. destruct (t_report t) as [[x|]|] eqn:E; [| |exact Logic.I].
    - destruct (L t x I E) as (q & -> & H). exact H.
    - cbn. change (inject_Z 0) with 0. lra.
  Qed.
  Lemma ask_total ts design acq argmax samplers : inv ts -> (2 <= n)%Z -> losses_in_range ts -> good_scores acq argmax -> good_samplers samplers ->
    (ts <> [] \/ design <> []) -> exists r, ifbo_ask A enc dec o design acq argmax samplers ts = Ok r.
  Proof.
    intros IV N2 LR G GS NE. pose proof IS as (LG & LU & N1 & IB & IF & IU & (q0 & IM & IM0) & I2).
    assert (ID : forall t, In t ts -> exists k, t_id t = ifbo_id (cnum t) k /\ fid_ok (t_fid t) k).
    { intros t I. destruct (IV t I) as (c & k & E & F & _). exists k. rewrite (cnum_id t c k E). auto. }
    assert (CID : forall t, In t ts -> cid_of (t_id t) = Ok (cnum t)) by (intros t I; destruct (ID t I) as (k & -> & _); apply cid_of_id).
    unfold ifbo_ask. rewrite (mapM_fun _ cnum ts CID). cbn [bind].
    destruct (nth_error design _) as [c|] eqn:ED; [eauto|].
    unfold encode_ftpfn. rewrite (mapM_fun _ (fun t => row_of A enc o t (cnum t)) ts) by (intros t I; rewrite (CID t I); reflexivity). cbn [bind].
    assert (NT : ts <> []). { destruct NE as [H|H]; [exact H|]. intros ->. cbn in ED. destruct design; [contradiction|discriminate]. }
    destruct (map (loss_of A) ts) as [|y ys] eqn:L; [destruct ts; [contradiction|discriminate]|].
    assert (U : forall z, In z (y :: ys) -> unit_or_nan z). { intros z Z. rewrite <- L in Z. apply in_map_iff in Z. destruct Z as (t & <- & I). eapply loss_unit; eauto. }
    destruct (max_unit ys y (U y (or_introl eq_refl)) (fun z Z => U z (or_intror Z))) as [M1 M2].
    assert (CK : altb A (aZ A 1) (t_max A y ys) || altb A (t_min A y ys) (aZ A 0) = false).
    { apply orb_false_iff. change (aZ A 1) with (Some (1%Q)). change (aZ A 0) with (Some (0%Q)). split.
      - destruct (t_max A y ys) as [m|]; [|reflexivity]. destruct M1. apply not_lt. lra.
      - destruct (t_min A y ys) as [m|]; [|reflexivity]. destruct M2. apply not_lt. lra. }
    rewrite CK. cbn [bind fst snd].
    set (np := map fst (filter _ _)).
    assert (NP : forall r, In r np -> exists t, In t ts /\ r = row_of A enc o t (cnum t)).
    { intros r I. apply in_map_iff in I. destruct I as ((r', y') & <- & I). apply filter_In in I. destruct I as [I _]. apply in_combine_l in I.
      apply in_map_iff in I. destruct I as (t & <- & I). exists t. auto. }
    rewrite IB. destruct (Z.leb_spec (n - 1) 0) as [X|_]; [lia|].
    destruct (acquire_total acq argmax np samplers G GS) as (r & AQ). rewrite AQ. cbn [bind].
    apply acquire_from in AQ. destruct (r_id r) as [|c] eqn:RI; [eauto|].
    destruct AQ as [(X & _)|(K & B)]; [congruence|]. apply (keep_in A) in K. destruct (NP r K) as (t & It & ->). destruct (ID t It) as (k & _ & F).
    cbn [row_of r_budget] in *. rewrite (cont_index t k N2 F B). cbn [bind]. eauto.
  Qed.
  (** The losses are checked if nothing is pending. *)
  Lemma loss_checked ts design acq argmax samplers t q r : inv ts -> (forall t, In t ts -> known_loss A t) -> In t ts -> t_report t = Some (Some (Some q)) -> (q < 0 \/ 1 < q) ->
    ifbo_ask A enc dec o design acq argmax samplers ts = Ok r -> exists c k, nth_error design k = Some c /\ sc_id r = ifbo_id k 0.
  Proof.
    intros IV KL It RP OUT. 
    assert (CID : forall t, In t ts -> cid_of (t_id t) = Ok (cnum t)).
    { intros t0 I. destruct (IV t0 I) as (c & k & E & _). rewrite (cnum_id t0 c k E), E. apply cid_of_id. }
    unfold ifbo_ask. rewrite (mapM_fun _ cnum ts CID). cbn [bind].
    destruct (nth_error design _) as [c|] eqn:ED; [intros [= <-]; exists c; eexists; split; [exact ED|reflexivity]|].
    unfold encode_ftpfn. rewrite (mapM_fun _ (fun t => row_of A enc o t (cnum t)) ts) by (intros t0 I; rewrite (CID t0 I); reflexivity). cbn [bind].
    destruct (map (loss_of A) ts) as [|y ys] eqn:L; [discriminate|].
    assert (NN : forall z, In z (y :: ys) -> exists q, z = Some q).
    { intros z Z. rewrite <- L in Z. apply in_map_iff in Z. destruct Z as (t0 & <- & I). specialize (KL t0 I). unfold known_loss in KL.
      destruct (loss_of A t0) as [z|]; [eauto|]. cbn in KL. discriminate. }
    assert (QI : In (Some q) (y :: ys)). { rewrite <- L. apply in_map_iff. exists t. split; [|exact It]. unfold loss_of. rewrite RP. reflexivity. }
    assert (MX : forall l x0, (forall z, In z (x0 :: l) -> exists q, z = Some q) -> exists m, t_max A x0 l = Some m /\ forall w, In (Some w) (x0 :: l) -> w <= m).
    { unfold t_max. induction l as [|z l IH]; intros x0 H; cbn [fold_left].
      - destruct (H x0 (or_introl eq_refl)) as (m & ->). exists m. split; [reflexivity|]. intros w [[= ->]|[]]. lra.
      - destruct (H x0 (or_introl eq_refl)) as (a & ->). destruct (H z (or_intror (or_introl eq_refl))) as (b & ->). rewrite !nan_some. cbn [orb].
        assert (PM : exists m, py_max A (Some a) (Some b) = Some m /\ a <= m /\ b <= m).
        { unfold py_max. destruct (altb A (Some a) (Some b)) eqn:E; [apply lt_some in E; exists b; split; [reflexivity|lra]|].
          exists a. split; [reflexivity|]. cbn in E. apply negb_false_iff, Qle_bool_iff in E. lra. }
        destruct PM as (m & EM & AM & BM). rewrite EM. destruct (IH (Some m)) as (m' & E' & H').
        { intros z [<-|Z]; [eauto|]. apply H. right. right. exact Z. }
        exists m'. split; [exact E'|]. pose proof (H' m (or_introl eq_refl)) as HM. intros w [[= ->]|[[= ->]|W]]; [lra|lra|]. apply H'. right. exact W. }
    assert (MN : forall l x0, (forall z, In z (x0 :: l) -> exists q, z = Some q) -> exists m, t_min A x0 l = Some m /\ forall w, In (Some w) (x0 :: l) -> m <= w).
    { unfold t_min. induction l as [|z l IH]; intros x0 H; cbn [fold_left].
      - destruct (H x0 (or_introl eq_refl)) as (m & ->). exists m. split; [reflexivity|]. intros w [[= ->]|[]]. lra.
      - destruct (H x0 (or_introl eq_refl)) as (a & ->). destruct (H z (or_intror (or_introl eq_refl))) as (b & ->). rewrite !nan_some. cbn [orb].
        assert (PM : exists m, py_min A (Some a) (Some b) = Some m /\ m <= a /\ m <= b).
        { unfold py_min. destruct (altb A (Some b) (Some a)) eqn:E; [apply lt_some in E; exists b; split; [reflexivity|lra]|].
          exists a. split; [reflexivity|]. cbn in E. apply negb_false_iff, Qle_bool_iff in E. lra. }
        destruct PM as (m & EM & AM & BM). rewrite EM. destruct (IH (Some m)) as (m' & E' & H').
        { intros z [<-|Z]; [eauto|]. apply H. right. right. exact Z. }
        exists m'. split; [exact E'|]. pose proof (H' m (or_introl eq_refl)) as HM. intros w [[= ->]|[[= ->]|W]]; [lra|lra|]. apply H'. right. exact W. }
    destruct (MX ys y NN) as (mx & EX & HX). destruct (MN ys y NN) as (mn & EMN & HN). rewrite EX, EMN.
    assert (CK : altb A (aZ A 1) (Some mx) || altb A (Some mn) (aZ A 0) = true).
    { apply orb_true_iff. cbn [aZ altb Qar]. change (inject_Z 1) with 1. change (inject_Z 0) with 0. specialize (HX q QI). specialize (HN q QI).
      destruct OUT as [O|O]; [right|left]; apply negb_true_iff, not_true_is_false; intros H; apply Qle_bool_iff in H; lra. }
    rewrite CK. discriminate.
  Qed.
End S.
