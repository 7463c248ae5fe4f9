(** Proofs about distances and neighbours. *)
From Coq Require Import QArith List Bool Lia Psatz.
From Verif Require Export Near_model Near_spec.
From Verif Require Import Acq_model Acq_proofs.
Import ListNotations.
Local Open Scope Q_scope.
Local Open Scope list_scope.
Local Notation length := List.length.

(** ** Distances *)
Lemma minus_app a b x y : length a = length b -> minus (a ++ [x]) (b ++ [y]) = minus a b ++ [x - y].
Proof.
  revert b. induction a as [|u a IH]; intros [|v b] L; try discriminate; [reflexivity|]. injection L as L. unfold minus in *. cbn [app combine map fst snd]. rewrite (IH b L). reflexivity.
Qed.
Lemma minus_opp a b : length a = length b -> Forall2 (fun x y => x == - y) (minus a b) (minus b a).
Proof. revert b. induction a as [|u a IH]; intros [|v b] L; try discriminate; [constructor|]. injection L as L. unfold minus. cbn [combine map fst snd]. constructor; [ring|]. exact (IH b L). Qed.
Lemma minus_zero a b : length a = length b -> (Forall (fun x => x == 0) (minus a b) <-> Forall2 Qeq a b).
Proof.
  revert b. induction a as [|u a IH]; intros [|v b] L; try discriminate; [split; intros; constructor|]. injection L as L. unfold minus. cbn [combine map fst snd]. split; intros H.
  - inversion H as [|? ? H1 H2]; subst. constructor; [lra|]. apply (IH b L). exact H2.
  - inversion H as [|? ? ? ? H1 H2]; subst. constructor; [lra|]. apply (IH b L). exact H2.
Qed.
Definition differing (a b : list nat) : nat := length (filter (fun xy => negb (Nat.eqb (fst xy) (snd xy))) (combine a b)).
Lemma differing_sym a b : differing a b = differing b a.
Proof. revert b. induction a as [|u a IH]; intros [|v b]; try reflexivity. unfold differing in *. cbn [combine filter fst snd]. rewrite (Nat.eqb_sym v u). destruct (Nat.eqb u v); cbn [negb length]; rewrite IH; reflexivity. Qed.
Lemma differing_zero a b : length a = length b -> (differing a b = O <-> a = b).
Proof.
  revert b. induction a as [|u a IH]; intros [|v b] L; try discriminate; [split; reflexivity|]. injection L as L. unfold differing in *. cbn [combine filter fst snd]. destruct (Nat.eqb_spec u v) as [->|N]; cbn [negb length].
  - rewrite (IH b L). split; [intros ->; reflexivity|intros [= ->]; reflexivity].
  - split; [discriminate|]. intros [= E _]. contradiction.
Qed.
Lemma differing_app a b : length a = length b -> differing (a ++ [O]) (b ++ [O]) = differing a b.
Proof.
  revert b. induction a as [|u a IH]; intros [|v b] L; try discriminate; [reflexivity|]. injection L as L. unfold differing in *. cbn [app combine filter fst snd]. destruct (Nat.eqb u v); cbn [negb length]; rewrite (IH b L); reflexivity.
Qed.
Lemma hamming_eq a b : length a = length b -> hamming (a ++ [O]) (b ++ [O]) == inject_Z (Z.of_nat (differing a b)) / inject_Z (Z.of_nat (S (length a))).
Proof.
  intros L. unfold hamming. fold (differing (a ++ [O]) (b ++ [O])). rewrite (differing_app a b L). rewrite app_length. cbn [length]. rewrite Nat.add_comm. reflexivity.
Qed.
Lemma S_pos n : 0 < inject_Z (Z.of_nat (S n)).
Proof. change 0 with (inject_Z 0). rewrite <- Zlt_Qlt. lia. Qed.
Lemma nat_nonneg n : 0 <= inject_Z (Z.of_nat n).
Proof. change 0 with (inject_Z 0). rewrite <- Zle_Qle. lia. Qed.
Lemma share_zero n m : inject_Z (Z.of_nat n) / inject_Z (Z.of_nat (S m)) == 0 <-> n = O.
Proof.
  pose proof (S_pos m) as P. split.
  - intros E. assert (Z : inject_Z (Z.of_nat n) == 0). { setoid_replace (inject_Z (Z.of_nat n)) with (inject_Z (Z.of_nat n) / inject_Z (Z.of_nat (S m)) * inject_Z (Z.of_nat (S m))) by (field; lra). rewrite E. ring. }
    change 0 with (inject_Z 0) in Z. unfold Qeq in Z. cbn in Z. lia.
  - intros ->. unfold Qdiv. change (inject_Z (Z.of_nat 0)) with 0. ring.
Qed.
Lemma share_nonneg n m : 0 <= inject_Z (Z.of_nat n) / inject_Z (Z.of_nat (S m)).
Proof. apply Qle_shift_div_l; [apply S_pos|]. rewrite Qmult_0_l. apply nat_nonneg. Qed.
Section Dist.
  Variable norm : list Q -> Q.
  Hypothesis NL : norm_like norm.
  Lemma dist_inv c1 c2 d : config_dist norm c1 c2 = Ok d -> exists x1 k1 g1 x2 k2 g2,
    categories c1 = Ok (x1, k1, g1) /\ categories c2 = Ok (x2, k2, g2) /\ length x1 = length x2 /\ length k1 = length k2 /\
    d == norm (minus x1 x2 ++ [0 - 0]) + inject_Z (Z.of_nat (differing k1 k2)) / inject_Z (Z.of_nat (S (length k1))).
  Proof.
    unfold config_dist. destruct (categories c1) as [((x1, k1), g1)|]; [|discriminate]. destruct (categories c2) as [((x2, k2), g2)|]; [|discriminate]. cbn [bind].
    destruct (Nat.eqb_spec (length x1) (length x2)) as [LX|]; [|discriminate]. destruct (Nat.eqb_spec (length k1) (length k2)) as [LK|]; [|discriminate]. cbn [andb]. intros E.
    exists x1, k1, g1, x2, k2, g2. repeat split; try assumption. assert (D : d = norm (minus (x1 ++ [0]) (x2 ++ [0])) + hamming (k1 ++ [0%nat]) (k2 ++ [0%nat])) by congruence.
    rewrite D. rewrite (minus_app x1 x2 0 0 LX). rewrite (hamming_eq k1 k2 LK). reflexivity.
  Qed.
  Lemma dist_ok c1 c2 x1 k1 g1 x2 k2 g2 : categories c1 = Ok (x1, k1, g1) -> categories c2 = Ok (x2, k2, g2) -> length x1 = length x2 -> length k1 = length k2 -> exists d, config_dist norm c1 c2 = Ok d.
  Proof. intros E1 E2 LX LK. unfold config_dist. rewrite E1, E2. cbn [bind]. rewrite LX, LK, !Nat.eqb_refl. eexists. reflexivity. Qed.
  Lemma dist_zero c1 c2 d : config_dist norm c1 c2 = Ok d ->
    0 <= d /\ (d == 0 <-> exists x1 k1 g1 x2 k2 g2, categories c1 = Ok (x1, k1, g1) /\ categories c2 = Ok (x2, k2, g2) /\ Forall2 Qeq x1 x2 /\ k1 = k2).
  Proof.
    intros E. destruct (dist_inv c1 c2 d E) as (x1 & k1 & g1 & x2 & k2 & g2 & E1 & E2 & LX & LK & D). destruct NL as (N1 & N2 & N3).
    pose proof (N1 (minus x1 x2 ++ [0 - 0])) as P1. pose proof (share_nonneg (differing k1 k2) (length k1)) as P2. split; [lra|]. split.
    - intros Z. exists x1, k1, g1, x2, k2, g2. split; [exact E1|]. split; [exact E2|].
      assert (Z1 : norm (minus x1 x2 ++ [0 - 0]) == 0) by lra. assert (Z2 : inject_Z (Z.of_nat (differing k1 k2)) / inject_Z (Z.of_nat (S (length k1))) == 0) by lra.
      split; [|apply differing_zero; [exact LK|]; apply share_zero in Z2; exact Z2].
      apply N2 in Z1. apply Forall_app in Z1. apply (minus_zero x1 x2 LX). exact (proj1 Z1).
    - intros (x1' & k1' & g1' & x2' & k2' & g2' & E1' & E2' & F & K). assert (x1' = x1 /\ k1' = k1) as (-> & ->) by (split; congruence). assert (x2' = x2 /\ k2' = k2) as (-> & ->) by (split; congruence).
      assert (Z1 : norm (minus x1 x2 ++ [0 - 0]) == 0). { apply N2. apply Forall_app. split; [apply (minus_zero x1 x2 LX); exact F|]. constructor; [ring|constructor]. }
      assert (Z2 : inject_Z (Z.of_nat (differing k1 k2)) / inject_Z (Z.of_nat (S (length k1))) == 0). { apply share_zero. apply differing_zero; assumption. }
      lra.
  Qed.
  Lemma categories_are c : forall xs ks gs, categories c = Ok (xs, ks, gs) -> xs = numbers c /\ ks = places c.
  Proof.
    induction c as [|(f, h) c IH]; intros xs ks gs E.
    - assert (xs = [] /\ ks = []) by (cbn in E; split; congruence). exact H.
    - destruct f; [exact (IH xs ks gs E)|]. destruct h as [|g|[k|]|[x|]|]; cbn [categories] in E; try discriminate E; try exact (IH xs ks gs E);
        (destruct (categories c) as [((xs', ks'), gs')|]; [|discriminate E]; cbn [bind] in E; destruct (IH xs' ks' gs' eq_refl) as (X & K); cbn [numbers places flat_map app];
         fold (numbers c) (places c); rewrite <- X, <- K; split; congruence).
  Qed.
  Lemma dist_zero_values c1 c2 d : config_dist norm c1 c2 = Ok d -> 0 <= d /\ (d == 0 <-> Forall2 Qeq (numbers c1) (numbers c2) /\ places c1 = places c2).
  Proof.
    intros E. destruct (dist_inv c1 c2 d E) as (x1 & k1 & g1 & x2 & k2 & g2 & E1 & E2 & _). destruct (dist_zero c1 c2 d E) as (P & Z). split; [exact P|].
    destruct (categories_are c1 _ _ _ E1) as (X1 & K1). destruct (categories_are c2 _ _ _ E2) as (X2 & K2). rewrite Z. split.
    - intros (a1 & b1 & h1 & a2 & b2 & h2 & A1 & A2 & F & K). destruct (categories_are c1 _ _ _ A1) as (-> & ->). destruct (categories_are c2 _ _ _ A2) as (-> & ->). split; assumption.
    - intros (F & K). exists x1, k1, g1, x2, k2, g2. rewrite X1, X2, K1, K2 in *. repeat split; assumption.
  Qed.
  Lemma dist_sym c1 c2 d : config_dist norm c1 c2 = Ok d -> exists d', config_dist norm c2 c1 = Ok d' /\ d' == d.
  Proof.
    intros E. destruct (dist_inv c1 c2 d E) as (x1 & k1 & g1 & x2 & k2 & g2 & E1 & E2 & LX & LK & D). destruct NL as (N1 & N2 & N3).
    destruct (dist_ok c2 c1 _ _ _ _ _ _ E2 E1 (eq_sym LX) (eq_sym LK)) as (d' & E'). exists d'. split; [exact E'|].
    destruct (dist_inv c2 c1 d' E') as (x2' & k2' & g2' & x1' & k1' & g1' & E2' & E1' & LX' & LK' & D').
    assert (x1' = x1 /\ k1' = k1) as (-> & ->) by (split; congruence). assert (x2' = x2 /\ k2' = k2) as (-> & ->) by (split; congruence).
    rewrite D, D'. rewrite (differing_sym k2 k1), LK'. rewrite (N3 (minus x2 x1 ++ [0 - 0]) (minus x1 x2 ++ [0 - 0])); [reflexivity|].
    apply Forall2_app; [apply minus_opp; symmetry; exact LX|]. constructor; [ring|constructor].
  Qed.
End Dist.

(** ** Neighbours *)
Section Loop.
  Variables (t : nat) (tol delta d0 : Q) (ds : nat -> Q).
  Definition radius (j : nat) : Q := grown d0 delta (Nat.div j (S t)).
  Definition rejected (j : nat) : Prop := radius j <= ds j /\ tol <= ds j.
  Definition accepted (j : nat) : Prop := ds j < radius j \/ ds j < tol.
  Lemma div_at k c : (c <= t)%nat -> Nat.div (k * S t + c) (S t) = k.
  Proof. intros L. rewrite Nat.div_add_l by lia. rewrite Nat.div_small by lia. lia. Qed.
  Lemma neighbour_run fuel : forall i c k dist, i = (k * S t + c)%nat -> (c <= t)%nat -> dist == grown d0 delta k ->
    match neighbour fuel t tol delta ds i c dist with
    | Ok (j, r) => (i <= j)%nat /\ r == radius j /\ accepted j /\ forall j', (i <= j' < j)%nat -> rejected j'
    | Err e => e = OutOfFuel /\ forall j', (i <= j' < i + fuel)%nat -> rejected j'
    end.
  Proof.
    induction fuel as [|fuel IH]; intros i c k dist EI C ED; cbn [neighbour].
    - split; [reflexivity|]. intros j' H. lia.
    - assert (R : radius i == dist). { unfold radius. rewrite EI, (div_at k c C). symmetry. exact ED. }
      destruct (qltb (ds i) (if qltb dist tol then tol else dist)) eqn:E.
      + apply qltb_spec in E. split; [lia|]. split; [symmetry; exact R|]. split; [|intros j' H; lia]. unfold accepted. destruct (qltb dist tol); [right; exact E|left; rewrite R; exact E].
      + apply qltb_false in E. assert (RJ : rejected i). { unfold rejected. rewrite R. destruct (qltb dist tol) eqn:Q; [apply qltb_spec in Q|apply qltb_false in Q]; split; lra. }
        assert (NEXT : forall c' k' dist', S i = (k' * S t + c')%nat -> (c' <= t)%nat -> dist' == grown d0 delta k' ->
          match neighbour fuel t tol delta ds (S i) c' dist' with
          | Ok (j, r) => (i <= j)%nat /\ r == radius j /\ accepted j /\ forall j', (i <= j' < j)%nat -> rejected j'
          | Err e => e = OutOfFuel /\ forall j', (i <= j' < i + S fuel)%nat -> rejected j' end).
        { intros c' k' dist' H1 H2 H3. specialize (IH (S i) c' k' dist' H1 H2 H3). destruct (neighbour fuel t tol delta ds (S i) c' dist') as [(j, r)|e].
          - destruct IH as (A1 & A2 & A3 & A4). split; [lia|]. split; [exact A2|]. split; [exact A3|]. intros j' H. destruct (Nat.eq_dec j' i) as [->|]; [exact RJ|apply A4; lia].
          - destruct IH as (A1 & A2). split; [exact A1|]. intros j' H. destruct (Nat.eq_dec j' i) as [->|]; [exact RJ|apply A2; lia]. }
        destruct (Nat.ltb_spec t (S c)) as [L|L].
        * apply (NEXT 0%nat (S k)); [lia|lia|]. cbn [grown]. rewrite <- ED. ring.
        * apply (NEXT (S c) k); [lia|lia|exact ED].
  Qed.
  Lemma neighbour_ok fuel j r : neighbour fuel t tol delta ds 0 0 d0 = Ok (j, r) -> r == radius j /\ accepted j /\ forall j', (j' < j)%nat -> rejected j'.
  Proof.
    intros E. pose proof (neighbour_run fuel 0 0 0 d0 eq_refl (Nat.le_0_l t) (Qeq_refl _)) as H. rewrite E in H. destruct H as (_ & H1 & H2 & H3). split; [exact H1|]. split; [exact H2|]. intros j' L. apply H3. lia.
  Qed.
  Lemma grown_bernoulli k : 0 < d0 -> 0 < delta -> d0 + d0 * delta * inject_Z (Z.of_nat k) <= grown d0 delta k /\ d0 <= grown d0 delta k.
  Proof.
    intros P D. induction k as [|k (IH1 & IH2)]; cbn [grown].
    - change (inject_Z (Z.of_nat 0)) with 0. split; lra.
    - rewrite Nat2Z.inj_succ. unfold Z.succ. rewrite inject_Z_plus. change (inject_Z 1) with 1. split; nra.
  Qed.
  Lemma grown_beyond b : 0 < d0 -> 0 < delta -> exists k, b < grown d0 delta k.
  Proof.
    intros P D. set (q := b / (d0 * delta)). exists (Z.to_nat (Z.abs (Qnum q) + 1)). set (k := Z.to_nat _).
    destruct (grown_bernoulli k P D) as (B & _). assert (PD : 0 < d0 * delta) by nra.
    assert (L : q < inject_Z (Z.of_nat k)).
    { unfold k. rewrite Z2Nat.id by lia. unfold Qlt. cbn. destruct q as (n, d). cbn. nia. }
    assert (E : b == q * (d0 * delta)) by (unfold q; field; split; lra). nra.
  Qed.
  Lemma neighbour_ends b : 0 < d0 -> 0 < delta -> (forall j, ds j < b) -> exists fuel j r, neighbour fuel t tol delta ds 0 0 d0 = Ok (j, r).
  Proof.
    intros P D B. destruct (grown_beyond b P D) as (k & K). exists (S (k * S t)). pose proof (neighbour_run (S (k * S t)) 0 0 0 d0 eq_refl (Nat.le_0_l t) (Qeq_refl _)) as H.
    destruct (neighbour (S (k * S t)) t tol delta ds 0 0 d0) as [(j, r)|e]; [exists j, r; reflexivity|]. exfalso. destruct H as (_ & H).
    destruct (H (k * S t)%nat) as (R & _); [lia|]. unfold radius in R. rewrite Nat.div_mul in R by lia. pose proof (B (k * S t)%nat). lra.
  Qed.
  Lemma neighbour_never : d0 <= 0 -> 0 <= delta -> (forall j, tol <= ds j) -> (forall j, 0 <= ds j) -> forall fuel, neighbour fuel t tol delta ds 0 0 d0 = Err OutOfFuel.
  Proof.
    intros P D T N fuel. pose proof (neighbour_run fuel 0 0 0 d0 eq_refl (Nat.le_0_l t) (Qeq_refl _)) as H. destruct (neighbour fuel t tol delta ds 0 0 d0) as [(j, r)|e].
    - exfalso. destruct H as (_ & _ & A & _). assert (G : forall k, grown d0 delta k <= 0). { induction k as [|k IH]; [exact P|]. cbn [grown]. nra. }
      destruct A as [A|A]; [|pose proof (T j); lra]. unfold radius in A. pose proof (G (Nat.div j (S t))). pose proof (N j). lra.
    - destruct H as (-> & _). reflexivity.
  Qed.
End Loop.

(** ** Priors *)
Lemma prior_weight_when t : (0 < t -> (exists e, prior_weight true (Some t) = Ok (Some e)) <-> inject_Z (10 ^ 5) < t).
Proof.
  intros P. unfold prior_weight. assert (Z : Qeq_bool t 0 = false). { destruct (Qeq_bool t 0) eqn:E; [|reflexivity]. apply Qeq_bool_eq in E. lra. }
  rewrite Z. change (inject_Z (10 ^ 5)) with 100000. assert (E : 10 / t * t == 10) by (field; lra). destruct (qltb (10 / t) (1 # 10000)) eqn:Q.
  - apply qltb_spec in Q. split; [intros _; nra|]. intros _. eexists. reflexivity.
  - apply qltb_false in Q. split; [intros (e & H); discriminate|]. intros L. exfalso. nra.
Qed.
