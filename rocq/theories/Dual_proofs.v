(** Proofs about topologies with operations on nodes. *)
From Coq Require Import List Bool Arith Lia.
From Verif Require Import Dual_model Dual_spec.
Import ListNotations.
Local Open Scope nat_scope.
Local Open Scope list_scope.
Local Notation length := List.length.

Lemma edge_eqb_eq e f : edge_eqb e f = true <-> e = f.
Proof. destruct e, f. unfold edge_eqb. cbn. rewrite andb_true_iff, !Nat.eqb_eq. split; [intros (-> & ->); reflexivity|intros H; split; congruence]. Qed.
Lemma node_of_none el e : forall i, ~ In e el -> node_of i el e = None.
Proof.
  induction el as [|x r IH]; intros i N; [reflexivity|]. cbn. rewrite IH by (intros I; apply N; right; exact I). destruct (edge_eqb x e) eqn:E; [|reflexivity]. apply edge_eqb_eq in E. subst x. destruct N. left. reflexivity.
Qed.
Lemma node_of_nth el e : NoDup el -> forall i k, nth_error el k = Some e -> node_of i el e = Some (k + i).
Proof.
  induction el as [|x r IH]; intros N i k H; [destruct k; discriminate|]. inversion N as [|? ? NI N']; subst. destruct k as [|k]; cbn in H |- *.
  - assert (x = e) as -> by congruence. rewrite node_of_none by exact NI. rewrite (proj2 (edge_eqb_eq e e) eq_refl). reflexivity.
  - rewrite (IH N' (S i) k H). f_equal. lia.
Qed.
Lemma single l (b : nat) : NoDup l -> (forall n, In n l <-> n = b) -> l = [b].
Proof.
  intros N H. destruct l as [|x [|y l]].
  - destruct (proj2 (H b) eq_refl).
  - f_equal. apply H. left. reflexivity.
  - assert (x = b) by (apply H; left; reflexivity). assert (y = b) by (apply H; right; left; reflexivity). subst. inversion N as [|? ? NI _]. destruct NI. left. reflexivity.
Qed.
Lemma outside l n : negb (existsb (Nat.eqb n) l) = true <-> ~ In n l.
Proof.
  rewrite negb_true_iff, <- not_true_iff_false, existsb_exists. split; intros H I; apply H.
  - exists n. split; [exact I|apply Nat.eqb_refl].
  - destruct I as (m & I & E). apply Nat.eqb_eq in E. subst m. exact I.
Qed.
Lemma in_firsts (el : list edge) n : In n (map fst el) <-> exists v, In (n, v) el.
Proof. rewrite in_map_iff. split; [intros ((u & v) & E & I); cbn in E; subst u; exists v; exact I|intros (v & I); exists (n, v); auto]. Qed.
Lemma in_seconds (el : list edge) n : In n (map snd el) <-> exists u, In (u, n) el.
Proof. rewrite in_map_iff. split; [intros ((u & v) & E & I); cbn in E; subst v; exists u; exact I|intros (u & I); exists (u, n); auto]. Qed.
Lemma from_to_begin_end el b z : from_to el b z -> begin_end el = Ok (b, z).
Proof.
  intros (B & Z). unfold begin_end.
  rewrite (single (filter _ (nodup Nat.eq_dec (map fst el))) b).
  - rewrite (single (filter _ (nodup Nat.eq_dec (map snd el))) z); [reflexivity|apply NoDup_filter, NoDup_nodup|].
    intros n. rewrite filter_In, outside, !nodup_In, in_firsts, in_seconds, <- Z. split; intros (H & K); (split; [exact H|]); [intros v I; apply K; exists v; exact I|intros (v & I); exact (K v I)].
  - apply NoDup_filter, NoDup_nodup.
  - intros n. rewrite filter_In, outside, !nodup_In, in_firsts, in_seconds, <- B. split; intros (H & K); (split; [exact H|]); [intros v I; apply K; exists v; exact I|intros (v & I); exact (K v I)].
Qed.
Lemma mapM_total {A B} (f : A -> res B) l : (forall x, In x l -> exists y, f x = Ok y) -> exists ys, mapM f l = Ok ys /\ forall y, In y ys <-> exists x, In x l /\ f x = Ok y.
Proof.
  induction l as [|x l IH]; intros H.
  - exists []. split; [reflexivity|]. intros y. split; [intros []|intros (x & [] & _)].
  - destruct (H x (or_introl eq_refl)) as (y & E). destruct (IH (fun a I => H a (or_intror I))) as (ys & E' & S). exists (y :: ys). cbn. rewrite E. cbn. rewrite E'. cbn. split; [reflexivity|].
    intros w. split.
    + intros [<-|I]; [exists x; auto|]. apply S in I. destruct I as (a & I & F). exists a. auto.
    + intros (a & [<-|I] & F); [left; congruence|]. right. apply S. exists a. auto.
Qed.

Section Dual.
  Variables (el : list edge) (b z : nat).
  Hypothesis ND : NoDup el.
  Hypothesis FT : from_to el b z.
  Lemma lookup_nth i e : nth_error el i = Some e -> lookup el e = Ok (i + 2).
  Proof. intros H. unfold lookup. rewrite (node_of_nth el e ND 2 i H). reflexivity. Qed.
  Lemma lookup_in e : In e el -> exists i, nth_error el i = Some e /\ lookup el e = Ok (i + 2).
  Proof. intros I. apply In_nth_error in I. destruct I as (i & H). exists i. split; [exact H|apply lookup_nth; exact H]. Qed.
  Lemma appended_spec j e : nth_error el j = Some e -> exists l, appended el b z e = Ok l /\ forall x y, In (x, y) l <->
    (x = 0 /\ y = j + 2 /\ fst e = b) \/ (x = j + 2 /\ y = 1 /\ snd e = z) \/ exists i u, x = i + 2 /\ y = j + 2 /\ nth_error el i = Some (u, fst e).
  Proof.
    intros H. unfold appended. rewrite (lookup_nth j e H). cbn [bind].
    destruct (mapM_total (lookup el) (filter (fun e' => Nat.eqb (snd e') (fst e)) el)) as (ks & E & S).
    { intros f I. apply filter_In in I. destruct (lookup_in f (proj1 I)) as (i & _ & L). exists (i + 2). exact L. }
    rewrite E. cbn [bind]. eexists. split; [reflexivity|]. intros x y. rewrite !in_app_iff.
    assert (K : In (x, y) (map (fun k => (k, j + 2)) ks) <-> exists i u, x = i + 2 /\ y = j + 2 /\ nth_error el i = Some (u, fst e)).
    { rewrite in_map_iff. split.
      - intros (k & EQ & I). assert (k = x /\ j + 2 = y) as (-> & <-) by (split; congruence). apply S in I. destruct I as ((u & v) & I & L). apply filter_In in I. destruct I as (I & V). cbn in V. apply Nat.eqb_eq in V. subst v.
        destruct (lookup_in _ I) as (i & N & L'). exists i, u. split; [congruence|]. split; [reflexivity|exact N].
      - intros (i & u & -> & -> & N). exists (i + 2). split; [reflexivity|]. apply S. exists (u, fst e). split; [|apply lookup_nth; exact N]. apply filter_In. split; [exact (nth_error_In _ _ N)|apply Nat.eqb_refl]. }
    rewrite K. destruct (Nat.eqb_spec (fst e) b) as [P|P], (Nat.eqb_spec (snd e) z) as [R|R]; cbn [In]; split; intros D.
    all: repeat match goal with H : _ \/ _ |- _ => destruct H as [H|H] end; try contradiction; try (match goal with H : (_, _) = (_, _) |- _ => injection H as <- <- end); intuition (subst; auto; contradiction).
  Qed.
  Lemma node_list_spec : exists nl, node_list el = Ok nl /\ forall x y, In (x, y) nl <->
    (exists j v, x = 0 /\ y = j + 2 /\ nth_error el j = Some (b, v)) \/ (exists j u, x = j + 2 /\ y = 1 /\ nth_error el j = Some (u, z)) \/
    exists i j u v w, x = i + 2 /\ y = j + 2 /\ nth_error el i = Some (u, v) /\ nth_error el j = Some (v, w).
  Proof.
    unfold node_list. rewrite (from_to_begin_end el b z FT). cbn [bind].
    destruct (mapM_total (appended el b z) el) as (ls & E & S). { intros e I. apply In_nth_error in I. destruct I as (j & H). destruct (appended_spec j e H) as (l & A & _). exists l. exact A. }
    rewrite E. cbn [bind]. exists (List.concat ls). split; [reflexivity|]. intros x y. rewrite in_concat. split.
    - intros (l & I & J). apply S in I. destruct I as ((u & v) & I & A). apply In_nth_error in I. destruct I as (j & H). destruct (appended_spec j _ H) as (l' & A' & SP). assert (l' = l) as -> by congruence.
      apply SP in J. cbn [fst snd] in J. destruct J as [(-> & -> & ->)|[(-> & -> & ->)|(i & u' & -> & -> & N)]]; [left; exists j, v; auto|right; left; exists j, u; auto|right; right; exists i, j, u', u, v; auto].
    - assert (Q : forall j e, nth_error el j = Some e -> (x = 0 /\ y = j + 2 /\ fst e = b) \/ (x = j + 2 /\ y = 1 /\ snd e = z) \/ (exists i u, x = i + 2 /\ y = j + 2 /\ nth_error el i = Some (u, fst e)) -> exists l, In l ls /\ In (x, y) l).
      { intros j e H D. destruct (appended_spec j e H) as (l & A & SP). exists l. split; [apply S; exists e; split; [exact (nth_error_In _ _ H)|exact A]|apply SP; exact D]. }
      intros [(j & v & -> & -> & H)|[(j & u & -> & -> & H)|(i & j & u & v & w & -> & -> & H & K)]].
      + apply (Q j _ H). left. auto.
      + apply (Q j _ H). right. left. auto.
      + apply (Q j _ K). right. right. exists i, u. auto.
  Qed.

  Variable nl : list edge.
  Hypothesis SP : forall x y, In (x, y) nl <->
    (exists j v, x = 0 /\ y = j + 2 /\ nth_error el j = Some (b, v)) \/ (exists j u, x = j + 2 /\ y = 1 /\ nth_error el j = Some (u, z)) \/
    exists i j u v w, x = i + 2 /\ y = j + 2 /\ nth_error el i = Some (u, v) /\ nth_error el j = Some (v, w).
  Lemma over_along x l : over nl x l -> x <> 0 -> exists i u v r, x = i + 2 /\ nth_error el i = Some (u, v) /\ l = map (fun k => k + 2) r /\ along el v z r.
  Proof.
    induction 1 as [x I|x y l I O IH]; intros X; apply SP in I; destruct I as [(j & v & -> & _)|[(j & u & -> & Y & H)|(i & j & u & v & w & -> & Y & H & K)]]; try (exfalso; lia).
    - exists j, u, z, []. split; [reflexivity|]. split; [exact H|]. split; [reflexivity|constructor].
    - subst y. exfalso. inversion O as [? I|? ? ? I]; subst; apply SP in I; destruct I as [(? & ? & A & _)|[(? & ? & A & _)|(? & ? & ? & ? & ? & A & _)]]; lia.
    - subst y. destruct IH as (i' & u' & v' & r & E & N & -> & A); [lia|]. assert (i' = j) as -> by lia. assert (u' = v /\ v' = w) as (-> & ->) by (split; congruence).
      exists i, u, v, (j :: r). split; [reflexivity|]. split; [exact H|]. split; [reflexivity|]. econstructor; [exact K|exact A].
  Qed.
  Lemma along_over v w r : along el v w r -> w = z -> forall i u, nth_error el i = Some (u, v) -> over nl (i + 2) (map (fun k => k + 2) r).
  Proof.
    induction 1 as [x|a c w j l H A IH]; intros W i u N; cbn.
    - subst x. constructor. apply SP. right. left. exists i, u. auto.
    - econstructor; [|exact (IH W j a H)]. apply SP. right. right. exists i, j, u, a, c. auto.
  Qed.
  Lemma input_paths l : over nl 0 l <-> exists r, l = map (fun k => k + 2) r /\ along el b z r.
  Proof.
    split.
    - intros O. inversion O as [x I|x y l' I O']; subst; apply SP in I; destruct I as [(j & v & _ & Y & H)|[(j & u & X & _)|(i & j & u & v & w & X & _)]]; try (exfalso; lia).
      subst y. destruct (over_along _ _ O') as (i & u & v' & r & E & N & -> & A); [lia|]. assert (i = j) as -> by lia. assert (u = b /\ v' = v) as (-> & ->) by (split; congruence).
      exists (j :: r). split; [reflexivity|]. econstructor; [exact H|exact A].
    - intros (r & -> & A). inversion A as [x|? v ? i l' H A']; subst.
      + exfalso. destruct FT as (B & Z). destruct (proj2 (B z) eq_refl) as ((v & I) & _). destruct (proj2 (Z z) eq_refl) as (_ & K). exact (K v I).
      + cbn. econstructor; [|exact (along_over _ _ _ A' eq_refl i b H)]. apply SP. left. exists i, v. auto.
  Qed.
End Dual.
