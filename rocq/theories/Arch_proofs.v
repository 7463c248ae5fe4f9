(** Architecture parameters. *)
From Verif Require Import Py Prune_model Prune_spec Prune_proofs Arch_model Arch_spec.
From Coq Require Import String.
Local Open Scope nat_scope.
Local Open Scope list_scope.
Local Notation length := List.length.

Section Param.
  Context {V : Type}.
  Variable repr : string -> res V.
  Notation reachable := (reachable repr).
  Definition good (p : param V) : Prop := (forall v, val p = Some v -> repr (tree p) = Ok v) /\ (fid p = EmptyString \/ fid p = tree p).
  Lemma good_new : good new_param. Proof. split; [discriminate|left; reflexivity]. Qed.
  Lemma good_value p : good p -> good (snd (get_value repr p)).
  Proof. intros (H1 & H2). unfold get_value. destruct (val p) eqn:E; [split; [cbn [snd]; intros w W; apply H1; congruence|exact H2]|]. destruct (repr (tree p)) eqn:R; cbn [snd]; split; try assumption; cbn [val tree]; intros w W; congruence. Qed.
  Lemma good_id p : good p -> good (snd (get_id p)).
  Proof. intros (H1 & H2). unfold get_id. destruct (String.eqb (fid p) EmptyString); [|split; assumption]. destruct (String.eqb (tree p) EmptyString); [split; assumption|]. split; [exact H1|right; reflexivity]. Qed.
  Lemma create_eq s p : create_from_id repr s p = if String.eqb s EmptyString then (Err ValueError, mkParam EmptyString s None (default p))
    else match repr s with Ok v => (Ok tt, mkParam s s (Some v) (default p)) | Err e => (Err e, mkParam s s None (default p)) end.
  Proof. unfold create_from_id, get_id. cbn [reset fid tree val default]. destruct (String.eqb s EmptyString); [reflexivity|]. unfold get_value. cbn [val tree fid default]. destruct (repr s); reflexivity. Qed.
  Lemma good_create s p : good (snd (create_from_id repr s p)).
  Proof. rewrite create_eq. destruct (String.eqb_spec s EmptyString) as [->|N]; [split; [discriminate|left; reflexivity]|]. destruct (repr s) eqn:R; (split; [cbn; intros w W; congruence|right; reflexivity]). Qed.
  Lemma good_instance s q : create_new_instance repr s = Ok q -> good q.
  Proof. unfold create_new_instance. pose proof (good_create s new_param) as G. destruct (create_from_id repr s new_param) as ([u|e], q'); [|discriminate]. intros [= <-]. exact G. Qed.
  Lemma reachable_good p : reachable p -> good p.
  Proof.
    induction 1 as [|p _ IH|p _ IH|s p _ IH|q p _ IHq _ IH|s p _ IH|d p _ IH|p _ IH|text p q _ IH E|child b q E|c1 c2 a b E|c1 c2 a b E].
    - apply good_new.
    - apply good_value, IH.
    - apply good_id, IH.
    - apply good_create.
    - unfold load_from_param. destruct (get_id q) as ([i|e], q'); [apply good_create|exact IH].
    - destruct s as [s|]; [apply good_create|exact IH].
    - exact IH.
    - unfold clone. destruct (val p) eqn:E; [|apply good_new]. destruct IH as (H1 & H2). split; [intros w W; apply H1; cbn in W; congruence|exact H2].
    - unfold sample in E. pose proof (good_value (mkParam text EmptyString None (default (clone p)))) as G. cbn [reset fid val default] in E.
      destruct (get_value repr (mkParam text EmptyString None (default (clone p)))) as ([v|e], q'); [|discriminate]. injection E as <-. apply G. split; [discriminate|left; reflexivity].
    - unfold mutate in E. destruct b; [discriminate|]. exact (good_instance child q E).
    - unfold crossover in E. destruct (String.eqb c1 EmptyString && String.eqb c2 EmptyString); [discriminate|]. destruct (create_new_instance repr c1) as [a'|e] eqn:A; [|discriminate]. cbn [bind] in E. destruct (create_new_instance repr c2) as [b'|e] eqn:B; [|discriminate]. injection E as <- <-. exact (good_instance _ _ A).
    - unfold crossover in E. destruct (String.eqb c1 EmptyString && String.eqb c2 EmptyString); [discriminate|]. destruct (create_new_instance repr c1) as [a'|e] eqn:A; [|discriminate]. cbn [bind] in E. destruct (create_new_instance repr c2) as [b'|e] eqn:B; [|discriminate]. injection E as <- <-. exact (good_instance _ _ B).
  Qed.
  Lemma id_tree p s : good p -> fst (get_id p) = Ok s -> s = tree p /\ s <> EmptyString.
  Proof.
    intros (_ & H). unfold get_id. destruct (String.eqb_spec (fid p) EmptyString) as [E|N].
    - destruct (String.eqb_spec (tree p) EmptyString) as [E'|N']; [discriminate|]. intros [= <-]. auto.
    - cbn [fst]. intros [= <-]. destruct H as [H|H]; [contradiction|]. auto.
  Qed.
  Lemma param_consistent_ p s : reachable p -> fst (get_id p) = Ok s -> fst (get_value repr p) = repr s.
  Proof.
    intros R H. apply reachable_good in R. destruct (id_tree p s R H) as (-> & _). unfold get_value. destruct (val p) as [v|] eqn:E; [symmetry; apply R; exact E|]. destruct (repr (tree p)); reflexivity.
  Qed.
  Lemma id_of s v d : s <> EmptyString -> fst (get_id (mkParam s s v d : param V)) = Ok s.
  Proof. intros N. unfold get_id. cbn [fid tree]. destruct (String.eqb_spec s EmptyString); [contradiction|reflexivity]. Qed.
  Lemma loaded_ s p : s <> EmptyString -> forall v, repr s = Ok v -> exists q, create_from_id repr s p = (Ok tt, q) /\ fst (get_id q) = Ok s /\ fst (get_value repr q) = Ok v /\ default q = default p.
  Proof. intros N v R. rewrite create_eq. destruct (String.eqb_spec s EmptyString); [contradiction|]. rewrite R. eexists. split; [reflexivity|]. split; [apply id_of, N|]. split; reflexivity. Qed.
  Lemma reload_ p s v : reachable p -> fst (get_id p) = Ok s -> fst (get_value repr p) = Ok v ->
    exists q, create_new_instance repr s = Ok q /\ fst (get_id q) = Ok s /\ fst (get_value repr q) = Ok v /\ same p q = Ok true.
  Proof.
    intros R H HV. rewrite (param_consistent_ p s R H) in HV. destruct (id_tree p s (reachable_good p R) H) as (_ & N). destruct (loaded_ s new_param N v HV) as (q & Q1 & Q2 & Q3 & _). exists q.
    unfold create_new_instance. rewrite Q1. split; [reflexivity|]. split; [exact Q2|]. split; [exact Q3|]. unfold same. rewrite H, Q2, String.eqb_refl. reflexivity.
  Qed.
  Lemma clone_same_ p s v : reachable p -> fst (get_id p) = Ok s -> fst (get_value repr p) = Ok v ->
    let c := clone (snd (get_value repr p)) in fst (get_id c) = Ok s /\ fst (get_value repr c) = Ok v.
  Proof.
    intros R H HV c. unfold c, get_value. unfold get_value in HV. destruct (val p) as [w|] eqn:E.
    - cbn [snd]. unfold clone. rewrite E. split; [|exact HV]. unfold get_id in *. cbn [fid tree]. destruct (String.eqb (fid p) EmptyString); [destruct (String.eqb (tree p) EmptyString)|]; exact H.
    - destruct (repr (tree p)) as [w|e]; [|discriminate]. cbn [snd clone val]. split; [|exact HV]. unfold get_id in *. cbn [fid tree]. destruct (String.eqb (fid p) EmptyString); [destruct (String.eqb (tree p) EmptyString)|]; exact H.
  Qed.
  Lemma sampled_ text p q : text <> EmptyString -> sample repr text p = Ok q -> fst (get_id q) = Ok text /\ fst (get_value repr q) = repr text /\ exists v, repr text = Ok v.
  Proof.
    intros N. unfold sample, get_value. cbn [reset val tree fid default]. destruct (repr text) as [v|e] eqn:R; [|discriminate]. intros [= <-]. cbn [val fst tree fid]. split; [|split; [reflexivity|exists v; reflexivity]].
    unfold get_id. cbn [fid tree]. rewrite String.eqb_refl. destruct (String.eqb_spec text EmptyString); [contradiction|reflexivity].
  Qed.
  Lemma failed_load_ s p e : s <> EmptyString -> repr s = Err e -> fst (create_from_id repr s p) = Err e /\
    let q := snd (create_from_id repr s p) in fst (get_id q) = Ok s /\ fst (get_id (clone q)) = Err ValueError.
  Proof. intros N R. rewrite create_eq. destruct (String.eqb_spec s EmptyString); [contradiction|]. rewrite R. cbn [fst snd]. split; [reflexivity|]. split; [apply id_of, N|reflexivity]. Qed.
End Param.

Section Building.
  Context {D R : Type}.
  Variables (attributes : D -> option D -> R) (update : D -> R -> D).
  Variables (g : graph) (order : list Z) (src : Z) (d0 : Z -> Z -> D).
  Hypothesis ED : NoDup (edges g).
  Hypothesis PR : proper g.
  Hypothesis TO : topological g order.
  Hypothesis SRC : only g (fun n => forall u, ~ edge g u n) src.
  Notation bedge := (build_edge attributes update g src).
  Definition q_of (u : Z) : Z := hd 0%Z (preds g u).
  Definition want (d : Z -> Z -> D) (u v : Z) : D := update (d0 u v) (attributes (d0 u v) (if Z.eqb u src then None else Some (d (q_of u) u))).
  Definition inv (P : list Z) (n : Z) (done : list Z) (d : Z -> Z -> D) : Prop :=
    forall u v, edge g u v -> ((In v P \/ v = n /\ In u done) -> d u v = want d u v) /\ (~ (In v P \/ v = n /\ In u done) -> d u v = d0 u v).
  Lemma before_node P n S0 u : order = P ++ n :: S0 -> edge g u n -> In u P.
  Proof.
    intros E H. destruct TO as (_ & T2 & T3). destruct (T3 u n H) as (a & b & c & Q). rewrite E in Q, T2.
    assert (P = a ++ u :: b); [|subst P; apply in_or_app; right; left; reflexivity].
    clear -Q T2. change (a ++ u :: b ++ n :: c) with (a ++ (u :: b) ++ n :: c) in Q. rewrite app_assoc in Q. revert Q. generalize (a ++ u :: b) as m. revert T2. induction P as [|x P IH]; intros T2 m Q.
    - destruct m as [|y m]; [reflexivity|]. cbn [app] in Q. injection Q as <- Q. exfalso. cbn [app] in T2. inversion T2 as [|? ? H1 _]. apply H1. rewrite Q. apply in_or_app. right. left. reflexivity.
    - destruct m as [|y m].
      + cbn [app] in Q. injection Q as -> Q. exfalso. cbn [app] in T2. inversion T2 as [|? ? H1 _]. apply H1. apply in_or_app. right. left. reflexivity.
      + cbn [app] in Q. injection Q as <- Q. f_equal. apply IH; [cbn [app] in T2; inversion T2; assumption|exact Q].
  Qed.
  Lemma source_no_pred u : In u (nodes g) -> u <> src -> exists q l, preds g u = q :: l.
  Proof.
    intros I N. destruct (preds g u) as [|q l] eqn:E; [|exists q, l; reflexivity]. exfalso. apply N, SRC. split; [exact I|]. apply no_preds. rewrite E. reflexivity.
  Qed.
  Lemma preds_NoDup n : NoDup (preds g n).
  Proof.
    unfold preds. revert ED. generalize (edges g) as l. induction l as [|(u, v) l IH]; intros H; [constructor|]. inversion H as [|? ? H1 H2]; subst. cbn [filter snd]. destruct (Z.eqb_spec v n) as [->|N]; [|exact (IH H2)]. cbn [map fst]. constructor; [|exact (IH H2)].
    intros I. apply in_map_iff in I. destruct I as ((u', v') & E & I). cbn [fst] in E. subst u'. apply filter_In in I. destruct I as (I & E). cbn [snd] in E. apply Z.eqb_eq in E. subst v'. contradiction.
  Qed.
  Lemma edges_step P n S0 : order = P ++ n :: S0 -> forall rest done d, preds g n = done ++ rest -> inv P n done d -> exists d', fold_left (bedge n) rest (Ok d) = Ok d' /\ inv P n (preds g n) d'.
  Proof.
    intros E. induction rest as [|p rest IH]; intros done d EP I.
    - rewrite app_nil_r in EP. exists d. split; [reflexivity|]. rewrite EP. exact I.
    - assert (IP : In p (preds g n)) by (rewrite EP; apply in_or_app; right; left; reflexivity). assert (EG : edge g p n) by (apply preds_iff; exact IP). pose proof (before_node P n S0 p E EG) as PP.
      assert (ND : ~ In p done) by (pose proof (preds_NoDup n) as Q; rewrite EP in Q; apply NoDup_remove_2 in Q; intros J; apply Q, in_or_app; left; exact J).
      assert (NP : ~ In n P) by (destruct TO as (_ & T2 & _); rewrite E in T2; apply NoDup_remove_2 in T2; intros J; apply T2, in_or_app; left; exact J).
      cbn [fold_left]. unfold build_edge at 2. cbn [bind].
      set (d' := set_data d p n (want d p n)).
      assert (D0 : d p n = d0 p n) by (apply (I p n EG); intros [J|(_ & J)]; contradiction).
      assert (STEP : bind (if Z.eqb p src then Ok None else match preds g p with [] => Err RuntimeError | q :: _ => Ok (Some (d q p)) end) (fun before => Ok (set_data d p n (update (d p n) (attributes (d p n) before)))) = Ok d').
      { unfold d', want. rewrite D0. destruct (Z.eqb_spec p src) as [->|N]; [reflexivity|]. destruct (source_no_pred p) as (q & l & Q); [apply (proj2 PR p n EG)|exact N|]. unfold q_of. rewrite Q. reflexivity. }
      rewrite STEP. apply (IH (done ++ [p])); [rewrite <- app_assoc; exact EP|].
      assert (KEEP : forall u v, edge g u v -> In v P \/ v = n /\ In u (done ++ [p]) -> d' (q_of u) u = d (q_of u) u).
      { intros u v H J. unfold d', set_data. destruct (Z.eqb_spec u n) as [->|N2]; [|rewrite andb_false_r; reflexivity]. exfalso. destruct J as [J|(-> & J)].
        - apply in_split in J. destruct J as (a & b & ->). rewrite <- app_assoc in E. pose proof (before_node a v (b ++ n :: S0) n E H) as K. apply NP, in_or_app. left. exact K.
        - exact (NP (before_node P n S0 n E H)). }
      intros u v H. split.
      + intros J. unfold want. rewrite (KEEP u v H J). change (d' u v = want d u v). unfold d', set_data. destruct (Z.eqb_spec u p) as [->|N1]; cbn [andb].
        * destruct (Z.eqb_spec v n) as [->|N2]; [reflexivity|]. apply (I p v H). destruct J as [J|(J & _)]; [left; exact J|contradiction].
        * apply (I u v H). destruct J as [J|(J1 & J2)]; [left; exact J|]. right. split; [exact J1|]. apply in_app_or in J2. destruct J2 as [J2|[<-|[]]]; [exact J2|contradiction].
      + intros J. unfold d', set_data. destruct (Z.eqb_spec u p) as [EU|N1]; cbn [andb].
        * destruct (Z.eqb_spec v n) as [EV|N2]; [exfalso; apply J; right; split; [exact EV|apply in_or_app; right; left; auto]|]. apply (I u v H). intros [K|(K & _)]; [apply J; left; exact K|contradiction].
        * apply (I u v H). intros [K|(K1 & K2)]; apply J; [left; exact K|right; split; [exact K1|apply in_or_app; left; exact K2]].
  Qed.
  Lemma nodes_step : forall rest P d, order = P ++ rest -> inv P 0%Z [] d -> exists d', fold_left (fun rd n => fold_left (bedge n) (preds g n) rd) rest (Ok d) = Ok d' /\ inv order 0%Z [] d'.
  Proof.
    induction rest as [|n rest IH]; intros P d E I.
    - rewrite app_nil_r in E. subst P. exists d. split; [reflexivity|exact I].
    - cbn [fold_left]. destruct (edges_step P n rest E (preds g n) [] d eq_refl) as (d1 & E1 & I1); [intros u v H; destruct (I u v H) as (I1 & I2); split; [intros [J|(_ & [])]; apply I1; left; exact J|intros J; apply I2; intros [K|(_ & [])]; apply J; left; exact K]|].
      rewrite E1. apply (IH (P ++ [n])); [rewrite <- app_assoc; exact E|]. intros u v H. destruct (I1 u v H) as (J1 & J2). split.
      + intros [J|(_ & [])]. apply J1. apply in_app_or in J. destruct J as [J|[<-|[]]]; [left; exact J|right; split; [reflexivity|apply preds_iff; exact H]].
      + intros J. apply J2. intros [K|(-> & K)]; apply J; left; apply in_or_app; [left; exact K|right; left; reflexivity].
  Qed.
  Lemma first_pred u q l : preds g u = q :: l -> first_edge g q u.
  Proof.
    unfold preds, first_edge. generalize (edges g) as es. induction es as [|(a, b) es IH]; intros H; [discriminate|]. cbn [filter snd] in H. destruct (Z.eqb_spec b u) as [->|N].
    - cbn [map fst] in H. injection H as -> _. exists [], es. split; [reflexivity|intros p []].
    - destruct (IH H) as (l1 & l2 & -> & H2). exists ((a, b) :: l1), l2. split; [reflexivity|]. intros p [J|J]; [congruence|exact (H2 p J)].
  Qed.
  Lemma build_ok : exists final, build attributes update g order d0 = Ok final /\ forall u v, edge g u v -> exists before, final u v = update (d0 u v) (attributes (d0 u v) before) /\
    ((u = src /\ before = None) \/ (u <> src /\ exists q, first_edge g q u /\ before = Some (final q u))).
  Proof.
    unfold build. assert (F : filter (fun n => is_nil (preds g n)) (nodes g) = [src]).
    { assert (H : forall n, In n (filter (fun n => is_nil (preds g n)) (nodes g)) <-> n = src) by (intros n; rewrite filter_In, no_preds; apply SRC). assert (N : NoDup (filter (fun n => is_nil (preds g n)) (nodes g))) by (apply NoDup_filter, PR).
      destruct (filter (fun n => is_nil (preds g n)) (nodes g)) as [|a [|b l]]; [destruct (proj2 (H src) eq_refl)|f_equal; apply H; left; reflexivity|]. exfalso. inversion N as [|? ? N1 _]. apply N1. left. rewrite (proj1 (H a)) by (left; reflexivity). apply H. right. left. reflexivity. }
    rewrite F. destruct (nodes_step order [] d0 eq_refl) as (d & E & I); [intros u v H; split; [intros [[]|(_ & [])]|reflexivity]|]. exists d. split; [exact E|]. intros u v H.
    destruct (PR) as (_ & PE). destruct (PE u v H) as (IU & IV). destruct (I u v H) as (J & _). specialize (J (or_introl (proj2 (proj1 TO v) IV))). eexists. split; [exact J|]. destruct (Z.eqb_spec u src) as [->|N]; [left; auto|]. right. split; [exact N|].
    destruct (source_no_pred u IU N) as (q & l & Q). exists q. split; [exact (first_pred u q l Q)|]. unfold q_of. rewrite Q. reflexivity.
  Qed.
End Building.

Lemma equal_by_id_ {V} (p q : param V) a b : fst (get_id p) = Ok a -> fst (get_id q) = Ok b -> (same p q = Ok true <-> a = b) /\ (same p q = Ok false <-> a <> b).
Proof. intros A B. unfold same. rewrite A, B. destruct (String.eqb_spec a b); split; split; congruence. Qed.
Definition some_repr (s : string) : res nat := if String.eqb s "good" then Ok 1 else Err ValueError.
Definition some_param : param nat := snd (create_from_id some_repr "good" new_param).
Lemma some_reachable : reachable some_repr some_param.
Proof. apply after_load, at_first. Qed.
Lemma failed_load_keeps_no : exists V (repr : string -> res V) p s t, reachable repr p /\ fst (get_id p) = Ok t /\
  fst (create_from_id repr s p) = Err ValueError /\ fst (get_id (snd (create_from_id repr s p))) <> Ok t.
Proof. exists nat, some_repr, some_param, "bad"%string, "good"%string. split; [exact some_reachable|]. split; [reflexivity|]. split; [reflexivity|]. lazy. discriminate. Qed.
Lemma clone_default {V} (p : param V) : default (clone p) = None.
Proof. unfold clone. destruct (val p); reflexivity. Qed.
Lemma clone_keeps_default_no : exists V (repr : string -> res V) p d, reachable repr p /\ default p = Some d /\ fst (get_id p) = Ok d /\ default (clone p) <> default p.
Proof. exists nat, some_repr, (set_default (Some "good"%string) some_param), "good"%string. split; [apply after_default, some_reachable|]. split; [reflexivity|]. split; [reflexivity|]. lazy. discriminate. Qed.
Lemma set_none {V} (repr : string -> res V) p : set_value repr None p = (Err ValueError, p).
Proof. reflexivity. Qed.
Lemma set_none_no : exists V (repr : string -> res V) p, reachable repr p /\ fst (set_value repr None p) <> Ok tt.
Proof. exists nat, some_repr, some_param. split; [exact some_reachable|]. discriminate. Qed.
Lemma list_never_ {P} (single : struct_kind -> res P) ks : exists e, architecture_parameter single (Many ks) = Err e.
Proof. unfold architecture_parameter. destruct (Nat.eqb (length ks) 1); [|eexists; reflexivity]. destruct (each_structure false ks); eexists; reflexivity. Qed.
Lemma list_no : exists P (single : struct_kind -> res P) ks, (forall k, In k ks -> exists p, single k = Ok p) /\ ks <> [] /\ forall p, architecture_parameter single (Many ks) <> Ok p.
Proof. exists nat, (fun _ => Ok 0), [IsDict; IsText]. split; [intros k _; exists 0; reflexivity|]. split; [discriminate|]. intros p. destruct (list_never_ (fun _ => Ok 0) [IsDict; IsText]) as (e & ->). discriminate. Qed.
Lemma no_attributes {G M F} (compose : res G) (build : F -> G -> res G) (finish : G -> res M) g : compose = Ok g -> api_to_pytorch None compose build finish = Err UnboundLocalError.
Proof. intros ->. reflexivity. Qed.
Lemma no_attributes_no : exists G M F (compose : res G) (build : F -> G -> res G) (finish : G -> res M), (exists g m, compose = Ok g /\ finish g = Ok m) /\ forall m, api_to_pytorch None compose build finish <> Ok m.
Proof. exists nat, nat, unit, (Ok 1), (fun _ g => Ok g), (fun g => Ok g). split; [exists 1, 1; split; reflexivity|]. discriminate. Qed.
Lemma module_of {G M F} f (compose : res G) (build : F -> G -> res G) (finish : G -> res M) m :
  api_to_pytorch (Some f) compose build finish = Ok m <-> exists g b, compose = Ok g /\ build f g = Ok b /\ finish b = Ok m.
Proof.
  unfold api_to_pytorch. destruct compose as [g|e]; cbn [bind].
  - split; [|intros (g' & b & [= <-] & -> & H); exact H]. destruct (build f g) as [b|e] eqn:B; cbn [bind]; [|discriminate]. intros H. exists g, b. auto.
  - split; [discriminate|]. intros (g & b & ? & _). discriminate.
Qed.

Section Second.
  Context {D R : Type}.
  Variables (attributes : D -> option D -> R) (update : D -> R -> D).
  Lemma edge_err g src n l e : fold_left (build_edge attributes update g src n) l (Err e) = Err e.
  Proof. induction l as [|p l IH]; [reflexivity|exact IH]. Qed.
  Lemma node_err g src l e : fold_left (fun rd n => fold_left (build_edge attributes update g src n) (preds g n) rd) l (Err e) = Err e.
  Proof. induction l as [|p l IH]; [reflexivity|]. cbn [fold_left]. rewrite edge_err. exact IH. Qed.
  Lemma edge_only g src n : forall l rd e, fold_left (build_edge attributes update g src n) l rd = Err e -> rd = Err e \/ e = RuntimeError.
  Proof.
    induction l as [|p l IH]; intros rd e H; [left; exact H|]. cbn [fold_left] in H. destruct (IH _ _ H) as [E|E]; [|right; exact E]. destruct rd as [d|e']; cbn [build_edge bind] in E; [|left; exact E].
    right. destruct (Z.eqb p src); [discriminate|]. destruct (preds g p); [|discriminate]. cbn [bind] in E. congruence.
  Qed.
  Lemma node_only g src : forall l rd e, fold_left (fun rd n => fold_left (build_edge attributes update g src n) (preds g n) rd) l rd = Err e -> rd = Err e \/ e = RuntimeError.
  Proof. induction l as [|n l IH]; intros rd e H; [left; exact H|]. cbn [fold_left] in H. destruct (IH _ _ H) as [E|E]; [|right; exact E]. exact (edge_only g src n _ _ _ E). Qed.
  Lemma edge_bad g src n b : b <> src -> preds g b = [] -> forall l d, In b l -> exists e, fold_left (build_edge attributes update g src n) l (Ok d) = Err e.
  Proof.
    intros N P. induction l as [|p l IH]; intros d I; [destruct I|]. cbn [fold_left]. destruct I as [->|I].
    - unfold build_edge at 2. cbn [bind]. destruct (Z.eqb_spec b src); [contradiction|]. rewrite P. cbn [bind]. rewrite edge_err. eexists; reflexivity.
    - destruct (build_edge attributes update g src n (Ok d) p) as [d'|e]; [exact (IH d' I)|]. rewrite edge_err. eexists; reflexivity.
  Qed.
  Lemma node_bad g src b v : b <> src -> preds g b = [] -> edge g b v -> forall l d, In v l -> exists e, fold_left (fun rd n => fold_left (build_edge attributes update g src n) (preds g n) rd) l (Ok d) = Err e.
  Proof.
    intros N P H. induction l as [|n l IH]; intros d I; [destruct I|]. cbn [fold_left]. destruct I as [->|I].
    - destruct (edge_bad g src v b N P (preds g v) d) as (e & ->); [apply preds_iff; exact H|]. rewrite node_err. eexists; reflexivity.
    - destruct (fold_left (build_edge attributes update g src n) (preds g n) (Ok d)) as [d'|e]; [exact (IH d' I)|]. rewrite node_err. eexists; reflexivity.
  Qed.
  Lemma second_source g order d a b v w : topological g order -> (forall u, ~ edge g u a) -> (forall u, ~ edge g u b) -> edge g a w -> edge g b v -> proper g -> a <> b ->
    build attributes update g order d = Err RuntimeError.
  Proof.
    intros TO SA SB EA EB (_ & PE) N. unfold build. destruct (filter (fun n => is_nil (preds g n)) (nodes g)) as [|s l] eqn:F; [reflexivity|].
    assert (X : exists c x, c <> s /\ (forall u, ~ edge g u c) /\ edge g c x) by (destruct (Z.eq_dec a s) as [->|NA]; [exists b, v; auto|exists a, w; auto]). destruct X as (c & x & N2 & SC & EC).
    assert (P : preds g c = []) by (apply no_preds in SC; destruct (preds g c); [reflexivity|discriminate]).
    destruct (node_bad g s c x N2 P EC order d) as (e & E); [apply TO, (PE c x EC)|]. rewrite E. destruct (node_only g s _ _ _ E) as [Q|Q]; [discriminate|congruence].
  Qed.
End Second.
