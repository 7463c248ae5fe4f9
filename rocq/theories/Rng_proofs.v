(** Proofs about snapshots of random number generators and searchers. *)
From Coq Require Import String Permutation.
From Verif Require Import Py Py_proofs Rng_model Rng_spec.
Local Open Scope nat_scope.
Local Open Scope string_scope.
Local Open Scope list_scope.
Local Notation length := List.length.

Lemma ok_inj {A} (x y : A) : Ok x = Ok y -> x = y.
Proof. congruence. Qed.
Lemma set_same x : forall y, length x = length y -> set_devices x y = Ok x.
Proof. induction x as [|a x IH]; intros [|b y] L; cbn in L; try discriminate; [reflexivity|]. cbn. rewrite IH by lia. reflexivity. Qed.
Lemma set_more x : forall y, length y < length x -> set_devices x y = Err IndexError.
Proof. induction x as [|a x IH]; intros [|b y] L; cbn in L; try lia; [reflexivity|]. cbn. rewrite IH by lia. reflexivity. Qed.

Lemma restore m m' : alike m m' -> set_global (new_capture m) m' = Ok m.
Proof.
  intros (T & T' & C). destruct m as [np py [t|] cu]; [|contradiction T; reflexivity]. destruct m' as [np' py' [t'|] cu']; [|contradiction T'; reflexivity].
  unfold new_capture, recapture. cbn [g_torch s_np s_py s_torch s_cuda g_np g_py g_cuda set_global]. cbn [g_cuda] in C.
  destruct cu as [x|], cu' as [y|]; try contradiction; cbn [bind]; [|reflexivity]. rewrite set_same by exact C. reflexivity.
Qed.
Lemma restore_cpu m m' : g_torch m <> None -> g_torch m' <> None -> g_cuda m' = None ->
  set_global (new_capture m) m' = Ok (mkMachine (g_np m) (g_py m) (g_torch m) None).
Proof.
  intros T T' C. destruct m as [np py [t|] cu]; [|contradiction T; reflexivity]. destruct m' as [np' py' [t'|] cu']; [|contradiction T'; reflexivity]. cbn in C. subst cu'.
  unfold new_capture, recapture. cbn [g_torch s_np s_py s_torch s_cuda g_np g_py g_cuda set_global]. destruct cu; reflexivity.
Qed.
Lemma restore_missing m m' x y : g_torch m <> None -> g_torch m' <> None -> g_cuda m = Some x -> g_cuda m' = Some y -> length y < length x ->
  set_global (new_capture m) m' = Err IndexError.
Proof.
  intros T T' C C' L. destruct m as [np py [t|] cu]; [|contradiction T; reflexivity]. destruct m' as [np' py' [t'|] cu']; [|contradiction T'; reflexivity]. cbn in C, C'. subst cu cu'.
  unfold new_capture, recapture. cbn [g_torch s_np s_py s_torch s_cuda g_np g_py g_cuda set_global]. rewrite set_more by exact L. reflexivity.
Qed.

Lemma write_read s d : (s_torch s <> None \/ f_torch d = None) -> (s_cuda s <> None \/ f_cuda d = None) -> s_np s <> None -> s_py s <> None ->
  exists d', write s d = Ok d' /\ read d' = Ok s.
Proof.
  destruct s as [[np|] [py|] t c]; cbn; intros T C N P; try congruence. unfold write. cbn [s_py s_np s_torch s_cuda]. eexists. split; [reflexivity|].
  unfold read. cbn [f_py f_np f_info f_torch f_cuda]. destruct np, py; cbn. repeat f_equal.
  - destruct t; [reflexivity|]. destruct T; congruence.
  - destruct c; [reflexivity|]. destruct C; congruence.
Qed.
Lemma write_keeps s d : s_np s <> None -> s_py s <> None -> exists d' s', write s d = Ok d' /\ read d' = Ok s' /\ s_np s' = s_np s /\ s_py s' = s_py s /\
  s_torch s' = match s_torch s with None => f_torch d | t => t end /\ s_cuda s' = match s_cuda s with None => f_cuda d | c => c end.
Proof.
  destruct s as [[np|] [py|] t c]; cbn; intros N P; try congruence. unfold write. cbn [s_py s_np s_torch s_cuda]. eexists _, _. split; [reflexivity|].
  unfold read. cbn [f_py f_np f_info f_torch f_cuda]. split; [reflexivity|]. destruct np, py, t, c; cbn; auto.
Qed.

Section Turns.
  Context {A : Type}.
  Variable ask : machine -> A * machine.
  Lemma one_turn d m0 m : (forall x, alike x (snd (ask x)) \/ g_torch x = None) -> holds d m0 -> alike m0 m -> exists d' m', turn ask d m = Ok (fst (ask m0), d', m') /\ holds d' (snd (ask m0)) /\ alike m0 (snd (ask m0)).
  Proof.
    intros K H L. assert (L0 : alike m0 (snd (ask m0))) by (destruct (K m0) as [X|X]; [exact X|destruct L as [L _]; contradiction]).
    unfold turn. unfold holds in H. rewrite H. cbn [bind]. rewrite restore by exact L. cbn [bind]. destruct (ask m0) as [a m2] eqn:E. cbn [fst snd] in *.
    assert (R : recapture m2 (new_capture m0) = new_capture m2).
    { unfold new_capture, recapture. destruct L0 as (_ & T & _). destruct (g_torch m2); [reflexivity|contradiction]. }
    rewrite R. destruct (write_read (new_capture m2) d) as (d' & W & RD).
    - left. unfold new_capture, recapture. destruct L0 as (_ & T & _). destruct (g_torch m2); [discriminate|contradiction].
    - assert (HC : f_cuda d = s_cuda (new_capture m0)).
      { unfold read in H. destruct (f_py d), (f_np d), (f_info d) as [[[[[[? ?] ?] ?] ?] ?]|]; try discriminate. apply ok_inj in H. rewrite <- H. reflexivity. }
      destruct L0 as (T0 & T & C). unfold new_capture, recapture in *. destruct (g_torch m2); [|contradiction]. destruct (g_torch m0); [|contradiction]. cbn [s_cuda] in *.
      rewrite HC. destruct (g_cuda m0), (g_cuda m2); try contradiction; [left; discriminate|right; reflexivity].
    - unfold new_capture, recapture. destruct (g_torch m2); discriminate.
    - unfold new_capture, recapture. destruct (g_torch m2); discriminate.
    - rewrite W. cbn [bind]. exists d', m2. split; [reflexivity|]. split; [exact RD|exact L0].
  Qed.
  Lemma alike_trans a b c : alike a b -> alike a c -> alike b c.
  Proof. unfold alike. intros (A1 & A2 & A3) (B1 & B2 & B3). repeat split; auto. destruct (g_cuda a), (g_cuda b), (g_cuda c); try contradiction; congruence. Qed.
  Lemma turns_p ms : forall d m0, (forall x, alike x (snd (ask x)) \/ g_torch x = None) -> holds d m0 -> Forall (alike m0) ms -> turns ask d ms = Ok (draws ask (length ms) m0).
  Proof.
    induction ms as [|m ms IH]; intros d m0 K H F; [reflexivity|]. inversion F as [|? ? F1 F2]; subst. cbn [turns length draws].
    destruct (one_turn d m0 m K H F1) as (d' & m' & E & H' & L). rewrite E. cbn [bind fst snd]. rewrite (IH d' (snd (ask m0)) K H'); [reflexivity|].
    apply Forall_forall. intros x X. rewrite Forall_forall in F2. exact (alike_trans _ _ _ L (F2 x X)).
  Qed.
End Turns.

(** ** Equality *)
Lemma zlist_eqb a b : list_eqb Z.eqb a b = true <-> a = b.
Proof.
  revert b. induction a as [|x a IH]; intros [|y b]; cbn; split; try congruence; try discriminate.
  - intros H. apply andb_true_iff in H. destruct H as [H1 H2]. apply Z.eqb_eq in H1. apply IH in H2. congruence.
  - intros E. injection E as -> ->. rewrite Z.eqb_refl. apply IH. reflexivity.
Qed.
Lemma combine_eqb x : forall y, length x = length y -> (forallb (fun p => list_eqb Z.eqb (fst p) (snd p)) (combine x y) = true <-> x = y).
Proof.
  induction x as [|a x IH]; intros [|b y] L; cbn in L; try discriminate; cbn; [tauto|]. rewrite andb_true_iff, zlist_eqb, IH by lia. cbn. split; [intros [-> ->]; reflexivity|intros E; injection E; auto].
Qed.
Lemma snap_eq_p a b : proper_snap a -> proper_snap b -> (forall x y, s_cuda a = Some x -> s_cuda b = Some y -> length x = length y) -> (snap_eqb a b = true <-> a = b).
Proof.
  intros [N1 P1] [N2 P2] L. destruct a as [n p t c], b as [n' p' t' c']. cbn in *. unfold snap_eqb. cbn [s_py s_np s_torch s_cuda]. rewrite !andb_true_iff. split.
  - intros (((((E1 & E2) & E3) & E4) & E5) & E6).
    assert (n = n').
    { destruct n as [[k1 l1 a1 b1 g1]|], n' as [[k2 l2 a2 b2 g2]|]; try discriminate; [|reflexivity]. cbn in E2. unfold np_state_eqb in E2. cbn in E2. rewrite !andb_true_iff in E2.
      destruct E2 as ((((X1 & X2) & X3) & X4) & X5). apply String.eqb_eq in X1. apply Z.eqb_eq in X2, X3. apply fl_eqb_eq in X4. apply zlist_eqb in X5. congruence. }
    assert (p = p').
    { destruct p as [[v1 l1 g1]|], p' as [[v2 l2 g2]|]; try discriminate; [|reflexivity]. cbn in E1. unfold py_state_eqb in E1. cbn in E1. rewrite !andb_true_iff in E1.
      destruct E1 as ((X1 & X2) & X3). apply Z.eqb_eq in X1. apply zlist_eqb in X2. destruct g1, g2; try discriminate; [cbn in X3; apply fl_eqb_eq in X3; congruence|congruence]. }
    assert (t = t') by (destruct t, t'; try discriminate; [apply zlist_eqb in E3; congruence|reflexivity]).
    assert (c = c') by (destruct c, c'; try discriminate; [apply combine_eqb in E4; [congruence|apply L; reflexivity]|reflexivity]).
    congruence.
  - intros E. injection E as <- <- <- <-. repeat split.
    + destruct p as [[v l g]|]; [|reflexivity]. cbn. unfold py_state_eqb. cbn. rewrite Z.eqb_refl, (proj2 (zlist_eqb l l) eq_refl). cbn. destruct g as [g|]; [|reflexivity]. cbn. apply fl_eqb_refl. intros ->. apply (P1 _ eq_refl). reflexivity.
    + destruct n as [[k l a b g]|]; [|reflexivity]. cbn. unfold np_state_eqb. cbn. rewrite String.eqb_refl, !Z.eqb_refl, (proj2 (zlist_eqb l l) eq_refl). cbn. rewrite andb_true_r. apply fl_eqb_refl. apply (N1 _ eq_refl).
    + destruct t; [apply zlist_eqb|]; reflexivity.
    + destruct c; [apply combine_eqb|]; reflexivity.
    + destruct t; reflexivity.
    + destruct c; reflexivity.
Qed.

(** ** Searchers *)
Lemma prefix_refl s : prefix s s = true.
Proof. apply prefix_correct. induction s as [|c s IH]; cbn; [reflexivity|rewrite IH; reflexivity]. Qed.
Lemma yaml_iff f : is_yaml f = true <-> q_suffix f = ".yaml".
Proof. unfold is_yaml. apply String.eqb_eq. Qed.
Lemma kwargs_exact_p l f : In f l -> q_suffix f = ".yaml" -> (forall g, In g l -> q_suffix g = ".yaml" -> prefix (q_stem f) (q_stem g) = true -> g = f) -> get_searcher_kwargs l (q_stem f) = Ok (q_text f).
Proof.
  intros I Y U. unfold get_searcher_kwargs. destruct (find _ l) as [g|] eqn:E.
  - apply find_some in E. destruct E as [E1 E2]. apply andb_true_iff in E2. destruct E2 as [E2 E3]. rewrite (U g E1); [reflexivity|apply yaml_iff, E2|exact E3].
  - assert (X := find_none _ _ E f I). cbn in X. rewrite prefix_refl, (proj2 (yaml_iff f) Y) in X. discriminate X.
Qed.
Lemma kwargs_wrong_p l f g : In g l -> q_suffix g = ".yaml" -> prefix (q_stem f) (q_stem g) = true -> exists l', Permutation l l' /\ get_searcher_kwargs l' (q_stem f) = Ok (q_text g).
Proof.
  intros I Y P. apply in_split in I. destruct I as (a & b & ->). exists (g :: a ++ b). split; [symmetry; apply Permutation_middle|].
  unfold get_searcher_kwargs. cbn [find]. rewrite (proj2 (yaml_iff g) Y), P. reflexivity.
Qed.
Lemma kwargs_missing_p l n : (forall f, In f l -> q_suffix f = ".yaml" -> prefix n (q_stem f) = false) -> get_searcher_kwargs l n = Err FileNotFoundError.
Proof.
  intros H. unfold get_searcher_kwargs. destruct (find _ l) as [g|] eqn:E; [|reflexivity]. apply find_some in E. destruct E as [E1 E2]. apply andb_true_iff in E2. destruct E2 as [E2 E3]. rewrite (H g E1) in E3; [discriminate|apply yaml_iff, E2].
Qed.
Lemma searchers_p l n : In n (get_searchers l) <-> exists f, In f l /\ q_suffix f = ".yaml" /\ q_stem f = n.
Proof.
  unfold get_searchers. rewrite in_map_iff. split.
  - intros (f & E & F). apply filter_In in F. exists f. split; [apply F|]. split; [apply yaml_iff, F|exact E].
  - intros (f & F & Y & E). exists f. split; [exact E|]. apply filter_In. split; [exact F|apply yaml_iff, Y].
Qed.
Lemma from_algorithm_p l a n : In n (get_searcher_from_algorithm l a) <-> exists f, In f l /\ q_suffix f = ".yaml" /\ q_strategy f = Some a /\ q_stem f = n.
Proof.
  unfold get_searcher_from_algorithm. rewrite in_map_iff. split.
  - intros (f & E & F). apply filter_In in F. destruct F as [F1 F2]. apply andb_true_iff in F2. destruct F2 as [F2 F3]. exists f. split; [exact F1|]. split; [apply yaml_iff, F2|].
    destruct (q_strategy f) as [s|]; [|discriminate]. apply String.eqb_eq in F3. subst s. auto.
  - intros (f & F & Y & S & E). exists f. split; [exact E|]. apply filter_In. split; [exact F|]. rewrite S, String.eqb_refl, (proj2 (yaml_iff f) Y). reflexivity.
Qed.

Lemma algorithms_p l : NoDup (get_available_algorithms l) /\ (forall a, In a (get_available_algorithms l) <-> a <> "" /\ exists f, In f l /\ q_suffix f = ".yaml" /\ q_strategy f = Some a).
Proof.
  unfold get_available_algorithms. split; [apply NoDup_nodup|]. intros a. rewrite nodup_In, in_flat_map. split.
  - intros (f & F & I). destruct (is_yaml f) eqn:Y; [|contradiction]. destruct (q_strategy f) as [s|] eqn:S; [|contradiction]. destruct (String.eqb s "") eqn:E; [contradiction|].
    destruct I as [->|[]]. apply String.eqb_neq in E. split; [exact E|]. exists f. split; [exact F|]. split; [apply yaml_iff, Y|exact S].
  - intros (E & f & F & Y & S). exists f. split; [exact F|]. rewrite (proj2 (yaml_iff f) Y), S. apply String.eqb_neq in E. rewrite E. left. reflexivity.
Qed.
