(** Proofs about the curves and the figure. *)
From Coq Require Import String Ascii Permutation.
From Verif Require Import Py Py_proofs Trial_model Limit_spec Status_model Status_spec Status_proofs Space_model Plot_model Plot_spec Plot_proofs.
From Verif Require Bo_proofs Eval_proofs Ifbo_proofs Ifbo_spec.
From Coq Require DecimalString.
Local Open Scope nat_scope.
Local Open Scope list_scope.
Local Notation length := List.length.

(** ** Order *)
Lemma lt_le a b : fl_lt a b -> fl_le a b.
Proof. intros []. assumption. Qed.
Lemma ltb_lt a b : fl_ltb a b = true <-> fl_lt a b.
Proof. apply Bo_proofs.flt. Qed.
Lemma lt_trans a b c : fl_lt a b -> fl_lt b c -> fl_lt a c.
Proof. rewrite <- !ltb_lt. apply Bo_proofs.fl_ltb_trans. Qed.
Lemma lt_leb a b : fl_lt a b -> fl_leb a b = true.
Proof. intros H. unfold fl_leb. apply ltb_lt in H. rewrite (Bo_proofs.fl_ltb_asym _ _ H). reflexivity. Qed.
Lemma lt_irrefl a : ~ fl_lt a a.
Proof. intros H. apply ltb_lt in H. rewrite Bo_proofs.fl_ltb_irrefl in H. discriminate. Qed.
Lemma sorting_id {A} (le : A -> A -> bool) l : ForallOrdPairs (fun a b => le a b = true) l -> sorting le l = l.
Proof.
  unfold sorting. induction 1 as [|x l F S IH]; [reflexivity|]. cbn. rewrite IH. destruct l as [|y l]; [reflexivity|]. cbn. inversion F as [|? ? H1 H2]; subst. rewrite H1. reflexivity.
Qed.
Lemma FOP_impl {A} (R S : A -> A -> Prop) l : (forall a b, R a b -> S a b) -> ForallOrdPairs R l -> ForallOrdPairs S l.
Proof. intros H. induction 1 as [|x l F G IH]; constructor; [|exact IH]. eapply Forall_impl; [|exact F]. auto. Qed.

(** ** Filling *)
Definition known (c : column) : column := filter (fun p => negb (fl_isnan (snd p))) c.
Definition increasing (c : column) : Prop := ForallOrdPairs (fun a b => fl_lt (fst a) (fst b)) c.
Lemma isnan_iff v : fl_isnan v = true <-> v = FNaN.
Proof. destruct v; cbn; split; intros; congruence. Qed.
Lemma fill_positions c : forall w, map fst (ffill w (backfill c)) = map fst c.
Proof. induction c as [|[x v] c IH]; intros w; cbn; [reflexivity|]. rewrite IH. reflexivity. Qed.
Lemma backfill_head c y h s : known c = (y, h) :: s -> exists x c', backfill c = (x, h) :: c'.
Proof.
  revert y h s. induction c as [|[x v] c IH]; intros y h s; cbn [known filter]; [discriminate|]. cbn [snd].
  destruct (fl_isnan v) eqn:E; cbn [negb].
  - intros K. destruct (IH _ _ _ K) as (x' & c' & B). cbn [backfill]. rewrite E, B. eauto.
  - intros K. injection K as -> -> _. cbn [backfill]. rewrite E. eauto.
Qed.
Lemma backfill_none c : known c = [] -> backfill c = map (fun p => (fst p, FNaN)) c.
Proof.
  induction c as [|[x v] c IH]; cbn [known filter]; [reflexivity|]. cbn [snd]. destruct (fl_isnan v) eqn:E; cbn [negb]; [|discriminate].
  intros K. cbn [backfill map fst]. rewrite (IH K), E. destruct c; reflexivity.
Qed.
Lemma ffill_none w (c : column) : ffill w (map (fun p => (fst p, FNaN)) c) = map (fun p => (fst p, w)) c.
Proof. induction c as [|[x v] c IH]; cbn; [reflexivity|]. rewrite IH. reflexivity. Qed.
Lemma fill_next c : increasing c -> Forall (fun p : fl * fl => fst p <> FNaN) c -> known c <> [] ->
  forall w x v, In (x, v) (ffill w (backfill c)) -> next_height (known c) x v.
Proof.
  unfold increasing. induction 1 as [|[x0 v0] c F G IH]; intros NN K w x v I; [destruct I|].
  inversion NN as [|? ? N0 N1]; subst. cbn [fst] in N0.
  assert (FK : Forall (fun p => fl_lt x0 (fst p)) (known c)).
  { rewrite Forall_forall in *. intros p P. apply filter_In in P. destruct P as [P _]. apply (F _ P). }
  assert (POS : forall w' x v, In (x, v) (ffill w' (backfill c)) -> fl_lt x0 x).
  { intros w' x1 v1 I1. assert (X : In x1 (map fst (ffill w' (backfill c)))) by (apply (in_map fst) in I1; exact I1).
    rewrite fill_positions in X. apply in_map_iff in X. destruct X as (p & <- & P). rewrite Forall_forall in F. apply (F _ P). }
  change (known ((x0, v0) :: c)) with (if negb (fl_isnan v0) then (x0, v0) :: known c else known c) in *.
  cbn [backfill ffill] in I. cbv zeta in I. destruct (known c) as [|[y h] s] eqn:KC.
  - (* nothing known after this point *)
    destruct (fl_isnan v0) eqn:E; cbn [negb] in *; [congruence|]. rewrite E in I. destruct I as [I|I].
    + injection I as <- <-. left. exists [], x0, []. split; [reflexivity|]. split; [apply fl_le_refl, N0|constructor].
    + assert (L := POS _ _ _ I). rewrite backfill_none, ffill_none in I by exact KC. apply in_map_iff in I. destruct I as (p & I & P). injection I as <- <-.
      right. exists [], x0. split; [reflexivity|]. constructor; [exact L|constructor].
  - assert (K' : (y, h) :: s <> []) by discriminate. specialize (IH N1 K').
    destruct (fl_isnan v0) eqn:E; cbn [negb] in *.
    + destruct (backfill_head c y h s KC) as (x' & c' & B). rewrite B in I. rewrite <- B in I.
      assert (H : fl_isnan h = false).
      { assert (Q : In (y, h) (known c)) by (rewrite KC; left; reflexivity). apply filter_In in Q. destruct Q as [_ Q]. cbn in Q. destruct (fl_isnan h); [discriminate|reflexivity]. }
      rewrite H in I. destruct I as [I|I]; [|eapply IH; exact I].
      injection I as <- <-. left. exists [], y, s. split; [reflexivity|]. split; [|constructor]. apply lt_le. inversion FK as [|? ? FK1 FK2]; subst. exact FK1.
    + rewrite E in I. destruct I as [I|I].
      * injection I as <- <-. left. exists [], x0, ((y, h) :: s). split; [reflexivity|]. split; [apply fl_le_refl, N0|constructor].
      * assert (L := POS _ _ _ I). destruct (IH _ _ _ I) as [(l & z & r & E1 & E2 & E3)|(l & z & E1 & E2)].
        -- left. exists ((x0, v0) :: l), z, r. rewrite E1. split; [reflexivity|]. split; [exact E2|]. constructor; assumption.
        -- right. exists ((x0, v0) :: l), z. rewrite E1. split; [reflexivity|]. constructor; [exact L|]. rewrite <- E1. exact E2.
Qed.
Lemma fill_known c : known c <> [] -> forall w, known (ffill w (backfill c)) = ffill w (backfill c) /\ ffill w (backfill c) = fill c.
Proof.
  unfold fill. induction c as [|[x v] c IH]; intros K w; [contradiction K; reflexivity|].
  change (known ((x, v) :: c)) with (if negb (fl_isnan v) then (x, v) :: known c else known c) in K.
  cbn [backfill ffill]. cbv zeta. destruct (known c) as [|[y h] s] eqn:KC.
  - destruct (fl_isnan v) eqn:E; cbn [negb] in K; [congruence|]. rewrite E.
    split; [|reflexivity]. rewrite backfill_none, ffill_none by exact KC. cbn [known filter snd]. rewrite E. cbn [negb]. f_equal.
    clear - E. induction c as [|p c IH]; cbn; [reflexivity|]. rewrite E. cbn. f_equal. exact IH.
  - assert (K' : (y, h) :: s <> []) by discriminate. destruct (backfill_head c y h s KC) as (x' & c' & B).
    assert (H : fl_isnan h = false).
    { assert (Q : In (y, h) (known c)) by (rewrite KC; left; reflexivity). apply filter_In in Q. destruct Q as [_ Q]. cbn in Q. destruct (fl_isnan h); [discriminate|reflexivity]. }
    set (u := if fl_isnan v then match backfill c with [] => FNaN | (_, w0) :: _ => w0 end else v).
    assert (U : fl_isnan u = false). { subst u. destruct (fl_isnan v) eqn:E; [rewrite B; exact H|exact E]. }
    rewrite U. split; [|reflexivity]. cbn [known filter snd]. rewrite U. cbn [negb]. f_equal. apply (IH K').
Qed.
Lemma fill_id c : known c = c -> fill c = c.
Proof.
  unfold fill. generalize FNaN. induction c as [|[x v] c IH]; intros w K; [reflexivity|].
  change (known ((x, v) :: c)) with (if negb (fl_isnan v) then (x, v) :: known c else known c) in K.
  destruct (fl_isnan v) eqn:E; cbn [negb] in K.
  - exfalso. assert (L : length (known c) <= length c) by apply Bo_proofs.filter_len. rewrite K in L. cbn in L. lia.
  - injection K as K. cbn [backfill ffill]. cbv zeta. rewrite E, E. f_equal. apply IH, K.
Qed.
(** a further row at the end *)
Lemma backfill_end c p : backfill (c ++ [(p, FNaN)]) = backfill c ++ [(p, FNaN)].
Proof.
  induction c as [|[x v] c IH]; [reflexivity|]. cbn [app backfill]. cbv zeta. rewrite IH. f_equal. f_equal. destruct (fl_isnan v); [|reflexivity].
  destruct (backfill c) as [|[y w] c']; reflexivity.
Qed.
Lemma ffill_end c p : forall w, exists v, ffill w (c ++ [(p, FNaN)]) = ffill w c ++ [(p, v)] /\ v = last (map snd (ffill w c)) w.
Proof.
  induction c as [|[x u] c IH]; intros w; [exists w; auto|]. cbn [app ffill]. cbv zeta.
  destruct (IH (if fl_isnan u then w else u)) as (v & E & L). exists v. rewrite E. split; [reflexivity|]. rewrite L. cbn [map].
  destruct (ffill _ c) as [|q c']; [reflexivity|]. cbn [map].
  cbn [snd]. generalize (snd q). clear. generalize (map snd c') as m. induction m as [|y m IH]; intros z; [reflexivity|]. exact (IH y).
Qed.
Lemma fill_end c p : fill (c ++ [(p, FNaN)]) = fill c ++ [(p, last (map snd (fill c)) FNaN)].
Proof. unfold fill. rewrite backfill_end. destruct (ffill_end (backfill c) p FNaN) as (v & E & ->). exact E. Qed.
Lemma fill_twice c p : known c <> [] -> fill (fill c ++ [(p, FNaN)]) = fill (c ++ [(p, FNaN)]).
Proof. intros K. rewrite !fill_end. destruct (fill_known c K FNaN) as [E _]. rewrite (fill_id (fill c) E). reflexivity. Qed.
Lemma known_app c d : known (c ++ d) = known c ++ known d.
Proof. apply filter_app. Qed.

(** ** Curves *)
Definition finite_positions (c : column) : Prop := forall x, In x (map fst c) -> exists z, x = FZ z.
Lemma increasing_positions (c d : column) : map fst c = map fst d -> increasing c -> increasing d.
Proof.
  unfold increasing. revert d. induction c as [|[x v] c IH]; intros [|[y w] d] E H; try discriminate; [constructor|].
  cbn [map fst] in E. injection E as <- E. inversion H as [|? ? F G]; subst. constructor; [|apply IH; assumption].
  rewrite Forall_forall in *. intros p P. apply (in_map fst) in P. rewrite <- E in P. apply in_map_iff in P. destruct P as (q & Q & I). specialize (F _ I). cbn in *. rewrite <- Q. exact F.
Qed.
Lemma add_inf c : increasing c -> finite_positions c -> add_row FPInf c = c ++ [(FPInf, FNaN)].
Proof.
  intros I F. unfold add_row. apply sorting_id. unfold increasing in I. induction I as [|[x v] c H G IH]; cbn [app]; [repeat constructor|].
  constructor; [|apply IH; intros y Y; apply F; right; exact Y].
  apply Forall_app. split; [eapply Forall_impl; [|exact H]; intros p; apply lt_leb|]. constructor; [|constructor].
  destruct (F x (or_introl eq_refl)) as (z & ->). reflexivity.
Qed.
Lemma shown_inf c : increasing c -> finite_positions c -> known c <> [] ->
  fill (add_row FPInf (fill c)) = fill (c ++ [(FPInf, FNaN)]) /\
  (forall x v, In (x, v) (fill (c ++ [(FPInf, FNaN)])) -> next_height (known c) x v) /\
  map fst (fill (c ++ [(FPInf, FNaN)])) = map fst c ++ [FPInf].
Proof.
  intros I F K.
  assert (E : map fst c = map fst (fill c)) by (symmetry; apply fill_positions).
  split; [|split].
  - rewrite add_inf; [apply fill_twice, K|eapply increasing_positions; [exact E|exact I]|unfold finite_positions; rewrite <- E; exact F].
  - intros x v X. rewrite <- (app_nil_r (known c)). change (@nil (fl * fl)) with (known [(FPInf, FNaN)]). rewrite <- known_app.
    apply (fill_next (c ++ [(FPInf, FNaN)])) with (w := FNaN); [| |rewrite known_app; cbn; rewrite app_nil_r; exact K|exact X].
    + unfold increasing in *. clear - I F. induction I as [|[y w] c H G IH]; cbn [app]; [repeat constructor|].
      constructor; [|apply IH; intros z Z; apply F; right; exact Z]. apply Forall_app. split; [exact H|]. constructor; [|constructor].
      cbn [fst]. destruct (F y (or_introl eq_refl)) as (z & ->). apply ltb_lt. reflexivity.
    + apply Forall_app. split; [|constructor; [discriminate|constructor]]. apply Forall_forall. intros p P. destruct (F (fst p)) as (z & ->); [apply in_map, P|discriminate].
  - unfold fill. rewrite fill_positions, map_app. reflexivity.
Qed.

Lemma proper_known c : proper_series c -> known c = c.
Proof.
  intros (_ & _ & H). unfold known. induction c as [|[x v] c IH]; cbn; [reflexivity|].
  destruct (H x v (or_introl eq_refl)) as [V _]. destruct (fl_isnan v) eqn:E; [apply isnan_iff in E; contradiction|]. cbn. f_equal. apply IH. intros y w Y. apply H. right. exact Y.
Qed.
Lemma proper_finite c : proper_series c -> finite_positions c.
Proof. intros (_ & _ & H) x X. apply in_map_iff in X. destruct X as ([y v] & <- & I). apply (H y v I). Qed.

Lemma eqb_finite a b : fl_eqb (FZ a) (FZ b) = true <-> a = b.
Proof. cbn. apply Z.eqb_eq. Qed.
Lemma same_index_eq a : forall b, (forall x, In x a -> exists z, x = FZ z) -> same_index a b = true -> a = b.
Proof.
  unfold same_index. induction a as [|x a IH]; intros [|y b] H E; try discriminate; [reflexivity|]. cbn in E. apply andb_true_iff in E. destruct E as [E1 E2].
  destruct (H x (or_introl eq_refl)) as (z & ->). destruct y as [| | |z']; try discriminate. apply eqb_finite in E1. subst z'. f_equal. apply IH; [|exact E2]. intros y Y. apply H. right. exact Y.
Qed.
Lemma same_index_refl a : (forall x, In x a -> exists z, x = FZ z) -> same_index a a = true.
Proof.
  unfold same_index. induction a as [|x a IH]; intros H; [reflexivity|]. cbn. destruct (H x (or_introl eq_refl)) as (z & ->). cbn. rewrite Z.eqb_refl. cbn. apply IH. intros y Y. apply H. right. exact Y.
Qed.
Lemma no_duplicate c : increasing c -> has_duplicate (map fst c) = false.
Proof.
  unfold increasing. induction 1 as [|[x v] c F G IH]; [reflexivity|]. cbn [map fst has_duplicate]. rewrite IH, orb_false_r.
  apply not_true_is_false. intros H. apply existsb_exists in H. destruct H as (y & Y & E). apply in_map_iff in Y. destruct Y as (p & <- & P).
  rewrite Forall_forall in F. specialize (F p P). cbn in F. destruct x, (fst p); try discriminate E; try (apply ltb_lt in F; discriminate F).
  apply eqb_finite in E. subst. apply (lt_irrefl _ F).
Qed.
Lemma unique_spec l : (forall x, In x l -> exists z, x = FZ z) -> NoDup (unique l) /\ forall x, In x (unique l) <-> In x l.
Proof.
  induction l as [|x l IH]; intros H; [split; [constructor|reflexivity]|]. destruct IH as [I1 I2]; [intros y Y; apply H; right; exact Y|].
  cbn [unique]. destruct (H x (or_introl eq_refl)) as (z & ->).
  assert (X : existsb (fl_eqb (FZ z)) l = true <-> In (FZ z) l).
  { rewrite existsb_exists. split.
    - intros (y & Y & E). destruct y; try discriminate. apply eqb_finite in E. subst. exact Y.
    - intros I. exists (FZ z). split; [exact I|]. apply eqb_finite. reflexivity. }
  destruct (existsb (fl_eqb (FZ z)) l) eqn:E.
  - split; [exact I1|]. intros y. rewrite I2. cbn. split; [auto|]. intros [<-|Y]; [apply X; reflexivity|exact Y].
  - split; [|intros y; cbn; rewrite I2; reflexivity]. constructor; [|exact I1]. rewrite I2, <- X. discriminate.
Qed.
Lemma sorted_strict l : (forall x, In x l -> exists z, x = FZ z) -> NoDup l -> ForallOrdPairs fl_lt (sorting fl_leb l).
Proof.
  unfold sorting. induction l as [|x l IH]; intros H N; [constructor|]. inversion N as [|? ? N1 N2]; subst.
  cbn [fold_right]. assert (HX : forall y, In y l -> exists z, y = FZ z) by (intros y Y; apply H; right; exact Y).
  assert (Q : forall y, In y (fold_right (ins fl_leb) [] l) -> In y l) by (intros y; apply Permutation_in, (sorting_perm fl_leb)).
  destruct (H x (or_introl eq_refl)) as (z & ->).
  apply ins_sorted; auto.
  - intros y Y L. destruct (HX y (Q y Y)) as (z' & ->). unfold fl_leb in L. cbn in L. apply negb_true_iff, Z.ltb_ge in L.
    apply ltb_lt. cbn. apply Z.ltb_lt. destruct (Z.eq_dec z z') as [->|]; [destruct (N1 (Q _ Y))|lia].
  - intros y Y L. unfold fl_leb in L. apply negb_false_iff in L. apply ltb_lt. exact L.
  - intros y w Y W L R. destruct (HX y (Q y Y)) as (z' & ->). unfold fl_leb in L. cbn in L. apply negb_true_iff, Z.ltb_ge in L.
    destruct (HX w (Q w W)) as (z2 & ->). apply ltb_lt in R. cbn in R. apply Z.ltb_lt in R. apply ltb_lt. cbn. apply Z.ltb_lt. lia.
Qed.
Lemma FOP_same_members {A} (R : A -> A -> Prop) l l' : (forall a, ~ R a a) -> (forall a b c, R a b -> R b c -> R a c) ->
  ForallOrdPairs R l -> ForallOrdPairs R l' -> (forall x, In x l <-> In x l') -> l = l'.
Proof.
  intros IR TR S. revert l'. induction S as [|x l F S IH]; intros l' S' M.
  - destruct l' as [|y l']; [reflexivity|]. destruct (proj2 (M y) (or_introl eq_refl)).
  - destruct S' as [|y l' F' S']; [destruct (proj1 (M x) (or_introl eq_refl))|].
    rewrite Forall_forall in F, F'.
    assert (E : x = y).
    { destruct (proj1 (M x) (or_introl eq_refl)) as [E|E]; [congruence|]. destruct (proj2 (M y) (or_introl eq_refl)) as [E2|E2]; [congruence|].
      destruct (IR x). eapply TR; [apply F, E2|apply F', E]. }
    subst y. f_equal. apply IH; [exact S'|]. intros z. split; intros Z.
    + destruct (proj1 (M z) (or_intror Z)) as [->|]; [destruct (IR z (F z Z))|assumption].
    + destruct (proj2 (M z) (or_intror Z)) as [->|]; [destruct (IR z (F' z Z))|assumption].
Qed.
Lemma value_at_in d x v : increasing d -> finite_positions d -> In (x, v) d -> value_at d x = v.
Proof.
  unfold increasing. induction 1 as [|[y w] d F G IH]; intros FP I; [destruct I|]. cbn [value_at]. destruct I as [I|I].
  - injection I as -> ->. destruct (FP x (or_introl eq_refl)) as (z & ->). rewrite (proj2 (eqb_finite z z) eq_refl). reflexivity.
  - rewrite Forall_forall in F. specialize (F _ I). cbn in F. destruct (fl_eqb x y) eqn:E; [|apply IH; [intros u U; apply FP; right; exact U|exact I]].
    exfalso. destruct x, y; try discriminate E; try (apply ltb_lt in F; discriminate F). apply eqb_finite in E. subst. apply (lt_irrefl _ F).
Qed.
Lemma value_at_out d x : (exists z, x = FZ z) -> ~ In x (map fst d) -> value_at d x = FNaN.
Proof.
  intros (z & ->). induction d as [|[y w] d IH]; intros N; [reflexivity|]. cbn [value_at map fst] in *. destruct (fl_eqb (FZ z) y) eqn:E.
  - exfalso. apply N. left. destruct y; try discriminate. apply eqb_finite in E. subst. reflexivity.
  - apply IH. intros H. apply N. right. exact H.
Qed.
(** the common index *)
Lemma from_series_spec cs : Forall proper_series cs -> exists ds, from_series cs = Ok ds /\
  Forall2 (fun c d => increasing d /\ finite_positions d /\ known d = c /\
           forall x, In x (map fst d) <-> exists c', In c' cs /\ In x (map fst c')) cs ds.
Proof.
  intros P. destruct cs as [|c cs]; [exists []; split; [reflexivity|constructor]|]. cbn [from_series].
  assert (FIN : forall c', In c' (c :: cs) -> finite_positions c') by (intros c' C'; apply proper_finite; rewrite Forall_forall in P; auto).
  destruct (forallb (fun d => same_index (map fst c) (map fst d)) cs) eqn:E.
  - exists (c :: cs). split; [reflexivity|]. rewrite forallb_forall in E.
    assert (EQ : forall d, In d (c :: cs) -> map fst d = map fst c).
    { intros d [<-|D]; [reflexivity|]. symmetry. apply same_index_eq; [apply FIN; left; reflexivity|apply E, D]. }
    assert (Q : forall l, incl l (c :: cs) -> Forall2 (fun c0 d => increasing d /\ finite_positions d /\ known d = c0 /\
           forall x, In x (map fst d) <-> exists c', In c' (c :: cs) /\ In x (map fst c')) l l).
    { induction l as [|d l IH]; intros IN; constructor; [|apply IH; intros y Y; apply IN; right; exact Y].
      assert (D : In d (c :: cs)) by (apply IN; left; reflexivity). assert (PD := P). rewrite Forall_forall in PD. specialize (PD d D).
      split; [apply PD|]. split; [apply FIN, D|]. split; [apply proper_known, PD|]. intros x. rewrite (EQ d D). split.
      - intros X. exists c. split; [left; reflexivity|exact X].
      - intros (c' & C' & X). rewrite (EQ c' C') in X. exact X. }
    apply Q, incl_refl.
  - assert (ND : existsb (fun d : column => has_duplicate (map fst d)) (c :: cs) = false).
    { apply not_true_is_false. intros H. apply existsb_exists in H. destruct H as (d & D & HD). rewrite Forall_forall in P. rewrite no_duplicate in HD; [discriminate|]. apply (P d D). }
    match goal with |- context[if ?b then Err ValueError else _] => change b with (existsb (fun d : column => has_duplicate (map fst d)) (c :: cs)) end. rewrite ND.
    set (all := flat_map (map fst) (c :: cs)). set (index := sorting fl_leb (unique all)). cbv zeta. eexists. split; [reflexivity|].
    assert (AF : forall x, In x all -> exists z, x = FZ z).
    { intros x X. apply in_flat_map in X. destruct X as (c' & C' & X). apply (FIN c' C' x X). }
    destruct (unique_spec all AF) as [U1 U2].
    assert (IX : forall x, In x index <-> In x all).
    { intros x. rewrite <- U2. split; apply Permutation_in; [|apply Permutation_sym]; apply sorting_perm. }
    assert (SI : ForallOrdPairs fl_lt index) by (apply sorted_strict; [intros x X; apply AF, U2, X|exact U1]).
    assert (Q : forall l, incl l (c :: cs) -> Forall2 (fun c0 d => increasing d /\ finite_positions d /\ known d = c0 /\
           forall x, In x (map fst d) <-> exists c', In c' (c :: cs) /\ In x (map fst c')) l (map (fun d => map (fun x => (x, value_at d x)) index) l)).
    { induction l as [|d l IH]; intros IN; cbn [map]; constructor; [|apply IH; intros y Y; apply IN; right; exact Y].
      assert (D : In d (c :: cs)) by (apply IN; left; reflexivity). assert (PD := P). rewrite Forall_forall in PD. specialize (PD d D).
      assert (MF : map fst (map (fun x => (x, value_at d x)) index) = index) by (rewrite map_map; apply map_id).
      assert (INC : increasing (map (fun x => (x, value_at d x)) index)).
      { unfold increasing. clear - SI. induction SI as [|x l F S IH]; cbn; constructor; [|exact IH].
        rewrite Forall_forall in *. intros p HP. apply in_map_iff in HP. destruct HP as (y & <- & Y). apply F, Y. }
      assert (FP : finite_positions (map (fun x => (x, value_at d x)) index)) by (intros x; rewrite MF; intros X; apply AF, IX, X).
      split; [exact INC|]. split; [exact FP|]. split.
      - assert (INd : increasing d) by apply PD.
        apply (FOP_same_members (fun a b : fl * fl => fl_lt (fst a) (fst b))); [intros a; apply lt_irrefl|intros a b e; apply lt_trans| |exact INd|].
        + clear - INC. unfold increasing in INC. unfold known. induction INC as [|p l F S IH]; cbn; [constructor|]. destruct (negb (fl_isnan (snd p))); [|exact IH]. constructor; [|exact IH].
          rewrite Forall_forall in *. intros q Q. apply filter_In in Q. apply F, Q.
        + intros [x v]. unfold known. rewrite filter_In, in_map_iff. cbn [snd]. split.
          * intros ((y & Y & IY) & NV). injection Y as <- <-. destruct (in_dec (fun a b : fl => ltac:(decide equality; apply Z.eq_dec)) y (map fst d)) as [M|M].
            -- apply in_map_iff in M. destruct M as ([y' v'] & <- & M). cbn [fst] in *. rewrite (value_at_in d y' v' INd (FIN d D) M). exact M.
            -- rewrite value_at_out in NV by (try exact M; apply AF, IX, IY). discriminate NV.
          * intros M. split.
            -- exists x. split; [rewrite (value_at_in d x v INd (FIN d D) M); reflexivity|]. apply IX. apply in_flat_map. exists d. split; [exact D|]. apply (in_map fst) in M. exact M.
            -- destruct PD as (_ & _ & PD). destruct (PD x v M) as [NV _]. destruct (fl_isnan v) eqn:NE; [apply isnan_iff in NE; contradiction|reflexivity].
      - intros x. rewrite MF, IX. apply in_flat_map. }
    apply Q, incl_refl.
Qed.

Lemma series_eq s : combine (cumsum (FZ 0) (snd s)) (fst s) = series s.
Proof. reflexivity. Qed.
Lemma rectangular_iff seeds : rectangular seeds = true <-> equal_numbers seeds.
Proof.
  unfold equal_numbers. destruct seeds as [|a l]; cbn [rectangular]; [split; [intros _ s s' []|reflexivity]|]. rewrite forallb_forall. split.
  - intros H. assert (Q : forall s, In s (a :: l) -> length (fst s) = length (fst a)).
    { intros s [<-|S]; [reflexivity|]. symmetry. apply Nat.eqb_eq, H, S. }
    intros s s' S S'. rewrite (Q s S), (Q s' S'). reflexivity.
  - intros H b B. apply Nat.eqb_eq. apply H; [left; reflexivity|right; exact B].
Qed.
Lemma map_pair_id (cs : list column) : map (map (fun xv => (fst xv, snd xv))) cs = cs.
Proof. rewrite <- (map_id cs) at 2. apply map_ext. intros c. rewrite <- (map_id c) at 2. apply map_ext. intros []; reflexivity. Qed.
Lemma Forall2_map_map {A B C} (R : A -> C -> Prop) (f : B -> C) l m : Forall2 (fun a b => R a (f b)) l m -> Forall2 R l (map f m).
Proof. induction 1; cbn; constructor; auto. Qed.
Lemma Forall2_map_l {A B C} (R : B -> C -> Prop) (f : A -> B) l m : Forall2 R (map f l) m -> Forall2 (fun a c => R (f a) c) l m.
Proof. revert m. induction l as [|x l IH]; intros m H; inversion H; subst; constructor; auto. Qed.
Lemma Forall2_and_in {A B} (R : A -> B -> Prop) (P : A -> Prop) l m : Forall P l -> Forall2 R l m -> Forall2 (fun a b => P a /\ R a b) l m.
Proof. intros F G. induction G; inversion F; subst; constructor; auto. Qed.
Lemma Forall2_imp {A B} (R S : A -> B -> Prop) l m : (forall a b, R a b -> S a b) -> Forall2 R l m -> Forall2 S l m.
Proof. intros H. induction 1; constructor; auto. Qed.

Lemma curves_general seeds : seeds <> [] -> equal_numbers seeds -> Forall (fun s => proper_series (series s)) seeds ->
  exists cs, curves (fun x => x) None seeds = Ok cs /\
    Forall2 (fun s c => (forall x v, In (x, v) c -> next_height (series s) x v) /\
             forall x, In x (map fst c) <-> x = FPInf \/ exists s', In s' seeds /\ In x (map fst (series s'))) seeds cs.
Proof.
  intros NE EQ P. unfold curves, interpolate. rewrite (proj2 (rectangular_iff seeds) EQ). cbn [negb].
  assert (P' : Forall proper_series (map series seeds)) by (apply Forall_map; exact P).
  destruct (from_series_spec _ P') as (ds & E & F). change (map (fun s => combine (cumsum (FZ 0) (snd s)) (fst s)) seeds) with (map series seeds). rewrite E.
  cbn [bind]. rewrite map_pair_id. cbn [bind to_range].
  assert (ND : ds <> []) by (intros ->; destruct seeds; [congruence|inversion F]).
  destruct (map fill ds) as [|m0 ms] eqn:MD; [destruct ds; [congruence|discriminate MD]|]. rewrite <- MD. eexists. split; [reflexivity|].
  rewrite map_map. apply Forall2_map_map. apply Forall2_map_l in F. eapply Forall2_imp; [|apply (Forall2_and_in _ _ _ _ P F)].
  intros s d (PS & I & FP & K & M). cbn beta.
  assert (KN : known d <> []) by (rewrite K; apply PS).
  destruct (shown_inf d I FP KN) as (S1 & S2 & S3). rewrite S1. rewrite K in S2. split; [exact S2|].
  intros x. rewrite S3, in_app_iff, M. cbn. split.
  - intros [(c' & C' & X)|[<-|[]]]; [|left; reflexivity]. apply in_map_iff in C'. destruct C' as (s' & <- & S'). right. eauto.
  - intros [->|(s' & S' & X)]; [auto|]. left. exists (series s'). split; [apply in_map, S'|exact X].
Qed.
Lemma combine_fst {A B} (l : list A) (m : list B) : length l = length m -> map fst (combine l m) = l.
Proof. revert m. induction l as [|x l IH]; intros [|y m] H; try discriminate; cbn; [reflexivity|]. f_equal. apply IH. injection H. auto. Qed.
Lemma combine_snd {A B} (l : list A) (m : list B) : length l = length m -> map snd (combine l m) = m.
Proof. revert m. induction l as [|x l IH]; intros [|y m] H; try discriminate; cbn; [reflexivity|]. f_equal. apply IH. injection H. auto. Qed.
Lemma sums_length l : forall a, length (sums a l) = length l.
Proof. induction l as [|x l IH]; intros a; cbn; [reflexivity|]. rewrite IH. reflexivity. Qed.
Definition with_end (c : column) : column := c ++ [(FPInf, last (map snd c) FNaN)].
Lemma curves_equal costs seeds : seeds <> [] -> (forall s, In s seeds -> snd s = costs /\ length (fst s) = length costs) ->
  Forall (fun s => proper_series (series s)) seeds -> curves (fun x => x) None seeds = Ok (map (fun s => with_end (series s)) seeds).
Proof.
  intros NE EQ P. unfold curves, interpolate. rewrite (proj2 (rectangular_iff seeds)) by (intros s s' S S'; rewrite (proj2 (EQ s S)), (proj2 (EQ s' S')); reflexivity).
  cbn [negb]. change (map (fun s => combine (cumsum (FZ 0) (snd s)) (fst s)) seeds) with (map series seeds).
  assert (IX : forall s, In s seeds -> map fst (series s) = sums (FZ 0) costs).
  { intros s S. destruct (EQ s S) as [E1 E2]. unfold series. rewrite E1. apply combine_fst. rewrite sums_length. auto. }
  assert (FS : from_series (map series seeds) = Ok (map series seeds)).
  { destruct seeds as [|s0 seeds]; [reflexivity|]. cbn [map from_series]. replace (forallb (fun d => same_index (map fst (series s0)) (map fst d)) (map series seeds)) with true; [reflexivity|].
    symmetry. apply forallb_forall. intros d D. apply in_map_iff in D. destruct D as (s & <- & S). rewrite (IX s (or_intror S)), (IX s0 (or_introl eq_refl)).
    apply same_index_refl. rewrite <- (IX s0 (or_introl eq_refl)). apply proper_finite. inversion P; assumption. }
  rewrite FS. cbn [bind]. rewrite map_pair_id. cbn [bind to_range].
  destruct (map fill (map series seeds)) as [|m0 ms] eqn:MD; [destruct seeds; [congruence|discriminate MD]|]. rewrite <- MD. f_equal. rewrite !map_map.
  apply map_ext_in. intros s S. rewrite Forall_forall in P. specialize (P s S).
  rewrite (fill_id (series s)) by (apply proper_known, P). rewrite add_inf; [|apply P|apply proper_finite, P]. rewrite fill_end, fill_id by (apply proper_known, P). reflexivity.
Qed.
Lemma curves_ragged scale r seeds : ~ equal_numbers seeds -> curves scale r seeds = Err ValueError.
Proof.
  intros N. unfold curves, interpolate. destruct (rectangular seeds) eqn:E; [apply rectangular_iff in E; contradiction|]. reflexivity.
Qed.

(** ** Only values of the seed are drawn *)
Lemma fill_values c : forall w x v, In (x, v) (ffill w (backfill c)) -> v = w \/ v = FNaN \/ In v (map snd (known c)).
Proof.
  induction c as [|[x0 v0] c IH]; intros w x v I; [destruct I|]. cbn [backfill ffill] in I. cbv zeta in I.
  change (known ((x0, v0) :: c)) with (if negb (fl_isnan v0) then (x0, v0) :: known c else known c).
  set (u := if fl_isnan v0 then match backfill c with [] => FNaN | (_, w0) :: _ => w0 end else v0) in *.
  assert (U : u = FNaN \/ In u (map snd (if negb (fl_isnan v0) then (x0, v0) :: known c else known c))).
  { subst u. destruct (fl_isnan v0) eqn:E; cbn [negb]; [|right; left; reflexivity]. destruct (known c) as [|[y h] s] eqn:KC.
    - left. rewrite backfill_none by exact KC. destruct c; reflexivity.
    - destruct (backfill_head c y h s KC) as (x' & c' & ->). right. left. reflexivity. }
  assert (MON : forall v, In v (map snd (known c)) -> In v (map snd (if negb (fl_isnan v0) then (x0, v0) :: known c else known c))).
  { intros v1 V1. destruct (negb (fl_isnan v0)); [right|]; exact V1. }
  destruct I as [I|I].
  - injection I as <- <-. destruct (fl_isnan u) eqn:E; [left; reflexivity|]. right. exact U.
  - destruct (IH _ _ _ I) as [H|[H|H]]; [|auto|auto]. destruct (fl_isnan u) eqn:E; [auto|]. subst v. right. exact U.
Qed.
Lemma fill_good c : known c <> [] -> forall x v, In (x, v) (fill c) -> In v (map snd (known c)).
Proof.
  intros K x v I. assert (Q := I). destruct (fill_known c K FNaN) as [E _]. unfold fill in I. rewrite <- E in I. apply filter_In in I. destruct I as [_ N]. cbn in N.
  destruct (fill_values c FNaN x v Q) as [->|[->|H]]; [discriminate|discriminate|exact H].
Qed.
Lemma known_perm c d : Permutation c d -> Permutation (known c) (known d).
Proof.
  unfold known. induction 1 as [|p c d H IH|p q c|c d e H1 IH1 H2 IH2]; cbn; [constructor| | |eapply perm_trans; eauto].
  - destruct (negb (fl_isnan (snd p))); [constructor|]; exact IH.
  - destruct (negb (fl_isnan (snd p))), (negb (fl_isnan (snd q))); try apply perm_swap; apply Permutation_refl.
Qed.
Lemma add_row_known x c : Permutation (known (add_row x c)) (known c).
Proof. unfold add_row. rewrite (known_perm _ _ (sorting_perm _ _)), known_app. cbn. rewrite app_nil_r. reflexivity. Qed.
Lemma known_empty c : known c = [] <-> ~ exists p, In p c /\ snd p <> FNaN.
Proof.
  split.
  - intros K (p & P & N). assert (Q : In p (known c)) by (apply filter_In; split; [exact P|]; destruct (fl_isnan (snd p)) eqn:E; [apply isnan_iff in E; contradiction|reflexivity]). rewrite K in Q. destruct Q.
  - intros H. unfold known. apply Bo_proofs.filter_none. intros p P. destruct (fl_isnan (snd p)) eqn:E; [reflexivity|]. exfalso. apply H. exists p. split; [exact P|]. intros F. apply isnan_iff in F. congruence.
Qed.

Lemma values_kept seeds r cs : Forall (fun s => proper_series (series s)) seeds ->
  (forall a b, r = Some [a; b] -> fl_le a b) ->
  curves (fun x => x) r seeds = Ok cs -> Forall2 (fun s c => forall x v, In (x, v) c -> In v (fst s)) seeds cs.
Proof.
  intros P RG. unfold curves, interpolate. destruct (negb (rectangular seeds)); [discriminate|].
  assert (P' : Forall proper_series (map series seeds)) by (apply Forall_map; exact P).
  destruct (from_series_spec _ P') as (ds & E & F). change (map (fun s => combine (cumsum (FZ 0) (snd s)) (fst s)) seeds) with (map series seeds). rewrite E.
  cbn [bind]. rewrite map_pair_id. apply Forall2_map_l in F.
  assert (SN : forall s v, In v (map snd (series s)) -> In v (fst s)).
  { intros s v V. apply in_map_iff in V. destruct V as ([x v'] & <- & I). apply in_combine_r in I. exact I. }
  assert (LAST : forall (g : column -> column) x cs, match map g ds with [] => Err ValueError | _ => Ok (map (fun c => fill (add_row x c)) (map g ds)) end = Ok cs ->
    (forall s d, known d = series s -> proper_series (series s) -> known (g d) <> [] /\ forall v, In v (map snd (known (g d))) -> In v (map snd (series s))) ->
    Forall2 (fun s c => forall x v, In (x, v) c -> In v (fst s)) seeds cs).
  { intros g x cs0 H G. assert (cs0 = map (fun c => fill (add_row x c)) (map g ds)) as -> by (destruct (map g ds); [discriminate|injection H; auto]).
    rewrite map_map. apply Forall2_map_map. eapply Forall2_imp; [|apply (Forall2_and_in _ _ _ _ P F)]. intros s d (PS & _ & _ & K & _) y v I. destruct (G s d K PS) as [G1 G2].
    assert (PM := add_row_known x (g d)). apply SN, G2. apply (fill_good (add_row x (g d))) in I.
    - eapply Permutation_in; [apply Permutation_map, PM|exact I].
    - intros Z. rewrite Z in PM. apply Permutation_nil in PM. contradiction. }
  destruct r as [[|a [|b [|u r]]]|]; cbn [bind]; try discriminate.
  - (* a range *)
    destruct ds as [|d0 ds0] eqn:DS; [discriminate|]. rewrite <- DS in *. cbn [bind]. unfold to_range. destruct (truncate (last [a; b] FNaN)) as [xm|e]; [|discriminate]. cbn [bind].
    intros H. eapply LAST; [exact H|]. intros s d K PS. cbn beta. set (c0 := add_row b (add_row a d)).
    assert (PM : Permutation (known c0) (known d)) by (unfold c0; rewrite add_row_known, add_row_known; reflexivity).
    assert (KN : known c0 <> []).
    { intros Z. rewrite Z in PM. apply Permutation_nil in PM. rewrite K in PM. destruct PS as (PS & _). contradiction. }
    set (g := filter (fun xv => fl_leb a (fst xv) && fl_leb (fst xv) b) (fill c0)).
    assert (KG : known g = g).
    { destruct (fill_known c0 KN FNaN) as [KF _]. fold (fill c0) in KF. unfold g. unfold known in *.
      revert KF. generalize (fill c0) as m. intros m KF. assert (AL : forall p, In p m -> negb (fl_isnan (snd p)) = true) by (intros p Q; rewrite <- KF in Q; apply filter_In in Q; apply Q).
      clear KF. induction m as [|p m IH]; [reflexivity|]. cbn. destruct (fl_leb a (fst p) && fl_leb (fst p) b); [|apply IH; intros q Q; apply AL; right; exact Q].
      cbn. rewrite (AL p (or_introl eq_refl)). f_equal. apply IH. intros q Q. apply AL. right. exact Q. }
    rewrite KG. split.
    + assert (LE : fl_le a b) by (apply RG; reflexivity).
      assert (IA : In a (map fst (fill c0))).
      { unfold fill. rewrite fill_positions. unfold c0, add_row at 1. apply in_map_iff. exists (a, FNaN). split; [reflexivity|].
        eapply Permutation_in; [apply Permutation_sym, sorting_perm|]. apply in_or_app. left. unfold add_row. eapply Permutation_in; [apply Permutation_sym, sorting_perm|]. apply in_or_app. right. left. reflexivity. }
      apply in_map_iff in IA. destruct IA as (p & <- & IP). intros Z. assert (Q : In p g).
      { apply filter_In. split; [exact IP|]. unfold fl_leb. rewrite Bo_proofs.fl_ltb_irrefl. cbn. destruct (fl_ltb b (fst p)) eqn:LT; [|reflexivity]. apply ltb_lt in LT. destruct LT as [_ LT]. contradiction. }
      rewrite Z in Q. destruct Q.
    + intros v V. apply in_map_iff in V. destruct V as ([x v'] & <- & I). apply filter_In in I. destruct I as [I _]. apply (fill_good c0 KN) in I. rewrite <- K. cbn [snd].
      eapply Permutation_in; [apply Permutation_map, PM|exact I].
  - (* no range *)
    cbn [to_range bind]. intros H. apply (LAST fill FPInf cs H). intros s d K PS.
    assert (KN : known d <> []) by (rewrite K; apply PS). destruct (fill_known d KN FNaN) as [KF _]. fold (fill d) in KF. rewrite KF. split.
    + intros Z. assert (L : map fst (fill d) = map fst d) by apply fill_positions. rewrite Z in L. destruct d; [contradiction KN; reflexivity|discriminate L].
    + intros v V. apply in_map_iff in V. destruct V as ([x v'] & <- & I). apply (fill_good d KN) in I. rewrite <- K. exact I.
Qed.

(** ** The default plot *)
Lemma sums_ones (ds : list trial) : forall z, sums (fl_of_Z z) (map (fun _ => fl_of_Z 1) ds) = map (fun k => fl_of_Z (z + Z.of_nat k)) (seq 1 (length ds)).
Proof.
  induction ds as [|d ds IH]; intros z; [reflexivity|]. cbn [map sums length seq].
  replace (fl_add (fl_of_Z z) (fl_of_Z 1)) with (fl_of_Z (z + 1)) by (unfold fl_of_Z; cbn [fl_add]; f_equal; lia). rewrite IH. f_equal.
  rewrite <- (seq_shift (length ds) 1), map_map. apply map_ext. intros k. f_equal. lia.
Qed.
Lemma sums_ones0 (ds : list trial) : sums (FZ 0) (map (fun _ => fl_of_Z 1) ds) = map (fun k => fl_of_Z (Z.of_nat k)) (seq 1 (length ds)).
Proof. apply (sums_ones ds 0). Qed.
Lemma unit_pos : (0 < fl_unit)%Z.
Proof. unfold fl_unit. apply Z.pow_pos_nonneg; lia. Qed.
Lemma of_Z_lt a b : (a < b)%Z -> fl_lt (fl_of_Z a) (fl_of_Z b).
Proof. intros H. apply ltb_lt. unfold fl_of_Z. cbn. apply Z.ltb_lt. apply Z.mul_lt_mono_pos_r; [apply unit_pos|exact H]. Qed.
Lemma ones_proper (ds : list trial) incs : ds <> [] -> length incs = length ds -> ~ In FNaN incs -> proper_series (series (incs, map (fun _ => fl_of_Z 1) ds)).
Proof.
  intros NE L N. unfold series. cbn [fst snd]. rewrite sums_ones0. split; [|split].
  - destruct ds, incs; try congruence; discriminate.
  - revert incs L N. generalize 1. generalize (length ds). intros n. induction n as [|n IH]; intros k [|v incs] L N; try discriminate; [constructor|].
    cbn [seq map combine]. constructor; [|apply IH; [injection L; auto|intros H; apply N; right; exact H]].
    apply Forall_forall. intros [x w] I. apply in_combine_l in I. apply in_map_iff in I. destruct I as (j & <- & J). apply in_seq in J. cbn [fst]. apply of_Z_lt. lia.
  - intros x v I. split; [intros ->; apply N; apply in_combine_r in I; exact I|]. apply in_combine_l in I. apply in_map_iff in I. destruct I as (j & <- & _). eexists. reflexivity.
Qed.
Lemma minima_no_nan ds incs : no_nan_loss ds -> minima ds incs -> ~ In FNaN incs.
Proof.
  intros NN [L M] I. apply In_nth_error in I. destruct I as (k & K). assert (KL : k < length incs) by (apply nth_error_Some; congruence).
  destruct (M k) as (v & V & (t & T & SU) & _); [lia|]. rewrite K in V. injection V as <-. apply (NN t); [|exact SU].
  rewrite <- (firstn_skipn (S k) ds). apply in_or_app. left. exact T.
Qed.
Lemma nth_combine {A B} (l : list A) : forall (m : list B) k x y, nth_error l k = Some x -> nth_error m k = Some y -> nth_error (combine l m) k = Some (x, y).
Proof. induction l as [|a l IH]; intros [|b m] [|k] x y H K; try discriminate; cbn in *; [congruence|]. auto. Qed.
Lemma last_nth {A} (l : list A) d : l <> [] -> nth_error l (length l - 1) = Some (last l d).
Proof.
  induction l as [|x l IH]; [congruence|]. intros _. destruct l as [|y l]; [reflexivity|]. cbn [length]. replace (S (S (length l)) - 1) with (S (length (y :: l) - 1)) by (cbn; lia).
  cbn [nth_error]. rewrite IH by discriminate. reflexivity.
Qed.
Lemma curve_of_minima ds incs : ds <> [] -> minima ds incs -> curve_of ds (with_end (series (incs, map (fun _ => fl_of_Z 1) ds))).
Proof.
  intros NE [L M]. unfold with_end, series. cbn [fst snd]. rewrite sums_ones0.
  set (xs := map (fun k => fl_of_Z (Z.of_nat k)) (seq 1 (length ds))).
  assert (LX : length xs = length incs) by (unfold xs; rewrite map_length, seq_length; auto).
  assert (LC : length (combine xs incs) = length ds) by (rewrite combine_length; lia).
  rewrite combine_snd by exact LX. split; [|split].
  - rewrite app_length, LC. cbn. lia.
  - intros k K. destruct (M k K) as (v & V & LV). exists v. split; [|exact LV]. rewrite nth_error_app1 by lia.
    apply nth_combine; [|exact V]. unfold xs. apply (map_nth_error (fun k => fl_of_Z (Z.of_nat k))). rewrite nth_error_nth' with (d := 0) by (rewrite seq_length; lia). f_equal. apply seq_nth. lia.
  - exists (last incs FNaN). split; [rewrite nth_error_app2 by lia; rewrite LC, Nat.sub_diag; reflexivity|].
    destruct (M (length ds - 1)) as (v & V & LV); [destruct ds; [congruence|cbn; lia]|].
    replace (S (length ds - 1)) with (length ds) in LV by (destruct ds; [congruence|cbn; lia]). rewrite firstn_all in LV.
    rewrite <- L in V. rewrite (last_nth incs FNaN) in V by (destruct incs; [destruct ds; [congruence|discriminate]|discriminate]). injection V as ->. exact LV.
Qed.

(** ** Reading a run *)
Section Read.
  Variables (pyfloat : pyval -> res fl) (divide : fl -> fl -> fl).
  Hypothesis Fid : float_id pyfloat.

  Lemma plotted_nonempty ts : (exists t, In t ts /\ has_report t) -> plotted ts <> [].
  Proof. intros (t & T) E. apply plotted_in in T. rewrite E in T. destruct T. Qed.
  Lemma no_nan_losses ts ls : no_nan_loss ts -> Forall2 succeeded (plotted ts) ls -> ~ In FNaN ls.
  Proof.
    intros NN F I. assert (Q : forall t, In t (plotted ts) -> In t ts) by (intros t T; apply plotted_in in T; tauto).
    induction F as [|t l ds ls S F IH]; [destruct I|]. destruct I as [->|I]; [apply (NN t (Q t (or_introl eq_refl)) S)|]. apply IH; [exact I|]. intros t' T'. apply Q. right. exact T'.
  Qed.
  Lemma minima_of ds ls : Forall2 succeeded ds ls -> ~ In FNaN ls -> minima ds (accumulate ls).
  Proof.
    intros F N. destruct (accumulate_spec ls N) as [A1 A2]. assert (L : length ds = length ls) by (apply (Bo_proofs.f2_len _ _ _ F)).
    split; [lia|]. intros k K. destruct (A2 k) as (v & V & V1 & V2); [lia|]. exists v. split; [exact V|].
    eapply least_of_losses; [apply f2_firstn, F|exact V1|exact V2].
  Qed.
  (** all evaluated trials succeeded, and their costs are known *)
  Lemma process_ok ts : plain_trials ts -> (exists t, In t ts /\ has_report t) -> all_succeeded ts -> exists t0, text_first ts t0 /\
    forall key cc w (cost : trial -> fl) mc, max_of key (map stats_of (plotted ts)) = Ok mc ->
      (forall t, In t (plotted ts) -> config_cost pyfloat key cc w (m_time_sampled (t_meta t0)) (snd (stats_of t)) = Ok (cost t)) ->
      exists ls, process_seed pyfloat key cc w ts = Ok (accumulate ls, map cost (plotted ts), mc) /\ Forall2 succeeded (plotted ts) ls.
  Proof.
    intros P R A. destruct (process_some pyfloat Fid ts P R) as (t0 & T0 & E). exists t0. split; [exact T0|]. intros key cc w cost mc K C.
    destruct (points_ok pyfloat ts key cc w _ cost P A C) as (ls & M & F). exists ls. split; [|exact F].
    assert (L : length ls = length (map cost (plotted ts))) by (rewrite map_length; symmetry; apply (Bo_proofs.f2_len _ _ _ F)).
    rewrite E, M, K. cbn [bind]. rewrite combine_fst, combine_snd by exact L. reflexivity.
  Qed.

  Lemma default_read ts w : plain_trials ts -> (exists t, In t ts /\ has_report t) -> all_succeeded ts ->
    exists ls, process_seed pyfloat None false w ts = Ok (accumulate ls, map (fun _ => fl_of_Z 1) (plotted ts), fl_of_Z (-1)) /\ Forall2 succeeded (plotted ts) ls.
  Proof.
    intros P R A. destruct (process_ok ts P R A) as (t0 & _ & H). apply H; [reflexivity|]. intros t _. reflexivity.
  Qed.
  Notation plot1 w ts tree b a := (plot pyfloat divide (mkOptions false None false w None) (mkFiles ts tree) [b] [a]).
  Lemma plot_one w ts tree b a : plot1 w ts tree b a =
    bind (process_seed pyfloat None false w ts) (fun p => bind (curves (fun x => x) None [fst p]) (fun cs =>
    Ok [mkDrawn (0, 0) None (Some "Evaluations"%string) (Some "Best error"%string) a cs])).
  Proof.
    unfold plot. change (subplots _ _) with (Ok AOne). cbn [bind draw_all length]. unfold benchmark_there. cbn [o_scientific bind mapM]. unfold draw, find_seeds, read_seeds.
    cbn [o_scientific o_key o_continuations o_workers o_range f_run bind mapM andb].
    destruct (process_seed pyfloat None false w ts) as [p|e]; [|reflexivity]. cbn [bind map fst snd]. change (map_axs AOne 0 1 (n_cols 1)) with (Ok (0, 0)). cbn [bind].
    destruct (curves (fun x => x) None [fst p]) as [cs|e]; reflexivity.
  Qed.
  Lemma default_plot_p w ts tree b a : plain_trials ts -> numbered ts -> (exists t, In t ts /\ has_report t) -> all_succeeded ts -> no_nan_loss ts ->
    exists ds c, in_order ts ds /\ plot1 w ts tree b a = Ok [mkDrawn (0, 0) None (Some "Evaluations"%string) (Some "Best error"%string) a [c]] /\ curve_of ds c.
  Proof.
    intros P N R A NN. destruct (default_read ts w P R A) as (ls & E & F).
    assert (M := minima_of _ _ F (no_nan_losses ts ls NN F)). assert (NE := plotted_nonempty ts R).
    exists (plotted ts). eexists. split; [apply plotted_order; [exact N|apply P]|]. split; [|apply (curve_of_minima _ _ NE M)].
    rewrite plot_one, E. cbn [bind fst].
    rewrite (curves_equal (map (fun _ => fl_of_Z 1) (plotted ts))); [reflexivity|discriminate| |].
    - intros s [<-|[]]. split; [reflexivity|]. cbn [fst]. rewrite map_length. apply M.
    - constructor; [|constructor]. apply ones_proper; [exact NE|apply M|]. eapply minima_no_nan; [|exact M].
      intros t T. apply NN. apply plotted_in in T. apply T.
  Qed.
  Lemma single_curve s : exists c, curves (fun x => x) None [s] = Ok [c].
  Proof. unfold curves, interpolate. cbn. eexists. reflexivity. Qed.
  Lemma plot_none w ts tree b a : plain_trials ts -> (forall t, In t ts -> ~ has_report t) -> plot1 w ts tree b a = Err ValueError.
  Proof. intros P N. rewrite plot_one, process_none by assumption. reflexivity. Qed.
  Lemma process_failed cc w ts : plain_trials ts -> (exists t, In t ts /\ has_report t /\ forall l, ~ succeeded t l) -> process_seed pyfloat None cc w ts = Err TypeError.
  Proof.
    intros P F. destruct (process_some pyfloat Fid ts P) as (t0 & _ & E); [destruct F as (t & T & R & _); eauto|].
    rewrite E. cbn [max_of bind]. rewrite points_fail by assumption. reflexivity.
  Qed.
  Lemma plot_failed w ts tree b a : plain_trials ts -> (exists t, In t ts /\ has_report t /\ forall l, ~ succeeded t l) -> plot1 w ts tree b a = Err TypeError.
  Proof. intros P F. rewrite plot_one, process_failed by assumption. reflexivity. Qed.
  Lemma success_dec t : (exists l, succeeded t l) \/ forall l, ~ succeeded t l.
  Proof.
    unfold succeeded. destruct (t_report t) as [r|]; [|right; intros l (r & E & _); discriminate]. destruct (r_reported_as r) eqn:A.
    - destruct (r_loss r) as [l|] eqn:L; [left; exists l, r; auto|right]. intros l (r' & E & _ & L'). congruence.
    - right. intros l (r' & E & A' & _). congruence.
    - right. intros l (r' & E & A' & _). congruence.
  Qed.
  Lemma plot_made_p w ts tree b a : plain_trials ts ->
    ((exists d, plot1 w ts tree b a = Ok d) <-> (exists t, In t ts /\ has_report t) /\ all_succeeded ts).
  Proof.
    intros P. split.
    - intros (d & D). assert (R : existsb reported_b ts = true \/ existsb reported_b ts = false) by (destruct (existsb reported_b ts); auto).
      split.
      + destruct R as [R|R]; [apply existsb_exists in R; destruct R as (t & T & B); exists t; split; [exact T|apply reported_iff, B]|].
        rewrite plot_none in D; [discriminate|exact P|]. intros t T H. apply reported_iff in H. assert (X : existsb reported_b ts = true) by (apply existsb_exists; eauto). congruence.
      + intros t T H. destruct (success_dec t) as [S|S]; [exact S|]. exfalso. rewrite plot_failed in D; [discriminate|exact P|]. exists t. auto.
    - intros [R A]. destruct (default_read ts w P R A) as (ls & E & _). rewrite plot_one, E. cbn [bind fst]. destruct (single_curve (accumulate ls, map (fun _ : trial => fl_of_Z 1) (plotted ts))) as (c & C). rewrite C. eexists. reflexivity.
  Qed.

  (** ** The other horizontal axes *)
  Lemma info_of' t key v : (forall r, t_report t = Some r -> plain_report r) ->
    (exists r i, t_report t = Some r /\ r_reported_as r = RSuccess /\ lookup "info_dict" (r_extra r) = Some (VDict i) /\ lookup key i = Some v) -> info (snd (stats_of t)) key = Ok v.
  Proof.
    intros P (r & i & R & A & I & K). specialize (P r R). destruct (P A) as (L & X & ND & _).
    unfold info. cbn [snd stats_of x_result]. unfold result_of. rewrite R. unfold to_deprecate_result_dict. rewrite A. cbv zeta.
    set (d := merge_dict _ _).
    assert (ID : lookup "info_dict" d = Some (VDict i)) by (subst d; rewrite Eval_proofs.lookup_merge by exact ND; rewrite I; reflexivity).
    rewrite ID. destruct (has_key "learning_curve" i) eqn:HK.
    - rewrite ID, K. reflexivity.
    - rewrite lookup_set_key. cbn [String.eqb Ascii.eqb Bool.eqb]. rewrite lookup_set_key. destruct (String.eqb_spec key "learning_curve") as [->|NE].
      + exfalso. unfold has_key in HK. rewrite K in HK. discriminate.
      + rewrite K. reflexivity.
  Qed.
  Lemma info_of t key c : (forall r, t_report t = Some r -> plain_report r) -> info_value pyfloat key t c -> bind (info (snd (stats_of t)) key) pyfloat = Ok c.
  Proof.
    intros P (r & i & v & R & A & I & K & C). rewrite (info_of' t key v P); [exact C|eauto 8].
  Qed.
  Lemma Forall2_map_r {A B} (R : A -> B -> Prop) f l : (forall x, In x l -> R x (f x)) -> Forall2 R l (map f l).
  Proof. intros H. induction l as [|x l IH]; cbn; constructor; [apply H; left; reflexivity|]. apply IH. intros y Y. apply H. right. exact Y. Qed.
  Lemma read_with ts : plain_trials ts -> numbered ts -> (exists t, In t ts /\ has_report t) -> all_succeeded ts -> no_nan_loss ts ->
    exists ds t0, in_order ts ds /\ text_first ts t0 /\
    forall key cc w (R : trial -> fl -> Prop) mc, max_of key (map stats_of ds) = Ok mc ->
      (forall t, In t ds -> exists c, config_cost pyfloat key cc w (m_time_sampled (t_meta t0)) (snd (stats_of t)) = Ok c /\ R t c) ->
      exists incs costs, process_seed pyfloat key cc w ts = Ok (incs, costs, mc) /\ minima ds incs /\ Forall2 R ds costs.
  Proof.
    intros P N RP A NN. destruct (process_ok ts P RP A) as (t0 & T0 & H). exists (plotted ts), t0. split; [apply plotted_order; [exact N|apply P]|]. split; [exact T0|].
    intros key cc w R mc K C.
    set (cost t := match config_cost pyfloat key cc w (m_time_sampled (t_meta t0)) (snd (stats_of t)) with Ok c => c | Err _ => FNaN end).
    destruct (H key cc w cost mc K) as (ls & E & F).
    - intros t T. destruct (C t T) as (c & E & _). unfold cost. rewrite E. reflexivity.
    - exists (accumulate ls), (map cost (plotted ts)). split; [exact E|]. split; [apply minima_of; [exact F|apply (no_nan_losses ts ls NN F)]|].
      apply Forall2_map_r. intros t T. destruct (C t T) as (c & EC & RC). unfold cost. rewrite EC. exact RC.
  Qed.
  Lemma key_axis_p ts key w : plain_trials ts -> numbered ts -> (exists t, In t ts /\ has_report t) -> all_succeeded ts -> no_nan_loss ts ->
    key <> "fidelity"%string -> (forall t, In t ts -> has_report t -> exists c, info_value pyfloat key t c) ->
    exists ds incs costs, in_order ts ds /\ process_seed pyfloat (Some key) false w ts = Ok (incs, costs, fl_of_Z (-1)) /\ minima ds incs /\ Forall2 (info_value pyfloat key) ds costs.
  Proof.
    intros P N RP A NN K V. destruct (read_with ts P N RP A NN) as (ds & t0 & O & _ & H). exists ds.
    destruct (H (Some key) false w (info_value pyfloat key) (fl_of_Z (-1))) as (incs & costs & E & M & F).
    - cbn [max_of]. destruct (String.eqb_spec key "fidelity"); [contradiction|reflexivity].
    - intros t T. apply O in T. destruct T as [T R]. destruct (V t T R) as (c & C). exists c. split; [|exact C].
      unfold config_cost, get_cost. rewrite (info_of t key c); [reflexivity| |exact C]. intros r Rr. apply (proj2 P t r T Rr).
    - exists incs, costs. auto.
  Qed.
  Lemma fold_greatest l : forall x, ~ In FNaN (x :: l) -> greatest (x :: l) (fold_left (fun m y => if fl_ltb m y then y else m) l x).
  Proof.
    induction l as [|y l IH]; intros x N; cbn [fold_left].
    - split; [left; reflexivity|]. split; [exact N|]. intros z [<-|[]]. destruct x; try (constructor; lia); try (constructor; discriminate). destruct N. left. reflexivity.
    - set (m := if fl_ltb x y then y else x). destruct (IH m) as (I & _ & G).
      { intros [E|E]; [|apply N; right; right; exact E]. unfold m in E. destruct (fl_ltb x y); apply N; [right; left|left]; exact E. }
      split.
      { destruct I as [E|I]; [|right; right; exact I]. rewrite <- E. unfold m. destruct (fl_ltb x y); [right; left|left]; reflexivity. }
      split; [exact N|]. intros z Z.
      assert (M : fl_le x m /\ fl_le y m).
      { assert (X : x <> FNaN) by (intros ->; apply N; left; reflexivity). assert (Y : y <> FNaN) by (intros ->; apply N; right; left; reflexivity).
        unfold m. destruct (fl_ltb x y) eqn:L.
        - apply ltb_lt in L. split; [apply lt_le, L|]. destruct y; try congruence; constructor; try lia; discriminate.
        - destruct x, y; try congruence; cbn in L; try discriminate L; split; constructor; try discriminate; try lia. }
      destruct M as [M1 M2]. assert (T : forall a, fl_le a m -> fl_le a (fold_left (fun m y => if fl_ltb m y then y else m) l m)).
      { intros a A. assert (B := G m (or_introl eq_refl)). destruct A; inversion B; subst; constructor; try lia; try assumption; try discriminate; try congruence. }
      destruct Z as [<-|[<-|Z]]; [apply T, M1|apply T, M2|apply G; right; exact Z].
  Qed.
  Lemma fidelity_p ts w : plain_trials ts -> numbered ts -> (exists t, In t ts /\ has_report t) -> all_succeeded ts -> no_nan_loss ts ->
    (forall t, In t ts -> has_report t -> exists c, float_entry "fidelity" t c /\ c <> FNaN) ->
    exists ds incs costs m, in_order ts ds /\ process_seed pyfloat (Some "fidelity"%string) false w ts = Ok (incs, costs, m) /\ minima ds incs /\
      Forall2 (float_entry "fidelity") ds costs /\ greatest costs m.
  Proof.
    intros P N RP A NN V. destruct (read_with ts P N RP A NN) as (ds & t0 & O & _ & H).
    assert (VI : forall t c, In t ds -> float_entry "fidelity" t c -> info (snd (stats_of t)) "fidelity" = Ok (VFloat c)).
    { intros t c T (r & i & R & RA & I & K). apply O in T. destruct T as [T HR].
      assert (X := info_of' t "fidelity" (VFloat c) (fun r Rr => proj2 P t r T Rr)). apply X. eauto 8. }
    assert (MM : exists cs, mapM (fun kx : string * stats => bind (info (snd kx) "fidelity") (fun v => match as_num v with Some f => Ok f | None => Err TypeError end)) (map stats_of ds) = Ok cs /\
      Forall2 (float_entry "fidelity") ds cs /\ ~ In FNaN cs).
    { assert (V' : forall t, In t ds -> exists c, float_entry "fidelity" t c /\ c <> FNaN) by (intros t T; apply O in T; apply V; apply T).
      clear - V' VI. induction ds as [|t ds IH]; cbn [map mapM]; [exists []; repeat split; [constructor|intros []]|].
      destruct (V' t (or_introl eq_refl)) as (c & C & CN). destruct IH as (cs & E & F & NI); [intros; apply VI; [right|]; assumption|intros; apply V'; right; assumption|].
      exists (c :: cs). rewrite (VI t c (or_introl eq_refl) C). cbn [bind as_num]. rewrite E. split; [reflexivity|]. split; [constructor; assumption|]. intros [X|X]; [congruence|contradiction]. }
    destruct MM as (cs & E & F & NI). destruct cs as [|c cs].
    { exfalso. inversion F. subst ds. destruct RP as (t & T). apply O in T. destruct T. }
    destruct (H (Some "fidelity"%string) false w (float_entry "fidelity") (fold_left (fun m y => if fl_ltb m y then y else m) cs c)) as (incs & costs & E' & M & F').
    - cbn [max_of String.eqb Ascii.eqb Bool.eqb]. unfold max_fidelity. rewrite E. reflexivity.
    - intros t T. destruct (V t) as (x & X & _); [apply O, T|apply O, T|]. exists x. split; [|exact X]. unfold config_cost, get_cost. rewrite (VI t x T X). cbn [bind]. rewrite Fid. reflexivity.
    - exists ds, incs, costs, (fold_left (fun m y => if fl_ltb m y then y else m) cs c). repeat (split; [assumption|]).
      assert (Q : costs = c :: cs).
      { clear - F F'. revert F'. generalize (c :: cs) as k, F. clear. intros k F. revert costs. induction F as [|t x ds k X F IH]; intros costs F'; inversion F' as [|? y ? ? Y F'']; subst; [reflexivity|].
        f_equal; [|apply IH, F'']. destruct X as (r & i & R & _ & I & K), Y as (r' & i' & R' & _ & I' & K'). congruence. }
      rewrite Q. apply fold_greatest, NI.
  Qed.
  Lemma parallel_p ts w : plain_trials ts -> numbered ts -> (exists t, In t ts /\ has_report t) -> all_succeeded ts -> no_nan_loss ts ->
    w <> 1 -> (forall t, In t ts -> has_report t -> m_time_end (t_meta t) <> None) ->
    exists ds t0 incs costs, in_order ts ds /\ text_first ts t0 /\ process_seed pyfloat None true w ts = Ok (incs, costs, fl_of_Z (-1)) /\ minima ds incs /\
      Forall2 (fun t c => exists e, m_time_end (t_meta t) = Some e /\ c = fl_sub e (m_time_sampled (t_meta t0))) ds costs.
  Proof.
    intros P N RP A NN W V. destruct (read_with ts P N RP A NN) as (ds & t0 & O & T0 & H). exists ds, t0.
    destruct (H None true w (fun t c => exists e, m_time_end (t_meta t) = Some e /\ c = fl_sub e (m_time_sampled (t_meta t0))) (fl_of_Z (-1))) as (incs & costs & E & M & F).
    - reflexivity.
    - intros t T. apply O in T. destruct T as [T R]. specialize (V t T R). destruct (m_time_end (t_meta t)) as [e|] eqn:ME; [|congruence].
      exists (fl_sub e (m_time_sampled (t_meta t0))). split; [|eauto]. unfold config_cost, get_cost. cbn [bind]. destruct (Nat.eqb_spec w 1); [contradiction|].
      cbn [snd stats_of x_meta]. rewrite ME. reflexivity.
    - exists incs, costs. repeat (split; [assumption|]). assumption.
  Qed.
  Lemma mapM_ext {A B} (f g : A -> res B) l : (forall x, f x = g x) -> mapM f l = mapM g l.
  Proof. intros H. induction l as [|x l IH]; cbn; [reflexivity|]. rewrite H, IH. reflexivity. Qed.
  Lemma continuations_p key w ts : process_seed pyfloat key true 1 ts = process_seed pyfloat key false w ts.
  Proof.
    unfold process_seed. destruct (get_summary pyfloat ts) as [s|e]; [|reflexivity]. cbn [bind]. cbv zeta.
    match goal with |- bind ?x _ = _ => destruct x as [m|e]; [|reflexivity] end. cbn [bind].
    destruct (map fst (sorted_stats (s_previous s))) as [|k ks]; [reflexivity|]. destruct (lookup _ _) as [first|]; [|reflexivity].
    reflexivity.
  Qed.

  (** ** Axes *)
  Lemma rows_cols n : 1 <= n -> 1 <= n_cols n /\ n <= n_rows n * n_cols n /\ (n_rows n - 1) * n_cols n < n /\ 1 <= n_rows n.
  Proof.
    intros N. unfold n_rows, n_cols. destruct (Nat.eqb_spec n 1) as [->|NE]; [cbn; lia|].
    assert (D := Nat.div_mod (n + (2 - 1)) 2). assert (M := Nat.mod_upper_bound (n + (2 - 1)) 2). lia.
  Qed.
  Lemma axes_p n : 1 <= n -> exists ax, subplots (n_rows n) (n_cols n) = Ok ax /\
    forall i, i < n -> map_axs ax i n (n_cols n) = Ok (i / n_cols n, i mod n_cols n) /\ i / n_cols n < n_rows n /\ i mod n_cols n < n_cols n.
  Proof.
    intros N. destruct (rows_cols n N) as (C & R1 & R2 & R3).
    assert (B : forall i, i < n -> i / n_cols n < n_rows n /\ i mod n_cols n < n_cols n).
    { intros i I. split; [apply Nat.div_lt_upper_bound; lia|apply Nat.mod_upper_bound; lia]. }
    destruct (Nat.eq_dec n 1) as [->|N1]; [exists AOne; split; [reflexivity|]; intros i I; assert (i = 0) as -> by lia; split; [reflexivity|apply B; lia]|].
    destruct (Nat.eq_dec n 2) as [->|N2].
    - exists (ARow 2). split; [reflexivity|]. intros i I. split; [|apply B, I]. destruct i as [|[|i]]; [reflexivity|reflexivity|lia].
    - assert (NC : n_cols n = 2) by (unfold n_cols; destruct (Nat.eqb_spec n 1); lia).
      assert (NR : 2 <= n_rows n) by (rewrite NC in *; lia).
      exists (AGrid (n_rows n) 2). rewrite NC in *. split.
      + unfold subplots. destruct (Nat.eqb_spec (n_rows n) 0); [lia|]. destruct (Nat.eqb_spec (n_rows n) 1); [lia|]. reflexivity.
      + intros i I. destruct (B i I) as [B1 B2]. split; [|split; assumption]. unfold map_axs. destruct (Nat.eqb_spec n 1); [lia|]. destruct (Nat.eqb_spec n 2); [lia|].
        rewrite (proj2 (Nat.ltb_lt _ _) B1), (proj2 (Nat.ltb_lt _ _) B2). reflexivity.
  Qed.
  Lemma own_p n i j : 1 <= n -> (i / n_cols n, i mod n_cols n) = (j / n_cols n, j mod n_cols n) -> i = j.
  Proof.
    intros N E. destruct (rows_cols n N) as (C & _). injection E as E1 E2. rewrite (Nat.div_mod i (n_cols n)), (Nat.div_mod j (n_cols n)) by lia. rewrite E1, E2. reflexivity.
  Qed.
  Lemma xlabel_p key n i : 1 <= n -> i < n -> (x_label key n i <> None <-> i / n_cols n = n_rows n - 1).
  Proof.
    intros N I. destruct (rows_cols n N) as (C & R1 & R2 & R3). unfold x_label. assert (U : i / n_cols n < n_rows n) by (apply Nat.div_lt_upper_bound; lia).
    destruct (Nat.leb_spec ((n_rows n - 1) * n_cols n) i) as [L|L]; split; try congruence.
    - intros _. assert (n_rows n - 1 <= i / n_cols n) by (apply Nat.div_le_lower_bound; lia). lia.
    - intros E. exfalso. assert (i / n_cols n < n_rows n - 1) by (apply Nat.div_lt_upper_bound; lia). lia.
  Qed.
  Lemma ylabel_p n i : y_label n i <> None <-> i mod n_cols n = 0.
  Proof. unfold y_label. destruct (Nat.eqb_spec (i mod n_cols n) 0); split; congruence. Qed.

  (** ** The whole figure *)
  Lemma mapM_ok {A B} (f : A -> res B) (g : A -> B) l : (forall x, In x l -> f x = Ok (g x)) -> mapM f l = Ok (map g l).
  Proof.
    induction l as [|x l IH]; intros H; [reflexivity|]. cbn. rewrite H by (left; reflexivity). cbn. rewrite IH; [reflexivity|]. intros y Y. apply H. right. exact Y.
  Qed.
  Definition curves_for (o : options) (f : files) (b a : string) : list column :=
    match bind (find_seeds o f b a) (fun seeds => bind (read_seeds pyfloat divide o seeds) (fun data => curves (snd data) (o_range o) (fst data))) with Ok cs => cs | Err _ => [] end.
  Definition picture (o : options) (f : files) (n i : nat) (b a : string) : drawn :=
    mkDrawn (i / n_cols n, i mod n_cols n) (if o_scientific o then Some b else None) (x_label (o_key o) n i) (y_label n i) a (curves_for o f b a).
  Definition chain (o : options) (f : files) (b a : string) (cs : list column) : Prop :=
    exists seeds data, find_seeds o f b a = Ok seeds /\ read_seeds pyfloat divide o seeds = Ok data /\ curves (snd data) (o_range o) (fst data) = Ok cs.
  Lemma greatest_same l m m' : greatest l m -> greatest l m' -> m = m'.
  Proof.
    intros (I & N & G) (I' & _ & G'). assert (A := G' m I). assert (B := G m' I'). destruct A; inversion B; subst; try reflexivity; try congruence; f_equal; lia.
  Qed.
  Lemma drawable_chain o f b a cs : drawable pyfloat divide o f b a cs -> chain o f b a cs.
  Proof.
    intros (seeds & data & scale & R & D & S & C). exists seeds, (map fst data, scale). split; [|split; [|exact C]].
    - unfold runs_of in R. unfold find_seeds. destruct (o_scientific o); [|subst; reflexivity].
      destruct R as (algs & runs & named & E1 & E2 & PM & SO & ->). rewrite E1, E2. f_equal. f_equal.
      apply (FOP_same_members (fun x y : string * list trial => String.ltb (fst x) (fst y) = true)).
      + intros x L. unfold String.ltb in L. rewrite Enc_proofs.scompare_refl in L. discriminate L.
      + intros x y z. apply Enc_proofs.ltb_trans.
      + assert (B := by_text_sorted fst runs). unfold by_text in B.
        assert (ND : NoDup (map fst (sorting (fun x y : string * list trial => String.leb (fst x) (fst y)) runs))).
        { apply (Permutation_NoDup (Permutation_map fst (Permutation_trans PM (Permutation_sym (sorting_perm _ runs))))).
          clear - SO. induction SO as [|x l F SO IH]; cbn; constructor; [|exact IH]. rewrite in_map_iff. intros (y & E & Y). rewrite Forall_forall in F. specialize (F y Y). rewrite E in F.
          unfold String.ltb in F. rewrite Enc_proofs.scompare_refl in F. discriminate F. }
        clear - B ND. induction B as [|x l F B IH]; [constructor|]. inversion ND as [|? ? N1 N2]; subst. constructor; [|apply IH, N2]. rewrite Forall_forall in *. intros y Y.
        specialize (F y Y). unfold String.leb in F. unfold String.ltb. destruct (String.compare (fst x) (fst y)) eqn:CE; try congruence. apply String.compare_eq_iff in CE. destruct N1. rewrite CE. apply in_map. exact Y.
      + exact SO.
      + intros x. split; apply Permutation_in; [eapply Permutation_trans; [apply sorting_perm|apply Permutation_sym, PM]|eapply Permutation_trans; [apply PM|apply Permutation_sym, sorting_perm]].
    - unfold read_seeds. assert (E : mapM (process_seed pyfloat (o_key o) (o_continuations o) (o_workers o)) seeds = Ok data).
      { clear - D. induction D as [|t d ts ds E D IH]; [reflexivity|]. cbn [mapM]. rewrite E. cbn [bind]. rewrite IH. reflexivity. }
      rewrite E. cbn [bind]. cbv zeta. destruct S as [(K & m & G & ->)|(K & ->)].
      + rewrite K. cbn [String.eqb Ascii.eqb Bool.eqb]. destruct (map snd data) as [|x l] eqn:M; [destruct G as [[] _]|].
        rewrite (greatest_same _ _ _ G (fold_greatest l x (proj1 (proj2 G)))). reflexivity.
      + destruct (o_key o) as [k|]; [|reflexivity]. destruct (String.eqb_spec k "fidelity") as [->|_]; [congruence|reflexivity].
  Qed.
  Lemma drawable_for o f b a cs : drawable pyfloat divide o f b a cs -> curves_for o f b a = cs.
  Proof. intros D. apply drawable_chain in D. destruct D as (seeds & data & E1 & E2 & E3). unfold curves_for. rewrite E1. cbn [bind]. rewrite E2. cbn [bind]. rewrite E3. reflexivity. Qed.
  Lemma draw_ok o f ax n i b a : (exists cs, drawable pyfloat divide o f b a cs) -> map_axs ax i n (n_cols n) = Ok (i / n_cols n, i mod n_cols n) ->
    draw pyfloat divide o f ax n i b a = Ok (picture o f n i b a).
  Proof.
    intros (cs & D) M. assert (C := drawable_for _ _ _ _ _ D). apply drawable_chain in D. destruct D as (seeds & data & E1 & E2 & E3). unfold draw. rewrite E1. cbn [bind]. rewrite E2. cbn [bind]. rewrite M. cbn [bind]. rewrite E3. cbn [bind].
    unfold picture. rewrite C. reflexivity.
  Qed.
  Lemma draw_all_ok o f ax n as_ : (forall i, i < n -> map_axs ax i n (n_cols n) = Ok (i / n_cols n, i mod n_cols n)) ->
    forall bs i, i + length bs <= n -> (forall b, In b bs -> benchmark_there o f b = Ok tt) -> (forall b a, In b bs -> In a as_ -> exists cs, drawable pyfloat divide o f b a cs) ->
    exists ds, draw_all pyfloat divide o f ax n i bs as_ = Ok ds /\ length ds = length bs * length as_ /\
      forall k j b a, nth_error bs k = Some b -> nth_error as_ j = Some a -> nth_error ds (k * length as_ + j) = Some (picture o f n (i + k) b a).
  Proof.
    intros M. induction bs as [|b bs IH]; intros i L T D; cbn [draw_all].
    - exists []. split; [reflexivity|]. split; [reflexivity|]. intros [|k] j b a H; discriminate.
    - rewrite (T b (or_introl eq_refl)). cbn [bind]. cbn [length] in L.
      rewrite (mapM_ok _ (picture o f n i b)) by (intros a A; apply draw_ok; [apply D; [left; reflexivity|exact A]|apply M; lia]). cbn [bind].
      destruct (IH (S i)) as (ds & E & LD & H); [lia|intros; apply T; right; assumption|intros; apply D; [right; assumption|assumption]|].
      rewrite E. cbn [bind]. eexists. split; [reflexivity|]. split; [rewrite app_length, map_length, LD; reflexivity|].
      intros [|k] j b' a' K J.
      + cbn in K. injection K as <-. cbn [Nat.mul Nat.add]. rewrite Nat.add_0_r. rewrite nth_error_app1 by (rewrite map_length; apply nth_error_Some; congruence). apply map_nth_error, J.
      + cbn in K. rewrite nth_error_app2 by (rewrite map_length; cbn; lia). rewrite map_length. replace (S k * length as_ + j - length as_) with (k * length as_ + j) by (cbn; lia).
        rewrite (H k j b' a' K J). f_equal. unfold picture. replace (S i + k) with (i + S k) by lia. reflexivity.
  Qed.
  Lemma rows_small n : 1 <= n -> (existsb (Nat.eqb (n_rows n)) legend_rows = true <-> n <= 10).
  Proof.
    intros N. destruct (rows_cols n N) as (C & R1 & R2 & R3). rewrite existsb_exists.
    assert (NC : n_cols n <= 2 /\ (n = 1 \/ n_cols n = 2)) by (unfold n_cols; destruct (Nat.eqb_spec n 1); lia).
    split.
    - intros (x & X & E). apply Nat.eqb_eq in E. subst x. assert (n_rows n <= 5) by (unfold legend_rows in X; cbn in X; lia). nia.
    - intros L. exists (n_rows n). split; [|apply Nat.eqb_refl]. assert (n_rows n <= 5) by (destruct NC as [_ [->|NC]]; [cbn; lia|rewrite NC in *; lia]). unfold legend_rows. cbn. lia.
  Qed.
  Lemma figure_p o f bs as_ : 1 <= length bs -> (o_scientific o = true -> length bs <= 10 /\ forall b, In b bs -> has_key b (f_tree f) = true) ->
    (forall b a, In b bs -> In a as_ -> exists cs, drawable pyfloat divide o f b a cs) ->
    exists ds, plot pyfloat divide o f bs as_ = Ok ds /\ length ds = length bs * length as_ /\
      forall i j b a, nth_error bs i = Some b -> nth_error as_ j = Some a -> exists d, nth_error ds (i * length as_ + j) = Some d /\
        d_axes d = (i / n_cols (length bs), i mod n_cols (length bs)) /\ d_title d = (if o_scientific o then Some b else None) /\ d_label d = a /\
        d_xlabel d = x_label (o_key o) (length bs) i /\ d_ylabel d = y_label (length bs) i /\ drawable pyfloat divide o f b a (d_curves d).
  Proof.
    intros N SC D. destruct (axes_p (length bs) N) as (ax & E & M). unfold plot. cbv zeta. rewrite E. cbn [bind].
    destruct (draw_all_ok o f ax (length bs) as_ (fun i I => proj1 (M i I)) bs 0) as (ds & DE & L & H); [lia| |exact D|].
    { intros b B. unfold benchmark_there. destruct (o_scientific o); [|reflexivity]. destruct (SC eq_refl) as [_ S2]. specialize (S2 b B). unfold has_key in S2. destruct (lookup b (f_tree f)); [reflexivity|discriminate]. }
    rewrite DE. cbn [bind]. exists ds. split.
    - destruct (o_scientific o); cbn [andb]; [|reflexivity]. destruct (SC eq_refl) as [S1 _]. rewrite (proj2 (rows_small _ N) S1). reflexivity.
    - split; [exact L|]. intros i j b a I J. exists (picture o f (length bs) i b a). split; [apply (H i j b a I J)|]. cbn [picture d_axes d_title d_label d_xlabel d_ylabel d_curves].
      repeat (split; [reflexivity|]). destruct (D b a) as (cs & C); [eapply nth_error_In; eauto|eapply nth_error_In; eauto|]. rewrite (drawable_for _ _ _ _ _ C). exact C.
  Qed.
  Lemma many_p o f bs as_ : o_scientific o = true -> 10 < length bs -> forall ds, plot pyfloat divide o f bs as_ <> Ok ds.
  Proof.
    intros S L ds. unfold plot. cbv zeta. destruct (subplots _ _) as [ax|e]; [|discriminate]. cbn [bind]. destruct (draw_all _ _ _ _ _ _ _ _ _) as [d|e]; [|discriminate]. cbn [bind].
    rewrite S. cbn [andb]. destruct (existsb (Nat.eqb (n_rows (length bs))) legend_rows) eqn:E; [|discriminate]. apply rows_small in E; lia.
  Qed.
End Read.

(** ** Identifiers of the 3D plot *)
Lemma split_no_us s : Ifbo_proofs.no_us s = true -> split_us s = [s].
Proof. induction s as [|c s IH]; cbn; [reflexivity|]. destruct (Ascii.eqb c "_"%char); [discriminate|]. cbn. intros H. rewrite IH by exact H. reflexivity. Qed.
Lemma split_app a s : Ifbo_proofs.no_us a = true -> split_us (a ++ String "_" s) = a :: split_us s.
Proof. induction a as [|c a IH]; cbn; [reflexivity|]. destruct (Ascii.eqb c "_"%char); [discriminate|]. cbn. intros H. rewrite IH by exact H. reflexivity. Qed.
Lemma split_curve c k : split_us (Ifbo_spec.curve_id c k) = [py_str_nat c; py_str_nat k].
Proof.
  unfold Ifbo_spec.curve_id. change ("_" ++ py_str_nat k)%string with (String "_" (py_str_nat k)). rewrite split_app by apply Ifbo_proofs.str_nat_no_us. rewrite split_no_us by apply Ifbo_proofs.str_nat_no_us. reflexivity.
Qed.
Lemma int_no_us s n : py_int s = Ok n -> Ifbo_proofs.no_us s = true.
Proof.
  unfold Ifbo_model.py_int. destruct (DecimalString.NilZero.uint_of_string s) as [d|] eqn:E; [|discriminate]. intros _.
  unfold DecimalString.NilZero.uint_of_string in E. destruct s as [|c s]; [discriminate|].
  assert (Q : forall s d, DecimalString.NilEmpty.uint_of_string s = Some d -> Ifbo_proofs.no_us s = true).
  { clear. induction s as [|c s IH]; intros d H; [reflexivity|]. cbn [DecimalString.NilEmpty.uint_of_string] in H.
    destruct (DecimalString.NilEmpty.uint_of_string s) as [d'|] eqn:E; [|destruct c as [[] [] [] [] [] [] [] []]; discriminate H].
    cbn [Ifbo_proofs.no_us]. rewrite (IH d' eq_refl), andb_true_r. destruct (Ascii.eqb_spec c "_"%char) as [->|]; [discriminate H|reflexivity]. }
  apply (Q _ d E).
Qed.
Lemma curve_not_int c k : forall n, py_int (Ifbo_spec.curve_id c k) <> Ok n.
Proof.
  intros n H. apply int_no_us in H. apply split_no_us in H. rewrite split_curve in H. discriminate.
Qed.
Lemma prep_curves (l : list (nat * nat)) : l <> [] -> prep_ids (map (fun ck => Ifbo_spec.curve_id (fst ck) (snd ck)) l) =
  Ok (if existsb (fun ck => Nat.eqb (snd ck) 0) l then map (fun ck => (fst ck, S (snd ck))) l else l).
Proof.
  intros NE. destruct l as [|ck l]; [congruence|]. unfold prep_ids. cbn [map].
  match goal with |- (if ?b then _ else _) = _ => replace b with false end.
  2: { cbn [forallb]. destruct (py_int (Ifbo_spec.curve_id (fst ck) (snd ck))) eqn:E; [destruct (curve_not_int _ _ _ E)|reflexivity]. }
  change (Ifbo_spec.curve_id (fst ck) (snd ck) :: map (fun ck => Ifbo_spec.curve_id (fst ck) (snd ck)) l) with (map (fun ck => Ifbo_spec.curve_id (fst ck) (snd ck)) (ck :: l)).
  rewrite mapM_map. rewrite (mapM_ok _ (fun ck => ck)).
  - rewrite map_id. reflexivity.
  - intros [c k] _. cbn [fst snd]. rewrite split_curve, !Ifbo_proofs.py_int_str. reflexivity.
Qed.
Lemma prep_numbers ids : ids <> [] -> Forall (fun i => exists n, i = py_str_nat n) ids -> prep_ids ids = Err AttributeError.
Proof.
  intros NE F. destruct ids as [|i ids]; [congruence|]. unfold prep_ids.
  match goal with |- (if ?b then _ else _) = _ => replace b with true; [reflexivity|] end. symmetry. apply forallb_forall. intros x X. rewrite Forall_forall in F. destruct (F x X) as (n & ->). rewrite Ifbo_proofs.py_int_str. reflexivity.
Qed.
