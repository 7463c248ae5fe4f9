(** Proofs about Bayesian optimization. *)
From Coq Require Import String Permutation.
From Verif Require Import Py Py_proofs Trial_model Limit_spec Init_model Space_model Space_grid_proofs Eval_proofs Bo_model Bo_spec.
Local Open Scope nat_scope.
Local Open Scope string_scope.
Local Open Scope list_scope.
Local Notation length := List.length.

(** ** Order *)
Lemma flt x y : fl_ltb x y = true <-> fl_lt x y.
Proof.
  split.
  - intros H. split.
    + destruct x, y; try discriminate H; try (constructor; discriminate). cbn in H. constructor. lia.
    + intros L. destruct x, y; try discriminate H; inversion L; subst; try congruence; cbn in H; lia.
  - intros [L N]. destruct x, y; cbn; try reflexivity; try (exfalso; inversion L; congruence);
    try (exfalso; apply N; constructor; discriminate).
    apply Z.ltb_lt. destruct (Z_lt_le_dec z z0) as [G|G]; [exact G|]. exfalso. apply N. constructor. exact G.
Qed.
Lemma fl_ltb_trans x y z : fl_ltb x y = true -> fl_ltb y z = true -> fl_ltb x z = true.
Proof. destruct x, y, z; cbn; try discriminate; try reflexivity. lia. Qed.
Lemma fl_ltb_irrefl x : fl_ltb x x = false.
Proof. destruct x; cbn; try reflexivity. lia. Qed.
Lemma fl_tri x y : x <> FNaN -> y <> FNaN -> fl_ltb x y = false -> fl_ltb y x = false -> x = y.
Proof. destruct x, y; cbn; try discriminate; try reflexivity; try congruence. intros _ _ A B. f_equal. lia. Qed.
Lemma fl_nlt_trans x y z : y <> FNaN -> fl_ltb y x = false -> fl_ltb z y = false -> fl_ltb z x = false.
Proof. destruct x, y, z; cbn; try discriminate; try reflexivity; try congruence. lia. Qed.
Lemma fl_ltb_asym x y : fl_ltb x y = true -> fl_ltb y x = false.
Proof. destruct x, y; cbn; try discriminate; try reflexivity. lia. Qed.

Lemma row_lex a b : row_ltb a b = true -> length a = length b -> ~ In FNaN a -> ~ In FNaN b -> lex a b.
Proof.
  revert b. induction a as [|x a IH]; intros [|y b] H L Na Nb; try discriminate. cbn in H.
  destruct (fl_ltb x y) eqn:E1; [constructor; apply flt; exact E1|].
  destruct (fl_ltb y x) eqn:E2; [discriminate|].
  assert (x = y) as -> by (apply fl_tri; [intros ->; apply Na; left; reflexivity|intros ->; apply Nb; left; reflexivity|exact E1|exact E2]).
  apply lex_later, IH; [exact H|injection L; auto| |]; intros I; [apply Na|apply Nb]; right; exact I.
Qed.
Lemma row_eq a b : row_ltb a b = false -> row_ltb b a = false -> length a = length b -> ~ In FNaN a -> ~ In FNaN b -> a = b.
Proof.
  revert b. induction a as [|x a IH]; intros [|y b] H K L Na Nb; try discriminate; [reflexivity|]. cbn in H, K.
  destruct (fl_ltb x y) eqn:E1; [discriminate|]. destruct (fl_ltb y x) eqn:E2; [discriminate|].
  assert (x = y) as -> by (apply fl_tri; [intros ->; apply Na; left; reflexivity|intros ->; apply Nb; left; reflexivity|exact E1|exact E2]).
  f_equal. apply IH; [exact H|exact K|injection L; auto| |]; intros I; [apply Na|apply Nb]; right; exact I.
Qed.
Lemma lex_trans a b c : lex a b -> lex b c -> lex a c.
Proof.
  intros H. revert c. induction H as [x y a b L|x a b H IH]; intros c K.
  - inversion K as [y' z ? c' L'|y' ? c' L']; subst.
    + constructor. apply flt. apply flt in L, L'. eapply fl_ltb_trans; eassumption.
    + constructor. exact L.
  - inversion K as [y' z ? c' L'|y' ? c' L']; subst; [constructor; exact L'|]. apply lex_later, IH. exact L'.
Qed.
Lemma lex_irrefl a : ~ lex a a.
Proof.
  induction a as [|x a IH]; intros H; inversion H as [y z ? ? L|y ? ? L]; subst.
  - destruct L as [L N]. exact (N L).
  - exact (IH L).
Qed.

(** ** torch.unique *)
Lemma insert_row_spec m x l : proper_rows m (x :: l) -> ForallOrdPairs lex l ->
  ForallOrdPairs lex (insert_row x l) /\ forall r, In r (insert_row x l) <-> r = x \/ In r l.
Proof.
  induction l as [|y l IH]; intros P F.
  - cbn. split; [repeat constructor|]. intros r. split; [intros [<-|[]]; auto|intros [->|[]]; auto].
  - destruct (P x (or_introl eq_refl)) as [Lx Nx]. destruct (P y (or_intror (or_introl eq_refl))) as [Ly Ny].
    inversion F as [|? ? Fy Fl]; subst. cbn [insert_row].
    destruct (row_ltb x y) eqn:E1.
    + assert (X : lex x y) by (apply row_lex; [exact E1|congruence|exact Nx|exact Ny]). split.
      * constructor; [|exact F]. constructor; [exact X|]. apply Forall_forall. intros z Z. rewrite Forall_forall in Fy. eapply lex_trans; [exact X|apply Fy; exact Z].
      * intros r. cbn. split; [intros [<-|H]; auto|intros [->|H]; auto].
    + destruct (row_ltb y x) eqn:E2.
      * assert (X : lex y x) by (apply row_lex; [exact E2|congruence|exact Ny|exact Nx]).
        destruct IH as [I J].
        { intros r [<-|R]; apply P; [left; reflexivity|right; right; exact R]. }
        { exact Fl. }
        split.
        -- constructor; [|exact I]. apply Forall_forall. intros z Z. apply J in Z. rewrite Forall_forall in Fy. destruct Z as [->|Z]; [exact X|apply Fy; exact Z].
        -- intros r. cbn. rewrite J. split; [intros [<-|[->|H]]; auto|intros [->|[<-|H]]; auto].
      * assert (x = y) as <- by (apply row_eq; [exact E1|exact E2|congruence|exact Nx|exact Ny]). split; [exact F|].
        intros r. cbn. split; [intros [<-|H]; auto|intros [->|[<-|H]]; auto].
Qed.
Lemma unique_spec m l : proper_rows m l -> ForallOrdPairs lex (unique_rows l) /\ forall r, In r (unique_rows l) <-> In r l.
Proof.
  unfold unique_rows. induction l as [|x l IH]; intros P; [split; [constructor|tauto]|]. cbn [fold_right].
  destruct IH as [F I]; [intros r R; apply P; right; exact R|].
  destruct (insert_row_spec m x (fold_right insert_row [] l)) as [A B].
  { intros r [<-|R]; apply P; [left; reflexivity|right; apply I; exact R]. }
  { exact F. }
  split; [exact A|]. intros r. rewrite B, I. cbn. split; [intros [->|H]; auto|intros [->|H]; auto].
Qed.
Lemma FOP_app_inv {B} (R : B -> B -> Prop) l m : ForallOrdPairs R (l ++ m) ->
  ForallOrdPairs R l /\ ForallOrdPairs R m /\ forall x y, In x l -> In y m -> R x y.
Proof.
  induction l as [|a l IH]; intros H; [split; [constructor|split; [exact H|intros x y []]]|].
  inversion H as [|? ? F G]; subst. apply IH in G. destruct G as (G1 & G2 & G3). rewrite Forall_app in F. destruct F as [F1 F2].
  split; [constructor; assumption|split; [exact G2|]]. intros x y [<-|I] J; [rewrite Forall_forall in F2; apply F2; exact J|apply G3; assumption].
Qed.
Lemma FOP_NoDup l : ForallOrdPairs lex l -> NoDup l.
Proof.
  induction 1 as [|a l F _ IH]; constructor; [|exact IH]. intros I. rewrite Forall_forall in F. exact (lex_irrefl a (F a I)).
Qed.
Lemma least_of_unique m k l : proper_rows m l -> least_rows k l (firstn k (unique_rows l)).
Proof.
  intros P. destruct (unique_spec m l P) as [F I]. pose proof (firstn_skipn k (unique_rows l)) as E.
  rewrite <- E in F. apply FOP_app_inv in F. destruct F as (F1 & _ & F3).
  assert (X : incl (firstn k (unique_rows l)) l).
  { intros r R. apply I. rewrite <- E. apply in_or_app. left. exact R. }
  split; [exact X|split; [apply FOP_NoDup; exact F1|split; [exact F1|split; [apply firstn_le_length|]]]].
  intros r R N. apply I in R. rewrite <- E in R. apply in_app_or in R. destruct R as [R|R]; [contradiction|]. split.
  - rewrite firstn_length. destruct (Nat.le_ge_cases k (length (unique_rows l))) as [L|L]; [lia|]. rewrite skipn_all2 in R by exact L. destruct R.
  - intros r' R'. exact (F3 r' r R' R).
Qed.
(** [least_rows] leaves no choice *)
Lemma FOP_same_members l l' : ForallOrdPairs lex l -> ForallOrdPairs lex l' -> (forall r, In r l <-> In r l') -> l = l'.
Proof.
  intros H. revert l'. induction H as [|a l F H IH]; intros l' G E.
  - destruct l' as [|b l']; [reflexivity|]. exfalso. apply (E b). left. reflexivity.
  - destruct G as [|b l' G1 G2]; [exfalso; apply (E a); left; reflexivity|].
    rewrite Forall_forall in F, G1.
    assert (a = b) as <-.
    { destruct (proj1 (E a) (or_introl eq_refl)) as [->|A]; [reflexivity|]. destruct (proj2 (E b) (or_introl eq_refl)) as [->|B]; [reflexivity|].
      exfalso. exact (lex_irrefl _ (lex_trans _ _ _ (F b B) (G1 a A))). }
    f_equal. apply IH; [exact G2|]. intros r. split; intros R.
    + destruct (proj1 (E r) (or_intror R)) as [->|X]; [exfalso; exact (lex_irrefl _ (F r R))|exact X].
    + destruct (proj2 (E r) (or_intror R)) as [->|X]; [exfalso; exact (lex_irrefl _ (G1 r R))|exact X].
Qed.
Lemma least_rows_unique k l o o' : least_rows k l o -> least_rows k l o' -> o = o'.
Proof.
  intros (A1 & A2 & A3 & A4 & A5) (B1 & B2 & B3 & B4 & B5).
  assert (D : forall x y : row, {x = y} + {x <> y}) by (intros; apply list_eq_dec; intros [| | |z] [| | |z']; try (left; reflexivity); try (right; discriminate); destruct (Z.eq_dec z z'); [left; congruence|right; congruence]).
  assert (incl o o' \/ exists x, In x o /\ ~ In x o') as W.
  { clear - D. induction o as [|x o IH]; [left; intros ? []|]. destruct (in_dec D x o') as [I|I]; [|right; exists x; cbn; auto].
    destruct IH as [IH|[y [Y1 Y2]]]; [left; intros z [<-|Z]; auto|right; exists y; cbn; auto]. }
  assert (incl o' o \/ exists x, In x o' /\ ~ In x o) as W'.
  { clear - D. induction o' as [|x o' IH]; [left; intros ? []|]. destruct (in_dec D x o) as [I|I]; [|right; exists x; cbn; auto].
    destruct IH as [IH|[y [Y1 Y2]]]; [left; intros z [<-|Z]; auto|right; exists y; cbn; auto]. }
  destruct W as [W|[x [X1 X2]]], W' as [W'|[y [Y1 Y2]]].
  - apply FOP_same_members; [exact A3|exact B3|]. intros r. split; [apply W|apply W'].
  - exfalso. destruct (A5 y (B1 y Y1) Y2) as [L _]. pose proof (NoDup_incl_length A2 W) as K.
    assert (length o' = k) by lia. apply Y2. assert (incl o' o) as Q by (apply NoDup_length_incl; [exact A2|lia|exact W]). apply Q. exact Y1.
  - exfalso. destruct (B5 x (A1 x X1) X2) as [L _]. pose proof (NoDup_incl_length B2 W') as K.
    apply X2. assert (incl o o') as Q by (apply NoDup_length_incl; [exact B2|lia|exact W']). apply Q. exact X1.
  - exfalso. destruct (B5 x (A1 x X1) X2) as [_ L]. destruct (A5 y (B1 y Y1) Y2) as [_ L']. exact (lex_irrefl _ (lex_trans _ _ _ (L y Y1) (L' x X1))).
Qed.
Lemma least_rows_length k l o u : least_rows k l o -> NoDup u -> (forall r, In r u <-> In r l) -> length o = Nat.min k (length u).
Proof.
  intros (A1 & A2 & _ & A4 & A5) N E.
  assert (D : forall x y : row, {x = y} + {x <> y}) by (intros; apply list_eq_dec; intros [| | |z] [| | |z']; try (left; reflexivity); try (right; discriminate); destruct (Z.eq_dec z z'); [left; congruence|right; congruence]).
  assert (I : incl o u) by (intros r R; apply E, A1; exact R). pose proof (NoDup_incl_length A2 I) as L.
  destruct (Nat.eq_dec (length o) k) as [X|X]; [lia|].
  assert (incl u o) as J. { intros r R. destruct (in_dec D r o) as [Y|Y]; [exact Y|]. destruct (A5 r (proj1 (E r) R) Y) as [Z _]. contradiction. }
  pose proof (NoDup_incl_length N J). lia.
Qed.

(** ** The initial design *)
Lemma fids_ok s f : (exists d, design_fids s f = Ok d) <-> can_fidelity s f.
Proof.
  destruct f as [| | |v|d|]; cbn; try (split; [auto|eexists; reflexivity]).
  - destruct (bs_fid s) as [|[k h] [|? ?]]; cbn; split; intros H; try discriminate H; try reflexivity; try (eexists; reflexivity);
    destruct H as [d H]; discriminate H.
  - destruct (forallb _ _) eqn:E.
    + split; [|eexists; reflexivity]. intros _ k h I. rewrite forallb_forall in E. specialize (E _ I). cbn in E. unfold has_key in E.
      destruct (lookup k d) as [v|]; [eexists; reflexivity|discriminate].
    + split; [intros [? H]; discriminate H|]. intros H. exfalso. apply Bool.not_true_iff_false in E. apply E. apply forallb_forall.
      intros [k h] I. cbn. unfold has_key. destruct (H k h I) as [v ->]. reflexivity.
  - split; [intros [? H]; discriminate H|intros []].
Qed.
Lemma size_ok s n : (exists k, design_size s n = Ok k) <-> can_size n.
Proof.
  destruct n as [| |z]; cbn; try (split; [auto|eexists; reflexivity]).
  destruct (Z.ltb 0 z) eqn:E; split; intros H; try (eexists; reflexivity); try lia. destruct H as [? H]; discriminate H.
Qed.
Lemma design_ok decode draw s n df f : (exists d, make_initial_design decode draw s n df f = Ok d) <-> can_fidelity s f /\ can_size n.
Proof.
  unfold make_initial_design. rewrite <- fids_ok, <- (size_ok s n). destruct (design_fids s f) as [fids|e]; cbn [bind].
  - destruct (design_size s n) as [[k|]|e]; cbn [bind]; split; intros H; try (eexists; reflexivity); try (split; eexists; reflexivity).
    + destruct H as [? H]; discriminate H.
    + destruct H as [_ [? H]]; discriminate H.
  - split; [intros [? H]; discriminate H|intros [[? H] _]; discriminate H].
Qed.
Lemma map_fst_val {A B} (g : A -> B) (l : list (string * A)) : map fst (map (fun kv => (fst kv, g (snd kv))) l) = map fst l.
Proof. rewrite map_map. reflexivity. Qed.
Lemma lookup_map_val {A B} (g : A -> B) k (l : list (string * A)) :
  lookup k (map (fun kv => (fst kv, g (snd kv))) l) = option_map g (lookup k l).
Proof. induction l as [|[k' v] l IH]; [reflexivity|]. cbn. destruct (String.eqb _ _); [reflexivity|exact IH]. Qed.
Lemma fids_wanted s f d : good_space s -> good_request f -> design_fids s f = Ok d ->
  NoDup (map fst d) /\ forall k v, lookup k d = Some v <-> wanted s f k v.
Proof.
  intros [_ G] R H. destruct f as [| | |w|d0|]; cbn in H.
  1-3: injection H as <-; rewrite map_fst_val; split; [exact G|]; intros k v; rewrite lookup_map_val; split;
    [destruct (lookup k (bs_fid s)) as [h|] eqn:E; [|discriminate]; intros [= <-]; constructor; apply lookup_In; exact E|
     intros W; inversion W as [k0 h I|k0 h I|k0 h I| |]; subst; rewrite (In_lookup _ _ _ G I); reflexivity].
  - destruct (bs_fid s) as [|[name h] [|? ?]] eqn:E; try discriminate H. injection H as <-. cbn. split; [repeat constructor; intros []|].
    intros k v. destruct (String.eqb k name) eqn:K.
    + apply String.eqb_eq in K. subst k. split; [intros [= <-]; econstructor; exact E|]. intros W. inversion W; subst; congruence.
    + split; [discriminate|]. intros W. inversion W as [| | |? ? ? B|]; subst. rewrite E in B. injection B as -> ->. rewrite String.eqb_refl in K. discriminate.
  - destruct (forallb _ _); [|discriminate H]. injection H as <-. split; [exact R|]. intros k v. split; [constructor; assumption|].
    intros W. inversion W; subst. assumption.
  - discriminate H.
Qed.
Lemma merged s f fids base : good_space s -> good_request f -> design_fids s f = Ok fids -> at_fidelity s f base (merge_dict base fids).
Proof.
  intros G R H. destruct (fids_wanted s f fids G R H) as [N W]. split; intros k.
  - intros v V. rewrite lookup_merge by exact N. apply W in V. rewrite V. reflexivity.
  - intros V. rewrite lookup_merge by exact N. destruct (lookup k fids) as [v|] eqn:E; [|reflexivity]. exfalso. apply (V v), W. exact E.
Qed.
Lemma default_is s : is_default s (default_config s).
Proof.
  intros k. unfold default_config. rewrite (lookup_map_val (fun h => match hp_default h with Some v => v | None => hp_sample h end)). destruct (lookup k (bs_all s)); reflexivity.
Qed.
Lemma initial_design_p decode draw s n df f m d : good_space s -> good_request f ->
  proper_rows m (draw (2 * asked s n)) -> make_initial_design decode draw s n df f = Ok d ->
  exists first rows, d = first ++ map snd rows /\
  least_rows (asked s n) (draw (2 * asked s n)) (map fst rows) /\
  Forall (fun rc => at_fidelity s f (decode (fst rc)) (snd rc)) rows /\
  (df = false /\ first = [] \/ df = true /\ exists c0 c, first = [c] /\ is_default s c0 /\ at_fidelity s f c0 c).
Proof.
  intros G R P. unfold make_initial_design. destruct (design_fids s f) as [fids|e] eqn:EF; [|discriminate]. cbn [bind].
  set (first := if df then _ else _).
  assert (DF : df = false /\ first = [] \/ df = true /\ exists c0 c, first = [c] /\ is_default s c0 /\ at_fidelity s f c0 c).
  { destruct df; [right|left; auto]. split; [reflexivity|]. exists (default_config s), (merge_dict (default_config s) fids).
    split; [reflexivity|split; [apply default_is|apply merged; assumption]]. }
  destruct (design_size s n) as [o|e] eqn:ES; [|discriminate]. cbn [bind].
  destruct o as [k|]; intros [= <-].
  - assert (k = asked s n) as ->. { destruct n as [| |z]; cbn in ES |- *; try congruence. destruct (Z.ltb 0 z); congruence. }
    rewrite Nat.mul_comm.
    exists first, (map (fun r => (r, merge_dict (decode r) fids)) (firstn (asked s n) (unique_rows (draw (2 * asked s n))))).
    rewrite !map_map. cbn [fst snd]. rewrite map_id. split; [reflexivity|split; [apply (least_of_unique m); exact P|split; [|exact DF]]].
    apply Forall_map, Forall_forall. intros r _. cbn [fst snd]. apply merged; assumption.
  - assert (asked s n = 0) as ->. { destruct n as [| |z]; cbn in ES |- *; try congruence. destruct (Z.ltb 0 z); congruence. }
    exists first, []. rewrite app_nil_r. split; [reflexivity|split; [|split; [constructor|exact DF]]]. cbn [map].
    assert (X : least_rows 0 (draw (2 * 0)) (firstn 0 (unique_rows (draw (2 * 0))))).
    { destruct n as [| |z]; cbn in ES; try discriminate.
      - apply (least_of_unique m). cbn in P. exact P.
      - destruct (Z.ltb 0 z); discriminate. }
    exact X.
Qed.

(** ** Data *)
Lemma parts_det ts s p s' p' : parts ts s p -> parts ts s' p' -> s = s' /\ p = p'.
Proof.
  intros H. revert s' p'. induction H as [|t r ts s p E H IH|t ts s p E H IH]; intros s' p' K.
  - inversion K. auto.
  - inversion K as [|? r' ? s1 p1 E' K'|? ? ? p1 E' K']; subst; [|congruence]. destruct (IH _ _ K') as [-> ->]. split; congruence.
  - inversion K as [|? r' ? s1 p1 E' K'|? ? ? p1 E' K']; subst; [congruence|]. destruct (IH _ _ K') as [-> ->]. split; congruence.
Qed.
Lemma parts_total ts : exists s p, parts ts s p.
Proof.
  induction ts as [|t ts (s & p & IH)]; [exists [], []; constructor|].
  destruct (t_report t) as [r|] eqn:E; [exists ((t, r) :: s), p|exists s, (t :: p)]; constructor; assumption.
Qed.
Lemma parts_in ts s p : parts ts s p -> forall t r, In (t, r) s <-> In t ts /\ t_report t = Some r.
Proof.
  induction 1 as [|t r ts s p E H IH|t ts s p E H IH]; intros t' r'; cbn.
  - split; [intros []|intros [[] _]].
  - rewrite IH. split; [intros [[= <- <-]|[A B]]; auto|]. intros [[<-|A] B]; [left; congruence|right; auto].
  - rewrite IH. split; [intros [A B]; auto|]. intros [[<-|A] B]; [congruence|auto].
Qed.
Lemma split_parts ts s p : parts ts s p -> split_trials ts =
  (map (fun tr => (t_config (fst tr), or_nan (r_loss (snd tr)), or_nan (r_cost (snd tr)))) s, map t_config p).
Proof.
  induction 1 as [|t r ts s p E H IH|t ts s p E H IH]; [reflexivity| |]; cbn [split_trials map]; rewrite IH, E; reflexivity.
Qed.

Definition ys (s : list (trial * report)) : list fl := map (fun tr => or_nan (r_loss (snd tr))) s.
Lemma known_ys s : filter (fun x => negb (fl_isnan x)) (ys s) = known_losses s.
Proof.
  induction s as [|[t r] s IH]; [reflexivity|]. change (known_losses ((t, r) :: s)) with (loss_of (t, r) ++ known_losses s). change (ys ((t, r) :: s)) with (or_nan (r_loss r) :: ys s).
  cbn [filter]. rewrite IH. unfold loss_of. cbn [snd]. destruct (r_loss r) as [[| | |z]|]; reflexivity.
Qed.
Lemma known_no_nan s : ~ In FNaN (known_losses s).
Proof. rewrite <- known_ys. rewrite filter_In. intros [_ H]. discriminate H. Qed.

(** Sorting *)
Definition sorted_fl := ForallOrdPairs (fun x y => fl_ltb y x = false).
Lemma insert_fl_spec x l : x <> FNaN -> ~ In FNaN l -> sorted_fl l -> sorted_fl (insert_fl x l) /\ Permutation (insert_fl x l) (x :: l).
Proof.
  induction l as [|y l IH]; intros Nx N S_; [split; [repeat constructor|reflexivity]|]. cbn [insert_fl].
  assert (Ny : y <> FNaN) by (intros ->; apply N; left; reflexivity).
  inversion S_ as [|? ? F G]; subst. destruct (fl_ltb y x) eqn:E.
  - destruct IH as [A B]; [exact Nx|intros I; apply N; right; exact I|exact G|]. split.
    + constructor; [|exact A]. apply Forall_forall. intros z Z. apply (Permutation_in _ B) in Z. destruct Z as [<-|Z]; [apply fl_ltb_asym; exact E|].
      rewrite Forall_forall in F. apply F. exact Z.
    + rewrite B. apply perm_swap.
  - split; [|reflexivity]. constructor; [|exact S_]. constructor; [exact E|]. apply Forall_forall. intros z Z. rewrite Forall_forall in F.
    eapply fl_nlt_trans; [exact Ny|exact E|apply F; exact Z].
Qed.
Lemma sort_spec l : ~ In FNaN l -> sorted_fl (fold_right insert_fl [] l) /\ Permutation (fold_right insert_fl [] l) l.
Proof.
  induction l as [|x l IH]; intros N; [split; [constructor|reflexivity]|]. cbn [fold_right].
  destruct IH as [A B]; [intros I; apply N; right; exact I|].
  destruct (insert_fl_spec x (fold_right insert_fl [] l)) as [C D].
  - intros ->. apply N. left. reflexivity.
  - intros I. apply N. right. apply (Permutation_in _ B). exact I.
  - exact A.
  - split; [exact C|]. rewrite D. constructor. exact B.
Qed.
Lemma perm_filter {A} (f : A -> bool) l l' : Permutation l l' -> length (filter f l) = length (filter f l').
Proof.
  induction 1; cbn; [reflexivity| | |congruence].
  - destruct (f x); cbn; congruence.
  - destruct (f x), (f y); reflexivity.
Qed.
Lemma filter_none {A} (f : A -> bool) l : (forall x, In x l -> f x = false) -> filter f l = [].
Proof.
  induction l as [|x l IH]; intros H; [reflexivity|]. cbn. rewrite (H x (or_introl eq_refl)). apply IH. intros y Y. apply H. right. exact Y.
Qed.
Lemma filter_len {A} (f : A -> bool) l : length (filter f l) <= length l.
Proof. induction l as [|x l IH]; cbn; [lia|]. destruct (f x); cbn; lia. Qed.
Lemma nth_parts {A} (l : list A) j d : j < length l -> l = firstn j l ++ nth j l d :: skipn (S j) l.
Proof.
  revert j. induction l as [|x l IH]; intros j L; [cbn in L; lia|]. destruct j as [|j]; [reflexivity|]. cbn [firstn nth skipn app]. f_equal.
  apply IH. cbn in L. lia.
Qed.
Lemma middle_is_median l s : sorted_fl s -> Permutation s l -> l <> [] -> is_median (nth ((length s - 1) / 2) s FNaN) l.
Proof.
  intros S_ P N. pose proof (Permutation_length P) as LP.
  assert (K : 0 < length s). { destruct s; [|cbn; lia]. exfalso. apply Permutation_nil in P. congruence. }
  set (j := (length s - 1) / 2). assert (J : j < length s). { unfold j. apply Nat.div_lt_upper_bound; lia. }
  assert (J2 : 2 * j <= length s - 1 < 2 * j + 2).
  { unfold j. pose proof (Nat.div_mod (length s - 1) 2 ltac:(lia)) as X. pose proof (Nat.mod_upper_bound (length s - 1) 2 ltac:(lia)). lia. }
  pose proof (nth_parts s j FNaN J) as E. set (m := nth j s FNaN) in *.
  pose proof S_ as S2. unfold sorted_fl in S2. rewrite E in S2. apply FOP_app_inv in S2. destruct S2 as (S1 & S2 & S3).
  inversion S2 as [|? ? F _]; subst. rewrite Forall_forall in F.
  split; [|split].
  - apply (Permutation_in _ P). apply nth_In. exact J.
  - rewrite <- (perm_filter _ _ _ P), <- LP. rewrite E at 1. rewrite filter_app, app_length.
    rewrite (filter_none _ (m :: _)); [|intros x [<-|X]; [apply fl_ltb_irrefl|apply F; exact X]].
    pose proof (filter_len (fun x => fl_ltb x m) (firstn j s)) as Y. pose proof (firstn_le_length j s). cbn [length]. lia.
  - rewrite <- (perm_filter _ _ _ P), <- LP. rewrite E at 1. rewrite filter_app, app_length.
    rewrite (filter_none _ (firstn j s)); [|intros x X; apply (S3 x m X); left; reflexivity]. cbn [length filter].
    rewrite fl_ltb_irrefl. pose proof (filter_len (fun x => fl_ltb m x) (skipn (S j) s)) as Y. rewrite skipn_length in Y. lia.
Qed.
Lemma filter_neg {A} (f : A -> bool) l : length (filter f l) + length (filter (fun x => negb (f x)) l) = length l.
Proof. induction l as [|x l IH]; [reflexivity|]. cbn. destruct (f x); cbn; lia. Qed.
Lemma filter_le {A} (f g : A -> bool) l : (forall x, In x l -> f x = true -> g x = true) -> length (filter f l) <= length (filter g l).
Proof.
  induction l as [|x l IH]; intros H; [cbn; lia|]. cbn. assert (IH' := IH (fun y Y => H y (or_intror Y))).
  destruct (f x) eqn:E; [rewrite (H x (or_introl eq_refl) E); cbn; lia|]. destruct (g x); cbn; lia.
Qed.
Lemma median_le m m' l : ~ In FNaN l -> is_median m l -> is_median m' l -> fl_ltb m m' = false.
Proof.
  intros N (A1 & A2 & A3) (B1 & B2 & B3). destruct (fl_ltb m m') eqn:E; [|reflexivity]. exfalso.
  pose proof (filter_neg (fun x => fl_ltb x m') l) as Q.
  assert (length (filter (fun x => negb (fl_ltb x m')) l) <= length (filter (fun x => fl_ltb m x) l)) as W.
  { apply filter_le. intros x X Y. apply Bool.negb_true_iff in Y. destruct (fl_ltb m x) eqn:G; [reflexivity|]. exfalso.
    assert (x <> FNaN) as Nx by (intros ->; contradiction).
    assert (fl_ltb m m' = false) as C by (exact (fl_nlt_trans m' x m Nx Y G)). congruence. }
  lia.
Qed.
Lemma median_unique m m' l : ~ In FNaN l -> is_median m l -> is_median m' l -> m = m'.
Proof.
  intros N A B. apply fl_tri; [| |eapply median_le; eassumption|eapply median_le; eassumption].
  - intros ->. apply N. apply A.
  - intros ->. apply N. apply B.
Qed.
Lemma nanmedian_spec s : known_losses s <> [] -> is_median (nanmedian (ys s)) (known_losses s).
Proof.
  intros N. unfold nanmedian. rewrite known_ys. destruct (sort_spec (known_losses s) (known_no_nan s)) as [A B]. apply middle_is_median; assumption.
Qed.
Lemma nanmedian_none s : known_losses s = [] -> nanmedian (ys s) = FNaN.
Proof. intros N. unfold nanmedian. rewrite known_ys, N. reflexivity. Qed.
Lemma target_ys s r : target s r (nan_to_num (nanmedian (ys s)) (or_nan (r_loss r))).
Proof.
  assert (M : (r_loss r = None \/ r_loss r = Some FNaN) -> target s r (nanmedian (ys s))).
  { intros H. destruct (known_losses s) as [|l k] eqn:E.
    - rewrite nanmedian_none by exact E. apply ta_nothing; assumption.
    - apply ta_missing; [exact H|]. apply nanmedian_spec. rewrite E. discriminate. }
  destruct (r_loss r) as [[| | |z]|] eqn:E; cbn; [apply M; auto| | | |apply M; auto].
  - apply ta_pinf. exact E.
  - apply ta_ninf. exact E.
  - apply ta_loss. exact E.
Qed.
Lemma target_unique_p s r y y' : target s r y -> target s r y' -> y = y'.
Proof.
  intros A B. destruct A as [r z E|r E|r E|r m E M|r E M]; inversion B as [r' z' E'|r' E'|r' E'|r' m' E' M'|r' E' M']; subst; try congruence;
    try (destruct E; congruence); try (destruct E'; congruence).
  - eapply median_unique; [apply known_no_nan|exact M|exact M'].
  - rewrite M' in M. destruct M as [[] _].
  - rewrite M in M'. destruct M' as [[] _].
Qed.
Lemma Forall2_map_r {A B} (R : A -> B -> Prop) (g : A -> B) l : (forall x, In x l -> R x (g x)) -> Forall2 R l (map g l).
Proof. induction l as [|x l IH]; intros H; constructor; [apply H; left; reflexivity|]. apply IH. intros y Y. apply H. right. exact Y. Qed.
Lemma gp_data_p encode ts s p : parts ts s p -> let d := encode_trials encode ts in
  gp_x d = map (fun tr => encode (t_config (fst tr))) s /\
  Forall2 (fun tr y => target s (snd tr) y) s (gp_y d) /\
  Forall2 (fun tr c => r_cost (snd tr) = Some c \/ r_cost (snd tr) = None /\ c = FNaN) s (gp_cost d) /\
  (p = [] /\ gp_pending d = None \/ p <> [] /\ gp_pending d = Some (map (fun t => encode (t_config t)) p)).
Proof.
  intros H. unfold encode_trials. rewrite (split_parts _ _ _ H). cbn [gp_x gp_y gp_cost gp_pending]. rewrite !map_map. cbn [fst snd].
  split; [reflexivity|split; [|split]].
  - apply Forall2_map_r. intros tr _. apply target_ys.
  - apply Forall2_map_r. intros tr _. destruct (r_cost (snd tr)); cbn; auto.
  - destruct p as [|t p]; [left; auto|right]. split; [discriminate|]. reflexivity.
Qed.

(** ** Combinations of categories *)
Lemma combos_eq cats : n_combos cats = combinations cats.
Proof.
  unfold n_combos. assert (G : forall l a, fold_left (fun x (c : nat * nat) => x * snd c) l a = a * combinations l).
  { induction l as [|c l IH]; intros a; cbn [fold_left combinations fold_right]; [lia|]. rewrite IH. unfold combinations. lia. }
  rewrite G. lia.
Qed.
Lemma fixed_general cats : fixed_cats cats = map (fun combo => combine (map fst cats) combo) (product (map (fun c => seq 0 (snd c)) cats)).
Proof.
  destruct cats as [|[col n] [|c cats]]; try reflexivity. cbn [fixed_cats map fst snd product].
  induction (seq 0 n) as [|i l IH]; [reflexivity|]. cbn [flat_map map app]. rewrite IH. reflexivity.
Qed.
Lemma choice_combo cats f : choice_of cats f <-> exists vs, f = combine (map fst cats) vs /\ Forall2 (fun v l => In v l) vs (map (fun c => seq 0 (snd c)) cats).
Proof.
  unfold choice_of. split.
  - induction 1 as [|c [a b] cats f [E L] H (vs & -> & IH)]; [exists []; split; [reflexivity|constructor]|].
    exists (b :: vs). cbn in E, L |- *. subst a. split; [reflexivity|]. constructor; [apply in_seq; lia|exact IH].
  - intros (vs & -> & H). revert vs H. induction cats as [|c cats IH]; intros vs H; cbn [map] in H; inversion H as [|v ? vs' ? I J]; subst; cbn [map combine]; constructor.
    + cbn. apply in_seq in I. split; [reflexivity|lia].
    + apply IH. exact J.
Qed.
Lemma fixed_in cats f : In f (fixed_cats cats) <-> choice_of cats f.
Proof.
  rewrite fixed_general, choice_combo, in_map_iff. split.
  - intros (vs & <- & I). apply product_in in I. exists vs. auto.
  - intros (vs & -> & I). exists vs. split; [reflexivity|]. apply product_in. exact I.
Qed.
Lemma fixed_length cats : length (fixed_cats cats) = combinations cats.
Proof.
  rewrite fixed_general, map_length, product_length, map_map. induction cats as [|c cats IH]; [reflexivity|]. cbn. rewrite seq_length, IH. reflexivity.
Qed.
Lemma product_nodup {B} (ls : list (list B)) : Forall (@NoDup B) ls -> NoDup (product ls).
Proof.
  induction 1 as [|l ls H _ IH]; cbn [product]; [repeat constructor; intros []|].
  induction H as [|x l N H IHl]; cbn [flat_map]; [constructor|]. 
  assert (G : forall (a b : list (list B)), NoDup a -> NoDup b -> (forall z, In z a -> ~ In z b) -> NoDup (a ++ b)).
  { intros a b Na Nb D. induction Na as [|z a Z Na IHa]; [exact Nb|]. cbn. constructor.
    - intros I. apply in_app_or in I. destruct I as [I|I]; [contradiction|]. exact (D z (or_introl eq_refl) I).
    - apply IHa. intros w W. apply D. right. exact W. }
  apply G; [apply FinFun.Injective_map_NoDup; [intros u v [= E]; exact E|exact IH]|exact IHl|].
  intros z Z W. apply in_map_iff in Z. destruct Z as (t & <- & _). apply in_flat_map in W. destruct W as (y & Y & W). apply in_map_iff in W.
  destruct W as (t' & E & _). injection E as -> _. contradiction.
Qed.
Lemma combine_inj (ks : list nat) : forall vs vs' : list nat, length vs = length ks -> length vs' = length ks -> combine ks vs = combine ks vs' -> vs = vs'.
Proof.
  induction ks as [|k ks IH]; intros [|v vs] [|v' vs'] L L' E; try discriminate; [reflexivity|]. cbn in E. injection E as -> E. f_equal. apply IH; [injection L; auto|injection L'; auto|exact E].
Qed.
Lemma f2_len {A B} (R : A -> B -> Prop) l m : Forall2 R l m -> length l = length m.
Proof. induction 1; cbn; congruence. Qed.
Lemma fixed_nodup cats : NoDup (fixed_cats cats).
Proof.
  rewrite fixed_general.
  assert (N : NoDup (product (map (fun c : nat * nat => seq 0 (snd c)) cats))).
  { apply product_nodup. apply Forall_map, Forall_forall. intros c _. apply seq_NoDup. }
  assert (L : forall vs, In vs (product (map (fun c : nat * nat => seq 0 (snd c)) cats)) -> length vs = length (map fst cats)).
  { intros vs I. apply product_in in I. apply f2_len in I. rewrite I, !map_length. reflexivity. }
  revert N L. generalize (product (map (fun c : nat * nat => seq 0 (snd c)) cats)) as l. intros l N L.
  induction N as [|vs l I N IH]; cbn [map]; constructor.
  - intros J. apply in_map_iff in J. destruct J as (vs' & E & J). apply combine_inj in E; [subst; contradiction|apply L; right; exact J|apply L; left; reflexivity].
  - apply IH. intros ws W. apply L. right. exact W.
Qed.
Lemma optimize_ok cats : (exists pl, optimize_acq cats 20 30 = Ok pl) <-> cats = [] \/ 1 <= combinations cats <= 30.
Proof.
  unfold optimize_acq. destruct cats as [|c cats]; [split; [auto|eexists; reflexivity]|]. set (l := c :: cats). rewrite combos_eq.
  destruct (Nat.ltb 30 (combinations l)) eqn:E; [apply Nat.ltb_lt in E|apply Nat.ltb_ge in E].
  - split; [intros [? H]; discriminate H|]. intros [H|H]; [discriminate H|lia].
  - destruct (combinations l) eqn:K; (split; [intros [? H]|intros [H|H]]); try discriminate H; try lia; try (right; lia). eexists; reflexivity.
Qed.
Lemma ok_inj {A} (x y : A) : Ok x = Ok y -> x = y.
Proof. intros H. injection H as H. exact H. Qed.
Lemma plan_mixed cats pl : cats <> [] -> optimize_acq cats 20 30 = Ok pl ->
  exists k fixed, pl = Mixed k fixed /\ length fixed = combinations cats /\ NoDup fixed /\ (forall f, In f fixed <-> choice_of cats f) /\
  (0 < k <-> combinations cats <= 20) /\ k <= 2.
Proof.
  intros N. unfold optimize_acq. destruct cats as [|c cats]; [congruence|]. set (l := c :: cats). rewrite combos_eq.
  destruct (Nat.ltb 30 (combinations l)) eqn:E; [discriminate|]. destruct (combinations l) as [|n] eqn:K; [discriminate|]. intros H. apply ok_inj in H. subst pl.
  exists (Nat.min (20 / S n) 2), (fixed_cats l). rewrite <- K. split; [reflexivity|split; [apply fixed_length|split; [apply fixed_nodup|split; [apply fixed_in|]]]].
  split; [|apply Nat.le_min_r]. rewrite K. split; intros H.
  - destruct (Nat.le_gt_cases (S n) 20) as [G|G]; [exact G|]. rewrite Nat.div_small in H by exact G. cbn in H. lia.
  - assert (1 <= 20 / S n) by (apply Nat.div_le_lower_bound; lia). lia.
Qed.

(** ** Asking *)
Lemma gp_y_eq encode ts s p : parts ts s p -> gp_y (encode_trials encode ts) = map (nan_to_num (nanmedian (ys s))) (ys s).
Proof. intros H. unfold encode_trials. rewrite (split_parts _ _ _ H). cbn [gp_y]. rewrite !map_map. cbn [fst snd]. unfold ys. rewrite map_map. reflexivity. Qed.
Lemma finite_ex x : is_finite x = true <-> exists z, x = FZ z.
Proof. destruct x; cbn; split; intros H; try discriminate; try (destruct H; discriminate); try (eexists; reflexivity); reflexivity. Qed.
Lemma known_has ts s p : parts ts s p -> forall l, In l (known_losses s) <-> exists t, In t ts /\ has_loss t l.
Proof.
  intros H l. unfold known_losses. rewrite in_flat_map. split.
  - intros ([t r] & I & J). apply (parts_in _ _ _ H) in I. destruct I as [I R]. exists t. split; [exact I|]. exists r. split; [exact R|].
    unfold loss_of in J. cbn in J. destruct (r_loss r) as [[| | |z]|]; cbn in J; try contradiction; destruct J as [<-|[]]; (split; [reflexivity|discriminate]).
  - intros (t & I & r & R & L & N). exists (t, r). split; [apply (parts_in _ _ _ H); auto|]. unfold loss_of. cbn. rewrite L. destruct l; try congruence; left; reflexivity.
Qed.
Lemma make_gp_ok encode ts : make_gp (gp_y (encode_trials encode ts)) = Ok tt <-> enough_losses ts.
Proof.
  destruct (parts_total ts) as (s & p & H). rewrite (gp_y_eq encode ts s p H). split.
  - intros M. assert (NE : ys s <> []) by (intros E; rewrite E in M; discriminate M).
    assert (F : forall r, In r (map snd s) -> exists z, nan_to_num (nanmedian (ys s)) (or_nan (r_loss r)) = FZ z).
    { intros r R. apply finite_ex. unfold make_gp in M. destruct (map _ (ys s)) eqn:E; [destruct (ys s); [congruence|discriminate E]|]. rewrite <- E in M.
      destruct (forallb is_finite _) eqn:Q; [|discriminate M]. rewrite forallb_forall in Q. apply Q. apply in_map. unfold ys. rewrite <- (map_map snd (fun r => or_nan (r_loss r))).
      apply in_map_iff. exists r. auto. }
    split.
    + destruct (known_losses s) as [|l k] eqn:K.
      * exfalso. destruct s as [|[t r] s]; [apply NE; reflexivity|]. destruct (F r (or_introl eq_refl)) as [z Z].
        rewrite nanmedian_none in Z by exact K. cbn in K. destruct (r_loss r) as [[| | |]|] eqn:E; try discriminate Z; unfold loss_of in K; cbn in K; rewrite E in K; discriminate K.
      * assert (I : In l (known_losses s)) by (rewrite K; left; reflexivity). apply (known_has _ _ _ H) in I. destruct I as (t & I & L). exists t, l. auto.
    + intros t s' p' m I (r & R & L) P Md. destruct (parts_det _ _ _ _ _ H P) as [<- <-].
      destruct (F r) as [z Z]; [apply in_map_iff; exists (t, r); split; [reflexivity|apply (parts_in _ _ _ H); auto]|].
      exists z. assert (nanmedian (ys s) = FZ z) as <- by (destruct L as [L|L]; rewrite L in Z; exact Z).
      eapply median_unique; [apply known_no_nan|exact Md|]. apply nanmedian_spec. intros E. rewrite E in Md. destruct Md as [[] _].
  - intros [(t & l & I & L) M].
    assert (K : In l (known_losses s)) by (apply (known_has _ _ _ H); eauto).
    assert (N : known_losses s <> []) by (intros E; rewrite E in K; destruct K).
    unfold make_gp. destruct (map _ (ys s)) as [|y0 y'] eqn:E.
    + exfalso. destruct L as (r & R & _). assert (J : In (t, r) s) by (apply (parts_in _ _ _ H); auto). destruct s; [destruct J|discriminate E].
    + rewrite <- E. assert (Q : forallb is_finite (map (nan_to_num (nanmedian (ys s))) (ys s)) = true).
      { apply forallb_forall. intros y Y. apply in_map_iff in Y. destruct Y as (x & <- & X). unfold ys in X. apply in_map_iff in X. destruct X as ([t' r'] & <- & X).
        apply (parts_in _ _ _ H) in X. destruct X as [X1 X2]. cbn [snd].
        assert (W : (r_loss r' = None \/ r_loss r' = Some FNaN) -> is_finite (nanmedian (ys s)) = true).
        { intros B. apply finite_ex. eapply (M t'); [exact X1|exists r'; auto|exact H|apply nanmedian_spec; exact N]. }
        destruct (r_loss r') as [[| | |z]|]; cbn; auto. }
      rewrite Q. reflexivity.
Qed.
Lemma gp_cost_eq encode ts s p : parts ts s p -> gp_cost (encode_trials encode ts) = map (fun tr => or_nan (r_cost (snd tr))) s.
Proof. intros H. unfold encode_trials. rewrite (split_parts _ _ _ H). cbn [gp_cost]. rewrite map_map. reflexivity. Qed.
Lemma cost_part_ok encode ts log u m : enough_losses ts ->
  cost_part (gp_cost (encode_trials encode ts)) log u m = Ok tt <-> enough_costs log ts /\ in_unit u m = true.
Proof.
  intros [(t & l & I & r & R & _) _]. destruct (parts_total ts) as (s & p & H). rewrite (gp_cost_eq encode ts s p H).
  set (cs := map _ s).
  assert (C : forall c, In c cs <-> exists t r, In t ts /\ t_report t = Some r /\ c = or_nan (r_cost r)).
  { intros c. unfold cs. rewrite in_map_iff. split.
    - intros ([t' r'] & <- & X). apply (parts_in _ _ _ H) in X. exists t', r'. tauto.
    - intros (t' & r' & A & B & ->). exists (t', r'). split; [reflexivity|]. apply (parts_in _ _ _ H). auto. }
  assert (NE : cs <> []). { intros E. assert (In (or_nan (r_cost r)) cs) as X by (apply C; eauto). rewrite E in X. destruct X. }
  unfold cost_part. split.
  - destruct (existsb fl_isnan cs) eqn:E1; [discriminate|]. unfold make_gp. destruct cs as [|c0 cs'] eqn:EC; [congruence|]. rewrite <- EC in *.
    destruct (forallb is_finite cs) eqn:E2; [|discriminate]. cbn [bind].
    destruct (log && negb _) eqn:E3; [discriminate|]. destruct (in_unit u m) eqn:E4; [|discriminate]. intros _. split; [|reflexivity].
    intros t' r' T' R'. rewrite forallb_forall in E2. assert (X : In (or_nan (r_cost r')) cs) by (apply C; eauto). pose proof (E2 _ X) as F. apply finite_ex in F. destruct F as [z Z].
    exists z. destruct (r_cost r') as [c|] eqn:Q; cbn in Z; [subst c|discriminate]. split; [reflexivity|]. intros ->. cbn in E3. apply Bool.negb_false_iff in E3.
    rewrite forallb_forall in E3. specialize (E3 _ X). cbn in E3. lia.
  - intros [G U]. assert (B : forall c, In c cs -> exists z, c = FZ z /\ (log = true -> (0 < z)%Z)).
    { intros c X. apply C in X. destruct X as (t' & r' & A & B & ->). destruct (G t' r' A B) as (z & -> & P). exists z. auto. }
    assert (existsb fl_isnan cs = false) as ->.
    { destruct (existsb _ _) eqn:X; [|reflexivity]. apply existsb_exists in X. destruct X as (c & X & Y). destruct (B c X) as (z & -> & _). discriminate Y. }
    assert (make_gp cs = Ok tt) as ->.
    { unfold make_gp. destruct cs as [|c0 cs'] eqn:EC; [congruence|]. rewrite <- EC in *. assert (forallb is_finite cs = true) as ->; [|reflexivity]. apply forallb_forall. intros c X. destruct (B c X) as (z & -> & _). reflexivity. }
    cbn [bind]. assert (log && negb (forallb (fl_ltb (FZ 0)) cs) = false) as ->.
    { destruct log; [|reflexivity]. cbn. apply Bool.negb_false_iff. apply forallb_forall. intros c X. destruct (B c X) as (z & -> & P). cbn. specialize (P eq_refl). lia. }
    rewrite U. reflexivity.
Qed.
Lemma within_ok b : within_budget b <-> exists u m, cost_percent true b = Ok (Some (u, m)) /\ in_unit u m = true.
Proof.
  unfold within_budget, cost_percent. destruct b as [[mx u me ue]|]; cbn [option_map b_max_cost b_used_cost].
  - destruct mx as [m|].
    + split.
      * intros (u' & m' & [= <-] & [= <-] & W). exists u, m. destruct W as [(zu & zm & -> & -> & W)|[(zu & ->) W]].
        -- cbn. assert (Z.eqb zm 0 = false) as -> by lia. split; [reflexivity|]. destruct (Z.ltb 0 zm) eqn:E; lia.
        -- destruct W as [->| ->]; cbn; auto.
      * intros (u' & m' & E & W). destruct (fl_eqb m (FZ 0)) eqn:Z0; [discriminate|]. injection E as <- <-. exists u, m. split; [reflexivity|split; [reflexivity|]].
        destruct u as [| | |zu], m as [| | |zm]; try discriminate W; [right; split; [eexists; reflexivity|auto]..|]. left. exists zu, zm. split; [reflexivity|split; [reflexivity|]].
        cbn in W, Z0. destruct (Z.ltb 0 zm) eqn:E; lia.
    + split; [intros (? & ? & _ & E & _); discriminate E|intros (? & ? & E & _); discriminate E].
  - split; [intros (? & ? & E & _); discriminate E|intros (? & ? & E & _); discriminate E].
Qed.

Section Asking.
  Variables (decode : row -> dict) (encode : dict -> row) (candidate : gpdata -> plan -> row).
  Local Notation ask := (ask decode encode candidate).
  Lemma get_design_ok o made draw : (exists d, get_design decode o made draw = Ok d) <-> made <> None \/ forall z, bo_size o = Some z -> (0 < z)%Z.
  Proof.
    unfold get_design. destruct made as [d|]; [split; [left; discriminate|eexists; reflexivity]|]. rewrite design_ok. split.
    - intros [_ H]. right. intros z E. rewrite E in H. exact H.
    - intros [H|H]; [congruence|]. split; [exact Logic.I|]. destruct (bo_size o) as [z|]; [apply H; reflexivity|exact Logic.I].
  Qed.
  Lemma ask_design o made draw ts b d : get_design decode o made draw = Ok d -> forall c, nth_error d (length ts) = Some c ->
    ask o made draw ts b = Ok (d, mkSampled c (py_str_nat (length ts + 1)) None).
  Proof. intros G c N. unfold Bo_model.ask. rewrite G. cbn [bind]. rewrite N. reflexivity. Qed.
  Lemma ask_model o made draw ts b d : get_design decode o made draw = Ok d -> length d <= length ts ->
    (exists a, ask o made draw ts b = Ok a) <->
    enough_losses ts /\ (bo_use_cost o = true -> enough_costs (bo_log o) ts /\ within_budget b) /\ (bo_cats o = [] \/ 1 <= combinations (bo_cats o) <= 30).
  Proof.
    intros G L. unfold Bo_model.ask. rewrite G. cbn [bind]. apply nth_error_None in L. rewrite L. rewrite <- optimize_ok, <- (make_gp_ok encode).
    assert (WC := within_ok b). destruct (bo_use_cost o) eqn:U.
    - split.
      + intros [a E]. destruct (cost_percent true b) as [[[u m]|]|e] eqn:P; cbn [bind] in E; [| |discriminate E].
        * destruct (make_gp _) as [[]|e] eqn:MG; cbn [bind] in E; [|discriminate E]. destruct (cost_part _ _ _ _) as [[]|e] eqn:CP; cbn [bind] in E; [|discriminate E].
          apply cost_part_ok in CP; [|apply (make_gp_ok encode); exact MG]. destruct (optimize_acq _ _ _) as [pl|e] eqn:OA; cbn [bind] in E; [|discriminate E].
          split; [reflexivity|split; [|eexists; reflexivity]]. intros _. split; [apply CP|]. apply WC. exists u, m. split; [reflexivity|apply CP].
        * unfold cost_percent in P. destruct b as [b|]; [|discriminate]. destruct (b_max_cost b); [|discriminate]. destruct (fl_eqb _ _); discriminate P.
      + intros (MG & C & [pl OA]). destruct (C eq_refl) as [EC WB]. apply WC in WB. destruct WB as (u & m & P & IU). rewrite P. cbn [bind]. rewrite MG. cbn [bind].
        assert (CP : cost_part (gp_cost (encode_trials encode ts)) (bo_log o) u m = Ok tt) by (apply cost_part_ok; [apply (make_gp_ok encode); exact MG|auto]).
        rewrite CP. cbn [bind]. rewrite OA. cbn [bind]. eexists; reflexivity.
    - cbn [cost_percent bind]. split.
      + intros [a E]. destruct (make_gp _) as [[]|e] eqn:MG; cbn [bind] in E; [|discriminate E]. destruct (optimize_acq _ _ _) as [pl|e] eqn:OA; cbn [bind] in E; [|discriminate E].
        split; [reflexivity|split; [discriminate|eexists; reflexivity]].
      + intros (MG & _ & [pl OA]). rewrite MG. cbn [bind]. rewrite OA. eexists; reflexivity.
  Qed.
  Lemma ask_after o made draw ts b d a : get_design decode o made draw = Ok d -> length d <= length ts -> ask o made draw ts b = Ok a ->
    exists pl, optimize_acq (bo_cats o) 20 30 = Ok pl /\ a = (d, mkSampled (decode (candidate (encode_trials encode ts) pl)) (py_str_nat (length ts + 1)) None).
  Proof.
    intros G L. unfold Bo_model.ask. rewrite G. cbn [bind]. apply nth_error_None in L. rewrite L.
    destruct (cost_percent _ _) as [p|e]; cbn [bind]; [|discriminate]. destruct (make_gp _) as [[]|e]; cbn [bind]; [|discriminate].
    destruct (match p with Some (u, m) => _ | None => _ end) as [[]|e]; cbn [bind]; [|discriminate]. destruct (optimize_acq _ _ _) as [pl|e]; cbn [bind]; [|discriminate].
    intros [= <-]. exists pl. auto.
  Qed.
  Lemma ask_keeps o made draw ts b d c : ask o made draw ts b = Ok (d, c) -> get_design decode o made draw = Ok d.
  Proof.
    unfold Bo_model.ask. destruct (get_design _ _ _ _) as [d'|e]; cbn [bind]; [|discriminate]. intros H. f_equal.
    destruct (nth_error d' _); [congruence|]. destruct (cost_percent _ _) as [p|e]; cbn [bind] in H; [|discriminate]. destruct (make_gp _) as [[]|e]; cbn [bind] in H; [|discriminate].
    destruct (match p with Some (u, m) => _ | None => _ end) as [[]|e]; cbn [bind] in H; [|discriminate]. destruct (optimize_acq _ _ _) as [pl|e]; cbn [bind] in H; [|discriminate]. congruence.
  Qed.

  (** Runs *)
  Lemma answers_step o made q qs : answers decode encode candidate o made (q :: qs) =
    match ask o (made (q_proc q)) (q_draw q) (q_trials q) (q_budget q) with Ok (_, c) => Ok c | Err e => Err e end ::
    answers decode encode candidate o (match get_design decode o (made (q_proc q)) (q_draw q) with Ok d => remember made (q_proc q) d | Err _ => made end) qs.
  Proof.
    cbn [answers]. destruct (ask _ _ _ _ _) as [[d c]|e] eqn:E; [|reflexivity]. rewrite (ask_keeps _ _ _ _ _ _ _ E). reflexivity.
  Qed.
  Definition first_draws (D : nat -> list dict) (o : bo) (made : nat -> option (list dict)) (qs : list qstep) : Prop :=
    forall k, (exists q, In q qs /\ q_proc q = k) ->
      made k = Some (D k) \/ made k = None /\ exists q, In q qs /\ q_proc q = k /\ get_design decode o None (q_draw q) = Ok (D k).
  Lemma answers_p o qs : (forall z, bo_size o = Some z -> (0 < z)%Z) -> forall made, exists D, first_draws D o made qs /\
    forall i q, nth_error qs i = Some q -> forall c, nth_error (D (q_proc q)) (length (q_trials q)) = Some c ->
    nth_error (answers decode encode candidate o made qs) i = Some (Ok (mkSampled c (py_str_nat (length (q_trials q) + 1)) None)).
  Proof.
    intros Z. induction qs as [|q qs IH]; intros made.
    - exists (fun _ => []). split; [intros k (q & [] & _)|]. intros [|i] q N; discriminate N.
    - destruct (proj2 (get_design_ok o (made (q_proc q)) (q_draw q)) (or_intror Z)) as [d GD].
      destruct (IH (remember made (q_proc q) d)) as (D & FD & A).
      exists (fun k => if Nat.eqb k (q_proc q) then d else D k). split.
      + intros k (q' & I & P). destruct (Nat.eqb k (q_proc q)) eqn:E.
        * apply Nat.eqb_eq in E. rewrite E. destruct (made (q_proc q)) as [d'|] eqn:M; [left; cbn in GD; congruence|right]. split; [reflexivity|]. exists q. split; [left; reflexivity|split; [reflexivity|exact GD]].
        * destruct I as [<-|I]; [apply Nat.eqb_neq in E; congruence|]. destruct (FD k) as [F|[F (q'' & I' & P' & G')]]; [exists q'; auto| |].
          -- left. unfold remember in F. rewrite E in F. exact F.
          -- right. unfold remember in F. rewrite E in F. split; [exact F|]. exists q''. split; [right; exact I'|auto].
      + intros i q' N c C. rewrite answers_step, GD. destruct i as [|i]; cbn [nth_error] in N |- *.
        * injection N as <-. rewrite Nat.eqb_refl in C. rewrite (ask_design _ _ _ _ (q_budget q) _ GD c C). reflexivity.
        * apply A; [exact N|]. destruct (Nat.eqb (q_proc q') (q_proc q)) eqn:E; [|exact C].
          destruct (FD (q_proc q')) as [F|[F _]]; [exists q'; split; [eapply nth_error_In; exact N|reflexivity]| |].
          -- unfold remember in F. rewrite E in F. injection F as <-. exact C.
          -- unfold remember in F. rewrite E in F. discriminate F.
  Qed.
End Asking.

(** ** The stored budget and the check of the worker *)
From Verif Require Import Eval_model Runtime_model.
Definition costs_of (rs : list report) : list fl := flat_map (fun r => match r_cost r with Some c => [c] | None => [] end) rs.
Lemma cost_of_reports ts : flat_map cost_of ts = costs_of (reports_of ts).
Proof.
  induction ts as [|t ts IH]; [reflexivity|]. unfold costs_of in *. cbn. rewrite IH. unfold cost_of. destruct (t_report t) as [r|]; [|reflexivity]. cbn. reflexivity.
Qed.
Definition zsum (l : list fl) : Z := fold_right (fun c n => match c with FZ z => z + n | _ => n end)%Z 0%Z l.
Lemma fl_sum_z l a : (forall c, In c l -> exists z, c = FZ z) -> fold_left fl_add l (FZ a) = FZ (a + zsum l).
Proof.
  revert a. induction l as [|c l IH]; intros a H; cbn [fold_left zsum fold_right]; [f_equal; lia|].
  destruct (H c (or_introl eq_refl)) as [z ->]. cbn [fl_add]. rewrite IH by (intros d D; apply H; right; exact D). unfold zsum. f_equal. lia.
Qed.
Lemma zsum_perm l l' : Permutation l l' -> zsum l = zsum l'.
Proof. induction 1 as [|x l l' _ IH|x y l|]; cbn; [reflexivity| | |congruence]; unfold zsum in *; [destruct x|destruct x, y]; lia. Qed.
Lemma zsum_pos l : (forall c, In c l -> exists z, c = FZ z /\ (0 <= z)%Z) -> (0 <= zsum l)%Z.
Proof. induction l as [|c l IH]; intros H; cbn; [lia|]. destruct (H c (or_introl eq_refl)) as (z & -> & P). specialize (IH (fun d D => H d (or_intror D))). unfold zsum in *. lia. Qed.
Lemma charge_all m me ue rs u : fold_left charge rs (Some (mkBudget m u me ue)) = Some (mkBudget m (fold_left fl_add (costs_of rs) u) me ue).
Proof.
  revert u. induction rs as [|r rs IH]; intros u; [reflexivity|]. cbn [fold_left costs_of flat_map]. unfold charge at 2. destruct (r_cost r) as [c|]; cbn; rewrite IH; reflexivity.
Qed.
Lemma costs_perm rs rs' : Permutation rs rs' -> Permutation (costs_of rs) (costs_of rs').
Proof.
  unfold costs_of. induction 1 as [|x l l' _ IH|x y l|]; cbn; [reflexivity| | |etransitivity; eassumption].
  - apply Permutation_app_head. exact IH.
  - rewrite !app_assoc. apply Permutation_app_tail. apply Permutation_app_comm.
Qed.
Lemma goes_on_within st ts rs m me : max_cost_total st = Some m -> m <> FNaN -> Permutation rs (reports_of ts) -> (forall r, In r rs -> cost_ok r) ->
  check_totals st ts = VGo -> within_budget (fold_left charge rs (Some (mkBudget (Some m) (FZ 0) me 0%Z))).
Proof.
  intros M NN P C V. rewrite charge_all. unfold check_totals in V. rewrite M in V. destruct (reached_Z _ _); [discriminate|].
  destruct (reached_fl (Some m) (fl_sum (flat_map cost_of ts))) eqn:R; [discriminate|]. clear V.
  assert (F : forall c, In c (costs_of rs) -> exists z, c = FZ z /\ (0 <= z)%Z).
  { intros c I. apply in_flat_map in I. destruct I as (r & I & J). destruct (r_cost r) as [c'|] eqn:E; [|destruct J]. destruct J as [<-|[]]. exact (C r I c' E). }
  assert (F' : forall c, In c (costs_of (reports_of ts)) -> exists z, c = FZ z).
  { intros c I. destruct (F c) as (z & -> & _); [|eexists; reflexivity]. eapply Permutation_in; [symmetry; apply costs_perm; exact P|exact I]. }
  unfold fl_sum in R. rewrite cost_of_reports, fl_sum_z in R by exact F'. rewrite <- (zsum_perm _ _ (costs_perm _ _ P)) in R.
  exists (FZ (0 + zsum (costs_of rs))), m. cbn [option_map b_used_cost b_max_cost]. rewrite fl_sum_z by (intros c I; destruct (F c I) as (z & -> & _); eexists; reflexivity).
  split; [reflexivity|split; [reflexivity|]]. pose proof (zsum_pos _ F) as Z0. cbn [reached_fl] in R. unfold fl_geb in R.
  destruct m as [| | |zm]; [congruence|right; split; [eexists; reflexivity|auto]|right; split; [eexists; reflexivity|auto]|]. left. do 2 eexists. split; [reflexivity|split; [reflexivity|]].
  cbn in R. left. lia.
Qed.
