(** Proofs about priors of grammars. *)
From Verif Require Import Wts_model Wts_spec.
From Coq Require Import QArith Qabs Qminmax Lqa.
Open Scope list_scope.
Local Notation length := List.length.

Lemma assoc_in {A} k (l : list (str * A)) v : assoc k l = Some v -> In (k, v) l.
Proof.
  induction l as [|(k', v') l IH]; cbn; [discriminate|]. unfold str_eqb. destruct (list_eq_dec ascii_dec k k') as [->|N].
  - intros E. left. congruence.
  - intros E. right. exact (IH E).
Qed.
Lemma total_nonneg p : (forall x, In x p -> 0 <= x) -> 0 <= total p.
Proof. induction p as [|x p IH]; cbn; intros H; [lra|]. pose proof (H x (or_introl eq_refl)). specialize (IH (fun y I => H y (or_intror I))). unfold total in IH. lra. Qed.
Lemma isclose_spec s : isclose1 s = true <-> Qabs (s - 1) <= (1 # 1000000000) * Qmax (Qabs s) 1.
Proof. unfold isclose1. apply Qle_bool_iff. Qed.
Lemma isclose_near s : isclose1 s = true -> Qabs (s - 1) <= 1 # 67108864.
Proof.
  rewrite isclose_spec. destruct (Q.max_spec (Qabs s) 1) as [(L & E)|(L & E)]; rewrite E; clear E; intros H.
  - lra.
  - revert L H. apply Qabs_case; apply Qabs_case; intros; lra.
Qed.
Lemma check1_spec G v n : check1 G v n = true <-> exists p, assoc n v = Some p /\ length p = length (rules G n) /\ Qabs (total p - 1) <= (1 # 1000000000) * Qmax (Qabs (total p)) 1.
Proof.
  unfold check1. destruct (assoc n v) as [p|]; [|split; [discriminate|intros (p & E & _); discriminate]].
  rewrite andb_true_iff, Nat.eqb_eq, isclose_spec. split; [intros (A & B); exists p; auto|]. intros (q & [= <-] & A & B). auto.
Qed.
Lemma nonterminals_in G n : In n (nonterminals G) <-> In n (map fst G).
Proof. unfold nonterminals. apply nodup_In. Qed.
Lemma rules_some G n : In n (map fst G) -> rules G n <> [].
Proof.
  intros I E. apply in_map_iff in I. destruct I as (q & <- & I). assert (J : In q (rules G (fst q))); [|rewrite E in J; destruct J].
  unfold rules. apply filter_In. split; [exact I|]. unfold str_eqb. destruct (list_eq_dec ascii_dec (fst q) (fst q)); [reflexivity|contradiction].
Qed.

Lemma search_spec t u : 0 < t -> forall p acc, (forall x, In x p -> 0 <= x) -> acc <= u * t -> u * t < acc + total p ->
  forall j, search acc t p u = j <-> acc + total (firstn j p) <= u * t /\ u * t < acc + total (firstn (S j) p).
Proof.
  intros T. induction p as [|x p IH]; intros acc P A B j; [cbn in B; lra|].
  assert (D : Qle_bool ((acc + x) / t) u = true <-> acc + x <= u * t).
  { rewrite Qle_bool_iff. split; intros H.
    - apply (Qmult_le_compat_r _ _ t) in H; [|lra]. assert (E : (acc + x) / t * t == acc + x) by (field; lra). lra.
    - apply Qle_shift_div_r; assumption. }
  cbn [search]. assert (P' : forall y, In y p -> 0 <= y) by (intros y I; apply P; right; exact I). cbn [total fold_right] in B. fold (total p) in B.
  destruct (Qle_bool ((acc + x) / t) u) eqn:E.
  - clear E. pose proof (proj1 D eq_refl) as E. assert (B' : u * t < acc + x + total p) by lra. destruct j as [|j].
    + split; [discriminate|]. cbn. intros (_ & H). lra.
    + specialize (IH (acc + x) P' E B' j). cbn [firstn]. change (total (x :: firstn j p)) with (x + total (firstn j p)).
      change (total (x :: match p with [] => [] | a :: l => a :: firstn j l end)) with (x + total (firstn (S j) p)). split.
      * intros H. injection H as H. apply IH in H. destruct H. split; lra.
      * intros (H & K). f_equal. apply IH. split; lra.
  - assert (N : u * t < acc + x). { apply Qnot_le_lt. intros H. apply D in H. discriminate. }
    destruct j as [|j].
    + split; [|reflexivity]. intros _. cbn. split; lra.
    + split; [discriminate|]. cbn [firstn]. change (total (x :: firstn j p)) with (x + total (firstn j p)). intros (H & _).
      assert (0 <= total (firstn j p)). { apply total_nonneg. intros y I. apply P'. rewrite <- (firstn_skipn j p). apply in_or_app. left. exact I. } lra.
Qed.
Lemma total_step p : forall j, total (firstn (S j) p) == total (firstn j p) + nth j p 0.
Proof.
  induction p as [|x p IH]; intros j; [destruct j; cbn; lra|]. destruct j as [|j]; [cbn; lra|]. cbn [firstn nth].
  change (total (x :: match p with [] => [] | a :: l => a :: firstn j l end)) with (x + total (firstn (S j) p)). change (total (x :: firstn j p)) with (x + total (firstn j p)). rewrite IH. lra.
Qed.

(** a prior that is accepted and whose probabilities are at least 0 *)
Section Accepted.
  Variables (G : grammar) (old : option prior) (v : prior).
  Hypothesis AC : set_prior G old (Some v) = (Some v, Ok tt).
  Hypothesis NN : nonneg v.

  Lemma checked n : In n (map fst G) -> exists p, assoc n v = Some p /\ length p = length (rules G n) /\ (forall x, In x p -> 0 <= x) /\ Qabs (total p - 1) <= 1 # 67108864.
  Proof.
    intros I. unfold set_prior in AC. destruct (forallb _ _) eqn:F; [|discriminate]. rewrite forallb_forall in F. specialize (F n (proj2 (nonterminals_in G n) I)).
    unfold check1 in F. destruct (assoc n v) as [p|] eqn:E; [|discriminate]. apply andb_true_iff in F. destruct F as (L & C). exists p. split; [reflexivity|]. split; [apply Nat.eqb_eq; exact L|]. split; [|apply isclose_near; exact C].
    intros x J. exact (NN n p x (assoc_in _ _ _ E) J).
  Qed.
  Lemma pick_spec n u : In n (map fst G) -> 0 <= u -> u < 1 -> exists p i, assoc n v = Some p /\ length p = length (rules G n) /\ 0 < total p /\ pick G v n u = Ok i /\
    forall j, i = j <-> total (firstn j p) <= u * total p /\ u * total p < total (firstn (S j) p).
  Proof.
    intros I U0 U1. destruct (checked n I) as (p & E & L & P & T). exists p, (search 0 (total p) p u). split; [exact E|]. split; [exact L|].
    assert (TP : 0 < total p). { revert T. apply Qabs_case; intros; lra. } split; [exact TP|]. split.
    - unfold pick. pose proof (rules_some G n I). destruct (rules G n) as [|q ps] eqn:R; [contradiction|]. rewrite E. unfold choice. rewrite L, Nat.eqb_refl. cbn [negb].
      assert (X : existsb (fun x => negb (Qle_bool 0 x)) p = false).
      { apply not_true_is_false. intros X. apply existsb_exists in X. destruct X as (x & J & X). apply P in J. apply Qle_bool_iff in J. rewrite J in X. discriminate. }
      rewrite X. apply Qle_bool_iff in T. rewrite T. reflexivity.
    - intros j. rewrite (search_spec (total p) u TP p 0 P); [|nra|nra]. split; intros (A & B); split; lra.
  Qed.
  Lemma pick_likely n u : In n (map fst G) -> 0 <= u -> u < 1 -> exists i r, pick G v n u = Ok i /\ nth_error (rules G n) i = Some (n, r) /\ likely G v n r.
  Proof.
    intros I U0 U1. destruct (pick_spec n u I U0 U1) as (p & i & E & L & TP & K & S). destruct (proj1 (S i) eq_refl) as (A & B). rewrite total_step in B.
    assert (W : 0 < nth i p 0) by lra. assert (LT : (i < length p)%nat). { destruct (Nat.lt_ge_cases i (length p)) as [H|H]; [exact H|]. rewrite nth_overflow in W by exact H. lra. }
    assert (N : exists q, nth_error (rules G n) i = Some q). { destruct (nth_error (rules G n) i) as [q|] eqn:Z; [exists q; reflexivity|]. apply nth_error_None in Z. lia. }
    destruct N as (q & N). assert (FQ : fst q = n). { pose proof (nth_error_In _ _ N) as J. apply filter_In in J. destruct J as (_ & J). unfold str_eqb in J. destruct (list_eq_dec ascii_dec (fst q) n); [assumption|discriminate]. }
    destruct q as (m, r). cbn in FQ. subst m. exists i, r. split; [exact K|]. split; [exact N|]. exists i, p, (nth i p 0). split; [exact N|]. split; [exact E|]. split; [apply nth_error_nth'; exact LT|exact W].
  Qed.

  Hypothesis CL : closed G.
  Definition good_cache (c : cache) : Prop := forall m t, assoc m c = Some t -> possible G v m t.
  Definition outcome (n : str) (r : res (str * list Q * cache)) : Prop :=
    r = Err OutOfFuel \/ exists t us c, r = Ok (t, us, c) /\ possible G v n t /\ Forall (fun u => 0 <= u /\ u < 1) us /\ good_cache c.
  Lemma expand_good rec : (forall m us c, In m (map fst G) -> Forall (fun u => 0 <= u /\ u < 1) us -> good_cache c -> outcome m (rec m us c)) ->
    forall rhs tree us c, (forall m, In (Nt m) rhs -> In m (map fst G)) -> Forall (fun u => 0 <= u /\ u < 1) us -> good_cache c ->
    expandw rec rhs tree us c = Err OutOfFuel \/ exists b us' c', expandw rec rhs tree us c = Ok (tree ++ b, us', c') /\ possible_body G v rhs b /\ Forall (fun u => 0 <= u /\ u < 1) us' /\ good_cache c'.
  Proof.
    intros R. induction rhs as [|[s|m] rhs IH]; intros tree us c C U GC; cbn [expandw].
    - right. exists [], us, c. rewrite app_nil_r. split; [reflexivity|]. split; [constructor|]. split; assumption.
    - destruct (IH (tree ++ chr_blank :: s) us c (fun m I => C m (or_intror I)) U GC) as [E|(b & us' & c' & E & PB & U' & GC')]; [left; exact E|].
      right. exists (chr_blank :: s ++ b), us', c'. rewrite E. split; [rewrite <- app_assoc; reflexivity|]. split; [constructor; exact PB|]. split; assumption.
    - destruct (assoc m c) as [t|] eqn:A.
      + destruct (IH (tree ++ chr_blank :: t ++ [chr_close]) us c (fun m I => C m (or_intror I)) U GC) as [E|(b & us' & c' & E & PB & U' & GC')]; [left; exact E|].
        right. exists (chr_blank :: t ++ chr_close :: b), us', c'. rewrite E. split; [rewrite <- app_assoc; cbn; rewrite <- app_assoc; reflexivity|]. split; [constructor; [apply GC; exact A|exact PB]|]. split; assumption.
      + destruct (R m us c (C m (or_introl eq_refl)) U GC) as [E|(t & us1 & c1 & E & PT & U1 & GC1)]; rewrite E; [left; reflexivity|]. cbn [bind].
        assert (GC2 : good_cache ((m, t) :: c1)). { intros k w. cbn. unfold str_eqb. destruct (list_eq_dec ascii_dec k m) as [->|N]; [intros H; assert (t = w) as <- by congruence; exact PT|apply GC1]. }
        destruct (IH (tree ++ chr_blank :: t ++ [chr_close]) us1 _ (fun m I => C m (or_intror I)) U1 GC2) as [E'|(b & us' & c' & E' & PB & U' & GC')]; [left; exact E'|].
        right. exists (chr_blank :: t ++ chr_close :: b), us', c'. rewrite E'. split; [rewrite <- app_assoc; cbn; rewrite <- app_assoc; reflexivity|]. split; [constructor; [exact PT|exact PB]|]. split; assumption.
  Qed.
  Lemma sample_good : forall fuel n us c, In n (map fst G) -> Forall (fun u => 0 <= u /\ u < 1) us -> good_cache c -> outcome n (samplew G v fuel n us c).
  Proof.
    induction fuel as [|fuel IH]; intros n us c I U GC; [left; reflexivity|]. cbn [samplew]. destruct us as [|u us]; [left; reflexivity|].
    inversion U as [|? ? (U0 & U1) U']; subst. destruct (pick_likely n u I U0 U1) as (i & r & K & N & LK). rewrite K. cbn [bind]. rewrite N. cbn [snd].
    assert (IG : In (n, r) G). { pose proof (nth_error_In _ _ N) as J. apply filter_In in J. exact (proj1 J). }
    destruct (expand_good (samplew G v fuel) (fun m us c => IH m us c) r (chr_open :: n) us c (fun m J => CL n r m IG J) U' GC) as [E|(b & us' & c' & E & PB & V & GC')]; [left; exact E|].
    right. exists (chr_open :: n ++ b), us', c'. split; [exact E|]. split; [econstructor; eassumption|]. split; assumption.
  Qed.
End Accepted.

(** each number is used for one production *)
Lemma expand_uses rec : (forall m us c t us' c', rec m us c = Ok (t, us', c') -> exists used, us = used ++ us' /\ (length used + length c = S (length c'))%nat) ->
  forall rhs tree us c t us' c', expandw rec rhs tree us c = Ok (t, us', c') -> exists used, us = used ++ us' /\ (length used + length c = length c')%nat.
Proof.
  intros R. induction rhs as [|[s|m] rhs IH]; intros tree us c t us' c'; cbn [expandw].
  - intros E. exists []. split; [cbn|cbn; f_equal]; congruence.
  - apply IH.
  - destruct (assoc m c) as [w|]; [apply IH|]. destruct (rec m us c) as [((w & us1) & c1)|e] eqn:E; [|discriminate]. cbn [bind]. intros H.
    destruct (R _ _ _ _ _ _ E) as (l1 & -> & L1). destruct (IH _ _ _ _ _ _ H) as (l2 & -> & L2). exists (l1 ++ l2). split; [apply app_assoc|]. rewrite app_length. cbn in L2. lia.
Qed.
Lemma sample_uses G v : forall fuel n us c t us' c', samplew G v fuel n us c = Ok (t, us', c') -> exists used, us = used ++ us' /\ (length used + length c = S (length c'))%nat.
Proof.
  induction fuel as [|fuel IH]; intros n us c t us' c'; [discriminate|]. cbn [samplew]. destruct us as [|u us]; [discriminate|].
  destruct (pick G v n u) as [k|e]; [|discriminate]. cbn [bind]. destruct (nth_error _ k) as [q|]; [|discriminate]. intros H.
  destruct (expand_uses _ IH _ _ _ _ _ _ _ H) as (l & -> & L). exists (u :: l). split; [reflexivity|]. cbn. lia.
Qed.
