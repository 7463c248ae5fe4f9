(** Proofs about plots. *)
From Coq Require Import String Ascii Permutation Decimal DecimalString DecimalNat DecimalFacts.
From Verif Require Import Py Py_proofs Trial_model Limit_spec Status_model Status_spec Status_proofs Space_model Eval_proofs Enc_proofs Plot_model Plot_spec.
From Verif Require Bo_proofs Ifbo_proofs Ifbo_spec.
Local Open Scope nat_scope.
Local Open Scope string_scope.
Local Open Scope list_scope.
Local Notation length := List.length.

(** ** Decimal numbers as texts *)
Definition digit (c : ascii) : nat := nat_of_ascii c - 48.
Definition is_digit (c : ascii) : Prop := 48 <= nat_of_ascii c <= 57.
Fixpoint digits (s : string) : Prop := match s with EmptyString => True | String c r => is_digit c /\ digits r end.
Fixpoint sval (acc : nat) (s : string) : nat := match s with EmptyString => acc | String c r => sval (10 * acc + digit c) r end.
Lemma sval_acc s : forall acc, sval acc s = acc * 10 ^ String.length s + sval 0 s.
Proof.
  induction s as [|c s IH]; intros acc; cbn [sval String.length Nat.pow]; [lia|].
  rewrite (IH (10 * acc + digit c)), (IH (10 * 0 + digit c)). lia.
Qed.
Lemma sval_bound s : digits s -> sval 0 s < 10 ^ String.length s.
Proof.
  induction s as [|c s IH]; cbn [digits sval String.length Nat.pow]; [lia|]. intros [D H].
  rewrite sval_acc. specialize (IH H). unfold is_digit in D. assert (digit c <= 9) by (unfold digit; lia). nia.
Qed.
Lemma sval_less s : forall s' acc, digits s -> digits s' -> String.length s = String.length s' -> String.compare s s' = Lt -> sval acc s < sval acc s'.
Proof.
  induction s as [|c s IH]; intros [|c' s'] acc D D' L C; try discriminate.
  cbn [String.length] in L. cbn [String.compare] in C. destruct D as [D1 D2], D' as [D1' D2']. cbn [sval].
  destruct (Ascii.compare c c') eqn:E; try discriminate.
  - apply Ascii.compare_eq_iff in E. subst c'. apply IH; auto.
  - rewrite (sval_acc s), (sval_acc s'). injection L as L. rewrite <- L.
    assert (B := sval_bound s D2). unfold Ascii.compare in E.
    assert (DD : digit c < digit c').
    { unfold is_digit, digit in *. unfold nat_of_ascii in *. clear - E D1 D1'. change (N_of_ascii c < N_of_ascii c')%N in E. lia. }
    assert ((10 * acc + digit c + 1) * 10 ^ String.length s <= (10 * acc + digit c') * 10 ^ String.length s) by (apply Nat.mul_le_mono_r; lia). lia.
Qed.

Lemma uint_digits u : digits (NilEmpty.string_of_uint u).
Proof.
  induction u as [|u IH|u IH|u IH|u IH|u IH|u IH|u IH|u IH|u IH|u IH]; cbn [NilEmpty.string_of_uint digits]; auto; (split; [|exact IH]);
  unfold is_digit; split; apply Nat.leb_le; reflexivity.
Qed.
Lemma uint_sval u : forall acc, sval acc (NilEmpty.string_of_uint u) = Nat.of_uint_acc u acc.
Proof.
  induction u as [|u IH|u IH|u IH|u IH|u IH|u IH|u IH|u IH|u IH|u IH]; intros acc; cbn [NilEmpty.string_of_uint sval Nat.of_uint_acc]; auto;
  rewrite IH, Nat.tail_mul_spec; f_equal; match goal with |- context[digit ?c] => let v := eval vm_compute in (digit c) in change (digit c) with v end; lia.
Qed.
Definition no_zero (s : string) : Prop := match s with String c _ => c <> "0"%char | EmptyString => True end.
Lemma nzhead_shape u : no_zero (NilEmpty.string_of_uint (nzhead u)).
Proof. induction u as [|u IH|u IH|u IH|u IH|u IH|u IH|u IH|u IH|u IH|u IH]; cbn; auto; discriminate. Qed.
Lemma str_shape n : digits (py_str_nat n) /\ sval 0 (py_str_nat n) = n /\ (py_str_nat n = "0" \/ (py_str_nat n <> "" /\ no_zero (py_str_nat n))).
Proof.
  assert (U : Nat.to_uint n = unorm (Nat.to_uint n)) by (rewrite <- Unsigned.to_of, Unsigned.of_to; reflexivity).
  assert (V : NilZero.string_of_uint (Nat.to_uint n) = NilEmpty.string_of_uint (Nat.to_uint n)).
  { unfold NilZero.string_of_uint. destruct (Nat.to_uint n) eqn:E; try reflexivity.
    apply (f_equal Nat.of_uint) in E as E2. rewrite Unsigned.of_to in E2. cbn in E2. subst n. discriminate E. }
  unfold py_str_nat. rewrite V. split; [apply uint_digits|]. split.
  - rewrite uint_sval. apply Unsigned.of_to.
  - rewrite U. unfold unorm. destruct (nzhead (Nat.to_uint n)) eqn:E.
    + left. reflexivity.
    + exfalso. assert (S := nzhead_shape (Nat.to_uint n)). rewrite E in S. cbn in S. congruence.
    + right. rewrite <- E. split; [rewrite E; discriminate|apply nzhead_shape].
    + right. rewrite <- E. split; [rewrite E; discriminate|apply nzhead_shape].
    + right. rewrite <- E. split; [rewrite E; discriminate|apply nzhead_shape].
    + right. rewrite <- E. split; [rewrite E; discriminate|apply nzhead_shape].
    + right. rewrite <- E. split; [rewrite E; discriminate|apply nzhead_shape].
    + right. rewrite <- E. split; [rewrite E; discriminate|apply nzhead_shape].
    + right. rewrite <- E. split; [rewrite E; discriminate|apply nzhead_shape].
    + right. rewrite <- E. split; [rewrite E; discriminate|apply nzhead_shape].
    + right. rewrite <- E. split; [rewrite E; discriminate|apply nzhead_shape].
Qed.
(** shorter, or as long and not greater as a text *)
Definition shortlex (a b : string) : Prop :=
  String.length a < String.length b \/ (String.length a = String.length b /\ String.leb a b = true).
Lemma shortlex_less m n : shortlex (py_str_nat m) (py_str_nat n) -> m <> n -> m < n.
Proof.
  intros H NE. destruct (str_shape m) as (D & V & S), (str_shape n) as (D' & V' & S').
  destruct H as [L|[L LE]].
  - assert (B := sval_bound _ D). rewrite V in B.
    destruct S' as [S'|[S1 S2]].
    + rewrite S' in L. cbn in L. destruct S as [S|[S _]]; [rewrite S in L; cbn in L; lia|].
      destruct (py_str_nat m); [congruence|cbn in L; lia].
    + destruct (py_str_nat n) as [|c r]; [congruence|]. cbn [no_zero] in S2. cbn [digits] in D'. destruct D' as [D1 D2].
      cbn [String.length] in L. cbn [sval] in V'. rewrite sval_acc in V'.
      assert (1 <= digit c).
      { unfold digit, is_digit in *. destruct (Nat.eq_dec (nat_of_ascii c) 48) as [E|]; [|lia].
        exfalso. apply S2. rewrite <- (ascii_nat_embedding c), E. reflexivity. }
      assert (10 ^ String.length (py_str_nat m) <= 10 ^ String.length r) by (apply Nat.pow_le_mono_r; lia). nia.
  - unfold String.leb in LE. destruct (String.compare (py_str_nat m) (py_str_nat n)) eqn:C; try discriminate.
    + apply String.compare_eq_iff in C. apply (f_equal (sval 0)) in C. rewrite V, V' in C. congruence.
    + apply (sval_less _ _ 0 D D' L) in C. rewrite V, V' in C. exact C.
Qed.

(** ** Sorting *)
Lemma ins_perm {A} le (x : A) l : Permutation (ins le x l) (x :: l).
Proof. induction l as [|y l IH]; cbn; [reflexivity|]. destruct (le x y); [reflexivity|]. rewrite IH. apply perm_swap. Qed.
Lemma sorting_perm {A} le (l : list A) : Permutation (sorting le l) l.
Proof. unfold sorting. induction l as [|x l IH]; [reflexivity|]. cbn. rewrite ins_perm, IH. reflexivity. Qed.
Lemma FOP_cons_iff {A} (R : A -> A -> Prop) x l : ForallOrdPairs R (x :: l) <-> Forall (R x) l /\ ForallOrdPairs R l.
Proof. split; [inversion 1; auto|intros []; constructor; auto]. Qed.
Lemma ins_sorted {A} (le : A -> A -> bool) (R : A -> A -> Prop) x l :
  (forall y, In y l -> le x y = true -> R x y) -> (forall y, In y l -> le x y = false -> R y x) ->
  (forall y z, In y l -> In z l -> le x y = true -> R y z -> R x z) ->
  ForallOrdPairs R l -> ForallOrdPairs R (ins le x l).
Proof.
  intros H1 H2 H3 S. induction S as [|y l F S IH]; cbn; [repeat constructor|].
  destruct (le x y) eqn:E.
  - constructor; [|constructor; assumption]. constructor; [apply H1; cbn; auto|].
    rewrite Forall_forall in *. intros z Z. eapply H3; [left; reflexivity|right; exact Z|exact E|auto].
  - constructor.
    2: { apply IH; [intros z Z; apply H1; cbn; auto|intros z Z; apply H2; cbn; auto|intros z w Z W; apply H3; cbn; auto]. }
    rewrite Forall_forall in *. intros z Z. apply (Permutation_in _ (ins_perm le x l)) in Z. destruct Z as [<-|Z]; [apply H2; cbn; auto|auto].
Qed.
Lemma sorting_map {A B} (leA : A -> A -> bool) (leB : B -> B -> bool) (f : A -> B) l :
  (forall x y, leB (f x) (f y) = leA x y) -> sorting leB (map f l) = map f (sorting leA l).
Proof.
  intros H. unfold sorting. induction l as [|x l IH]; cbn; [reflexivity|]. rewrite IH. generalize (fold_right (ins leA) [] l) as m.
  induction m as [|y m IHm]; cbn; [reflexivity|]. rewrite H. destruct (leA x y); cbn; [reflexivity|]. rewrite IHm. reflexivity.
Qed.
Lemma leb_trans a b c : String.leb a b = true -> String.leb b c = true -> String.leb a c = true.
Proof.
  assert (Q : forall a b, String.leb a b = true <-> a = b \/ String.ltb a b = true).
  { intros x y. unfold String.leb, String.ltb. destruct (String.compare x y) eqn:E.
    - apply String.compare_eq_iff in E. subst. split; auto.
    - split; auto.
    - split; [discriminate|]. intros [->|X]; [rewrite scompare_refl in E; discriminate|discriminate]. }
  rewrite !Q. intros [->|X] [->|Y]; auto. right. eapply ltb_trans; eauto.
Qed.
Lemma leb_flip a b : String.leb a b = false -> String.leb b a = true.
Proof. unfold String.leb. rewrite (String.compare_antisym b a). destruct (String.compare a b); cbn; congruence. Qed.

Section SortKeys.
  Context {A : Type} (key : A -> string).
  Definition by_text (l : list A) := sorting (fun a b => String.leb (key a) (key b)) l.
  Definition by_length (l : list A) := sorting (fun a b => Nat.leb (String.length (key a)) (String.length (key b))) l.
  Lemma by_text_sorted l : ForallOrdPairs (fun a b => String.leb (key a) (key b) = true) (by_text l).
  Proof.
    unfold by_text, sorting. induction l as [|x l IH]; cbn; [constructor|]. apply ins_sorted; auto.
    - intros y _. apply leb_flip.
    - intros y z _ _. apply leb_trans.
  Qed.
  Lemma by_length_sorted l : ForallOrdPairs (fun a b => String.leb (key a) (key b) = true) l ->
    ForallOrdPairs (fun a b => shortlex (key a) (key b)) (by_length l).
  Proof.
    unfold by_length, sorting. induction 1 as [|x l F S IH]; cbn; [constructor|].
    assert (X : forall y, In y (fold_right (ins (fun a b => Nat.leb (String.length (key a)) (String.length (key b)))) [] l) -> String.leb (key x) (key y) = true).
    { intros y Y. rewrite Forall_forall in F. apply F. apply (Permutation_in _ (sorting_perm (fun a b => Nat.leb (String.length (key a)) (String.length (key b))) l)). exact Y. }
    apply ins_sorted; auto.
    - intros y Y L. apply Nat.leb_le in L. unfold shortlex. specialize (X y Y). apply Nat.lt_eq_cases in L. destruct L; auto.
    - intros y Y L. apply Nat.leb_gt in L. left. exact L.
    - intros y z Y Z L R. apply Nat.leb_le in L. specialize (X z Z). unfold shortlex in *.
      assert (LL : String.length (key x) <= String.length (key z)) by (destruct R as [R|[R _]]; lia). apply Nat.lt_eq_cases in LL. destruct LL; auto.
  Qed.
End SortKeys.

(** ** The sorted results *)
Definition reported_b (t : trial) : bool := match t_report t with Some _ => true | None => false end.
Lemma reported_iff t : reported_b t = true <-> has_report t.
Proof. unfold reported_b, has_report. destruct (t_report t); split; congruence. Qed.
Definition result_of (t : trial) : result_or_error :=
  match t_report t with Some r => match to_deprecate_result_dict r with Ok d => d | Err _ => ResError end | None => ResError end.
Definition stats_of (t : trial) : string * stats := (t_id t, mkStats (t_id t) (t_config t) (result_of t) (t_meta t)).
Lemma entries_map ts : (forall t r, In t ts -> t_report t = Some r -> plain_report r) ->
  flat_map entry ts = map stats_of (filter reported_b ts).
Proof.
  induction ts as [|t ts IH]; intros P; [reflexivity|]. cbn [flat_map filter]. rewrite IH by (intros t' r' I'; apply P; right; exact I').
  unfold entry, reported_b, stats_of, result_of. destruct (t_report t) as [r|] eqn:R; [|reflexivity].
  assert (PR := P t r (or_introl eq_refl) R). destruct (deprecate r PR) as [(_ & d & l & X & _)|[_ X]]; rewrite X; cbn; rewrite R, X; reflexivity.
Qed.
(** the evaluated trials in the order of the plot *)
Definition plotted (ts : list trial) : list trial := by_length t_id (by_text t_id (filter reported_b ts)).
Lemma sorted_plotted ts : sorted_stats (map stats_of (filter reported_b ts)) = map stats_of (plotted ts).
Proof.
  unfold sorted_stats, plotted, by_length, by_text.
  rewrite (sorting_map (fun a b => String.leb (t_id a) (t_id b))) by reflexivity.
  rewrite (sorting_map (fun a b => Nat.leb (String.length (t_id a)) (String.length (t_id b)))) by reflexivity. reflexivity.
Qed.
Lemma plotted_perm ts : Permutation (plotted ts) (filter reported_b ts).
Proof. unfold plotted, by_length, by_text. rewrite !sorting_perm. reflexivity. Qed.
Lemma plotted_in ts t : In t (plotted ts) <-> In t ts /\ has_report t.
Proof.
  rewrite <- reported_iff, <- filter_In. split; apply Permutation_in; [|apply Permutation_sym]; apply plotted_perm.
Qed.
Lemma NoDup_filter_map ts : NoDup (map t_id ts) -> NoDup (map t_id (filter reported_b ts)).
Proof.
  induction ts as [|t ts IH]; cbn; [auto|]. intros N. inversion N as [|? ? H1 H2]; subst. destruct (reported_b t); [|auto].
  cbn. constructor; [|auto]. intros I. apply H1. apply in_map_iff in I. destruct I as (t' & E & I). apply filter_In in I. apply in_map_iff. exists t'. tauto.
Qed.
Lemma plotted_nodup ts : NoDup (map t_id ts) -> NoDup (map t_id (plotted ts)).
Proof.
  intros N. eapply Permutation_NoDup; [|apply NoDup_filter_map, N]. apply Permutation_map, Permutation_sym, plotted_perm.
Qed.
Lemma plotted_shortlex ts : ForallOrdPairs (fun a b => shortlex (t_id a) (t_id b)) (plotted ts).
Proof. apply by_length_sorted, by_text_sorted. Qed.
Lemma plotted_order ts : numbered ts -> NoDup (map t_id ts) -> in_order ts (plotted ts).
Proof.
  intros NB ND. split; [apply plotted_in|].
  assert (S := plotted_shortlex ts). assert (N := plotted_nodup ts ND).
  assert (Q : forall t, In t (plotted ts) -> exists n, t_id t = py_str_nat n) by (intros t T; apply NB; apply plotted_in in T; tauto).
  revert N Q. induction S as [|x l F S IH]; intros N Q; [constructor|]. cbn in N. inversion N as [|? ? N1 N2]; subst.
  constructor; [|apply IH; [exact N2|intros t T; apply Q; right; exact T]].
  rewrite Forall_forall in *. intros y Y. destruct (Q x (or_introl eq_refl)) as (m & M). destruct (Q y (or_intror Y)) as (n & K).
  exists m, n. split; [exact M|]. split; [exact K|]. apply shortlex_less; [rewrite <- M, <- K; apply F, Y|].
  intros ->. apply N1. rewrite M, <- K. apply in_map, Y.
Qed.

(** ** process_seed *)
Definition succ_b (t : trial) : bool := match result_of t with ResDict _ => true | ResError => false end.
Lemma result_success t : has_report t -> (forall r, t_report t = Some r -> plain_report r) ->
  (exists d l, result_of t = ResDict d /\ succeeded t l /\ lookup "loss" d = Some (VFloat l)) \/
  (result_of t = ResError /\ forall l, ~ succeeded t l).
Proof.
  unfold has_report, result_of. intros H P. destruct (t_report t) as [r|] eqn:R; [|congruence]. specialize (P r eq_refl).
  destruct (deprecate r P) as [(A & d & l & X & L & D)|[A X]]; rewrite X.
  - left. exists d, l. split; [reflexivity|]. split; [|exact D]. exists r. auto.
  - right. split; [reflexivity|]. intros l (r' & R' & A' & _). congruence.
Qed.

Section Seeds.
  Variable pyfloat : pyval -> res fl.
  Hypothesis Fid : float_id pyfloat.

  Lemma summary_previous ts : plain_trials ts -> exists s, get_summary pyfloat ts = Ok s /\ s_previous s = map stats_of (filter reported_b ts).
  Proof.
    intros [N P]. unfold get_summary. rewrite collect_entries by assumption. rewrite app_nil_l, entries_map by exact P. cbn [bind].
    assert (SC : forall l bl b e, (forall t, In t l -> has_report t /\ forall r, t_report t = Some r -> plain_report r) -> exists x, scan pyfloat (map stats_of l) bl b e = Ok x).
    { induction l as [|t l IH]; intros bl b e H; [eexists; reflexivity|]. cbn [map scan stats_of].
      assert (Hl : forall t', In t' l -> has_report t' /\ forall r, t_report t' = Some r -> plain_report r) by (intros t' I'; apply H; right; exact I').
      destruct (H t (or_introl eq_refl)) as [H1 H2]. destruct (result_success t H1 H2) as [(d & l0 & X & _ & D)|[X _]]; unfold loss_of; cbn [x_result]; rewrite X.
      - rewrite D, Fid. cbn [bind]. destruct (fl_ltb l0 bl); apply IH, Hl.
      - cbn [bind]. apply IH, Hl. }
    destruct (SC (filter reported_b ts) FPInf None 0) as ([[bl b] e] & E).
    { intros t T. apply filter_In in T. destruct T as [T B]. split; [apply reported_iff, B|]. intros r R. eapply P; eauto. }
    rewrite E. cbn [bind]. eexists. split; reflexivity.
  Qed.

  Lemma least_key_spec ks : forall k, In (least_key k ks) (k :: ks) /\ forall x, In x (k :: ks) -> String.ltb x (least_key k ks) = false.
  Proof.
    induction ks as [|y ks IH]; intros k; cbn [least_key].
    - split; [left; reflexivity|]. intros x [<-|[]]. apply ltb_irrefl.
    - destruct (String.ltb y k) eqn:E; [destruct (IH y) as [I1 I2]|destruct (IH k) as [I1 I2]].
      + split; [destruct I1; [right; left|right; right]; assumption|].
        intros x [<-|[<-|X]]; [|apply I2; left; reflexivity|apply I2; right; exact X].
        destruct (String.ltb k (least_key y ks)) eqn:F; [|reflexivity]. rewrite <- (I2 y (or_introl eq_refl)). symmetry. eapply ltb_trans; eauto.
      + split; [destruct I1; [left|right; right]; assumption|].
        intros x [<-|[<-|X]]; [apply I2; left; reflexivity| |apply I2; right; exact X].
        destruct (String.ltb y (least_key k ks)) eqn:F; [|reflexivity].
        destruct (string_dec y k) as [->|NE]; [rewrite (I2 k (or_introl eq_refl)) in F; discriminate|].
        assert (G := ltb_total _ _ NE E). rewrite <- (I2 k (or_introl eq_refl)). symmetry. eapply ltb_trans; eauto.
  Qed.
  Lemma lookup_stats_of (ds : list trial) t : NoDup (map t_id ds) -> In t ds -> lookup (t_id t) (map stats_of ds) = Some (snd (stats_of t)).
  Proof.
    intros N I. apply In_lookup.
    - rewrite map_map. exact N.
    - apply (in_map stats_of) in I. exact I.
  Qed.
  Lemma mapM_map {A B C} (f : B -> res C) (g : A -> B) l : mapM f (map g l) = mapM (fun x => f (g x)) l.
  Proof. induction l as [|x l IH]; cbn; [reflexivity|]. destruct (f (g x)); cbn; [|reflexivity]. rewrite IH. reflexivity. Qed.
  Definition max_of (key : option string) (st : list (string * stats)) : res fl :=
    match key with
    | Some k => if String.eqb k "fidelity" then max_fidelity k st else Ok (fl_of_Z (-1))
    | None => Ok (fl_of_Z (-1))
    end.
  Definition point key cc w start (t : trial) : res (fl * fl) :=
    bind (config_cost pyfloat key cc w start (snd (stats_of t))) (fun c => bind (loss_entry (snd (stats_of t))) (fun l => Ok (l, c))).
  Lemma process_none ts key cc w : plain_trials ts -> (forall t, In t ts -> ~ has_report t) ->
    process_seed pyfloat key cc w ts = Err ValueError.
  Proof.
    intros P N. destruct (summary_previous ts P) as (s & S & E). unfold process_seed. rewrite S. cbn [bind].
    assert (F : filter reported_b ts = []).
    { apply Bo_proofs.filter_none. intros t T. destruct (reported_b t) eqn:B; [|reflexivity]. exfalso. apply (N t T). apply reported_iff, B. }
    rewrite E, F. change (sorted_stats (map stats_of [])) with (@nil (string * stats)).
    destruct key as [k|]; cbn [bind map]; [destruct (String.eqb k "fidelity"); reflexivity|reflexivity].
  Qed.
  Lemma process_some ts : plain_trials ts -> (exists t, In t ts /\ has_report t) ->
    exists t0, text_first ts t0 /\ forall key cc w, process_seed pyfloat key cc w ts =
      bind (max_of key (map stats_of (plotted ts))) (fun mc => bind (mapM (point key cc w (m_time_sampled (t_meta t0))) (plotted ts)) (fun ps =>
      Ok (accumulate (map fst ps), map snd ps, mc))).
  Proof.
    intros P (t & T & R). destruct (summary_previous ts P) as (s & S & E).
    assert (I : In t (plotted ts)) by (apply plotted_in; auto).
    destruct (plotted ts) as [|d ds] eqn:PL; [destruct I|].
    destruct (least_key_spec (map t_id ds) (t_id d)) as [L1 L2].
    assert (L1' : In (least_key (t_id d) (map t_id ds)) (map t_id (d :: ds))) by exact L1.
    apply in_map_iff in L1'. destruct L1' as (t0 & E0 & I0).
    exists t0. split.
    - assert (Q : forall x, In x (d :: ds) <-> In x ts /\ has_report x) by (intros x; rewrite <- PL; apply plotted_in).
      destruct (proj1 (Q t0) I0) as [Q1 Q2]. split; [exact Q1|]. split; [exact Q2|]. intros t' T' R'. rewrite E0. apply L2.
      change (In (t_id t') (map t_id (d :: ds))). apply in_map. apply Q. auto.
    - intros key cc w. unfold process_seed. rewrite S. cbn [bind]. rewrite E, sorted_plotted, PL. cbv zeta.
      change (match key with Some k => if String.eqb k "fidelity" then max_fidelity k (map stats_of (d :: ds)) else Ok (fl_of_Z (-1)) | None => Ok (fl_of_Z (-1)) end)
        with (max_of key (map stats_of (d :: ds))).
      destruct (max_of key (map stats_of (d :: ds))) as [mc|e]; [|reflexivity]. cbn [bind].
      replace (map fst (map stats_of (d :: ds))) with (t_id d :: map t_id ds) by (rewrite map_map; reflexivity).
      assert (N : NoDup (map t_id (d :: ds))) by (rewrite <- PL; apply plotted_nodup, P).
      rewrite <- E0, lookup_stats_of by assumption.
      rewrite mapM_map. unfold point. reflexivity.
  Qed.
  Lemma loss_entry_of t : has_report t -> (forall r, t_report t = Some r -> plain_report r) ->
    (exists l, succeeded t l /\ loss_entry (snd (stats_of t)) = Ok l) \/
    ((forall l, ~ succeeded t l) /\ loss_entry (snd (stats_of t)) = Err TypeError).
  Proof.
    intros H P. destruct (result_success t H P) as [(d & l & X & S & D)|[X S]]; unfold loss_entry; cbn [snd stats_of x_result]; rewrite X.
    - left. exists l. rewrite D. auto.
    - right. auto.
  Qed.
  Lemma plotted_plain ts t : plain_trials ts -> In t (plotted ts) -> has_report t /\ forall r, t_report t = Some r -> plain_report r.
  Proof. intros [_ P] I. apply plotted_in in I. destruct I as [I H]. split; [exact H|]. intros r R. eapply P; eauto. Qed.

  (** the losses and costs, if all succeeded *)
  Lemma points_ok ts key cc w start (cost : trial -> fl) : plain_trials ts -> all_succeeded ts ->
    (forall t, In t (plotted ts) -> config_cost pyfloat key cc w start (snd (stats_of t)) = Ok (cost t)) ->
    exists ls, mapM (point key cc w start) (plotted ts) = Ok (combine ls (map cost (plotted ts))) /\ Forall2 succeeded (plotted ts) ls.
  Proof.
    intros P A C. assert (Q : forall t, In t (plotted ts) -> In t ts /\ has_report t) by (intros t; apply plotted_in).
    assert (R : forall t, In t (plotted ts) -> forall r, t_report t = Some r -> plain_report r) by (intros t T; apply (plotted_plain ts t P T)).
    revert C Q R. generalize (plotted ts) as ds. induction ds as [|t ds IH]; intros C Q R; [exists []; split; [reflexivity|constructor]|].
    destruct IH as (ls & E & F); [intros; apply C; right; assumption|intros; apply Q; right; assumption|intros t' I'; apply R; right; exact I'|].
    destruct (Q t (or_introl eq_refl)) as [Q1 Q2].
    destruct (loss_entry_of t Q2 (R t (or_introl eq_refl))) as [(l & S & L)|[S _]].
    - exists (l :: ls). split; [|constructor; assumption]. cbn [mapM map combine]. unfold point at 1. rewrite C by (left; reflexivity). cbn [bind]. rewrite L. cbn [bind]. rewrite E. reflexivity.
    - destruct (A t Q1 Q2) as (l & S'). destruct (S l S').
  Qed.
  (** without a key a failed evaluation is a TypeError *)
  Lemma points_fail ts cc w start : plain_trials ts -> (exists t, In t ts /\ has_report t /\ forall l, ~ succeeded t l) ->
    mapM (point None cc w start) (plotted ts) = Err TypeError.
  Proof.
    intros P (t & T & H & S). assert (I : In t (plotted ts)) by (apply plotted_in; auto).
    assert (R : forall t, In t (plotted ts) -> has_report t /\ forall r, t_report t = Some r -> plain_report r) by (intros t' T'; apply (plotted_plain ts t' P T')).
    revert I R. generalize (plotted ts) as ds. induction ds as [|d ds IH]; intros I R; [destruct I|]. cbn [mapM].
    assert (C : (exists c, config_cost pyfloat None cc w start (snd (stats_of d)) = Ok c) \/ config_cost pyfloat None cc w start (snd (stats_of d)) = Err TypeError).
    { unfold config_cost, get_cost. cbn [bind]. destruct cc; [|eauto]. destruct (Nat.eqb w 1); [left; eexists; reflexivity|].
      destruct (m_time_end _); eauto. }
    unfold point at 1. destruct C as [(c & ->)| ->]; [|reflexivity]. cbn [bind].
    destruct (R d (or_introl eq_refl)) as [R1 R2]. destruct (loss_entry_of d R1 R2) as [(l & S' & ->)|[_ ->]]; [|reflexivity]. cbn [bind].
    rewrite IH; [reflexivity| |intros; apply R; right; assumption]. destruct I as [->|I]; [destruct (S l S')|exact I].
  Qed.
End Seeds.

(** ** Running minima *)
Lemma np_min_spec a b : a <> FNaN -> b <> FNaN -> (np_min a b = a \/ np_min a b = b) /\ fl_le (np_min a b) a /\ fl_le (np_min a b) b /\ np_min a b <> FNaN.
Proof.
  intros A B. unfold np_min. destruct a as [| | |x]; [congruence| | |]; destruct b as [| | |y]; try congruence; cbn;
  try (repeat split; auto; try (constructor; discriminate); try (constructor; lia); discriminate).
  destruct (Z.ltb y x) eqn:E.
  - apply Z.ltb_lt in E. repeat split; auto; try (constructor; lia); try discriminate.
  - apply Z.ltb_ge in E. repeat split; auto; try (constructor; lia); try discriminate.
Qed.
Lemma accumulate_from_spec ls : forall a, a <> FNaN -> ~ In FNaN ls -> length (accumulate_from a ls) = length ls /\
  forall k, k < length ls -> exists v, nth_error (accumulate_from a ls) k = Some v /\ In v (a :: firstn (S k) ls) /\ forall x, In x (a :: firstn (S k) ls) -> fl_le v x.
Proof.
  induction ls as [|x ls IH]; intros a A N; cbn [accumulate_from length]; [split; [reflexivity|lia]|].
  destruct (np_min_spec a x A) as (M1 & M2 & M3 & M4); [intros ->; apply N; left; reflexivity|].
  destruct (IH (np_min a x) M4) as [I1 I2]; [intros H; apply N; right; exact H|].
  split; [rewrite I1; reflexivity|]. intros [|k] K.
  - exists (np_min a x). split; [reflexivity|]. cbn. split; [destruct M1 as [->| ->]; auto|]. intros y [<-|[<-|[]]]; assumption.
  - destruct (I2 k) as (v & E & V1 & V2); [cbn in K; lia|]. exists v. split; [exact E|]. split.
    + change (firstn (S (S k)) (x :: ls)) with (x :: firstn (S k) ls). cbn [In] in V1 |- *. destruct V1 as [<-|V1]; [destruct M1 as [->| ->]; auto|auto].
    + change (firstn (S (S k)) (x :: ls)) with (x :: firstn (S k) ls). intros y [<-|[<-|Y]].
      * eapply fl_le_trans; [apply V2; left; reflexivity|exact M2].
      * eapply fl_le_trans; [apply V2; left; reflexivity|exact M3].
      * apply V2. right. exact Y.
Qed.
Lemma accumulate_spec ls : ~ In FNaN ls -> length (accumulate ls) = length ls /\
  forall k, k < length ls -> exists v, nth_error (accumulate ls) k = Some v /\ In v (firstn (S k) ls) /\ forall x, In x (firstn (S k) ls) -> fl_le v x.
Proof.
  destruct ls as [|a ls]; intros N; cbn [accumulate]; [split; [reflexivity|cbn; lia]|].
  assert (A : a <> FNaN) by (intros ->; apply N; left; reflexivity).
  destruct (accumulate_from_spec ls a A) as [I1 I2]; [intros H; apply N; right; exact H|].
  split; [cbn; rewrite I1; reflexivity|]. intros [|k] K.
  - exists a. split; [reflexivity|]. cbn. split; [auto|]. intros x [<-|[]]. apply fl_le_refl. exact A.
  - destruct (I2 k) as (v & E & V1 & V2); [cbn in K; lia|]. exists v. auto.
Qed.
Lemma f2_firstn {A B} (R : A -> B -> Prop) l m k : Forall2 R l m -> Forall2 R (firstn k l) (firstn k m).
Proof. intros F. revert k. induction F as [|x y l m H F IH]; intros [|k]; cbn; constructor; auto. Qed.
Lemma least_of_losses ds ls v : Forall2 succeeded ds ls -> In v ls -> (forall x, In x ls -> fl_le v x) -> least_loss ds v.
Proof.
  intros F I L. split.
  - clear L. induction F as [|t l ds ls H F IH]; [destruct I|]. destruct I as [<-|I]; [exists t; cbn; auto|]. destruct (IH I) as (t' & T & S). exists t'. cbn; auto.
  - intros t l' T S. apply L. clear I L. induction F as [|t' l ds ls H F IH]; [destruct T|]. destruct T as [->|T]; [left; eapply succeeded_fun; eauto|right; auto].
Qed.
