(** Encoding and decoding configurations, exact arithmetic. *)
From Verif Require Import Enc_spec Dom_proofs Dom_cast_proofs Enc_proofs.
From Coq Require Import Lqa Qfield Permutation.
Open Scope Q_scope.
Local Notation length := List.length.
Local Notation cell := Enc_proofs.cell.

Section Round.
  Variables (lnf expf : Q -> Q) (heq : value -> value -> bool) (hashable : value -> bool).
  Notation AR := (Qar lnf expf).
  Notation encode_one := (encode_one AR heq hashable).
  Notation decode_one := (decode_one AR).
  Notation tfm := (transformer (T := option Q)).

  (** *** Choices *)
  Lemma first_index_ok : forall l c i j, first_index heq l c i = Ok j ->
    (i <= j < i + Z.of_nat (length l))%Z /\ exists x, nth_error l (Z.to_nat (j - i)) = Some x /\ heq x c = true.
  Proof.
    induction l as [| x l IH]; intros c i j H; cbn [first_index] in H; [discriminate |].
    destruct (heq x c) eqn:E.
    - injection H as <-. split; [cbn [length]; lia |]. exists x. replace (i - i)%Z with 0%Z by lia. split; auto.
    - apply IH in H. destruct H as (R & y & N & Y). split; [cbn [length]; lia |]. exists y. split; [| exact Y].
      replace (Z.to_nat (j - i)) with (S (Z.to_nat (j - (i + 1)))) by lia. exact N.
  Qed.
  Lemma first_index_total : forall l c i, (exists x, In x l /\ heq x c = true) -> exists j, first_index heq l c i = Ok j.
  Proof.
    induction l as [| x l IH]; intros c i (y & I & Y); [destruct I |]. cbn [first_index].
    destruct (heq x c) eqn:E; [eauto |]. apply IH. destruct I as [<- | I]; [congruence | eauto].
  Qed.
  Lemma last_index_ok : forall l c i f j, last_index heq l c i f = Ok j ->
    f = Ok j \/ ((i <= j < i + Z.of_nat (length l))%Z /\ exists x, nth_error l (Z.to_nat (j - i)) = Some x /\ heq x c = true).
  Proof.
    induction l as [| x l IH]; intros c i f j H; cbn [last_index] in H; [left; exact H |].
    apply IH in H. destruct H as [H | (R & y & N & Y)].
    - destruct (heq x c) eqn:E; [| left; exact H]. injection H as <-. right. split; [cbn [length]; lia |].
      exists x. replace (i - i)%Z with 0%Z by lia. split; auto.
    - right. split; [cbn [length]; lia |]. exists y. split; [| exact Y].
      replace (Z.to_nat (j - i)) with (S (Z.to_nat (j - (i + 1)))) by lia. exact N.
  Qed.
  Lemma last_index_total : forall l c i f, (exists j, f = Ok j) \/ (exists x, In x l /\ heq x c = true) ->
    exists j, last_index heq l c i f = Ok j.
  Proof.
    induction l as [| x l IH]; intros c i f H; cbn [last_index].
    - destruct H as [H | (y & [] & _)]. exact H.
    - apply IH. destruct (heq x c) eqn:E; [left; eauto |].
      destruct H as [H | (y & [<- | I] & Y)]; [left; exact H | congruence | right; eauto].
  Qed.
  Lemma choice_index_ok : forall choices c i, choice_index heq hashable choices c = Ok i ->
    (0 <= i < Z.of_nat (length choices))%Z /\ exists x, nth_error choices (Z.to_nat i) = Some x /\ heq x c = true.
  Proof.
    intros choices c i H. unfold choice_index in H.
    destruct (Nat.ltb 3 (length choices) && forallb hashable choices).
    - destruct (hashable c); [| discriminate]. apply last_index_ok in H. destruct H as [H | (R & H)]; [discriminate |].
      replace (i - 0)%Z with i in H by lia. split; [lia | exact H].
    - apply first_index_ok in H. destruct H as (R & H). replace (i - 0)%Z with i in H by lia. split; [lia | exact H].
  Qed.
  Lemma choice_index_total : forall choices c, hashable c = true -> (exists x, In x choices /\ heq x c = true) ->
    exists i, choice_index heq hashable choices c = Ok i.
  Proof.
    intros choices c HC H. unfold choice_index.
    destruct (Nat.ltb 3 (length choices) && forallb hashable choices).
    - rewrite HC. apply last_index_total. right. exact H.
    - apply first_index_total. exact H.
  Qed.
  Lemma py_index_ok : forall (l : list value) i x, (0 <= i)%Z -> nth_error l (Z.to_nat i) = Some x -> py_index l i = Ok x.
  Proof.
    intros l i x H N. unfold py_index. replace (Z.ltb i 0) with false by (symmetry; apply Z.ltb_ge; lia).
    replace (Z.ltb i 0) with false by (symmetry; apply Z.ltb_ge; lia). rewrite N. reflexivity.
  Qed.
  Lemma decode_index : forall (l : list value) y i x, (0 <= i)%Z -> nth_error l (Z.to_nat i) = Some x -> y == inject_Z i ->
    bind (to_index AR (arint AR (Some y))) (py_index l) = Ok x.
  Proof.
    intros l y i x H N E. unfold to_index. cbn [arint aint Qar option_map].
    rewrite (rint_of_Z _ _ E), trunc_q_Z. cbn [bind]. apply py_index_ok; assumption.
  Qed.

  (** *** One value *)
  (** A transformer made for a hyperparameter. *)
  Inductive suits : bool -> tfm -> sparam -> Prop :=
  | suits_num s d t : make lnf expf s false = Ok d -> min_max AR d None = Ok t -> suits false t (SNum s)
  | suits_cat choices t : cat_to_int AR choices = Ok t -> suits false t (SCat choices)
  | suits_unit choices t : cat_to_unit AR choices = Ok t -> suits true t (SCat choices).

  Lemma cat_to_int_form : forall choices t, cat_to_int AR choices = Ok t -> exists d, t = CatToInt choices d.
  Proof.
    intros choices t H. unfold cat_to_int in H. destruct choices as [| c l]; [discriminate |].
    destruct (indices _ _ _); [| discriminate]. cbn [bind] in H. injection H as <-. eauto.
  Qed.
  Lemma unit_doms : forall n : nat, (2 <= n)%nat ->
    floating AR (aZ AR 0) (aZ AR 1) false (Some (Z.of_nat n)) true = Ok (dom lnf (DFloat 0 1 false (Some (Z.of_nat n))) true) /\
    indices AR (Z.of_nat n) true = Ok (dom lnf (DInt 0 (Z.of_nat n - 1) false None) true).
  Proof.
    intros n H. split.
    - unfold floating, log_of, post_init, cardinality. cbn [bind].
      destruct (Z.of_nat n) as [| p | p] eqn:E; [lia | | lia]. cbn [bind is_int andb].
      rewrite andb_false_r. reflexivity.
    - unfold indices, integer, log_of, post_init, cardinality. cbn [aZ Qar arint aint option_map].
      rewrite !rint_q_Z, !trunc_q_Z. cbn [bind]. rewrite andb_false_r. reflexivity.
  Qed.
  Lemma cat_to_unit_form : forall choices t, (2 <= length choices)%nat -> cat_to_unit AR choices = Ok t ->
    t = CatToUnit choices (dom lnf (DFloat 0 1 false (Some (Z.of_nat (length choices)))) true)
                  (dom lnf (DInt 0 (Z.of_nat (length choices) - 1) false None) true).
  Proof.
    intros choices t L H. unfold cat_to_unit in H. destruct (unit_doms (length choices) L) as (E1 & E2).
    rewrite E1, E2 in H. cbn [bind] in H. destruct choices; [discriminate |]. injection H as <-. reflexivity.
  Qed.
  Lemma good_unit : good (DFloat 0 1 false None).
  Proof. split; [reflexivity |]. split; discriminate. Qed.
  Lemma good_bins : forall n : nat, (2 <= n)%nat -> good (DFloat 0 1 false (Some (Z.of_nat n))).
  Proof. intros n H. split; [reflexivity |]. split; [discriminate |]. intros b [= <-]. lia. Qed.
  Lemma good_idx : forall n : nat, (2 <= n)%nat -> good (DInt 0 (Z.of_nat n - 1) false None).
  Proof. intros n H. split; [cbn; rewrite <- Zlt_Qlt; lia |]. split; discriminate. Qed.

  Hypothesis ID : ideal lnf expf.

  Lemma no_log_coincidence : forall s s', is_log s' = false -> ~ log_coincidence lnf s s'.
  Proof. intros s s' H (_ & E & _). congruence. Qed.

  (** The unit code of choice [i] of [n]. *)
  Lemma unit_code : forall (n : nat) i, (2 <= n)%nat -> (0 <= i < Z.of_nat n)%Z ->
    exists v, cast AR (dom lnf (DFloat 0 1 false (Some (Z.of_nat n))) true)
                      (dom lnf (DInt 0 (Z.of_nat n - 1) false None) true) (Some (inject_Z i)) = Some v /\
              v * inject_Z (Z.of_nat n - 1) == inject_Z i.
  Proof.
    intros n i H R.
    set (s := DFloat 0 1 false (Some (Z.of_nat n))). set (s' := DInt 0 (Z.of_nat n - 1) false None).
    assert (L : legal lnf expf s' (inject_Z i)).
    { split; [cbn; rewrite <- Zle_Qle; lia |]. split; [cbn; rewrite <- Zle_Qle; lia |].
      split; [intros _; exists i; reflexivity | discriminate]. }
    destruct (cast_dom lnf expf ID s s' true true (inject_Z i)) as (v & E & V).
    - apply good_bins; auto.
    - apply good_idx; auto.
    - exact L.
    - left. split; reflexivity.
    - apply no_log_coincidence. reflexivity.
    - exists v. split; [exact E |]. rewrite V.
      assert (P : 0 < inject_Z (Z.of_nat n - 1)) by (apply injZ_pos; lia).
      assert (EN : enc lnf s' (inject_Z i) == inject_Z i / inject_Z (Z.of_nat n - 1)).
      { unfold enc. rewrite (cell_lin lnf expf ID s' (inject_Z i) (good_idx n H) (conj eq_refl eq_refl) L).
        unfold lin. cbn [s' is_log lo width]. change (inject_Z 0) with 0.
        replace (Z.of_nat n - 1 - 0)%Z with (Z.of_nat n - 1)%Z by lia. field. lra. }
      rewrite (dec_proper lnf expf s _ _ (good_bins n H) (ideal_ok lnf expf ID s (good_bins n H)) EN).
      unfold dec, Dom_proofs.cell, raw. cbn [s integral card is_log width lo].
      rewrite (frac_grid (Z.of_nat n) i) by (try lia; reflexivity). field. lra.
  Qed.

  Lemma one_value : forall u t q v, sound lnf q -> suits u t q -> fits lnf expf heq hashable q v ->
    exists y r, encode_one t v = Ok y /\ code u q y /\ decode_one t y = Ok r /\ returned heq q v r.
  Proof.
    intros u t q v S H F. destruct H as [s d t M H | choices t H | choices t H].
    - destruct S as (G & X & NC). destruct F as (x & -> & L). injection H as <-.
      cbn [Enc_model.encode_one Enc_model.decode_one].
      assert (MU : make lnf expf (DFloat 0 1 false None) false = Ok (unit_float_domain AR)) by reflexivity.
      destruct (cast_l lnf expf (DFloat 0 1 false None) s false false _ d x ID good_unit G MU M L (or_introl X) NC)
        as (y & w & E & W & YW & (B0 & B1 & _)).
      cbn [lo hi] in B0, B1.
      exists (Some y). rewrite (to_unit_l lnf expf s false d x ID G M L) in W.
      assert (D := M). apply make_dom in D; auto. subst d.
      change (unit_float_domain AR) with (dom lnf (DFloat 0 1 false None) false) in W.
      rewrite from_unit_dom in W by apply good_unit. injection W as W.
      exists (HN (Some (dec lnf expf s y))). split; [rewrite E; reflexivity |].
      split; [exists y; split; [reflexivity | split; assumption] |].
      split; [rewrite from_unit_dom by auto; reflexivity |].
      exists x, (dec lnf expf s y). split; [reflexivity |]. split; [reflexivity |].
      assert (YE : y == enc lnf s x).
      { rewrite YW, <- W. unfold dec, Dom_proofs.cell, raw. cbn [integral card is_log width lo]. ring. }
      rewrite (dec_proper lnf expf s _ _ G (ideal_ok lnf expf ID s G) YE). symmetry. apply roundtrip; auto.
    - destruct (cat_to_int_form _ _ H) as (d & ->). destruct F as (HV & F).
      destruct (choice_index_total choices v HV F) as (i & I). assert (I' := I).
      apply choice_index_ok in I'. destruct I' as (R & x & N & Y).
      cbn [Enc_model.encode_one Enc_model.decode_one]. rewrite I. cbn [bind arint aZ Qar option_map].
      rewrite rint_q_Z. exists (Some (inject_Z i)), x. split; [reflexivity |].
      split; [exists (inject_Z i), i; split; [reflexivity | split; [exact R | reflexivity]] |].
      split; [apply (decode_index choices _ i); [lia | exact N | reflexivity] |].
      split; [eapply nth_error_In; eauto | exact Y].
    - apply cat_to_unit_form in H; [| exact S]. subst t. destruct F as (HV & F).
      destruct (choice_index_total choices v HV F) as (i & I). assert (I' := I).
      apply choice_index_ok in I'. destruct I' as (R & x & N & Y).
      destruct (unit_code (length choices) i S R) as (y & E & V).
      cbn [Enc_model.encode_one Enc_model.decode_one]. rewrite I. cbn [bind aZ Qar]. rewrite E.
      exists (Some y), x. split; [reflexivity |].
      split; [exists y, i; split; [reflexivity | split; [exact R | exact V]] |].
      split; [| split; [eapply nth_error_In; eauto | exact Y]].
      cbn [amul aZ Qar lift2 arint atrunc option_map]. rewrite trunc_q_Z.
      apply (decode_index choices _ i); [lia | exact N |].
      rewrite (rint_of_Z _ _ V). reflexivity.
  Qed.

  (** *** All of them *)
  Lemma lookup_spec {B} : forall (l : list (string * B)) name v, NoDup (map fst l) -> In (name, v) l -> lookup name l = Some v.
  Proof.
    intros l name v N I. apply In_nth_error in I. destruct I as (k & I). eapply lookup_nodup; eauto.
  Qed.

  Lemma default_made : forall custom ps ts, default_transformers AR custom ps = Ok ts ->
    map fst ts = map fst ps /\
    forall name t, In (name, t) ts -> lookup name custom = Some t \/
      (lookup name custom = None /\ exists p, In (name, p) ps /\
        match p with
        | PFloat d | PInteger d => min_max AR d None = Ok t
        | PCategorical choices => cat_to_int AR choices = Ok t
        | POther => False
        end).
  Proof.
    intros custom. induction ps as [| (name, p) ps IH]; intros ts H; cbn [default_transformers] in H.
    - injection H as <-. split; [reflexivity |]. intros ? ? [].
    - destruct (match lookup name custom with Some t => Ok t | None => _ end) as [t |] eqn:E; [| discriminate].
      cbn [bind] in H. destruct (default_transformers AR custom ps) as [ts' |]; [| discriminate].
      cbn [bind] in H. injection H as <-. destruct (IH ts' eq_refl) as (K & C). split; [cbn; congruence |].
      intros n t' [I | I].
      + injection I as <- <-. destruct (lookup name custom) as [t0 |] eqn:L; [left; congruence |].
        right. split; [reflexivity |]. exists p. split; [left; reflexivity |].
        destruct p; try discriminate; exact E.
      + destruct (C n t' I) as [L | (L & p' & I' & M)]; [left; exact L | right]. split; [exact L |].
        exists p'. split; [right; exact I' | exact M].
  Qed.

  Lemma default_form : forall ps cs custom e, default_encoder AR ps cs custom = Ok e ->
    exists ts, default_transformers AR custom (sort_names ps) = Ok ts /\ transformers e = sort_names ts /\ constants e = cs.
  Proof.
    intros ps cs custom e H. unfold default_encoder in H.
    destruct (overlap ps cs); [discriminate |]. destruct (overlap custom cs); [discriminate |].
    destruct (default_transformers AR custom (sort_names ps)) as [ts |]; [| discriminate].
    cbn [bind] in H. injection H as <-. exists ts. repeat split.
  Qed.
  Lemma default_names : forall ps cs custom e, default_encoder AR ps cs custom = Ok e -> NoDup (map fst ps) ->
    map fst (transformers e) = map fst (sort_names ps) /\ constants e = cs /\
    exists ts, transformers e = ts /\ default_transformers AR custom (sort_names ps) = Ok ts.
  Proof.
    intros ps cs custom e H N. apply default_form in H. destruct H as (ts & D & T & C).
    destruct (default_made _ _ _ D) as (K & _).
    assert (O : ordered ts).
    { assert (O := sort_ordered ps N). revert K O. clear. generalize (sort_names ps) as l.
      induction ts as [| (k, t) ts IH]; intros l K O; [constructor |].
      destruct O as [| k' v l H O]; [discriminate |]. cbn in K. injection K as <- K. constructor; [| eapply IH; eauto].
      intros k' v' I. assert (J : In k' (map fst ts)) by (apply in_map_iff; exists (k', v'); auto).
      rewrite K in J. apply in_map_iff in J. destruct J as ((k2, v2) & E & J). cbn in E. subst k2. eapply H; eauto. }
    rewrite (ordered_id ts O) in T. subst ts. split; [exact K |]. split; [exact C |]. eauto.
  Qed.

  Lemma specs_names : forall ps specs, specs_of lnf expf ps specs -> map fst ps = map fst specs.
  Proof. intros ps specs H. induction H as [| p q ps specs (E & _) _ IH]; cbn; congruence. Qed.
  Lemma specs_in : forall ps specs name p, specs_of lnf expf ps specs -> In (name, p) ps -> exists q, In (name, q) specs /\ describes lnf expf p q.
  Proof.
    intros ps specs name p H. induction H as [| p' q ps specs (E & D) _ IH]; intros I; [destruct I |].
    destruct I as [-> | I].
    - exists (snd q). cbn in E, D. split; [left; destruct q; cbn in *; congruence | exact D].
    - destruct (IH I) as (q' & I' & D'). exists q'. split; [right; exact I' | exact D'].
  Qed.

  Lemma made_default : forall ps specs cs custom e,
    default_encoder AR ps cs custom = Ok e -> NoDup (map fst ps) -> specs_of lnf expf ps specs ->
    spread_choices lnf expf specs custom ->
    forall name t, In (name, t) (transformers e) -> exists q, In (name, q) specs /\ suits (has_key name custom) t q.
  Proof.
    intros ps specs cs custom e H N S SC name t I.
    destruct (default_names _ _ _ _ H N) as (_ & _ & ts & E & D). rewrite E in I.
    destruct (default_made _ _ _ D) as (_ & M). apply M in I. unfold has_key. destruct I as [L | (L & p & I & P)]; rewrite L.
    - apply lookup_in in L. apply SC in L. destruct L as (choices & I & C). exists (SCat choices). split; [exact I |].
      constructor. exact C.
    - assert (I' : In (name, p) ps) by (eapply Permutation_in; [apply Permutation_sym, sort_perm | exact I]).
      destruct (specs_in _ _ _ _ S I') as (q & Q & DQ). exists q. split; [exact Q |].
      destruct DQ as [l u g d MK | l u g d MK | choices]; econstructor; eauto.
  Qed.

  Lemma nodup_spec : forall (specs : list (string * sparam)) name q q', NoDup (map fst specs) -> In (name, q) specs -> In (name, q') specs -> q = q'.
  Proof. intros specs name q q' N I I'. apply lookup_spec in I; auto. apply lookup_spec in I'; auto. congruence. Qed.

  Lemma roundtrip_confs : forall ps specs cs custom e confs,
    NoDup (map fst ps) -> NoDup (map fst cs) -> (forall k, In k (map fst cs) -> ~ In k (map fst ps)) ->
    (ps <> [] \/ cs <> []) ->
    specs_of lnf expf ps specs -> (forall name q, In (name, q) specs -> sound lnf q) -> spread_choices lnf expf specs custom ->
    default_encoder AR ps cs custom = Ok e -> Forall (complete lnf expf heq hashable specs) confs ->
    exists x back, encode AR heq hashable e confs = Ok x /\ decode AR e x = Ok back /\
      Forall2 (fun conf b =>
        (forall name, In name (map fst b) <-> In name (map fst ps) \/ In name (map fst cs)) /\
        (forall name q, In (name, q) specs -> exists v r, lookup name conf = Some v /\ lookup name b = Some r /\ returned heq q v r) /\
        (forall name c, lookup name cs = Some c -> lookup name b = Some c)) confs back.
  Proof.
    intros ps specs cs custom e confs NP NC D NE S SO SC H C.
    destruct (default_names _ _ _ _ H NP) as (KT & KC & ts & ET & DT).
    assert (MD := made_default _ _ _ _ _ H NP S SC).
    assert (NS : NoDup (map fst specs)) by (rewrite <- (specs_names _ _ S); exact NP).
    assert (PT : Permutation (map fst ps) (map fst (transformers e))).
    { rewrite KT. apply Permutation_map, sort_perm. }
    assert (RX : exists x, Forall2 (fun c row => Forall2 (cell AR heq hashable c) (transformers e) row) confs x).
    { clear - C MD SO ID. induction C as [| conf confs C CS IH]; [exists []; constructor |].
      destruct IH as (x & IH).
      assert (R : exists row, Forall2 (cell AR heq hashable conf) (transformers e) row).
      { revert MD. generalize (transformers e) as l. induction l as [| (name, t) l IHl]; intros MD; [exists []; constructor |].
        destruct IHl as (row & R); [intros; eapply MD; right; eauto |].
        destruct (MD name t (or_introl eq_refl)) as (q & Q & SU). destruct (C name q Q) as (v & L & F).
        destruct (one_value _ t q v (SO _ _ Q) SU F) as (y & r & E & _).
        exists (y :: row). constructor; [exists v; auto | exact R]. }
      destruct R as (row & R). exists (row :: x). constructor; assumption. }
    destruct RX as (x & RX). exists x.
    assert (CD : forall conf row k name t, In conf confs -> Forall2 (cell AR heq hashable conf) (transformers e) row ->
      nth_error (transformers e) k = Some (name, t) ->
      exists q v r, In (name, q) specs /\ lookup name conf = Some v /\ dcell AR k t row r /\ returned heq q v r).
    { intros conf row k name t I R K. apply Forall2_nth in R. destruct R as (LR & R).
      destruct (nth_some row k) as (y & Y). { rewrite <- LR. apply nth_error_Some. congruence. }
      destruct (R k _ _ K Y) as (v & L & E). cbn [fst snd] in L, E.
      destruct (MD name t (nth_error_In _ _ K)) as (q & Q & SU).
      rewrite Forall_forall in C. destruct (C conf I name q Q) as (v' & L' & F).
      assert (v' = v) by congruence. subst v'.
      destruct (one_value _ t q v (SO _ _ Q) SU F) as (y' & r & E' & _ & DE & RT).
      assert (y' = y) by congruence. subst y'.
      exists q, v, r. split; [exact Q |]. split; [exact L |]. split; [exists y; auto | exact RT]. }
    destruct (decode_rows AR e x) as (back & B & FB).
    - eapply Permutation_NoDup; [exact PT | exact NP].
    - rewrite KC. exact NC.
    - rewrite KC. intros k I J. apply (D k I). eapply Permutation_in; [apply Permutation_sym; exact PT | exact J].
    - rewrite KC. destruct NE as [NE | NE]; [left | right; exact NE]. intros E. rewrite E in PT.
      apply Permutation_sym, Permutation_nil in PT. destruct ps; [contradiction | discriminate].
    - intros row k name t I K. apply In_nth_error in I. destruct I as (i & I).
      assert (RX' := RX). apply Forall2_nth in RX'. destruct RX' as (LX & RN).
      destruct (nth_some confs i) as (conf & CN). { rewrite LX. apply nth_error_Some. congruence. }
      destruct (CD conf row k name t (nth_error_In _ _ CN) (RN i _ _ CN I) K) as (q & v & r & _ & _ & DC & _). eauto.
    - exists back. split; [apply encode_rows; exact RX |]. split; [exact B |].
      apply Forall2_nth in FB. destruct FB as (LB & FB). apply Forall2_nth in RX. destruct RX as (LX & RX).
      apply Forall2_nth. split; [congruence |]. intros i conf b CN BN.
      destruct (nth_some x i) as (row & RN). { rewrite <- LX. apply nth_error_Some. congruence. }
      destruct (FB i row b RN BN) as (KB & VB & CB). rewrite KC in KB, CB.
      split; [| split; [| exact CB]].
      + intros name. rewrite KB. rewrite in_app_iff. split; intros [I | I]; auto; left.
        * eapply Permutation_in; [apply Permutation_sym; exact PT | exact I].
        * eapply Permutation_in; [exact PT | exact I].
      + intros name q Q.
        assert (IN : In name (map fst (transformers e))).
        { eapply Permutation_in; [exact PT |]. rewrite (specs_names _ _ S). apply in_map_iff. exists (name, q). auto. }
        apply in_map_iff in IN. destruct IN as ((n, t) & E & IN). cbn in E. subst n.
        apply In_nth_error in IN. destruct IN as (k & K).
        destruct (CD conf row k name t (nth_error_In _ _ CN) (RX i _ _ CN RN) K) as (q' & v & r & Q' & L & DC & RT).
        assert (q' = q) by (eapply nodup_spec; eauto). subst q'.
        destruct (VB k name t K) as (r' & DC' & LB').
        assert (r' = r). { destruct DC as (y & Y & EY). destruct DC' as (y' & Y' & EY'). congruence. } subst r'.
        exists v, r. auto.
  Qed.

  (** Legal encodings: what is stored in the columns. *)
  Lemma codes : forall ps specs cs custom e confs,
    NoDup (map fst ps) -> specs_of lnf expf ps specs -> (forall name q, In (name, q) specs -> sound lnf q) ->
    spread_choices lnf expf specs custom ->
    default_encoder AR ps cs custom = Ok e -> Forall (complete lnf expf heq hashable specs) confs ->
    exists x, encode AR heq hashable e confs = Ok x /\ length x = length confs /\
      Forall (fun row => length row = length ps) x /\
      forall i j row name y, nth_error x i = Some row -> nth_error row j = Some y ->
        nth_error (map fst (transformers e)) j = Some name ->
        exists q, In (name, q) specs /\ code (has_key name custom) q y.
  Proof.
    intros ps specs cs custom e confs NP S SO SC H C.
    destruct (default_names _ _ _ _ H NP) as (KT & KC & ts & ET & DT).
    assert (MD := made_default _ _ _ _ _ H NP S SC).
    assert (RX : exists x, Forall2 (fun c row => Forall2 (cell AR heq hashable c) (transformers e) row) confs x /\
      Forall (fun row => forall j y name, nth_error row j = Some y -> nth_error (map fst (transformers e)) j = Some name ->
        exists q, In (name, q) specs /\ code (has_key name custom) q y) x).
    { clear - C MD SO ID. induction C as [| conf confs C CS IH]; [exists []; split; constructor |].
      destruct IH as (x & IH & IC).
      assert (R : exists row, Forall2 (cell AR heq hashable conf) (transformers e) row /\
        (forall j y name, nth_error row j = Some y -> nth_error (map fst (transformers e)) j = Some name ->
        exists q, In (name, q) specs /\ code (has_key name custom) q y)).
      { revert MD. generalize (transformers e) as l. induction l as [| (name, t) l IHl]; intros MD.
        - exists []. split; [constructor |]. intros [| j] ? ? E; discriminate.
        - destruct IHl as (row & R & RC); [intros; eapply MD; right; eauto |].
          destruct (MD name t (or_introl eq_refl)) as (q & Q & SU). destruct (C name q Q) as (v & L & F).
          destruct (one_value _ t q v (SO _ _ Q) SU F) as (y & r & E & CO & _).
          exists (y :: row). split; [constructor; [exists v; auto | exact R] |].
          intros [| j] y' n N1 N2; cbn in N1, N2; [| eapply RC; eauto].
          injection N1 as <-. injection N2 as <-. eauto. }
      destruct R as (row & R & RC). exists (row :: x). split; constructor; assumption. }
    destruct RX as (x & RX & RC). exists x. split; [apply encode_rows; exact RX |].
    split; [symmetry; eapply Forall2_len; eauto |]. split.
    - apply Forall_forall. intros row I. apply In_nth_error in I. destruct I as (i & I).
      apply Forall2_nth in RX. destruct RX as (LX & RX).
      destruct (nth_some confs i) as (conf & CN). { rewrite LX. apply nth_error_Some. congruence. }
      specialize (RX i _ _ CN I). apply Forall2_len in RX. rewrite <- RX.
      assert (L : length (map fst (transformers e)) = length (map fst (sort_names ps))) by congruence.
      rewrite !map_length in L. rewrite L. symmetry. apply Permutation_length, sort_perm.
    - intros i j row name y N1 N2 N3. rewrite Forall_forall in RC. eapply RC; eauto. eapply nth_error_In; eauto.
  Qed.
End Round.
