(** Rows are encoded and decoded independently of each other; what is decoded is legal. *)
From Verif Require Import Enc_spec Dom_proofs Dom_cast_proofs Enc_proofs Enc_round_proofs.
From Coq Require Import Lqa Permutation.
Open Scope nat_scope.
Local Notation length := List.length.

Section App.
  Context {T : Type} (A : arith T) (heq : hval T -> hval T -> bool) (hashable : hval T -> bool).
  Notation encode := (encode A heq hashable).
  Notation decode := (decode A).

  Lemma Forall2_split {X Y} (R : X -> Y -> Prop) : forall a b r, Forall2 R (a ++ b) r ->
    exists ra rb, r = ra ++ rb /\ Forall2 R a ra /\ Forall2 R b rb.
  Proof.
    induction a as [| x a IH]; intros b r H; cbn in H.
    - exists [], r. split; [reflexivity |]. split; [constructor | exact H].
    - inversion H as [| ? y ? r' R1 R2]; subst. destruct (IH b r' R2) as (ra & rb & -> & F1 & F2).
      exists (y :: ra), rb. split; [reflexivity |]. split; [constructor; assumption | exact F2].
  Qed.
  Lemma encode_app_l : forall e a b r, encode e (a ++ b) = Ok r <->
    exists ra rb, encode e a = Ok ra /\ encode e b = Ok rb /\ r = ra ++ rb.
  Proof.
    intros e a b r. split.
    - intros H. apply encode_rows in H. apply Forall2_split in H. destruct H as (ra & rb & -> & F1 & F2).
      exists ra, rb. split; [apply encode_rows; exact F1 |]. split; [apply encode_rows; exact F2 | reflexivity].
    - intros (ra & rb & H1 & H2 & ->). apply encode_rows in H1. apply encode_rows in H2. apply encode_rows.
      apply Forall2_app; assumption.
  Qed.

  Lemma encode_agree_l : forall e confs confs',
    Forall2 (fun c c' => forall name, In name (map fst (transformers e)) -> lookup name c = lookup name c') confs confs' ->
    encode e confs = encode e confs'.
  Proof.
    intros e confs confs' H. unfold Enc_model.encode. rewrite (Forall2_len _ _ _ H). f_equal.
    assert (M : forall l, incl l (transformers e) ->
      mapM (fun t => bind (mapM (getitem (fst t)) confs) (mapM (encode_one A heq hashable (snd t)))) l
      = mapM (fun t => bind (mapM (getitem (fst t)) confs') (mapM (encode_one A heq hashable (snd t)))) l).
    { induction l as [| t l IH]; intros I; cbn [mapM]; [reflexivity |].
      rewrite IH by (intros y J; apply I; right; exact J). f_equal.
      f_equal. assert (N : In (fst t) (map fst (transformers e))) by (apply in_map; apply I; left; reflexivity).
      clear - H N. induction H as [| c c' confs confs' E F IH]; cbn [mapM]; [reflexivity |].
      rewrite IH. unfold getitem. rewrite (E _ N). reflexivity. }
    apply M. intros y J. exact J.
  Qed.

  (** *** Decoding *)
  Definition zipapp {B} (v v' : list (string * list B)) : list (string * list B) :=
    map (fun p => (fst (fst p), snd (fst p) ++ snd (snd p))) (combine v v').

  Lemma mapM_app {X Y} (f : X -> res Y) : forall a b ra rb, mapM f a = Ok ra -> mapM f b = Ok rb -> mapM f (a ++ b) = Ok (ra ++ rb).
  Proof.
    intros a b ra rb Ha Hb. apply mapM_ok in Ha. apply mapM_ok in Hb. apply mapM_ok. apply Forall2_app; assumption.
  Qed.
  Lemma decode_cols_app : forall ts j x x' v v', decode_cols A j ts x = Ok v -> decode_cols A j ts x' = Ok v' ->
    decode_cols A j ts (x ++ x') = Ok (zipapp v v') /\ map fst v = map fst v' /\
    Forall (fun kv => length (snd kv) = length x) v /\ Forall (fun kv => length (snd kv) = length x') v'.
  Proof.
    induction ts as [| (name, t) ts IH]; intros j x x' v v' H H'; cbn [decode_cols] in *.
    - injection H as <-. injection H' as <-. repeat split; constructor.
    - set (col := fun row : list T => match nth_error row j with Some v => Ok v | None => Err IndexError end) in *.
      destruct (mapM col x) as [c |] eqn:C; [| discriminate]. destruct (mapM col x') as [c' |] eqn:C'; [| discriminate].
      cbn [bind] in *. destruct (mapM (decode_one A t) c) as [d |] eqn:D; [| discriminate].
      destruct (mapM (decode_one A t) c') as [d' |] eqn:D'; [| discriminate]. cbn [bind] in *.
      destruct (decode_cols A (S j) ts x) as [r |] eqn:R; [| discriminate].
      destruct (decode_cols A (S j) ts x') as [r' |] eqn:R'; [| discriminate]. cbn [bind] in *.
      injection H as <-. injection H' as <-. destruct (IH (S j) x x' r r' R R') as (E & K & L & L').
      rewrite (mapM_app _ _ _ _ _ C C'). cbn [bind]. rewrite (mapM_app _ _ _ _ _ D D'). cbn [bind]. rewrite E. cbn [bind].
      apply mapM_ok, Forall2_len in C. apply mapM_ok, Forall2_len in C'.
      apply mapM_ok, Forall2_len in D. apply mapM_ok, Forall2_len in D'.
      split; [reflexivity |]. split; [cbn; congruence |]. split; constructor; cbn [snd]; try assumption; congruence.
  Qed.
  Lemma zip_keys : forall {B} (v v' : list (string * list B)), map fst v = map fst v' -> map fst (zipapp v v') = map fst v.
  Proof.
    intros B. induction v as [| (k, a) v IH]; intros [| (k', a') v'] E; try discriminate; [reflexivity |].
    cbn in *. injection E as <- E. f_equal. apply IH. exact E.
  Qed.
  Lemma set_key_zip : forall {B} k (a b : list B) v v', map fst v = map fst v' ->
    set_key k (a ++ b) (zipapp v v') = zipapp (set_key k a v) (set_key k b v') /\
    map fst (set_key k a v) = map fst (set_key k b v').
  Proof.
    intros B k a b. induction v as [| (k1, a1) v IH]; intros [| (k2, a2) v'] E; try discriminate; [split; reflexivity |].
    cbn in E. injection E as <- E. destruct (IH v' E) as (E1 & E2). cbn [zipapp combine map set_key fst snd].
    destruct (String.eqb k k1); cbn [zipapp combine map fst snd].
    - split; [reflexivity | congruence].
    - split; [f_equal; exact E1 | f_equal; exact E2].
  Qed.
  Lemma set_key_len : forall {B} k (a : list B) n v, length a = n -> Forall (fun kv => length (snd kv) = n) v ->
    Forall (fun kv : string * list B => length (snd kv) = n) (set_key k a v).
  Proof.
    intros B k a n v L F. induction F as [| (k1, a1) v E F IH]; cbn [set_key]; [constructor; [exact L | constructor] |].
    destruct (String.eqb k k1); constructor; auto.
  Qed.
  Lemma update_zip : forall {B} (cs : list (string * B)) n n' v v', map fst v = map fst v' ->
    Forall (fun kv => length (snd kv) = n) v -> Forall (fun kv => length (snd kv) = n') v' ->
    let u m := map (fun c : string * B => (fst c, repeat (snd c) m)) cs in
    update_dict (zipapp v v') (u (n + n')) = zipapp (update_dict v (u n)) (update_dict v' (u n')) /\
    map fst (update_dict v (u n)) = map fst (update_dict v' (u n')) /\
    Forall (fun kv => length (snd kv) = n) (update_dict v (u n)) /\
    Forall (fun kv => length (snd kv) = n') (update_dict v' (u n')).
  Proof.
    intros B. unfold update_dict. induction cs as [| (k, c) cs IH]; intros n n' v v' E F F'; cbn [map fold_left fst snd].
    - repeat split; assumption.
    - rewrite repeat_app. destruct (set_key_zip k (repeat c n) (repeat c n') v v' E) as (E1 & E2). rewrite E1.
      apply IH; [exact E2 | |]; apply set_key_len; auto; apply repeat_length.
  Qed.
  Lemma pick_zip : forall {B} (v v' : list (string * list B)) n i, length v = length v' ->
    Forall (fun kv => length (snd kv) = n) v ->
    pick i (map snd (zipapp v v')) = if Nat.ltb i n then pick i (map snd v) else pick (i - n) (map snd v').
  Proof.
    intros B. induction v as [| (k, a) v IH]; intros [| (k', a') v'] n i E F; try discriminate.
    - unfold zipapp. cbn [combine map pick]. destruct (Nat.ltb i n); reflexivity.
    - cbn in E. inversion F as [| ? ? L F']; subst. cbn [snd] in *. cbn [zipapp combine map pick fst snd].
      fold (zipapp v v'). specialize (IH v' (length a) i (f_equal pred E) F').
      destruct (Nat.ltb_spec i (length a)) as [Hi | Hi].
      + rewrite nth_error_app1 by exact Hi. destruct (nth_error a i); rewrite IH; reflexivity.
      + rewrite nth_error_app2 by exact Hi. destruct (nth_error a' (i - length a)); rewrite IH; reflexivity.
  Qed.

  Lemma decode_app_l : forall e x x' b b', decode e x = Ok b -> decode e x' = Ok b' -> decode e (x ++ x') = Ok (b ++ b').
  Proof.
    intros e x x' b b' H H'. unfold Enc_model.decode in *.
    destruct (decode_cols A 0 (transformers e) x) as [v |] eqn:V; [| discriminate].
    destruct (decode_cols A 0 (transformers e) x') as [v' |] eqn:V'; [| discriminate]. cbn [bind] in *.
    destruct (decode_cols_app _ _ _ _ _ _ V V') as (E & K & L & L'). rewrite E. cbn [bind].
    destruct (update_zip (constants e) (length x) (length x') v v' K L L') as (E1 & K1 & L1 & L1').
    rewrite app_length. rewrite E1.
    set (u := update_dict v _) in *. set (u' := update_dict v' _) in *.
    assert (LU : length u = length u') by (rewrite <- (map_length fst u), K1, map_length; reflexivity).
    destruct u as [| p u]; [destruct u'; [| discriminate]; cbn; injection H as <-; injection H' as <-; reflexivity |].
    destruct u' as [| p' u']; [discriminate |].
    injection H as <-. injection H' as <-. cbn [zipapp combine map]. f_equal.
    rewrite seq_app, map_app. f_equal.
    - apply map_ext_in. intros i I. apply in_seq in I.
      change (combine (map fst (zipapp (p :: u) (p' :: u'))) (pick i (map snd (zipapp (p :: u) (p' :: u'))))
              = combine (map fst (p :: u)) (pick i (map snd (p :: u)))).
      rewrite zip_keys by exact K1. rewrite (pick_zip _ _ (length x)) by assumption.
      replace (Nat.ltb i (length x)) with true by (symmetry; apply Nat.ltb_lt; lia). reflexivity.
    - replace (0 + length x) with (length x + 0) by lia. generalize 0 as k. generalize (length x') as m.
      induction m as [| m IHm]; intros k; [reflexivity |]. cbn [seq map].
      f_equal; [| replace (S (length x + k)) with (length x + S k) by lia; apply IHm].
      change (combine (map fst (zipapp (p :: u) (p' :: u'))) (pick (length x + k) (map snd (zipapp (p :: u) (p' :: u'))))
              = combine (map fst (p' :: u')) (pick k (map snd (p' :: u')))).
      rewrite zip_keys by exact K1. rewrite K1. rewrite (pick_zip _ _ (length x)) by assumption.
      replace (Nat.ltb (length x + k) (length x)) with false by (symmetry; apply Nat.ltb_ge; lia).
      replace (length x + k - length x) with k by lia. reflexivity.
  Qed.

  Lemma default_order_l : forall ps ps' cs custom, NoDup (map fst ps) -> Permutation ps ps' ->
    default_encoder A ps cs custom = default_encoder A ps' cs custom.
  Proof.
    intros ps ps' cs custom N P. unfold default_encoder. rewrite (sort_unique ps ps' N P).
    assert (O : overlap ps cs = overlap ps' cs).
    { unfold overlap. assert (P' : Permutation (map fst ps) (map fst ps')) by (apply Permutation_map; exact P).
      clear - P'. induction P' as [| k a b P IH | k k' a | a b c P1 IH1 P2 IH2]; cbn [existsb].
      - reflexivity.
      - rewrite IH. reflexivity.
      - rewrite !orb_assoc. f_equal. apply orb_comm.
      - congruence. }
    rewrite O. reflexivity.
  Qed.
End App.

Section Names.
  Variables lnf expf : Q -> Q.
  Notation AR := (Qar lnf expf).
  Lemma column_names_l : forall ps cs custom e, default_encoder AR ps cs custom = Ok e -> NoDup (map fst ps) ->
    Permutation (map fst ps) (map fst (transformers e)) /\ alphabetical (map fst (transformers e)).
  Proof.
    intros ps cs custom e H N. destruct (default_names lnf expf _ _ _ _ H N) as (K & _). rewrite K.
    split; [apply Permutation_map, sort_perm |]. apply ordered_alphabetical, sort_ordered, N.
  Qed.
  Lemma custom_order_l : forall ts ts' cs, NoDup (map fst ts) -> Permutation ts ts' ->
    config_encoder (T := option Q) ts cs = config_encoder ts' cs.
  Proof. intros ts ts' cs N P. unfold config_encoder. rewrite (sort_unique ts ts' N P). reflexivity. Qed.
End Names.

Open Scope Q_scope.
Section Legal.
  Variables (lnf expf : Q -> Q) (heq : value -> value -> bool) (hashable : value -> bool).
  Notation AR := (Qar lnf expf).
  Hypothesis ID : ideal lnf expf.

  Lemma index_near : forall (n : nat) t, (1 <= n)%nat -> 0 <= t -> t <= inject_Z (Z.of_nat n - 1) ->
    (0 <= rint_q t < Z.of_nat n)%Z.
  Proof.
    intros n t H H0 H1. destruct (rint_between t 0 (Z.of_nat n - 1) H0 H1) as (B0 & B1).
    rewrite <- Zle_Qle in B0, B1. lia.
  Qed.
  Lemma one_decoded : forall u t q y, sound lnf q -> suits lnf expf u t q -> decodable u q y ->
    exists r, decode_one AR t y = Ok r /\ sensible lnf expf q r.
  Proof.
    intros u t q y S H D. destruct H as [s d t M H | choices t H | choices t H].
    - destruct S as (G & _). destruct D as (x & -> & D0 & D1). injection H as <-. cbn [Enc_model.decode_one].
      apply make_dom in M; auto. subst d. rewrite from_unit_dom by auto. eexists. split; [reflexivity |].
      eexists. split; [reflexivity |]. apply dec_legal; auto. apply ideal_ok; auto.
    - destruct (cat_to_int_form lnf expf _ _ H) as (d & ->). destruct D as (x & -> & D0 & D1). cbn [sound] in S.
      assert (R := index_near (length choices) x ltac:(lia) D0 D1).
      destruct (nth_some choices (Z.to_nat (rint_q x))) as (c & N); [lia |].
      exists c. split; [| eapply nth_error_In; eauto]. cbn [Enc_model.decode_one]. unfold to_index.
      cbn [arint aint Qar option_map]. rewrite trunc_q_Z. cbn [bind]. apply py_index_ok; [lia | exact N].
    - cbn [sound] in S. apply (cat_to_unit_form lnf expf) in H; [| exact S]. subst t. destruct D as (x & -> & D0 & D1).
      set (z := x * inject_Z (Z.of_nat (length choices) - 1)).
      assert (P : 0 < inject_Z (Z.of_nat (length choices) - 1)) by (apply injZ_pos; lia).
      assert (R : (0 <= rint_q z < Z.of_nat (length choices))%Z).
      { apply index_near; [lia | unfold z; nra | unfold z; nra]. }
      destruct (nth_some choices (Z.to_nat (rint_q z))) as (c & N); [lia |].
      exists c. split; [| eapply nth_error_In; eauto]. cbn [Enc_model.decode_one].
      cbn [amul aZ Qar lift2 arint atrunc option_map]. fold z. rewrite trunc_q_Z.
      apply (decode_index lnf expf choices _ (rint_q z)); [lia | exact N | reflexivity].
  Qed.

  Lemma decode_legal_l : forall ps specs cs custom e x,
    NoDup (map fst ps) -> NoDup (map fst cs) -> (forall k, In k (map fst cs) -> ~ In k (map fst ps)) ->
    (ps <> [] \/ cs <> []) ->
    specs_of lnf expf ps specs -> (forall name q, In (name, q) specs -> sound lnf q) -> spread_choices lnf expf specs custom ->
    default_encoder AR ps cs custom = Ok e ->
    (forall row j name q, In row x -> nth_error (map fst (transformers e)) j = Some name -> In (name, q) specs ->
       exists y, nth_error row j = Some y /\ decodable (has_key name custom) q y) ->
    exists back, decode AR e x = Ok back /\ length back = length x /\
      Forall (fun b =>
        (forall name, In name (map fst b) <-> In name (map fst ps) \/ In name (map fst cs)) /\
        (forall name q, In (name, q) specs -> exists r, lookup name b = Some r /\ sensible lnf expf q r) /\
        (forall name c, lookup name cs = Some c -> lookup name b = Some c)) back.
  Proof.
    intros ps specs cs custom e x NP NC D NE S SO SC H DX.
    destruct (default_names lnf expf _ _ _ _ H NP) as (KT & KC & ts & ET & DT).
    assert (MD := made_default lnf expf _ _ _ _ _ H NP S SC).
    assert (NS : NoDup (map fst specs)) by (rewrite <- (specs_names lnf expf _ _ S); exact NP).
    assert (PT : Permutation (map fst ps) (map fst (transformers e))).
    { rewrite KT. apply Permutation_map, sort_perm. }
    assert (CD : forall row k name t, In row x -> nth_error (transformers e) k = Some (name, t) ->
      exists q r, In (name, q) specs /\ dcell AR k t row r /\ sensible lnf expf q r).
    { intros row k name t I K. destruct (MD name t (nth_error_In _ _ K)) as (q & Q & SU).
      destruct (DX row k name q I) as (y & Y & DY); [rewrite nth_error_map, K; reflexivity | exact Q |].
      destruct (one_decoded _ t q y (SO _ _ Q) SU DY) as (r & E & R).
      exists q, r. split; [exact Q |]. split; [exists y; auto | exact R]. }
    destruct (decode_rows AR e x) as (back & B & FB).
    - eapply Permutation_NoDup; [exact PT | exact NP].
    - rewrite KC. exact NC.
    - rewrite KC. intros k I J. apply (D k I). eapply Permutation_in; [apply Permutation_sym; exact PT | exact J].
    - rewrite KC. destruct NE as [NE | NE]; [left | right; exact NE]. intros E. rewrite E in PT.
      apply Permutation_sym, Permutation_nil in PT. destruct ps; [contradiction | discriminate].
    - intros row k name t I K. destruct (CD row k name t I K) as (q & r & _ & DC & _). eauto.
    - exists back. split; [exact B |]. apply Forall2_nth in FB. destruct FB as (LB & FB). split; [congruence |].
      apply Forall_forall. intros b I. apply In_nth_error in I. destruct I as (i & BN).
      destruct (nth_some x i) as (row & RN). { rewrite LB. apply nth_error_Some. congruence. }
      destruct (FB i row b RN BN) as (KB & VB & CB). rewrite KC in KB, CB.
      split; [| split; [| exact CB]].
      + intros name. rewrite KB. rewrite in_app_iff. split; intros [I | I]; auto; left.
        * eapply Permutation_in; [apply Permutation_sym; exact PT | exact I].
        * eapply Permutation_in; [exact PT | exact I].
      + intros name q Q.
        assert (IN : In name (map fst (transformers e))).
        { eapply Permutation_in; [exact PT |]. rewrite (specs_names lnf expf _ _ S). apply in_map_iff. exists (name, q). auto. }
        apply in_map_iff in IN. destruct IN as ((n, t) & E & IN). cbn in E. subst n.
        apply In_nth_error in IN. destruct IN as (k & K).
        destruct (CD row k name t (nth_error_In _ _ RN) K) as (q' & r & Q' & DC & RT).
        assert (q' = q) by (eapply nodup_spec; eauto). subst q'.
        destruct (VB k name t K) as (r' & DC' & LB').
        assert (r' = r). { destruct DC as (y & Y & EY). destruct DC' as (y' & Y' & EY'). congruence. } subst r'.
        exists r. auto.
  Qed.

  Lemma suits_domain : forall u t q, suits lnf expf u t q -> sound lnf q -> column_domain lnf expf u q (t_domain t).
  Proof.
    intros u t q H S. destruct H as [s d t M H | choices t H | choices t H].
    - injection H as <-. repeat split.
    - cbn in S. unfold cat_to_int in H. destruct (unit_doms lnf expf (length choices) S) as (_ & E).
      rewrite E in H. unfold column_domain. remember (Z.of_nat (length choices)) as n eqn:En.
      destruct choices as [| c l]; [discriminate |]. cbn [bind] in H. injection H as <-. clear En E.
      cbn [t_domain]. split; [reflexivity |]. split; [reflexivity |].
      split; [cbn [dom d_card card]; f_equal; lia |]. split; reflexivity.
    - cbn in S. rewrite (cat_to_unit_form lnf expf _ _ S H).
      cbn [t_domain]. split; [reflexivity |]. split; [reflexivity |]. split; [reflexivity |]. split; reflexivity.
  Qed.
  Lemma overlap_none : forall {B C} (a : list (string * B)) (b : list (string * C)),
    (forall k, In k (map fst b) -> ~ In k (map fst a)) -> overlap a b = false.
  Proof.
    intros B C a b H. unfold overlap. destruct (existsb _ (map fst a)) eqn:E; [| reflexivity].
    apply existsb_exists in E. destruct E as (k & I & E). apply andb_true_iff in E. destruct E as (_ & E).
    unfold has_key in E. destruct (lookup k b) as [c |] eqn:L; [| discriminate].
    apply lookup_in in L. apply (in_map fst) in L. cbn in L. destruct (H k L I).
  Qed.
  Lemma default_exists_l : forall ps specs cs custom,
    NoDup (map fst ps) -> (forall k, In k (map fst cs) -> ~ In k (map fst ps)) ->
    specs_of lnf expf ps specs -> (forall name q, In (name, q) specs -> sound lnf q) ->
    spread_choices lnf expf specs custom -> exists e, default_encoder AR ps cs custom = Ok e.
  Proof.
    intros ps specs cs custom NP D S SO SC. unfold default_encoder.
    rewrite (overlap_none ps cs D).
    rewrite (overlap_none custom cs).
    2: { intros k I J. apply in_map_iff in J. destruct J as ((n, t) & <- & J). cbn in I.
         destruct (SC _ _ J) as (choices & Q & _). apply (D n I). rewrite (specs_names lnf expf _ _ S).
         apply (in_map fst) in Q. exact Q. }
    assert (E : exists ts, default_transformers AR custom (sort_names ps) = Ok ts).
    { assert (P : forall name p, In (name, p) (sort_names ps) -> In (name, p) ps).
      { intros name p I. eapply Permutation_in; [apply Permutation_sym, sort_perm | exact I]. }
      revert P. generalize (sort_names ps) as l. induction l as [| (name, p) l IH]; intros P; cbn [default_transformers].
      - eexists. reflexivity.
      - destruct IH as (ts & E); [intros; apply P; right; assumption |]. rewrite E.
        destruct (lookup name custom) as [t |]; cbn [bind]; [eexists; reflexivity |].
        destruct (specs_in lnf expf _ _ _ _ S (P _ _ (or_introl eq_refl))) as (q & Q & DQ).
        destruct DQ as [a b g d MK | a b g d MK | choices]; cbn [min_max bind]; try (eexists; reflexivity).
        assert (L := SO _ _ Q). cbn in L. unfold cat_to_int.
        destruct (unit_doms lnf expf (length choices) L) as (_ & U). rewrite U.
        destruct choices as [| c ch]; [cbn in L; lia |]. cbn [bind]. eexists. reflexivity. }
    destruct E as (ts & ->). cbn [bind]. eexists. reflexivity.
  Qed.
  Lemma column_domains_l : forall ps specs cs custom e,
    NoDup (map fst ps) -> specs_of lnf expf ps specs -> (forall name q, In (name, q) specs -> sound lnf q) ->
    spread_choices lnf expf specs custom -> default_encoder AR ps cs custom = Ok e ->
    forall j name d, nth_error (map fst (transformers e)) j = Some name -> nth_error (domains e) j = Some d ->
    exists q, In (name, q) specs /\ column_domain lnf expf (has_key name custom) q d.
  Proof.
    intros ps specs cs custom e NP S SO SC H j name d N1 N2.
    unfold domains in N2. rewrite nth_error_map in N1, N2.
    destruct (nth_error (transformers e) j) as [(n, t) |] eqn:E; [| discriminate].
    cbn in N1, N2. injection N1 as <-. injection N2 as <-.
    destruct (made_default lnf expf _ _ _ _ _ H NP S SC n t (nth_error_In _ _ E)) as (q & Q & SU).
    exists q. split; [exact Q |]. apply suits_domain; [exact SU | eapply SO; eauto].
  Qed.
End Legal.
