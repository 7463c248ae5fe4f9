(** Log-probabilities. *)
From Verif Require Import Prior_spec Dom_spec Dom_proofs Enc_proofs.
From Coq Require Import Lqa.
Open Scope nat_scope.
Local Notation length := List.length.

Section G.
  Context {T : Type} (A : arith T).
  Variables (cat_logp : list T -> T -> T) (c_log : T).
  Notation logprob := (log_prob A cat_logp c_log).

  Lemma meaningful_In : forall (ds : list (dist T)) i j d,
    In (j, d) (meaningful i ds) <-> i <= j /\ nth_error ds (j - i) = Some d /\ informed d = true.
  Proof.
    induction ds as [|x ds IH]; intros i j d; cbn [meaningful].
    - split; [intros []|]. intros (_ & H & _). destruct (j - i); discriminate.
    - destruct (informed x) eqn:X; cbn [In]; rewrite IH; split.
      + intros [[= <- <-]|(H1 & H2 & H3)]; [rewrite Nat.sub_diag; auto|]. split; [lia|].
        replace (j - i) with (S (j - S i)) by lia. auto.
      + intros (H1 & H2 & H3). destruct (Nat.eq_dec i j) as [->|N].
        * rewrite Nat.sub_diag in H2. injection H2 as ->. left. reflexivity.
        * right. replace (j - i) with (S (j - S i)) in H2 by lia. split; [lia|]. auto.
      + intros (H1 & H2 & H3). split; [lia|]. replace (j - i) with (S (j - S i)) by lia. auto.
      + intros (H1 & H2 & H3). destruct (Nat.eq_dec i j) as [->|N].
        * rewrite Nat.sub_diag in H2. injection H2 as ->. congruence.
        * replace (j - i) with (S (j - S i)) in H2 by lia. split; [lia|]. auto.
  Qed.
  Lemma meaningful_nodup : forall (ds : list (dist T)) i, NoDup (map fst (meaningful i ds)).
  Proof.
    induction ds as [|x ds IH]; intros i; cbn [meaningful]; [constructor|]. destruct (informed x); [|apply IH].
    cbn [map fst]. constructor; [|apply IH]. intros I. apply in_map_iff in I. destruct I as ((j & d) & E & I). cbn in E. subst j.
    apply meaningful_In in I. lia.
  Qed.
  Lemma cols_gap (ds : list (dist T)) i j d d' : i < j -> nth_error ds i = Some d -> informed d = false ->
    nth_error ds j = Some d' -> informed d' = true ->
    cols_ok (length (meaningful 0 ds)) (map fst (meaningful 0 ds)) = false.
  Proof.
    intros LT Hi Di Hj Dj. destruct (cols_ok _ _) eqn:C; [|reflexivity]. exfalso. unfold cols_ok in C. rewrite forallb_forall in C.
    set (M := meaningful 0 ds) in *.
    assert (INC : incl (seq 0 (length M)) (map fst M)).
    { apply NoDup_length_incl.
      - apply meaningful_nodup.
      - rewrite seq_length, map_length. lia.
      - intros a I. apply in_seq. apply C in I. apply Nat.ltb_lt in I. lia. }
    assert (J : In (j, d') M) by (apply meaningful_In; rewrite Nat.sub_0_r; repeat split; auto; lia).
    assert (JL : j < length M) by (apply Nat.ltb_lt, C, in_map_iff; exists (j, d'); auto).
    assert (II : In i (map fst M)) by (apply INC, in_seq; lia).
    apply in_map_iff in II. destruct II as ((i' & x) & E & II). cbn in E. subst i'. apply meaningful_In in II.
    rewrite Nat.sub_0_r in II. destruct II as (_ & II & X). congruence.
  Qed.

  Lemma log_prob_gap (ds : list (dist T)) i j d d' width x frm y : i < j -> nth_error ds i = Some d -> informed d = false ->
    nth_error ds j = Some d' -> informed d' = true -> logprob ds width x frm <> Ok y.
  Proof.
    intros LT Hi Di Hj Dj. assert (C := cols_gap ds i j d d' LT Hi Di Hj Dj). unfold log_prob.
    destruct (meaningful 0 ds) as [|(i0, d0) rest] eqn:M.
    { assert (X : In (j, d') (meaningful 0 ds)) by (apply meaningful_In; rewrite Nat.sub_0_r; repeat split; auto; lia). rewrite M in X. destruct X. }
    cbn [map fst List.length] in *. rewrite map_length.
    destruct frm as [f|l]; [cbn [bind]|destruct (mapM _ (i0 :: map fst rest)); cbn [bind]; [|discriminate]];
      (destruct (negb (cols_ok width _)); [discriminate|]);
      (destruct (mapM _ x); cbn [bind]; [|discriminate]);
      (destruct (translate _ _ _ _ _); cbn [bind]; [|discriminate]); rewrite C; discriminate.
  Qed.

  Lemma mapM_nth {X Y} (f : X -> res Y) (g : X -> Y) l : (forall a, In a l -> f a = Ok (g a)) -> mapM f l = Ok (map g l).
  Proof. intros H. apply mapM_ok. induction l; cbn [map]; constructor; [apply H; left; reflexivity|]. apply IHl. intros. apply H. right. auto. Qed.

  Lemma log_prob_gap_index (ds : list (dist T)) i j d d' x frm : i < j -> nth_error ds i = Some d -> informed d = false ->
    nth_error ds j = Some d' -> informed d' = true ->
    match frm with inl _ => True | inr l => length l = length ds end -> (forall r, In r x -> length r = length ds) ->
    logprob ds (length ds) x frm = Err IndexError.
  Proof.
    intros LT Hi Di Hj Dj LF LX. assert (C := cols_gap ds i j d d' LT Hi Di Hj Dj). unfold log_prob.
    destruct (meaningful 0 ds) as [|(i0, d0) rest] eqn:M.
    { assert (X : In (j, d') (meaningful 0 ds)) by (apply meaningful_In; rewrite Nat.sub_0_r; repeat split; auto; lia). rewrite M in X. destruct X. }
    cbn [map fst List.length] in *. set (ixs := i0 :: map fst rest) in *.
    assert (IX : forall a, In a ixs -> a < length ds).
    { intros a I. change ixs with (map fst ((i0, d0) :: rest)) in I. rewrite <- M in I. apply in_map_iff in I.
      destruct I as ((b & e) & E & I). cbn in E. subst b. apply meaningful_In in I. destruct I as (_ & I & _).
      rewrite Nat.sub_0_r in I. apply nth_error_Some. congruence. }
    assert (CW : cols_ok (length ds) ixs = true) by (apply forallb_forall; intros a I; apply Nat.ltb_lt, IX, I).
    assert (SUB : exists sub, mapM (fun r => mapM (col r) ixs) x = Ok sub).
    { exists (map (fun r => map (fun i => nth i r (aZ A 0)) ixs) x). apply mapM_nth. intros r R. apply mapM_nth. intros a I.
      unfold col. rewrite (nth_error_nth' r (aZ A 0)) by (rewrite LX by exact R; apply IX, I). reflexivity. }
    destruct SUB as (sub & SUB).
    assert (TR : forall frm', match frm' with inl _ => True | inr l => length l = length ixs end ->
      exists tx, translate A (length ixs) sub frm' (inr (dist_dom A d0 :: map (fun p => dist_dom A (snd p)) rest)) = Ok tx).
    { intros frm' L'. unfold translate. destruct frm' as [f|l]; cbn [spread]; [rewrite repeat_length|rewrite L'];
        rewrite Nat.eqb_refl; cbn [negb]; unfold ixs; cbn [List.length]; rewrite !map_length, Nat.eqb_refl; cbn [negb]; eauto. }
    subst ixs. cbn [List.length] in *. rewrite map_length in *.
    destruct frm as [f|l].
    - cbn [bind]. rewrite CW. cbn [negb]. rewrite SUB. cbn [bind]. destruct (TR (inl f) Logic.I) as (tx & ->). cbn [bind]. rewrite C. reflexivity.
    - assert (FS : exists fs, mapM (fun i => match nth_error l i with Some f => Ok f | None => Err IndexError end) (i0 :: map fst rest) = Ok fs /\ length fs = S (length rest)).
      { exists (map (fun i => nth i l (unit_float_domain A)) (i0 :: map fst rest)). split; [|cbn; rewrite !map_length; reflexivity].
        apply mapM_nth. intros a I. rewrite (nth_error_nth' l (unit_float_domain A)) by (rewrite LF; apply IX, I). reflexivity. }
      destruct FS as (fs & -> & LFS). cbn [bind]. rewrite CW. cbn [negb]. rewrite SUB. cbn [bind].
      destruct (TR (inr fs)) as (tx & ->); [exact LFS|]. cbn [bind]. rewrite C. reflexivity.
  Qed.

  (** ** The informed columns come first *)
  Lemma meaningful_prefix : forall (is : list (dist T)) i k, (forall d, In d is -> informed d = true) ->
    meaningful i (is ++ repeat DUnit k) = combine (seq i (length is)) is.
  Proof.
    induction is as [|d is IH]; intros i k H; cbn [app List.length seq combine meaningful].
    - revert i. induction k as [|k IH]; intros i; cbn [repeat meaningful informed]; auto.
    - rewrite (H d) by (left; reflexivity). f_equal. apply IH. intros. apply H. right. auto.
  Qed.
  Lemma fst_combine {X Y} (a : list X) : forall b : list Y, length a = length b -> map fst (combine a b) = a.
  Proof. induction a as [|x a IH]; intros [|y b] E; try discriminate; cbn; [reflexivity|]. f_equal. apply IH. auto. Qed.
  Lemma snd_combine {X Y} (a : list X) : forall b : list Y, length a = length b -> map snd (combine a b) = b.
  Proof. induction a as [|x a IH]; intros [|y b] E; try discriminate; cbn; [reflexivity|]. f_equal. apply IH. auto. Qed.
  Lemma map_nth_seq {X} (z : X) (l : list X) : forall n, n <= length l -> map (fun i => nth i l z) (seq 0 n) = firstn n l.
  Proof.
    intros n. revert l. induction n as [|n IH]; intros [|x l] H; cbn [List.length] in *; try reflexivity; [lia|].
    cbn [seq map firstn nth]. f_equal. rewrite <- seq_shift, map_map. apply IH. lia.
  Qed.

  Definition part (d : dist T) (f : domain T) (v : T) : T := dist_logp A cat_logp c_log d (cast A (dist_dom A d) f v).
  Definition rowval (w : T) (ds : list (dist T)) (fs : list (domain T)) (r : list T) : T :=
    match ds, fs, r with
    | d0 :: ds', f0 :: fs', v0 :: r' =>
        fold_left (fun acc p => aadd A acc (amul A w (part (fst p) (fst (snd p)) (snd (snd p))))) (combine ds' (combine fs' r')) (part d0 f0 v0)
    | _, _, _ => aZ A 0
    end.

  Lemma add_rest_val w : forall (ds : list (dist T)) k (r : list T) acc, k + length ds <= length r ->
    add_rest A cat_logp c_log w (combine (seq k (length ds)) ds) r acc =
    Ok (fold_left (fun acc p => aadd A acc (amul A w (dist_logp A cat_logp c_log (fst p) (snd p)))) (combine ds (skipn k r)) acc).
  Proof.
    induction ds as [|d ds IH]; intros k r acc L; cbn [List.length seq combine add_rest fold_left]; [reflexivity|].
    cbn [List.length] in L. unfold col. destruct (nth_error r k) as [v|] eqn:E; [|apply nth_error_None in E; lia]. cbn [bind].
    rewrite IH by lia. assert (SK : skipn k r = v :: skipn (S k) r).
    { clear -E. revert k E. induction r as [|x r IHr]; intros [|k] E; try discriminate; cbn in *; [injection E as ->; reflexivity|]. apply IHr, E. }
    rewrite SK. reflexivity.
  Qed.

  Lemma log_prob_prefix (is : list (dist T)) k (fs : list (domain T)) (x : list (list T)) : is <> [] ->
    (forall d, In d is -> informed d = true) -> length fs = length is + k -> (forall r, In r x -> length r = length is + k) ->
    logprob (is ++ repeat DUnit k) (length is + k) x (inr fs) =
    Ok (map (rowval (adiv A (aZ A 1) (aZ A (Z.of_nat (length is + k)))) is (firstn (length is) fs)) (map (firstn (length is)) x)).
  Proof.
    intros NE IS LF LX. unfold log_prob. rewrite meaningful_prefix by exact IS.
    destruct is as [|d0 is]; [congruence|]. clear NE. cbn [List.length seq combine]. set (n := length is) in *.
    rewrite fst_combine by (rewrite seq_length; reflexivity).
    change (0 :: seq 1 n) with (seq 0 (S n)).
    assert (FS : mapM (fun i => match nth_error fs i with Some f => Ok f | None => Err IndexError end) (seq 0 (S n)) = Ok (firstn (S n) fs)).
    { rewrite <- (map_nth_seq (unit_float_domain A)) by (rewrite LF; cbn [List.length]; lia). apply mapM_nth. intros a I. apply in_seq in I.
      rewrite (nth_error_nth' fs (unit_float_domain A)) by (rewrite LF; cbn [List.length]; fold n; lia). reflexivity. }
    rewrite FS. cbn [bind].
    assert (CW : cols_ok (S n + k) (seq 0 (S n)) = true) by (apply forallb_forall; intros a I; apply in_seq in I; apply Nat.ltb_lt; lia).
    rewrite CW. cbn [negb].
    assert (SUB : mapM (fun r => mapM (col r) (seq 0 (S n))) x = Ok (map (firstn (S n)) x)).
    { apply mapM_nth. intros r R. rewrite <- (map_nth_seq (aZ A 0)) by (rewrite (LX r R); cbn [List.length]; lia).
      apply mapM_nth. intros a I. apply in_seq in I. unfold col.
      rewrite (nth_error_nth' r (aZ A 0)) by (rewrite (LX r R); cbn [List.length]; fold n; lia). reflexivity. }
    rewrite SUB. cbn [bind]. rewrite seq_length. unfold translate. cbn [spread].
    rewrite firstn_length, LF. cbn [List.length]. fold n. rewrite Nat.min_l by lia. rewrite Nat.eqb_refl. cbn [negb].
    rewrite map_length, combine_length, seq_length. fold n. rewrite Nat.min_id, Nat.eqb_refl. cbn [negb bind].
    assert (C1 : cols_ok (S n) (seq 0 (S n)) = true) by (apply forallb_forall; intros a I; apply in_seq in I; apply Nat.ltb_lt; lia).
    rewrite C1. cbn [negb]. rewrite app_length, repeat_length. cbn [List.length]. fold n.
    set (w := adiv A _ _).
    assert (TD : map (fun p => dist_dom A (snd p)) (combine (seq 1 n) is) = map (dist_dom A) is).
    { rewrite <- map_map with (f := snd). rewrite snd_combine by (rewrite seq_length; reflexivity). reflexivity. }
    rewrite TD. clear TD SUB C1 CW FS.
    induction x as [|r x IH]; [reflexivity|]. cbn [map mapM].
    assert (LR := LX r (or_introl eq_refl)). cbn [List.length] in LR. fold n in LR.
    rewrite IH by (intros; apply LX; right; auto). clear IH LX.
    destruct fs as [|f0 fs]; [discriminate|]. destruct r as [|v0 r]; [discriminate|]. cbn [firstn combine map fst snd].
    cbn [List.length] in LF, LR. fold n in LF.
    unfold col at 1. cbn [nth_error bind]. fold (Nat.add n k).
    set (tr := map _ (combine (firstn n r) (combine (firstn n fs) (map (dist_dom A) is)))).
    assert (LT : length tr = n).
    { unfold tr. rewrite map_length, !combine_length, !firstn_length, map_length. fold n. lia. }
    unfold n at 1 3. rewrite (add_rest_val w is 1). 2:{ cbn [List.length]. rewrite LT. fold n. lia. }
    cbn [skipn bind]. f_equal. f_equal. cbn [rowval]. change (dist_logp A cat_logp c_log d0 (cast A (dist_dom A d0) f0 v0)) with (part d0 f0 v0).
    generalize (part d0 f0 v0) as acc. unfold tr, n. clearbody w. clear. revert fs r.
    induction is as [|d is IH]; intros fs r acc; [reflexivity|]. cbn [List.length].
    destruct fs as [|f fs]; [destruct r; reflexivity|]. destruct r as [|v r]; [reflexivity|].
    cbn [firstn map combine fold_left fst snd]. apply IH.
  Qed.
End G.

Open Scope Q_scope.
Section D.
  Variables lnf expf : Q -> Q.
  Variables (cat_logp : list (option Q) -> option Q -> option Q) (c_log : option Q).
  Notation A := (Qar lnf expf).
  Notation logprob := (log_prob A cat_logp c_log).
  Notation owns := (owns lnf expf cat_logp c_log).

  Lemma owns_units k : forall fs r ts, owns (repeat DUnit k) fs r ts -> sumq ts == 0.
  Proof.
    induction k as [|k IH]; cbn [repeat]; intros fs r ts H; inversion H as [|d' ds' f' fs' v' r' t' ts' HO HR]; subst; [reflexivity|].
    cbn [sumq fold_right]. fold (sumq ts'). rewrite (IH _ _ _ HR). destruct HO as (w & E & W). cbn in E. injection E as <-. rewrite <- W. ring.
  Qed.
  Lemma owns_fold w k : forall (is : list (dist (option Q))) fs r ts a, owns (is ++ repeat DUnit k) fs r ts ->
    exists q, fold_left (fun acc p => aadd A acc (amul A (Some w) (part A cat_logp c_log (fst p) (fst (snd p)) (snd (snd p)))))
      (combine is (combine (firstn (length is) fs) (firstn (length is) r))) (Some a) = Some q /\ q == a + w * sumq ts.
  Proof.
    induction is as [|d is IH]; cbn [app List.length]; intros fs r ts a H.
    - exists a. split; [reflexivity|]. rewrite (owns_units k fs r ts H). ring.
    - inversion H as [|d' ds' f' fs' v r' t' ts' HO HR]; subst. cbn [firstn combine fold_left fst snd]. destruct HO as (v' & E & V). unfold part at 2. rewrite E.
      cbn [amul aadd Qar lift2]. destruct (IH fs' r' ts' (a + w * v') HR) as (q & F & Q0). exists q. split; [exact F|].
      rewrite Q0, V. cbn [sumq fold_right]. fold (sumq ts'). ring.
  Qed.
  Lemma div_n (n : nat) : n <> 0%nat -> adiv A (aZ A 1) (aZ A (Z.of_nat n)) = Some (1 / inject_Z (Z.of_nat n)).
  Proof.
    intros N. cbn [adiv aZ Qar]. destruct (Qeq_bool (inject_Z (Z.of_nat n)) 0) eqn:E; [|reflexivity].
    apply Qeq_bool_iff in E. change 0 with (inject_Z 0) in E. rewrite inject_Z_injective in E. lia.
  Qed.

  Lemma log_prob_value_l d0 (is : list (dist (option Q))) k fs x tss : length fs = length (d0 :: is ++ repeat DUnit k) ->
    (forall d, In d (d0 :: is) -> informed d = true) -> Forall2 (owns (d0 :: is ++ repeat DUnit k) fs) x tss ->
    exists lps, logprob (d0 :: is ++ repeat DUnit k) (length fs) x (inr fs) = Ok lps /\
      Forall2 (fun lp ts => gives lp (hd 0 ts + (1 / inject_Z (Z.of_nat (length fs))) * sumq (tl ts))) lps tss.
  Proof.
    intros LF IS F.
    assert (LL : forall ds fs r ts, owns ds fs r ts -> length fs = length ds /\ length r = length ds).
    { clear. intros ds fs r ts H. induction H; cbn [List.length]; lia. }
    change (d0 :: is ++ repeat DUnit k) with ((d0 :: is) ++ repeat DUnit k) in *.
    rewrite app_length, repeat_length in LF.
    assert (LX : forall r, In r x -> length r = (length (d0 :: is) + k)%nat).
    { intros r R. clear IS. induction F as [|a b x tss H F IH]; [destruct R|]. destruct R as [<-|R]; [|apply IH, R].
      apply LL in H. rewrite app_length, repeat_length in H. tauto. }
    rewrite LF. rewrite (log_prob_prefix A cat_logp c_log (d0 :: is) k fs x) by (auto; discriminate).
    rewrite div_n by (cbn [List.length]; lia).
    eexists. split; [reflexivity|]. clear LX.
    induction F as [|r ts x tss H F IH]; cbn [map]; constructor; [|exact IH]. clear IH F. inversion H as [|d' ds' f' fs' v r' t' ts' HO HR]; subst.
    cbn [List.length firstn rowval]. destruct HO as (v' & E & V).
    unfold part at 2. rewrite E.
    destruct (owns_fold (1 / inject_Z (Z.of_nat (S (length is) + k))) k is fs' r' ts' v' HR) as (q & FQ & Q0).
    exists q. split; [exact FQ|]. rewrite Q0, V. cbn [hd tl]. reflexivity.
  Qed.

  Lemma log_prob_uninformed_l k width x frm : logprob (repeat DUnit k) width x frm = Ok (map (fun _ => Some 0) x).
  Proof.
    unfold log_prob. change (repeat DUnit k) with ([] ++ repeat (@DUnit (option Q)) k). rewrite meaningful_prefix by (intros d []). reflexivity.
  Qed.
  Lemma log_prob_first_l d0 k fs x tss : length fs = S k ->
    Forall2 (owns (d0 :: repeat DUnit k) fs) x tss ->
    exists lps, logprob (d0 :: repeat DUnit k) (length fs) x (inr fs) = Ok lps /\ Forall2 (fun lp ts => gives lp (sumq ts)) lps tss.
  Proof.
    intros LF F. destruct (informed d0) eqn:I.
    - destruct (log_prob_value_l d0 [] k fs x tss) as (lps & E & V).
      + cbn [app List.length]. rewrite repeat_length. exact LF.
      + intros d [<-|[]]. exact I.
      + exact F.
      + exists lps. split; [exact E|]. clear E. revert F V. revert x lps. induction tss as [|ts tss IH]; intros x lps F V; inversion F as [|r ? x' ? HF F']; inversion V as [|lp ? lps' ? HV V']; subst; [constructor|].
        constructor; [|eapply IH; eauto]. inversion HF as [|d' ds' f' fs' v r' t' ts' HO HR]; subst. destruct HV as (w & -> & W). exists w. split; [reflexivity|]. rewrite W. cbn [hd tl sumq fold_right]. fold (sumq ts').
        rewrite (owns_units k _ _ _ HR). ring.
    - destruct d0; try discriminate. change (DUnit :: repeat DUnit k) with (repeat (@DUnit (option Q)) (S k)) in *.
      rewrite log_prob_uninformed_l. eexists. split; [reflexivity|]. clear LF. induction F as [|r ts x tss H F IH]; cbn [map]; constructor; auto.
      exists 0. split; [reflexivity|]. rewrite (owns_units _ _ _ _ H). reflexivity.
  Qed.
End D.
