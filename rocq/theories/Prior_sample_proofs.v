(** The samplers. *)
From Verif Require Import Prior_spec Dom_spec Dom_proofs Dom_cast_proofs.
From Coq Require Import Lqa Permutation.
Open Scope Q_scope.
Local Notation length := List.length.

Section S.
  Variables lnf expf : Q -> Q.
  Notation A := (Qar lnf expf).
  Notation U := (unit_float_domain A).
  Definition us : desc := DFloat 0 1 false None.

  Lemma unit_dom_eq : U = dom lnf us false. Proof. reflexivity. Qed.
  Lemma good_us : good us. Proof. unfold good, us. cbn. split; [lra|]. split; discriminate. Qed.

  Lemma cast_unit s cat x : good s -> log_ok lnf expf s ->
    gives (cast A (dom lnf s cat) U (Some x)) (dec lnf expf s x).
  Proof.
    intros G L. rewrite unit_dom_eq. unfold cast.
    destruct (same_domain A (dom lnf s cat) (dom lnf us false)) eqn:E.
    - assert (R := same_result lnf expf s cat x). rewrite R. apply same_domain_dom in E.
      destruct E as (E1 & E2 & E3 & E4 & _). cbn [lo hi is_log size_of us] in *.
      destruct s as [l u g b|l u g b]; [destruct b; discriminate|]. cbn [is_log size_of lo hi integral] in *. subst g b.
      eexists. split; [reflexivity|]. unfold dec, raw, cell. cbn [integral is_log card width lo]. rewrite E1, E2. ring.
    - rewrite unit_dom. destruct (log_lift A (dom lnf s cat) (dom lnf us false)) eqn:E'.
      { apply log_lift_dom in E'. destruct E' as (_ & E' & _). discriminate. }
      assert (TU : to_unit A (dom lnf us false) (Some x) = Some ((x - 0) / (1 - 0))) by reflexivity.
      rewrite TU, from_unit_dom by auto. eexists. split; [reflexivity|]. apply dec_proper; auto. field.
  Qed.

  Lemma gives_dtype dt y v : gives y v -> (dt <> Some false \/ exists z, v == inject_Z z) -> gives (to_dtype A dt y) v.
  Proof.
    intros (w & -> & E) H. destruct dt as [[|]|]; try (exists w; split; [reflexivity|exact E]).
    destruct H as [H|(z & Z)]; [congruence|]. cbn [to_dtype atrunc Qar option_map]. eexists. split; [reflexivity|].
    unfold trunc_q. assert (W : w == inject_Z z) by lra.
    assert (Qle_bool 0 w = Qle_bool 0 (inject_Z z)) as -> by (apply eq_true_iff_eq; rewrite !Qle_bool_iff, W; tauto).
    rewrite Z. destruct (Qle_bool 0 (inject_Z z)).
    - rewrite (Qfloor_comp _ _ W), Qfloor_Z. reflexivity.
    - assert (N : - w == inject_Z (- z)) by (rewrite W, <- inject_Z_opp; reflexivity).
      rewrite (Qfloor_comp _ _ N), Qfloor_Z, Z.opp_involutive. reflexivity.
  Qed.

  (** A row of numbers and what it is decoded to. *)
  Definition decoded (ss : list desc) (r r' : list (option Q)) : Prop :=
    length r = length ss /\
    Forall2 gives r' (map (fun p => dec lnf expf (fst p) (snd p))
                          (combine ss (map (fun x => match x with Some q => q | None => 0 end) r))).

  Lemma spread_targets n ss to : targets lnf expf n ss to ->
    length (spread n to) = n /\ length ss = n /\ Forall2 (fun s d => exists cat, d = dom lnf s cat) ss (spread n to).
  Proof.
    intros (G & L & H). destruct to as [d|ds]; cbn [spread].
    - destruct H as (s & cat & M & ->). rewrite !repeat_length. split; [reflexivity|]. split; [reflexivity|].
      destruct n as [|n]; [constructor|]. cbn [repeat] in *. inversion G; subst.
      apply make_dom in M; auto. subst d. change (s :: repeat s n) with (repeat s (S n)).
      change (dom lnf s cat :: repeat (dom lnf s cat) n) with (repeat (dom lnf s cat) (S n)).
      clear -s. induction (S n); cbn [repeat]; constructor; eauto.
    - destruct H as (<- & F). split; [reflexivity|]. assert (LE : length ss = length ds).
      { clear -F. induction F; cbn; congruence. } split; [exact LE|].
      clear L LE. induction F as [|s d ss ds (cat & M)]; constructor.
      + inversion G; subst. exists cat. apply make_dom in M; auto.
      + inversion G; auto.
  Qed.

  Definition row_of (ds : list (domain (option Q))) (r : list (option Q)) : list (option Q) :=
    map (fun p => cast A (snd p) U (fst p)) (combine r ds).
  Lemma row_combine n (r : list (option Q)) : forall ds, length r = n -> length ds = n ->
    map (fun p => cast A (snd (snd p)) (fst (snd p)) (fst p)) (combine r (combine (repeat U n) ds)) = row_of ds r.
  Proof.
    revert n. induction r as [|x r IH]; intros [|n] [|d ds]; try discriminate; [reflexivity..|].
    cbn. intros [= E1] [= E2]. f_equal. apply IH; auto.
  Qed.
  Lemma translate_unit n ss to x : targets lnf expf n ss to -> (forall r, In r x -> length r = n) ->
    translate A n x (inl U) to = Ok (map (row_of (spread n to)) x).
  Proof.
    intros TG W. destruct (spread_targets _ _ _ TG) as (L & _). unfold translate. destruct to as [d|ds]; cbn [spread] in *.
    - f_equal. apply map_ext_in. intros r I. apply W in I. unfold row_of. subst n.
      clear. induction r as [|y r IH]; [reflexivity|]. cbn. f_equal. exact IH.
    - rewrite repeat_length, L, Nat.eqb_refl. cbn [negb]. f_equal. apply map_ext_in. intros r I.
      apply row_combine; auto.
  Qed.
  Lemma row_decoded ss ds r : Forall good ss -> Forall (log_ok lnf expf) ss ->
    Forall2 (fun s d => exists cat, d = dom lnf s cat) ss ds -> length r = length ss -> Forall (fun x => x <> None) r ->
    decoded ss r (row_of ds r).
  Proof.
    intros G L F. unfold decoded, row_of. revert r G L. induction F as [|s d ss ds (cat & ->) F IH]; intros [|x r] G L E N; try discriminate.
    - split; [reflexivity|constructor].
    - inversion G; inversion L; inversion N; subst. destruct x as [x|]; [|congruence].
      split; [exact E|]. cbn [combine map fst snd]. constructor; [apply cast_unit; auto|]. apply IH; auto.
  Qed.
  Lemma decoded_dtype ss dt r r' : dtype_fits ss dt -> decoded ss r r' -> decoded ss r (map (to_dtype A dt) r').
  Proof.
    intros H (E & F). split; [exact E|].
    revert r r' E F H. induction ss as [|s ss IH]; intros [|x r] r' E F H; try discriminate; cbn [map combine] in *.
    - inversion F; subst. constructor.
    - inversion F as [|y v r'' l' G F' E1 E2]; subst. cbn [fst snd map] in *. constructor.
      + apply gives_dtype; [exact G|]. destruct H as [H|H]; [left; exact H|]. right. inversion H; subst.
        unfold dec. destruct (integral s); [|discriminate]. eexists. reflexivity.
      + apply IH; auto. destruct H as [H|H]; [left; exact H|]. right. inversion H; auto.
  Qed.
  Lemma translated_unit n ss to x y : targets lnf expf n ss to -> (forall r, In r x -> length r = n) ->
    (forall r, In r x -> Forall (fun v => v <> None) r) -> translate A n x (inl U) to = Ok y -> Forall2 (decoded ss) x y.
  Proof.
    intros TG W N. destruct (spread_targets _ _ _ TG) as (L1 & L2 & F). rewrite (translate_unit n ss) by auto. intros [= <-].
    destruct TG as (G & L & _). clear -G L F W N L2. induction x as [|r x IH]; cbn [map]; constructor.
    - apply row_decoded; auto; [rewrite L2; apply W; left; reflexivity|apply N; left; reflexivity].
    - apply IH; intros; [apply W|apply N]; right; auto.
  Qed.
  Lemma Forall2_map_dt ss dt x y : dtype_fits ss dt -> Forall2 (decoded ss) x y -> Forall2 (decoded ss) x (map (map (to_dtype A dt)) y).
  Proof. intros H. induction 1; cbn [map]; constructor; auto. apply decoded_dtype; auto. Qed.
  Lemma translate_as_unit n ss to x dt : targets lnf expf n ss to -> (forall r, In r x -> length r = n) ->
    (forall r, In r x -> Forall (fun v => v <> None) r) -> dtype_fits ss dt ->
    exists y, translate_as A dt n x (inl U) to = Ok y /\ Forall2 (decoded ss) x y.
  Proof.
    intros TG W N D. unfold translate_as. rewrite (translate_unit n ss) by auto. cbn [bind]. eexists. split; [reflexivity|].
    apply Forall2_map_dt; [exact D|]. apply (translated_unit n ss to); auto. apply (translate_unit n ss); auto.
  Qed.
  Lemma translate_into_unit n ss to x dt : targets lnf expf n ss to -> (forall r, In r x -> length r = n) ->
    (forall r, In r x -> Forall (fun v => v <> None) r) -> dtype_fits ss dt ->
    exists y, translate_into A dt n x (inl U) to = Ok y /\ Forall2 (decoded ss) x y.
  Proof.
    intros TG W N D. unfold translate_into. destruct to as [d|ds].
    - rewrite (translate_unit n ss) by auto. eexists. split; [reflexivity|].
      apply (translated_unit n ss (inl d)); auto. apply (translate_unit n ss); auto.
    - apply translate_as_unit; auto.
  Qed.

  Lemma decoded_legal ss r r' : Forall good ss -> Forall (log_ok lnf expf) ss ->
    Forall (fun x => exists v, x = Some v /\ 0 <= v /\ v <= 1) r -> decoded ss r r' -> legal_row lnf expf ss r'.
  Proof.
    intros G L N (E & F). unfold legal_row. revert r r' E F N G L. induction ss as [|s ss IH]; intros [|x r] r' E F N G L; try discriminate; cbn in *.
    - inversion F. constructor.
    - inversion F as [|y v r'' l' (w & -> & W) F' E1 E2]; subst. inversion N as [|? ? (q & -> & Q0 & Q1) N']; inversion G; inversion L; subst.
      constructor.
      + exists w. split; [reflexivity|]. cbn [fst snd] in W. eapply legal_proper; [symmetry; exact W|]. apply dec_legal; auto.
      + apply (IH r); auto.
  Qed.
  Lemma uniform_legal_l n ss to x dt : targets lnf expf n ss to -> Forall (unit_row n) x -> dtype_fits ss dt ->
    exists y, uniform_sample A n x to dt = Ok y /\ length y = length x /\ Forall (legal_row lnf expf ss) y.
  Proof.
    intros TG R D. destruct (translate_as_unit n ss to x dt) as (y & E & F); auto.
    { intros r I. rewrite Forall_forall in R. apply R, I. }
    { intros r I. rewrite Forall_forall in R. apply R in I. destruct I as (_ & I). eapply Forall_impl; [|exact I]. cbv beta.
      intros a (v & -> & _). discriminate. }
    exists y. split; [exact E|]. destruct TG as (G & L & _). split.
    - clear -F. induction F; cbn; congruence.
    - clear -F R G L. induction F; constructor; inversion R; subst; auto. apply (decoded_legal ss x); auto. apply H2.
  Qed.
  Lemma sobol_legal_l n sz t ss to x dt : (1 <= n)%nat -> total sz = Ok t -> targets lnf expf n ss to -> Forall (unit_row n) x ->
    dt <> Some false ->
    exists y, sobol_sample A n sz x to dt = Ok y /\ length y = length x /\ Forall (legal_row lnf expf ss) y.
  Proof.
    intros N T TG R D. unfold sobol_sample. destruct (Nat.ltb_spec n 1); [lia|]. rewrite T. cbn [bind].
    assert (map (map (to_dtype A dt)) x = x) as ->.
    { clear -D. induction x as [|r x IH]; [reflexivity|]. cbn [map]. rewrite IH. f_equal.
      induction r as [|v r IHr]; [reflexivity|]. cbn [map]. rewrite IHr. f_equal. destruct dt as [[|]|]; try reflexivity. congruence. }
    destruct (translate_into_unit n ss to x dt) as (y & E & F); auto.
    { intros r I. rewrite Forall_forall in R. apply R, I. }
    { intros r I. rewrite Forall_forall in R. apply R in I. destruct I as (_ & I). eapply Forall_impl; [|exact I]. cbv beta.
      intros a (v & -> & _). discriminate. }
    { left. exact D. }
    exists y. split; [exact E|]. destruct TG as (G & L & _). split.
    - clear -F. induction F; cbn; congruence.
    - clear -F R G L. induction F; constructor; inversion R; subst; auto. apply (decoded_legal ss x); auto. apply H2.
  Qed.

  (** ** Borders *)
  Definition bits (d c : nat) : list bool := map (Nat.testbit c) (seq 0 d).
  Lemma bits_length d c : length (bits d c) = d. Proof. unfold bits. rewrite map_length, seq_length. reflexivity. Qed.
  Lemma bits_nth d c i : (i < d)%nat -> nth_error (bits d c) i = Some (Nat.testbit c i).
  Proof. intros L. unfold bits. apply map_nth_error. rewrite (nth_error_nth' _ 0%nat) by (rewrite seq_length; exact L). rewrite seq_nth; auto. Qed.
  Lemma bits_inj d c c' : (c < 2 ^ d)%nat -> (c' < 2 ^ d)%nat -> bits d c = bits d c' -> c = c'.
  Proof.
    intros L L' E. apply Nat.bits_inj. intros i. destruct (le_lt_dec d i) as [H|H].
    - rewrite <- (Nat.mod_small c (2 ^ d)), <- (Nat.mod_small c' (2 ^ d)) by auto. rewrite !Nat.mod_pow2_bits_high by auto. reflexivity.
    - assert (X := bits_nth d c i H). rewrite E, bits_nth in X by auto. congruence.
  Qed.
  Fixpoint number (c : list bool) : nat := match c with [] => 0 | b :: c' => Nat.b2n b + 2 * number c' end%nat.
  Lemma number_lt c : (number c < 2 ^ length c)%nat.
  Proof. induction c as [|b c IH]; [cbn; lia|]. cbn [number List.length Nat.pow]. destruct b; cbn [Nat.b2n]; lia. Qed.
  Lemma bits_number c : bits (length c) (number c) = c.
  Proof.
    induction c as [|b c IH]; [reflexivity|]. cbn [List.length]. unfold bits. cbn [seq map].
    f_equal.
    - cbn [number]. rewrite Nat.add_comm. apply Nat.testbit_0_r.
    - transitivity (bits (length c) (number c)); [|exact IH]. unfold bits. rewrite <- seq_shift, map_map. apply map_ext. intros i.
      cbn [number]. rewrite Nat.add_comm. apply Nat.testbit_succ_r.
  Qed.

  Lemma border_row_corner ss d c r : Forall good ss -> Forall (log_ok lnf expf) ss -> length ss = d ->
    decoded ss (border_row A d c) r -> corner ss (bits d c) r.
  Proof.
    intros G L E (_ & F). split; [rewrite bits_length; auto|].
    unfold border_row in F. rewrite map_map in F. unfold bits. revert r F E G L. generalize 0%nat as k. revert d.
    induction ss as [|s ss IH]; intros [|d] k r F E G L; try discriminate; cbn [seq map combine] in *.
    - inversion F. constructor.
    - inversion F as [|y v r' l' (w & -> & W) F' E1 E2]; inversion G; inversion L; subst. constructor.
      + exists w. split; [reflexivity|]. rewrite W. cbn [fst snd]. destruct (dec_ends lnf expf s) as [D0 D1]; auto.
        destruct (Nat.testbit c k); [exact D1|exact D0].
      + apply IH; auto.
  Qed.

  Lemma border_configs d t perm : (t <= 2 ^ d)%nat -> Permutation perm (seq 0 (2 ^ d)) ->
    let configs := if Nat.leb (2 ^ d) t then seq 0 (2 ^ d) else firstn t perm in
    NoDup configs /\ length configs = t /\ Forall (fun c => (c < 2 ^ d)%nat) configs /\ (t = 2 ^ d -> configs = seq 0 (2 ^ d))%nat.
  Proof.
    intros H P. cbv zeta. destruct (Nat.leb_spec (2 ^ d) t).
    - split; [apply seq_NoDup|]. split; [rewrite seq_length; lia|]. split; [|auto].
      apply Forall_forall. intros c I. apply in_seq in I. lia.
    - assert (ND : NoDup perm) by (eapply Permutation_NoDup; [symmetry; exact P|apply seq_NoDup]).
      assert (LP : length perm = (2 ^ d)%nat) by (rewrite (Permutation_length P); apply seq_length).
      split. { rewrite <- (firstn_skipn t perm) in ND. clear -ND. induction (firstn t perm) as [|x l IH]; [constructor|].
               cbn [app] in ND. inversion ND; subst. constructor; auto. intros I. apply H1, in_or_app. auto. }
      split; [rewrite firstn_length; lia|]. split; [|lia].
      apply Forall_forall. intros c I. assert (I' : In c perm) by (rewrite <- (firstn_skipn t perm); apply in_or_app; auto).
      apply (Permutation_in _ P), in_seq in I'. lia.
  Qed.
  Lemma border_l d t perm ss to dt : length ss = d -> targets lnf expf d ss to -> (t <= 2 ^ d)%nat -> Permutation perm (seq 0 (2 ^ d)) ->
    dtype_fits ss dt ->
    exists rows cs,
      translate_into A dt d (map (border_row A d) (if Nat.leb (2 ^ d) t then seq 0 (2 ^ d) else firstn t perm)) (inl U) to = Ok rows /\
      Forall2 (corner ss) cs rows /\ NoDup cs /\ length cs = t /\ (t = 2 ^ d -> forall c, length c = d -> In c cs)%nat.
  Proof.
    intros E TG H P D. destruct (border_configs d t perm H P) as (ND & LE & LT & ALL).
    set (configs := if Nat.leb (2 ^ d) t then seq 0 (2 ^ d) else firstn t perm) in *.
    destruct (translate_into_unit d ss to (map (border_row A d) configs) dt) as (y & T & F); auto.
    { intros r I. apply in_map_iff in I. destruct I as (c & <- & _). unfold border_row. rewrite map_length, seq_length. reflexivity. }
    { intros r I. apply in_map_iff in I. destruct I as (c & <- & _). unfold border_row. apply Forall_forall. intros v I.
      apply in_map_iff in I. destruct I as (i & <- & _). destruct (Nat.testbit c i); discriminate. }
    exists y, (map (bits d) configs). split; [exact T|]. destruct TG as (G & L & _). split; [|split; [|split]].
    - clearbody configs. clear -F G L E. remember (map (border_row A d) configs) as x eqn:X. revert configs X.
      induction F; intros [|c cs]; try discriminate; cbn [map]; intros X; constructor.
      + apply border_row_corner; auto. injection X as <- X. assumption.
      + apply IHF. injection X as _ X. exact X.
    - clear -ND LT. induction ND; cbn [map]; constructor; inversion LT; subst; auto.
      intros I. apply in_map_iff in I. destruct I as (c & B & I). rewrite Forall_forall in H3.
      apply bits_inj in B; auto. subst c. contradiction.
    - rewrite map_length. exact LE.
    - intros X c LC. rewrite ALL by auto. apply in_map_iff. exists (number c). rewrite <- LC. split; [apply bits_number|].
      apply in_seq. assert (N := number_lt c). lia.
  Qed.
  Lemma border_num_l d n perm ss to dt : targets lnf expf d ss to -> length ss = d -> Permutation perm (seq 0 (2 ^ d)) -> dtype_fits ss dt ->
    exists rows cs, border_sample A d (Num n) perm to dt = Ok rows /\ Forall2 (corner ss) cs rows /\ NoDup cs /\
      length cs = Nat.min n (2 ^ d) /\ (2 ^ d <= n -> forall c, length c = d -> In c cs)%nat.
  Proof.
    intros TG E P D. destruct (border_l d (Nat.min n (2 ^ d)) perm ss to dt) as (rows & cs & R & F & ND & LE & ALL); auto; [lia|].
    exists rows, cs. unfold border_sample. cbn [bind]. split; [exact R|]. repeat (split; auto). intros H. apply ALL. lia.
  Qed.
  Lemma border_shape_l d l t perm ss to dt : total (Shape l) = Ok t -> targets lnf expf d ss to -> length ss = d ->
    Permutation perm (seq 0 (2 ^ d)) -> dtype_fits ss dt ->
    ((t <= 2 ^ d)%nat -> exists rows cs, border_sample A d (Shape l) perm to dt = Ok rows /\ Forall2 (corner ss) cs rows /\ NoDup cs /\
      length cs = t /\ (t = 2 ^ d -> forall c, length c = d -> In c cs)%nat) /\
    ((2 ^ d < t)%nat -> border_sample A d (Shape l) perm to dt = Err ValueError).
  Proof.
    intros T TG E P D. unfold border_sample. rewrite T. cbn [bind]. split; intros H.
    - destruct (Nat.ltb_spec (2 ^ d) t); [lia|]. cbn [bind]. apply border_l; auto.
    - destruct (Nat.ltb_spec (2 ^ d) t); [|lia]. reflexivity.
  Qed.
  Lemma corners_differ_l ss c c' r r' : Forall good ss -> corner ss c r -> corner ss c' r' -> c <> c' ->
    exists i v v', nth_error r i = Some (Some v) /\ nth_error r' i = Some (Some v') /\ ~ v == v'.
  Proof.
    intros G (E & F) (E' & F') N. revert c c' r r' E F E' F' N. induction G as [|s ss G GG IH]; intros [|b c] [|b' c'] r r' E F E' F' N; try discriminate.
    - congruence.
    - cbn [combine map fst snd] in F, F'. inversion F as [|y v r0 l0 (w & -> & W) F0 E1 E2]; inversion F' as [|y' v' r0' l0' (w' & -> & W') F0' E1' E2']; subst.
      destruct (bool_dec b b') as [B|B].
      + subst b'. destruct (IH c c' r0 r0') as (i & x & x' & X); auto. { congruence. } exists (S i), x, x'. exact X.
      + exists O, w, w'. split; [reflexivity|]. split; [reflexivity|]. destruct G as (G & _).
        destruct b, b'; try congruence; lra.
  Qed.
End S.
