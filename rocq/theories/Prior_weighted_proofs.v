(** Weighted samplers, and samples of an integer dtype. *)
From Verif Require Import Prior_spec Prior_sample_proofs Dom_spec Dom_proofs Dom_cast_proofs.
From Coq Require Import Lqa.
Open Scope nat_scope.
Local Notation length := List.length.

Section W.
  Context {T : Type} (A : arith T).
  Notation row := (list T).

  Lemma assign_length i : forall chosen (out rows : list row), length (assign i chosen out rows) = length out.
  Proof.
    induction chosen as [|c chosen IH]; intros [|o out] rows; cbn [assign]; auto.
    destruct (Nat.eqb c i); [destruct rows|]; cbn [List.length]; rewrite IH; auto.
  Qed.
  Lemma assign_nth i : forall chosen (out rows : list row) j c,
    length rows = count_occ Nat.eq_dec chosen i -> length out = length chosen -> nth_error chosen j = Some c ->
    nth_error (assign i chosen out rows) j =
      if Nat.eqb c i then nth_error rows (count_occ Nat.eq_dec (firstn j chosen) i) else nth_error out j.
  Proof.
    induction chosen as [|x chosen IH]; intros [|o out] rows j c L E H; try discriminate; [destruct j; discriminate|].
    cbn [List.length] in E. injection E as E. cbn [assign count_occ] in *.
    destruct (Nat.eq_dec x i) as [X|X].
    - subst x. rewrite Nat.eqb_refl. destruct rows as [|r rows]; [discriminate|]. cbn [List.length] in L. injection L as L.
      destruct j as [|j]; cbn [nth_error] in *.
      + injection H as <-. rewrite Nat.eqb_refl. reflexivity.
      + rewrite (IH out rows j c L E H). destruct (Nat.eqb c i); [|reflexivity].
        cbn [firstn count_occ]. destruct (Nat.eq_dec i i); [reflexivity|congruence].
    - destruct (Nat.eqb_spec x i); [contradiction|]. destruct j as [|j]; cbn [nth_error] in *.
      + injection H as <-. destruct (Nat.eqb_spec x i); [contradiction|reflexivity].
      + rewrite (IH out rows j c L E H). destruct (Nat.eqb c i); [|reflexivity].
        cbn [firstn count_occ]. destruct (Nat.eq_dec x i); [contradiction|reflexivity].
  Qed.

  Lemma weighted_loop_spec dt chosen : forall samplers i (out y : list row),
    (forall k s n rows, nth_error samplers k = Some s -> s n = Ok rows -> length rows = n) ->
    length out = length chosen -> weighted_loop A dt i samplers chosen out = Ok y ->
    length y = length chosen /\
    forall j c, nth_error chosen j = Some c ->
      (c < i \/ i + length samplers <= c -> nth_error y j = nth_error out j) /\
      (forall s, i <= c -> nth_error samplers (c - i) = Some s ->
         exists rows r, s (count_occ Nat.eq_dec chosen c) = Ok rows /\
           nth_error rows (count_occ Nat.eq_dec (firstn j chosen) c) = Some r /\
           nth_error y j = Some (map (to_dtype A dt) r)).
  Proof.
    induction samplers as [|s samplers IH]; intros i out y LS LO H; cbn [weighted_loop] in H.
    - injection H as <-. split; [exact LO|]. intros j c Hj. split; [auto|]. intros s _ X. destruct (c - i); discriminate.
    - assert (LS' : forall k s0 n rows, nth_error samplers k = Some s0 -> s0 n = Ok rows -> length rows = n)
        by (intros k s0 n rows K; apply (LS (S k)); exact K).
      destruct (Nat.ltb_spec 0 (count_occ Nat.eq_dec chosen i)) as [P|P].
      + destruct (s (count_occ Nat.eq_dec chosen i)) as [rows|e] eqn:S; cbn [bind] in H; [|discriminate].
        assert (LR := LS 0 s _ _ eq_refl S).
        apply IH in H; [|exact LS'|rewrite assign_length; exact LO]. destruct H as (LY & H). split; [exact LY|].
        intros j c Hj. destruct (H j c Hj) as (H1 & H2).
        assert (AN := assign_nth i chosen out (map (map (to_dtype A dt)) rows) j c).
        rewrite map_length in AN. specialize (AN LR LO Hj). split.
        * intros X. cbn [List.length] in X. rewrite H1 by lia. rewrite AN. destruct (Nat.eqb_spec c i); [lia|reflexivity].
        * intros s' X K. destruct (Nat.eq_dec c i) as [->|NE].
          -- rewrite Nat.sub_diag in K. injection K as <-. rewrite H1 in * by lia. rewrite Nat.eqb_refl in AN.
             assert (LT : count_occ Nat.eq_dec (firstn j chosen) i < count_occ Nat.eq_dec chosen i).
             { rewrite <- (firstn_skipn j chosen) at 2. rewrite count_occ_app.
               assert (IN : In i (skipn j chosen)).
               { clear -Hj. revert chosen Hj. induction j as [|j IHj]; intros [|x l] Hj; try discriminate; cbn in *.
                 - injection Hj as <-. left. reflexivity.
                 - apply IHj, Hj. }
               apply (count_occ_In Nat.eq_dec) in IN. lia. }
             destruct (nth_error rows (count_occ Nat.eq_dec (firstn j chosen) i)) as [r|] eqn:R;
               [|apply nth_error_None in R; lia].
             exists rows, r. split; [exact S|]. split; [exact R|]. rewrite AN. apply map_nth_error. exact R.
          -- apply H2; [lia|]. replace (c - i) with (Datatypes.S (c - Datatypes.S i)) in K by lia. exact K.
      + apply IH in H; [|exact LS'|exact LO]. destruct H as (LY & H). split; [exact LY|].
        intros j c Hj. destruct (H j c Hj) as (H1 & H2). split.
        * intros X. cbn [List.length] in X. apply H1. lia.
        * intros s' X K. destruct (Nat.eq_dec c i) as [->|NE].
          -- exfalso. assert (IN : In i chosen) by (eapply nth_error_In; eauto). apply (count_occ_In Nat.eq_dec) in IN. lia.
          -- apply H2; [lia|]. replace (c - i) with (Datatypes.S (c - Datatypes.S i)) in K by lia. exact K.
  Qed.

  Lemma weighted_rows_l samplers chosen garbage to dt (y : list row) :
    (forall k s n rows, nth_error samplers k = Some s -> s (weighted_dtype to dt) n = Ok rows -> length rows = n) ->
    length garbage = length chosen -> Forall (fun c => c < length samplers) chosen ->
    weighted_sample A samplers chosen garbage to dt = Ok y ->
    length y = length chosen /\
    forall j c, nth_error chosen j = Some c ->
      exists s rows r, nth_error samplers c = Some s /\
        s (weighted_dtype to dt) (count_occ Nat.eq_dec chosen c) = Ok rows /\
        nth_error rows (count_occ Nat.eq_dec (firstn j chosen) c) = Some r /\
        nth_error y j = Some (map (to_dtype A (weighted_dtype to dt)) r).
  Proof.
    intros LS LG IN H. unfold weighted_sample in H.
    apply weighted_loop_spec in H; [|  |exact LG].
    - destruct H as (LY & H). split; [exact LY|]. intros j c Hj. destruct (H j c Hj) as (_ & H2).
      rewrite Forall_forall in IN. assert (LT := IN c (nth_error_In _ _ Hj)).
      destruct (nth_error samplers c) as [s|] eqn:S; [|apply nth_error_None in S; lia].
      destruct (H2 (s (weighted_dtype to dt))) as (rows & r & E1 & E2 & E3); [lia| |].
      + rewrite Nat.sub_0_r. apply (map_nth_error (fun s => s (weighted_dtype to dt))). exact S.
      + exists s, rows, r. auto.
    - intros k s n rows K. destruct (nth_error samplers k) as [s0|] eqn:S.
      + apply (map_nth_error (fun s => s (weighted_dtype to dt))) in S as S'. rewrite S' in K. injection K as <-. eapply LS; eauto.
      + exfalso. apply nth_error_None in S. assert (nth_error (map (fun s0 => s0 (weighted_dtype to dt)) samplers) k <> None) by congruence.
        apply nth_error_Some in H0. rewrite map_length in H0. lia.
  Qed.
  Lemma weighted_total_l samplers chosen garbage to dt :
    (forall s n, In s samplers -> exists rows : list row, s (weighted_dtype to dt) n = Ok rows) ->
    exists y, weighted_sample A samplers chosen garbage to dt = Ok y.
  Proof.
    intros H. unfold weighted_sample. generalize 0, garbage. induction samplers as [|s samplers IH]; intros i out; cbn [map weighted_loop]; eauto.
    destruct (Nat.ltb 0 (count_occ Nat.eq_dec chosen i)).
    - destruct (H s (count_occ Nat.eq_dec chosen i)) as (rows & ->); [left; reflexivity|]. cbn [bind]. apply IH. intros. apply H. right. auto.
    - apply IH. intros. apply H. right. auto.
  Qed.
End W.

Open Scope Q_scope.
Section D.
  Variables lnf expf : Q -> Q.
  Notation A := (Qar lnf expf).
  Notation U := (unit_float_domain A).

  (** The probabilities of the samplers. *)
  Lemma fold_add (l : list Q) : forall a, exists s, fold_left (aadd A) (map Some l) (Some a) = Some s /\ s == a + sumq l.
  Proof.
    induction l as [|x l IH]; intros a; cbn [map fold_left sumq fold_right].
    - exists a. split; [reflexivity|]. ring.
    - destruct (IH (a + x)) as (s & E & S). exists s. split; [exact E|]. rewrite S. unfold sumq. ring.
  Qed.
  Lemma sum_div (l : list Q) s s' : s == s' -> ~ s == 0 -> sumq (map (fun w => w / s) l) == sumq l / s'.
  Proof.
    intros E N. induction l as [|x l IH]; cbn [map sumq fold_right]; [unfold Qdiv; ring|].
    fold (sumq (map (fun w => w / s) l)). fold (sumq l). rewrite IH, E. field. rewrite <- E. exact N.
  Qed.
  Lemma weighted_new_l cols (ws : list Q) : (2 <= length cols)%nat -> length cols = length ws ->
    (forall c, In c cols -> c = hd 0%nat cols) -> ~ sumq ws == 0 ->
    exists ps, weighted_new A cols (map Some ws) = Ok (map Some ps) /\ length ps = length ws /\ sumq ps == 1 /\
      forall i w, nth_error ws i = Some w -> exists p, nth_error ps i = Some p /\ p * sumq ws == w.
  Proof.
    intros L2 LE EQ NZ. destruct (fold_add ws 0) as (s & F & S).
    assert (SS : s == sumq ws) by (rewrite S; ring). assert (NZ' : ~ s == 0) by (rewrite SS; exact NZ).
    exists (map (fun w => w / s) ws). unfold weighted_new. destruct (Nat.ltb_spec (length cols) 2); [lia|].
    rewrite map_length, LE, Nat.eqb_refl. cbn [negb].
    assert (forallb (Nat.eqb (hd 0%nat cols)) cols = true) as ->.
    { apply forallb_forall. intros c I. apply Nat.eqb_eq. symmetry. apply EQ, I. }
    cbn [negb]. change (aZ A 0) with (Some 0). rewrite F. split.
    - f_equal. rewrite !map_map. apply map_ext. intros w. cbn [adiv Qar]. destruct (Qeq_bool s 0) eqn:E; [apply Qeq_bool_iff in E; contradiction|reflexivity].
    - split; [apply map_length|]. split; [rewrite (sum_div ws s (sumq ws)) by auto; field; exact NZ|].
      intros i w Hi. exists (w / s). split; [apply (map_nth_error (fun w => w / s)), Hi|]. rewrite <- SS. field. exact NZ'.
  Qed.

  (** An integer dtype truncates the unit values. *)
  Lemma trunc_unit q : 0 <= q -> q < 1 -> trunc_q q = 0%Z.
  Proof.
    intros H0 H1. unfold trunc_q. destruct (Qle_bool 0 q) eqn:E.
    - apply floor_unique; [exact H0|]. exact H1.
    - apply Qle_bool_false in E. lra.
  Qed.
  Lemma trunc_row n r : unit_row n r -> Forall (fun x => x <> Some 1 /\ forall q, x = Some q -> q < 1) r ->
    map (to_dtype A (Some false)) r = repeat (Some 0) n.
  Proof.
    intros (<- & F) G. induction F as [|x r (v & -> & V0 & V1) F IH]; [reflexivity|]. inversion G; subst.
    cbn [map List.length repeat]. f_equal; [|apply IH; auto]. cbn [to_dtype atrunc Qar option_map]. rewrite trunc_unit; auto. apply H1. reflexivity.
  Qed.
  Lemma decoded_zeros ss r : Forall good ss -> Forall (log_ok lnf expf) ss -> decoded lnf expf ss (repeat (Some 0) (length ss)) r ->
    corner ss (repeat false (length ss)) r.
  Proof.
    intros G L (_ & F). split; [apply repeat_length|]. revert r F G L. induction ss as [|s ss IH]; intros r F G L; cbn in *; [inversion F; constructor|].
    inversion F as [|y v r' l' (w & -> & W) F' E1 E2]; inversion G; inversion L; subst. cbn [fst snd] in *. constructor; [|apply IH; auto].
    exists w. split; [reflexivity|]. rewrite W. apply dec_ends; auto.
  Qed.
  Lemma map_trunc n x : Forall (unit_row n) x -> (forall r q, In r x -> In (Some q) r -> q < 1) ->
    map (map (to_dtype A (Some false))) x = map (fun _ => repeat (Some 0) n) x.
  Proof.
    intros F H. apply map_ext_in. intros r I. rewrite Forall_forall in F. apply trunc_row; [apply F, I|].
    apply Forall_forall. intros v V. split.
    - intros ->. assert (X := H r 1 I V). lra.
    - intros q ->. apply (H r q I V).
  Qed.
  Lemma Forall2_right {X Y} (P : Y -> Prop) (R : X -> Y -> Prop) (l : list X) l' :
    (forall a b, In a l -> R a b -> P b) -> Forall2 R l l' -> Forall P l' /\ length l' = length l.
  Proof. intros H F. induction F; split; try constructor; cbn; try (apply (H x); auto; left; auto); try apply IHF; try (f_equal; apply IHF); intros; eapply H; eauto; right; auto. Qed.
  Lemma sobol_integer_l n sz t ss to x : (1 <= n)%nat -> total sz = Ok t -> targets lnf expf n ss to -> length ss = n ->
    Forall (fun s => integral s = true) ss -> Forall (unit_row n) x -> (forall r q, In r x -> In (Some q) r -> q < 1) ->
    exists y, sobol_sample A n sz x to (Some false) = Ok y /\ length y = length x /\ Forall (corner ss (repeat false n)) y.
  Proof.
    intros N T TG LE I R LT. unfold sobol_sample. destruct (Nat.ltb_spec n 1); [lia|]. rewrite T. cbn [bind].
    rewrite (map_trunc n) by auto.
    destruct (translate_into_unit lnf expf n ss to (map (fun _ => repeat (Some 0) n) x) (Some false)) as (y & E & F); auto.
    { intros r J. apply in_map_iff in J. destruct J as (? & <- & _). apply repeat_length. }
    { intros r J. apply in_map_iff in J. destruct J as (? & <- & _). apply Forall_forall. intros v V. apply repeat_spec in V. subst. discriminate. }
    { right. exact I. }
    exists y. split; [exact E|]. destruct TG as (G & L & _).
    apply Forall2_right with (P := corner ss (repeat false n)) in F.
    - rewrite map_length in F. tauto.
    - intros a b J D. apply in_map_iff in J. destruct J as (? & <- & _). subst n. apply decoded_zeros; auto.
  Qed.
End D.
