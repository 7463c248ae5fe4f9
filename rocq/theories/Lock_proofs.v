(** Proofs about environment variables and locks. *)
From Coq Require Import String Ascii.
From Verif Require Import Py Py_proofs Limit_spec Lock_model Lock_spec.
Local Open Scope nat_scope.
Local Open Scope string_scope.
Local Open Scope list_scope.

Lemma lower_char_cases a : (lower_char a = a /\ ~ (65 <= nat_of_ascii a <= 90)) \/ (65 <= nat_of_ascii a <= 90 /\ nat_of_ascii (lower_char a) = nat_of_ascii a + 32).
Proof.
  unfold lower_char. destruct (Nat.leb_spec 65 (nat_of_ascii a)) as [A|A], (Nat.leb_spec (nat_of_ascii a) 90) as [B|B]; cbn [andb]; try (left; split; [reflexivity|lia]).
  right. split; [lia|]. apply nat_ascii_embedding. lia.
Qed.
Lemma nat_ascii_inj a b : nat_of_ascii a = nat_of_ascii b -> a = b.
Proof. intros E. rewrite <- (ascii_nat_embedding a), <- (ascii_nat_embedding b), E. reflexivity. Qed.
(** letters of the words are small ones *)
Lemma lower_same a b : 97 <= nat_of_ascii b -> (lower_char a = b <-> same_letter a b).
Proof.
  intros L. unfold same_letter. destruct (lower_char_cases a) as [[E N]|[N E]].
  - rewrite E. split; [auto|]. intros [H|[H _]]; [exact H|lia].
  - split.
    + intros <-. right. split; [lia|]. lia.
    + intros [->|[_ H]]; [lia|]. apply nat_ascii_inj. lia.
Qed.
Lemma lower_word w : Forall (fun b => 97 <= nat_of_ascii b) (list_ascii_of_string w) -> forall e, lower e = w <-> Forall2 same_letter (list_ascii_of_string e) (list_ascii_of_string w).
Proof.
  induction w as [|b w IH]; intros F [|a e]; cbn [lower list_ascii_of_string] in *.
  - split; auto.
  - split; [discriminate|]. intros H. inversion H.
  - split; [discriminate|]. intros H. inversion H.
  - inversion F as [|? ? F1 F2]; subst. split.
    + intros E. injection E as E1 E2. constructor; [apply lower_same; assumption|]. apply IH; assumption.
    + intros H. inversion H as [|? ? ? ? H1 H2]; subst. f_equal; [apply lower_same; assumption|]. apply IH; assumption.
Qed.
Lemma nullable_iff e : is_nullable e = true <-> null_text e.
Proof.
  unfold is_nullable, null_text. rewrite existsb_exists.
  assert (F : forall w, In w ["none"; "n"; "null"] -> Forall (fun b => 97 <= nat_of_ascii b) (list_ascii_of_string w)).
  { intros w [<-|[<-|[<-|[]]]]; repeat constructor; apply Nat.leb_le; reflexivity. }
  split; intros (w & W & H); exists w; (split; [exact W|]).
  - apply String.eqb_eq in H. apply lower_word; [apply F, W|exact H].
  - apply String.eqb_eq. apply lower_word; [apply F, W|exact H].
Qed.

Section Env.
  Variable float_of_text : string -> res fl.
  Lemma parse_iff k e v : parse float_of_text k e = Ok v <-> reads float_of_text k e v.
  Proof.
    unfold reads. destruct k; cbn [parse].
    - destruct (float_of_text e) as [f|x]; cbn [bind]; split.
      + intros E. injection E as <-. right. eauto.
      + intros [(X & _)|(_ & g & G & ->)]; [discriminate|congruence].
      + discriminate.
      + intros [(X & _)|(_ & g & G & _)]; discriminate.
    - rewrite <- nullable_iff. destruct (is_nullable e) eqn:N.
      + split; [intros E; injection E as <-; left; auto|]. intros [(_ & _ & ->)|([X|X] & _)]; [reflexivity|discriminate|congruence].
      + destruct (float_of_text e) as [f|x]; cbn [bind]; split.
        * intros E. injection E as <-. right. split; [right; discriminate|eauto].
        * intros [(_ & X & _)|(_ & g & G & ->)]; [discriminate|congruence].
        * discriminate.
        * intros [(_ & X & _)|(_ & g & G & _)]; [discriminate|congruence].
  Qed.
  Lemma load_ok environ vars : NoDup (map fst vars) -> (forall key k e, In (key, k) vars -> lookup key environ = Some e -> exists v, reads float_of_text k e v) ->
    exists l, load float_of_text environ vars = Ok l /\ map fst l = map fst vars /\ forall key k, In (key, k) vars ->
      exists v, lookup key l = Some v /\ ((lookup key environ = None /\ v = default_of k) \/ exists e, lookup key environ = Some e /\ reads float_of_text k e v).
  Proof.
    induction vars as [|[key k] vars IH]; intros N H; cbn [load].
    - exists []. repeat split. intros key k [].
    - inversion N as [|? ? N1 N2]; subst. destruct IH as (l & E & F & L); [exact N2|intros; eapply H; [right|]; eassumption|].
      assert (G : exists v, get_env float_of_text environ key k = Ok v /\ ((lookup key environ = None /\ v = default_of k) \/ exists e, lookup key environ = Some e /\ reads float_of_text k e v)).
      { unfold get_env. destruct (lookup key environ) as [e|] eqn:LE; [|eauto]. destruct (H key k e (or_introl eq_refl) LE) as (v & R). exists v. split; [apply parse_iff, R|]. right. eauto. }
      destruct G as (v & GE & GV). rewrite GE. cbn [bind]. rewrite E. cbn [bind]. exists ((key, v) :: l). split; [reflexivity|]. split; [cbn; rewrite F; reflexivity|].
      intros key' k' [X|X].
      + injection X as <- <-. exists v. cbn [lookup]. rewrite String.eqb_refl. auto.
      + cbn [lookup]. destruct (String.eqb_spec key' key) as [->|NE]; [destruct N1; apply (in_map fst) in X; exact X|]. apply L, X.
  Qed.
  Lemma load_bad environ vars key k e : In (key, k) vars -> lookup key environ = Some e -> (forall v, ~ reads float_of_text k e v) -> forall l, load float_of_text environ vars <> Ok l.
  Proof.
    induction vars as [|[key' k'] vars IH]; intros I L R l; [destruct I|]. cbn [load]. destruct I as [X|I].
    - injection X as -> ->. unfold get_env. rewrite L. destruct (parse float_of_text k e) as [v|x] eqn:P; [destruct (R v); apply parse_iff, P|]. discriminate.
    - destruct (get_env float_of_text environ key' k') as [v|x]; [|discriminate]. cbn [bind]. destruct (load float_of_text environ vars) as [l'|x] eqn:E; [|discriminate]. destruct (IH I L R l' eq_refl).
  Qed.
  Lemma variables_nodup : NoDup (map fst variables).
  Proof. unfold variables. cbn [map fst]. repeat (constructor; [cbn; intuition discriminate|]). constructor. Qed.
End Env.
Lemma default_p k : default_setting k (default_of k).
Proof.
  destruct k; cbn [default_setting default_of].
  - exists 7205759403792794%Z. split; [f_equal; f_equal; lazy; reflexivity|]. apply Z.leb_le. lazy. reflexivity.
  - lazy. reflexivity.
Qed.
Lemma settings_p key k : setting key k <-> In (key, k) variables.
Proof.
  unfold setting. split.
  - intros (w & W & ->). cbn [In] in W. destruct k; repeat (destruct W as [<-|W]; [cbn; tauto|]); destruct W.
  - intros HV. unfold variables in HV. cbn [In] in HV. repeat (destruct HV as [HV|HV]; [injection HV as <- <-|]); [..|destruct HV];
      first [exists "TRIAL"; split; [cbn; tauto|reflexivity]|exists "SEED_SNAPSHOT"; split; [cbn; tauto|reflexivity]|exists "OPTIMIZER_INFO"; split; [cbn; tauto|reflexivity]
        |exists "OPTIMIZER_STATE"; split; [cbn; tauto|reflexivity]|exists "GLOBAL_ERR"; split; [cbn; tauto|reflexivity]].
Qed.

Section Wait.
  Variables (tick interval : Z) (free : Z -> bool) (late : nat -> Z).
  Hypotheses (T : (0 < tick)%Z) (LT : forall i, (0 <= late i)%Z).
  Notation pl := (poll tick interval free late).
  Notation next i t start := (t + Z.max tick (Z.of_nat (S i) * interval - (t - start)) + late (S i))%Z.
  Lemma next_later i t start : (t < next i t start)%Z.
  Proof. specialize (LT (S i)). lia. Qed.
  Lemma poll_acquired fuel : forall timeout start i t t', pl fuel timeout start i t = Acquired t' -> free t' = true /\ (t <= t')%Z.
  Proof.
    induction fuel as [|n IH]; cbn [poll]; intros timeout start i t t'; [discriminate|]. destruct (fl_ltb _ _); [|discriminate]. destruct (free t) eqn:F.
    - intros E. injection E as <-. split; [exact F|lia].
    - intros E. apply IH in E. destruct E as [E1 E2]. split; [exact E1|]. assert (X := next_later i t start). lia.
  Qed.
  Lemma poll_failed fuel : forall timeout start i t t', pl fuel timeout start i t = Failed t' -> fl_ltb (FZ t') (fl_add (FZ start) timeout) = false.
  Proof.
    induction fuel as [|n IH]; cbn [poll]; intros timeout start i t t'; [discriminate|]. destruct (fl_ltb _ _) eqn:L.
    - destruct (free t); [discriminate|]. apply IH.
    - intros E. injection E as <-. exact L.
  Qed.
  Lemma poll_ends d : forall start i t, exists fuel, pl fuel (FZ d) start i t <> Waiting.
  Proof.
    intros start. assert (Q : forall n i t, (start + d - t <= Z.of_nat n)%Z -> pl (S n) (FZ d) start i t <> Waiting).
    { induction n as [|n IH]; intros i t H.
      - cbn [poll fl_add fl_ltb]. destruct (Z.ltb_spec t (start + d)); [lia|discriminate].
      - remember (S n) as m. cbn [poll fl_add fl_ltb]. destruct (Z.ltb_spec t (start + d)); [|discriminate]. destruct (free t); [discriminate|]. subst m. apply IH. assert (X := next_later i t start). lia. }
    intros i t. exists (S (Z.to_nat (start + d - t))). apply Q. lia.
  Qed.
  Lemma poll_inf fuel : forall start i t t', pl fuel FPInf start i t <> Failed t'.
  Proof. induction fuel as [|n IH]; cbn [poll fl_add fl_ltb]; intros start i t t'; [discriminate|]. destruct (free t); [discriminate|apply IH]. Qed.
  (** if the lock gets free for good at [f] *)
  Lemma poll_timely f lmax d : (forall t, (f <= t)%Z -> free t = true) -> (forall i, (late i <= lmax)%Z) -> forall start,
    (f - start + Z.max tick interval + lmax < d)%Z ->
    forall n i t, (f - t <= Z.of_nat n)%Z -> (t <= f \/ free t = true)%Z -> (t <= f + Z.max tick interval + lmax)%Z -> (start <= t)%Z -> (i = 0 -> t = start) ->
      (i <> 0 -> (Z.of_nat i * interval <= t - start)%Z) ->
    exists t', pl (S n) (FZ d) start i t = Acquired t' /\ (t' <= f + Z.max tick interval + lmax)%Z.
  Proof.
    intros FR LM start D. induction n as [|n IH]; intros i t H O U ST I0 I1.
    - cbn [poll fl_add fl_ltb]. destruct (Z.ltb_spec t (start + d)); [|lia]. destruct (free t) eqn:F; [eauto|]. rewrite FR in F by lia. discriminate F.
    - remember (S n) as m. cbn [poll fl_add fl_ltb]. destruct (Z.ltb_spec t (start + d)); [|lia]. destruct (free t) eqn:F; [eauto|]. subst m.
      assert (TF : (t < f)%Z) by (destruct (Z_lt_le_dec t f) as [Y|Y]; [exact Y|rewrite (FR t Y) in F; discriminate F]).
      assert (X := next_later i t start). assert (LL := LM (S i)). assert (L0 := LT (S i)).
      assert (B : (Z.of_nat (S i) * interval - (t - start) <= Z.max tick interval)%Z).
      { destruct (Nat.eq_dec i 0) as [->|NI]; [specialize (I0 eq_refl); change (Z.of_nat 1) with 1%Z; lia|]. specialize (I1 NI). rewrite Nat2Z.inj_succ, Z.mul_succ_l. lia. }
      apply IH; try lia.
      destruct (Z_le_gt_dec (next i t start) f) as [Y|Y]; [left; lia|right; apply FR; lia].
  Qed.

  Notation lk := (lock tick interval free late).
  Lemma lock_acquired fuel timeout fail start t : lk fuel timeout fail start = Acquired t -> free t = true /\ (start <= t)%Z.
  Proof.
    unfold lock. destruct (free start) eqn:F.
    - intros E. injection E as <-. split; [exact F|lia].
    - destruct fail; [discriminate|]. apply poll_acquired.
  Qed.
  Lemma lock_failed fuel d start t : lk fuel (Some (FZ d)) false start = Failed t -> (d <= t - start)%Z.
  Proof.
    unfold lock. destruct (free start); [discriminate|]. intros E. apply poll_failed in E. cbn [effective fl_add fl_ltb] in E. apply Z.ltb_ge in E. lia.
  Qed.
  Lemma lock_ends d fail start : exists fuel, lk fuel (Some (FZ d)) fail start <> Waiting.
  Proof.
    destruct (poll_ends d start 0 start) as (fuel & E). exists fuel. unfold lock. destruct (free start); [discriminate|]. destruct fail; [discriminate|exact E].
  Qed.
  Lemma lock_inf fuel start t : lk fuel (Some FPInf) false start <> Failed t.
  Proof. unfold lock. destruct (free start); [discriminate|]. apply poll_inf. Qed.
  Lemma lock_nan fuel start : free start = false -> lk (S fuel) (Some FNaN) false start = Failed start.
  Proof. intros F. unfold lock. rewrite F. reflexivity. Qed.
  Lemma lock_timely f lmax d start : (forall t, (f <= t)%Z -> free t = true) -> (forall i, (late i <= lmax)%Z) -> (start <= f)%Z ->
    (f - start + Z.max tick interval + lmax < d)%Z -> exists fuel t, lk fuel (Some (FZ d)) false start = Acquired t /\ (t <= f + Z.max tick interval + lmax)%Z.
  Proof.
    intros FR LM SF D. assert (L0 := LT 0). assert (L1 := LM 0%nat).
    destruct (poll_timely f lmax d FR LM start D (Z.to_nat (f - start)) 0 start) as (t & E & B); try lia.
    exists (S (Z.to_nat (f - start))). unfold lock. cbn [effective]. destruct (free start); [exists start; split; [reflexivity|lia]|]. exists t. split; [exact E|exact B].
  Qed.
  Lemma is_locked_p fuel ex timeout now : is_locked tick interval free late fuel ex timeout now = Some (ex && negb (free now)).
  Proof. unfold is_locked, lock. destruct ex, (free now); rewrite ?Z.eqb_refl; reflexivity. Qed.
End Wait.
