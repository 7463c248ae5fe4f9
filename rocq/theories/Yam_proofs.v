(** Reading parameters. *)
From Verif Require Import Py Py_proofs Set_flat_proofs Repo_proofs Yam_model Yam_spec Yam_round_proofs Yam_text_proofs.
Local Notation length := List.length.
Local Notation set_key_same := Repo_proofs.set_key_same.
Local Notation set_key_keys_same := Set_flat_proofs.set_key_same.

(** ** Conversion of one value *)
Lemma unsigned_err neg l e : unsigned neg l = Err e -> e = ValueError.
Proof.
  unfold unsigned. destruct (span_digits l) as (i & l1). destruct (opt_char dot l1) as (p & l2).
  destruct (match p with Some _ => span_digits l2 | None => ([], l2) end) as (f & l3). destruct (Nat.eqb _ 0); [congruence|].
  destruct (opt_char is_e l3) as (x & l4). destruct x; [|destruct l4; congruence].
  destruct (opt_char _ l4) as (s & l5). destruct (span_digits l5) as (y & l6). destruct y; [congruence|]. destruct l6; congruence.
Qed.
Lemma float_of_string_err s e : float_of_string s = Err e -> e = ValueError.
Proof.
  unfold float_of_string. destruct (no_underscores _ _) as [l|]; [|congruence]. destruct (opt_char _ l) as (g & l1).
  destruct (words l1 "inf" || words l1 "infinity"); [discriminate|]. destruct (words l1 "nan"); [discriminate|]. apply unsigned_err.
Qed.
Lemma float_of_int_ok z : ~ huge (VInt z) -> exists x, float_of_int z = Ok (FZ x) /\ nearest z 1 (FZ x).
Proof.
  intros H. unfold float_of_int. pose proof (dec_float_nearest (z <? 0)%Z (Z.abs z) 0 (Z.abs_nonneg z)) as N.
  change (Z.max 0 (- 0)) with 0%Z in N. change (Z.max 0 0) with 0%Z in N. rewrite Z.pow_0_r, Z.mul_1_r in N.
  assert (E : (if (z <? 0)%Z then (- Z.abs z)%Z else Z.abs z) = z) by (destruct (Z.ltb_spec z 0); lia). rewrite E in N.
  destruct (dec_float _ _ 0) as [| | |x].
  - destruct N.
  - exfalso. apply H. cbn [huge nearest] in *. set (b := ((2 ^ 54 - 1) * 2 ^ 970)%Z) in *. clearbody b. lia.
  - exfalso. apply H. cbn [huge nearest] in *. set (b := ((2 ^ 54 - 1) * 2 ^ 970)%Z) in *. clearbody b. lia.
  - exists x. split; [reflexivity|exact N].
Qed.
Lemma int_small z : (Z.abs z <= 2 ^ 53)%Z -> float_of_int z = Ok (FZ (z * fl_unit)).
Proof.
  intros H. destruct (float_of_int_ok z) as (x & E & N).
  - cbn [huge]. intros G. assert (2 ^ 53 < (2 ^ 54 - 1) * 2 ^ 970)%Z.
    { apply Z.lt_le_trans with (2 ^ 54 - 1)%Z; [lia|]. rewrite <- (Z.mul_1_r (2 ^ 54 - 1)) at 1. apply Z.mul_le_mono_nonneg_l; [lia|].
      pose proof (pow_pos 970 ltac:(lia)). lia. }
    set (b := ((2 ^ 54 - 1) * 2 ^ 970)%Z) in *. clearbody b. lia.
  - rewrite E. f_equal. apply (nearest_exact z 1 (FZ x) z); [lia|lia|exact H|exact N].
Qed.

Lemma flagged_nearest s f c : convert (VStr s) = Ok (f, true) -> valid c -> written s c -> nearest (fst (sci_value c)) (snd (sci_value c)) f.
Proof. intros E V W. destruct (written_convert s c V W) as (f' & b & E' & N & _). rewrite E in E'. injection E' as <- <-. exact N. Qed.

Lemma flagged_understood v w : convert_flagged v = Ok w -> understood v w.
Proof.
  unfold convert_flagged. destruct (convert v) as [[f [|]]|e] eqn:C.
  - intros [= <-]. destruct v; try (unfold convert in C; cbn in C; discriminate C || (destruct (py_float _); discriminate C)).
    + unfold convert in C. cbn [py_float flagged] in C. destruct (float_of_int z); discriminate C.
    + destruct (flagged_written s f C) as (c & V & S & W). eapply u_number; eauto. eapply flagged_nearest; eauto.
  - intros [= <-]. apply u_other. intros s c -> V S W. destruct (written_convert s c V W) as (f' & b & E & _ & B). rewrite C in E. injection E as _ <-. apply B in S. discriminate.
  - assert (X : forall e', e = e' -> e' = ValueError -> (match e with ValueError => Ok v | e0 => Err e0 end) = Ok w -> understood v w).
    { intros e' -> ->. intros [= <-]. apply u_other. intros s c -> V S W. destruct (written_convert s c V W) as (f' & b & E & _). rewrite C in E. discriminate. }
    intros H. destruct e; try discriminate H. eapply X; eauto.
Qed.
Lemma flagged_total v : scalar v -> ~ huge v -> exists w, convert_flagged v = Ok w.
Proof.
  intros S H. unfold convert_flagged, convert. destruct v; try contradiction; cbn [py_float flagged].
  - cbn. eauto.
  - destruct (float_of_int_ok z H) as (x & -> & _). cbn. eauto.
  - cbn. eauto.
  - destruct (float_of_string s) as [f|e] eqn:E; cbn [bind].
    + destruct (e_notation _); eauto.
    + apply float_of_string_err in E. subst e. eauto.
Qed.
Lemma flagged_idem v w : convert_flagged v = Ok w -> convert_flagged w = Ok w.
Proof.
  unfold convert_flagged at 1. destruct (convert v) as [[f [|]]|e] eqn:C.
  - intros [= <-]. reflexivity.
  - intros [= <-]. unfold convert_flagged. rewrite C. reflexivity.
  - intros H. destruct e; try discriminate H. injection H as <-. unfold convert_flagged. rewrite C. reflexivity.
Qed.

(** ** Choices *)
Lemma choices_ok l : Forall (fun v => scalar v /\ ~ huge v) l -> exists l', convert_choices l = (l', Ok tt) /\ Forall2 (fun v w => convert_flagged v = Ok w) l l'.
Proof.
  induction 1 as [|v l (S & H) _ (l' & E & F)]; [exists []; split; [reflexivity|constructor]|].
  destruct (flagged_total v S H) as (w & W). exists (w :: l'). cbn [convert_choices]. rewrite W, E. split; [reflexivity|constructor; assumption].
Qed.
Lemma choices_inv l l' u : convert_choices l = (l', Ok u) -> Forall2 (fun v w => convert_flagged v = Ok w) l l'.
Proof.
  revert l'. induction l as [|v l IH]; intros l' H; cbn [convert_choices] in H; [injection H as <-; constructor|].
  destruct (convert_flagged v) as [w|] eqn:W; [|discriminate]. destruct (convert_choices l) as (m & r). injection H as <- ->. constructor; [exact W|apply IH; reflexivity].
Qed.
Lemma choices_fix l l' : Forall2 (fun v w => convert_flagged v = Ok w) l l' -> convert_choices l' = (l', Ok tt).
Proof. induction 1 as [|v w l l' W _ IH]; [reflexivity|]. cbn [convert_choices]. rewrite (flagged_idem v w W), IH. reflexivity. Qed.

Definition same_but (ks : list string) (d d' : dict) : Prop := map fst d' = map fst d /\ forall k, ~ In k ks -> lookup k d' = lookup k d.
Lemma lookup_key {A} k (d : list (string * A)) v : lookup k d = Some v -> In k (map fst d).
Proof. intros L. apply lookup_In in L. apply (in_map fst) in L. exact L. Qed.
Lemma same_set ks k d v w : In k ks -> lookup k d = Some v -> same_but ks d (set_key k w d).
Proof.
  intros I L. split; [apply set_key_keys_same; eapply lookup_key; exact L|]. intros j J. rewrite lookup_set_key. destruct (String.eqb j k) eqn:E; [|reflexivity].
  apply String.eqb_eq in E. subst j. contradiction.
Qed.
Lemma same_trans ks d1 d2 d3 : same_but ks d1 d2 -> same_but ks d2 d3 -> same_but ks d1 d3.
Proof. intros (A & B) (C & D). split; [congruence|]. intros k K. rewrite D, B by exact K. reflexivity. Qed.
Lemma same_refl ks d : same_but ks d d. Proof. split; reflexivity. Qed.

Notation understood_at := entry_rel (only parsing).
Lemma cat_ok d l : lookup "choices" d = Some (VList l) -> Forall (fun v => scalar v /\ ~ huge v) l ->
  (forall v, lookup "default" d = Some v -> scalar v /\ ~ huge v) ->
  exists d' l', formatting_cat d = (d', Ok tt) /\ same_but ["choices"; "default"] d d' /\
    lookup "choices" d' = Some (VList l') /\ Forall2 (fun v w => convert_flagged v = Ok w) l l' /\
    understood_at (fun v w => convert_flagged v = Ok w) "default" d d'.
Proof.
  intros C L D. unfold formatting_cat, item. rewrite C. destruct (choices_ok l L) as (l' & E & F). rewrite E.
  set (d1 := set_key "choices" (VList l') d).
  assert (S1 : same_but ["choices"; "default"] d d1) by (eapply same_set; [left; reflexivity|exact C]).
  assert (LC : lookup "choices" d1 = Some (VList l')) by (unfold d1; rewrite lookup_set_key; reflexivity).
  assert (LD : lookup "default" d1 = lookup "default" d) by (unfold d1; rewrite lookup_set_key; reflexivity).
  clearbody d1. rewrite LD. unfold entry_rel. destruct (lookup "default" d) as [v|] eqn:DV.
  - destruct (D v eq_refl) as (SC & NH). assert (T : is_str v || is_intv v || is_floatv v = true) by (destruct v; try contradiction; reflexivity).
    rewrite T. destruct (flagged_total v SC NH) as (w & W). rewrite W. exists (set_key "default" w d1), l'. split; [reflexivity|].
    split; [eapply same_trans; [exact S1|]; eapply same_set; [right; left; reflexivity|exact LD]|]. split; [rewrite lookup_set_key; exact LC|]. split; [exact F|].
    rewrite lookup_set_key. reflexivity.
  - exists d1, l'. split; [reflexivity|]. split; [exact S1|]. split; [exact LC|]. split; [exact F|]. rewrite LD. exact Logic.I.
Qed.
Lemma flagged_eq v x w y : py_eqb v x = true -> scalar v -> scalar x -> convert_flagged v = Ok w -> convert_flagged x = Ok y -> py_eqb w y = true.
Proof.
  intros E S T W Y.
  assert (NUM : forall u t, convert_flagged u = Ok t -> (forall s, u <> VStr s) -> t = u).
  { intros u t C N. apply flagged_understood in C. inversion C; subst; [exfalso; eapply N; reflexivity|reflexivity]. }
  destruct v; try contradiction.
  4:{ destruct x; try (cbn in E; discriminate E). cbn in E. apply String.eqb_eq in E. subst s0. rewrite W in Y. injection Y as <-.
      apply flagged_understood in W. inversion W as [s0 c f V SI WR N EV EW|? ? EV EW]; subst; [|cbn; apply String.eqb_refl].
      cbn. destruct f; [destruct N|reflexivity|reflexivity|]. cbn. apply Z.eqb_refl. }
  all: apply NUM in W; [subst w|intros ? X; discriminate X].
  all: destruct x; try contradiction; try (cbn in E; discriminate E); try (destruct b; cbn in E; discriminate E).
  all: apply NUM in Y; [subst y|intros ? X; discriminate X].
  all: exact E.
Qed.

(** ** Bounds *)
Notation sci_text := e_text.
Lemma numeral_convert v : numeral v -> exists f b, convert v = Ok (f, b) /\ as_float v f /\ (b = true <-> sci_text v).
Proof.
  intros N. destruct v; try contradiction; cbn [numeral] in N.
  - destruct (float_of_int_ok z N) as (x & E & NE). exists (FZ x), false. unfold convert. cbn [py_float flagged]. rewrite E. split; [reflexivity|].
    split; [constructor; exact NE|]. split; [discriminate|intros (s & c & X & _); discriminate].
  - exists f, false. split; [reflexivity|]. split; [constructor|]. split; [discriminate|intros (s & c & X & _); discriminate].
  - destruct N as (c & V & W). destruct (written_convert s c V W) as (f & b & E & NE & B). exists f, b. split; [exact E|]. split; [econstructor; eassumption|].
    rewrite B. split; [intros S; exists s, c; auto|]. intros (s' & c' & [= <-] & V' & S' & W').
    destruct (written_convert s c' V' W') as (f' & b' & E' & _ & B'). rewrite E in E'. injection E' as _ <-. apply B, B', S'.
Qed.
Lemma bounds_ok d l u : lookup "lower" d = Some l -> lookup "upper" d = Some u -> numeral l -> numeral u ->
  exists d' f g bl bu, convert_bounds d = (d', Ok (bl, bu)) /\ same_but ["lower"; "upper"] d d' /\
    lookup "lower" d' = Some (VFloat f) /\ lookup "upper" d' = Some (VFloat g) /\ as_float l f /\ as_float u g /\
    (bl || bu = true <-> sci_text l \/ sci_text u).
Proof.
  intros L U NL NU. unfold convert_bounds, item. rewrite L. cbn [bind].
  destruct (numeral_convert l NL) as (f & bl & E & A & B). rewrite E.
  assert (U' : lookup "upper" (set_key "lower" (VFloat f) d) = Some u) by (rewrite lookup_set_key; exact U).
  rewrite U'. cbn [bind]. destruct (numeral_convert u NU) as (g & bu & E' & A' & B'). rewrite E'.
  eexists _, f, g, bl, bu. split; [reflexivity|]. split; [|split; [|split; [|split; [exact A|split; [exact A'|]]]]].
  - eapply same_trans; [eapply same_set; [left; reflexivity|exact L]|eapply same_set; [right; left; reflexivity|exact U']].
  - rewrite !lookup_set_key. reflexivity.
  - rewrite lookup_set_key. reflexivity.
  - rewrite orb_true_iff, B, B'. reflexivity.
Qed.
Lemma value_to_type_ok {A} (a : A) : value_to_type (Ok a) = Ok a. Proof. reflexivity. Qed.
Lemma float_ok d l u : lookup "lower" d = Some l -> lookup "upper" d = Some u -> numeral l -> numeral u ->
  (forall v, lookup "default" d = Some v -> numeral v) ->
  exists d' f g, formatting_float d = (d', Ok tt) /\ same_but ["lower"; "upper"; "default"] d d' /\
    lookup "lower" d' = Some (VFloat f) /\ lookup "upper" d' = Some (VFloat g) /\ as_float l f /\ as_float u g /\
    understood_at (fun v w => exists h, w = VFloat h /\ as_float v h) "default" d d'.
Proof.
  intros L U NL NU D.
  assert (X : exists d1 f g, same_but ["lower"; "upper"; "default"] d d1 /\ lookup "lower" d1 = Some (VFloat f) /\ lookup "upper" d1 = Some (VFloat g) /\
    as_float l f /\ as_float u g /\ lookup "default" d1 = lookup "default" d /\
    formatting_float d = match lookup "default" d1 with
          | None => (d1, Ok tt)
          | Some v =>
              if is_floatv v then (d1, Ok tt)
              else match value_to_type (convert v) with
                   | Ok (f, _) => (set_key "default" (VFloat f) d1, Ok tt)
                   | Err e => (d1, Err e)
                   end
          end).
  { unfold formatting_float, item. rewrite L, U. destruct (is_floatv l) eqn:FL.
    - cbn [andb]. destruct (is_floatv u) eqn:FU.
      + destruct l; try discriminate FL. destruct u; try discriminate FU. exists d, f, f0. split; [apply same_refl|]. repeat (split; [assumption || constructor|]). split; reflexivity.
      + destruct (bounds_ok d l u L U NL NU) as (d' & f & g & bl & bu & E & S & L' & U' & A & A' & _). rewrite E. cbn [value_to_type bind].
        exists d', f, g. split; [destruct S as (S1 & S2); split; [exact S1|]; intros k K; apply S2; intros [<-|[<-|[]]]; apply K; cbn; auto|].
        repeat (split; [assumption|]). split; [apply S; intros [X|[X|[]]]; discriminate|reflexivity].
    - cbn [andb]. destruct (bounds_ok d l u L U NL NU) as (d' & f & g & bl & bu & E & S & L' & U' & A & A' & _). rewrite E. cbn [value_to_type bind].
      exists d', f, g. split; [destruct S as (S1 & S2); split; [exact S1|]; intros k K; apply S2; intros [<-|[<-|[]]]; apply K; cbn; auto|].
      repeat (split; [assumption|]). split; [apply S; intros [X|[X|[]]]; discriminate|reflexivity]. }
  destruct X as (d1 & f & g & S & L1 & U1 & A & A' & DD & ->). unfold entry_rel. rewrite DD.
  destruct (lookup "default" d) as [v|] eqn:DV.
  - destruct (numeral_convert v (D v eq_refl)) as (h & b & E & AH & _). destruct (is_floatv v) eqn:FV.
    + exists d1, f, g. split; [reflexivity|]. split; [exact S|]. repeat (split; [assumption|]). rewrite DD. destruct v; try discriminate FV. exists f0. split; [reflexivity|constructor].
    + rewrite E. cbn [value_to_type]. exists (set_key "default" (VFloat h) d1), f, g. split; [reflexivity|].
      split; [eapply same_trans; [exact S|]; eapply same_set; [right; right; left; reflexivity|exact DD]|].
      split; [rewrite lookup_set_key; exact L1|]. split; [rewrite lookup_set_key; exact U1|]. split; [exact A|]. split; [exact A'|].
      rewrite lookup_set_key. exists h. split; [reflexivity|exact AH].
  - exists d1, f, g. split; [reflexivity|]. split; [exact S|]. repeat (split; [assumption|]). rewrite DD. exact Logic.I.
Qed.

(** ** Integers *)
Lemma ten_pos k : (0 < 10 ^ Z.max 0 k)%Z. Proof. apply Z.pow_pos_nonneg; lia. Qed.
Lemma exact_int_fl n : int_of_float (FZ (n * fl_unit)) = Ok n /\ fl_is_int (FZ (n * fl_unit)) n = true.
Proof.
  split; [cbn [int_of_float]; rewrite Z.quot_mul by (pose proof unit_pos; lia); reflexivity|]. unfold fl_is_int, fl_of_Z. cbn [fl_eqb]. apply Z.eqb_refl.
Qed.
Lemma says_convert v n : says v n -> exists b, convert v = Ok (FZ (n * fl_unit), b) /\ (b = true <-> exists s, v = VStr s).
Proof.
  intros S. destruct S as [n H|s c n V S W E H].
  - exists false. unfold convert. cbn [py_float flagged]. rewrite (int_small n H). split; [reflexivity|]. split; [discriminate|intros (s & X); discriminate].
  - destruct (written_convert s c V W) as (f & b & C & N & B). exists b. rewrite C. split.
    + do 2 f_equal. eapply nearest_exact; [|exact E|exact H|exact N]. unfold sci_value. cbn [snd]. apply ten_pos.
    + rewrite B. split; [eauto|auto].
Qed.
Lemma int_ok d l u n m : lookup "lower" d = Some l -> lookup "upper" d = Some u -> says l n -> says u m ->
  (forall v, lookup "default" d = Some v -> exists k, says v k) ->
  exists d', formatting_int d = (d', Ok tt) /\ same_but ["lower"; "upper"; "default"] d d' /\
    lookup "lower" d' = Some (VInt n) /\ lookup "upper" d' = Some (VInt m) /\
    understood_at (fun v w => exists k, w = VInt k /\ says v k) "default" d d'.
Proof.
  intros L U SL SU D. destruct (says_convert l n SL) as (bl & CL & BL). destruct (says_convert u m SU) as (bu & CU & BU).
  assert (X : exists d1, same_but ["lower"; "upper"; "default"] d d1 /\ lookup "lower" d1 = Some (VInt n) /\ lookup "upper" d1 = Some (VInt m) /\
    lookup "default" d1 = lookup "default" d /\
    formatting_int d = match lookup "default" d1 with
          | None => (d1, Ok tt)
          | Some v =>
              if is_intv v then (d1, Ok tt)
              else match value_to_type (bind (convert v) (fun fb => exact_int (fst fb))) with
                   | Ok n => (set_key "default" (VInt n) d1, Ok tt)
                   | Err e => (d1, Err e)
                   end
          end).
  { assert (BOTH : is_intv l && is_intv u = true -> l = VInt n /\ u = VInt m).
    { intros B. apply andb_prop in B. destruct B as (B1 & B2). inversion SL; subst; [|discriminate]. inversion SU; subst; [|discriminate]. auto. }
    assert (CONV : is_intv l && is_intv u = false -> int_bounds l u = Ok (n, m)).
    { intros B. unfold int_bounds. rewrite CL, CU. cbn [bind fst snd].
      assert (F : bl || bu = true).
      { apply orb_true_iff. rewrite BL, BU. inversion SL; subst; [|left; eauto]. inversion SU; subst; [discriminate|right; eauto]. }
      rewrite F. destruct (exact_int_fl n) as (-> & E1). cbn [bind]. rewrite E1. destruct (exact_int_fl m) as (-> & E2). cbn [bind]. rewrite E2. reflexivity. }
    unfold formatting_int, item. rewrite L, U.
    assert (UU : (if is_intv l then @Ok pyval u else Ok VNone) = Ok (if is_intv l then u else VNone)) by (destruct (is_intv l); reflexivity). rewrite UU.
    assert (BB : is_intv l && is_intv (if is_intv l then u else VNone) = is_intv l && is_intv u) by (destruct (is_intv l); reflexivity). rewrite BB.
    destruct (is_intv l && is_intv u) eqn:B.
    - destruct (BOTH eq_refl) as (-> & ->). exists d. split; [apply same_refl|]. auto.
    - rewrite (CONV eq_refl). cbn [value_to_type].
      assert (U' : lookup "upper" (set_key "lower" (VInt n) d) = Some u) by (rewrite lookup_set_key; exact U).
      eexists. split; [eapply same_trans; [eapply same_set; [left; reflexivity|exact L]|eapply same_set; [right; left; reflexivity|exact U']]|].
      split; [rewrite !lookup_set_key; reflexivity|]. split; [rewrite lookup_set_key; reflexivity|]. split; [rewrite !lookup_set_key; reflexivity|reflexivity]. }
  destruct X as (d1 & S & L1 & U1 & DD & ->). unfold entry_rel. rewrite DD. destruct (lookup "default" d) as [v|] eqn:DV.
  - destruct (D v eq_refl) as (k & SV). destruct (is_intv v) eqn:IV.
    + exists d1. split; [reflexivity|]. split; [exact S|]. split; [exact L1|]. split; [exact U1|]. rewrite DD. inversion SV; subst; [|discriminate]. exists k. auto.
    + destruct (says_convert v k SV) as (b & C & _). rewrite C. cbn [bind fst]. unfold exact_int. destruct (exact_int_fl k) as (-> & E). cbn [bind]. rewrite E. cbn [value_to_type].
      exists (set_key "default" (VInt k) d1). split; [reflexivity|]. split; [eapply same_trans; [exact S|]; eapply same_set; [right; right; left; reflexivity|exact DD]|].
      split; [rewrite lookup_set_key; exact L1|]. split; [rewrite lookup_set_key; exact U1|]. rewrite lookup_set_key. exists k. auto.
  - exists d1. split; [reflexivity|]. split; [exact S|]. split; [exact L1|]. split; [exact U1|]. rewrite DD. exact Logic.I.
Qed.
(** whatever is accepted is an integer afterwards *)
Lemma int_inv d d' u : formatting_int d = (d', Ok u) ->
  (exists l, lookup "lower" d' = Some l /\ is_intv l = true) /\ (exists l, lookup "upper" d' = Some l /\ is_intv l = true) /\
  (forall v, lookup "default" d' = Some v -> is_intv v = true).
Proof.
  unfold formatting_int, item. destruct (lookup "lower" d) as [l|] eqn:L; [|discriminate].
  destruct (is_intv l) eqn:IL.
  - destruct (lookup "upper" d) as [w|] eqn:U; [|discriminate]. cbn [andb]. destruct (is_intv w) eqn:IU.
    + destruct (lookup "default" d) as [v|] eqn:DV.
      * destruct (is_intv v) eqn:IV.
        -- intros [= <- _]. rewrite L, U, DV. split; [eauto|]. split; [eauto|]. intros v' [= <-]. exact IV.
        -- destruct (value_to_type _) as [n|]; [|discriminate]. intros [= <- _]. rewrite !lookup_set_key. cbn [String.eqb Ascii.eqb Bool.eqb]. split; [eauto|]. split; [eauto|]. intros v' [= <-]. reflexivity.
      * intros [= <- _]. rewrite L, U, DV. split; [eauto|]. split; [eauto|]. discriminate.
    + destruct (value_to_type (int_bounds l w)) as [[n m]|]; [|discriminate].
      destruct (lookup "default" (set_key "upper" (VInt m) (set_key "lower" (VInt n) d))) as [v|] eqn:DV.
      * destruct (is_intv v) eqn:IV.
        -- intros [= <- _]. rewrite DV, !lookup_set_key. cbn [String.eqb Ascii.eqb Bool.eqb]. split; [eauto|]. split; [eauto|]. intros v' [= <-]. exact IV.
        -- destruct (value_to_type _) as [k|]; [|discriminate]. intros [= <- _]. rewrite !lookup_set_key. cbn [String.eqb Ascii.eqb Bool.eqb]. split; [eauto|]. split; [eauto|]. intros v' [= <-]. reflexivity.
      * intros [= <- _]. rewrite DV, !lookup_set_key. cbn [String.eqb Ascii.eqb Bool.eqb]. split; [eauto|]. split; [eauto|]. discriminate.
  - cbn [andb]. destruct (lookup "upper" d) as [w|] eqn:U.
    + destruct (value_to_type (int_bounds l w)) as [[n m]|]; [|discriminate].
      destruct (lookup "default" (set_key "upper" (VInt m) (set_key "lower" (VInt n) d))) as [v|] eqn:DV.
      * destruct (is_intv v) eqn:IV.
        -- intros [= <- _]. rewrite DV, !lookup_set_key. cbn [String.eqb Ascii.eqb Bool.eqb]. split; [eauto|]. split; [eauto|]. intros v' [= <-]. exact IV.
        -- destruct (value_to_type _) as [k|]; [|discriminate]. intros [= <- _]. rewrite !lookup_set_key. cbn [String.eqb Ascii.eqb Bool.eqb]. split; [eauto|]. split; [eauto|]. intros v' [= <-]. reflexivity.
      * intros [= <- _]. rewrite DV, !lookup_set_key. cbn [String.eqb Ascii.eqb Bool.eqb]. split; [eauto|]. split; [eauto|]. discriminate.
    + destruct (value_to_type (convert l)); discriminate.
Qed.
Lemma bounds_inv d d' r : convert_bounds d = (d', Ok r) ->
  (exists f, lookup "lower" d' = Some (VFloat f)) /\ (exists f, lookup "upper" d' = Some (VFloat f)).
Proof.
  unfold convert_bounds. destruct (bind (item "lower" d) convert) as [[f b]|]; [|discriminate].
  destruct (bind (item "upper" _) convert) as [[g b']|]; [|discriminate]. intros [= <- _]. rewrite !lookup_set_key. cbn. eauto.
Qed.
Lemma float_inv d d' u : formatting_float d = (d', Ok u) ->
  (exists f, lookup "lower" d' = Some (VFloat f)) /\ (exists f, lookup "upper" d' = Some (VFloat f)) /\
  (forall v, lookup "default" d' = Some v -> is_floatv v = true).
Proof.
  intros H.
  assert (X : exists d1, (exists f, lookup "lower" d1 = Some (VFloat f)) /\ (exists f, lookup "upper" d1 = Some (VFloat f)) /\
    (d', Ok u) = match lookup "default" d1 with
          | None => (d1, Ok tt)
          | Some v =>
              if is_floatv v then (d1, Ok tt)
              else match value_to_type (convert v) with
                   | Ok (f, _) => (set_key "default" (VFloat f) d1, Ok tt)
                   | Err e => (d1, Err e)
                   end
          end).
  { revert H. unfold formatting_float. destruct (item "lower" d) as [l|] eqn:L; [|discriminate]. unfold item in L.
    destruct (lookup "lower" d) as [l'|] eqn:LL; [|discriminate]. injection L as ->.
    assert (CB : forall r, (let (d0, r0) := (let (d2, r2) := convert_bounds d in (d2, bind (value_to_type r2) (fun _ => Ok tt))) in (d0, r0)) = r -> True) by auto. clear CB.
    destruct (is_floatv l) eqn:FL.
    - destruct (item "upper" d) as [w|] eqn:U; [|discriminate]. unfold item in U. destruct (lookup "upper" d) as [w'|] eqn:UU; [|discriminate]. injection U as ->.
      cbn [andb]. destruct (is_floatv w) eqn:FU.
      + intros H. exists d. destruct l; try discriminate FL. destruct w; try discriminate FU. split; [eauto|]. split; [eauto|]. symmetry. exact H.
      + destruct (convert_bounds d) as (d1 & r) eqn:CB. destruct r as [r|e]; [|destruct e; discriminate]. cbn [value_to_type bind]. intros H. exists d1.
        destruct (bounds_inv _ _ _ CB). split; [assumption|]. split; [assumption|]. symmetry. exact H.
    - cbn [andb]. destruct (convert_bounds d) as (d1 & r) eqn:CB. destruct r as [r|e]; [|destruct e; discriminate]. cbn [value_to_type bind]. intros H. exists d1.
      destruct (bounds_inv _ _ _ CB). split; [assumption|]. split; [assumption|]. symmetry. exact H. }
  destruct X as (d1 & L & U & E). destruct (lookup "default" d1) as [v|] eqn:DV.
  - destruct (is_floatv v) eqn:FV.
    + injection E as -> _. split; [exact L|]. split; [exact U|]. rewrite DV. intros v' [= <-]. exact FV.
    + destruct (value_to_type (convert v)) as [[f b]|]; [|discriminate]. injection E as -> _. rewrite !lookup_set_key. cbn [String.eqb Ascii.eqb Bool.eqb].
      split; [exact L|]. split; [exact U|]. intros v' [= <-]. reflexivity.
  - injection E as -> _. split; [exact L|]. split; [exact U|]. rewrite DV. discriminate.
Qed.
Lemma cat_inv d d' u : formatting_cat d = (d', Ok u) ->
  exists l, lookup "choices" d' = Some (VList l) /\ convert_choices l = (l, Ok tt) /\
    (forall v, lookup "default" d' = Some v -> (is_str v || is_intv v || is_floatv v) = true /\ convert_flagged v = Ok v) /\
    (forall k, has_key k d' = has_key k d).
Proof.
  unfold formatting_cat, item. destruct (lookup "choices" d) as [c|] eqn:C; [|discriminate]. destruct c; try discriminate.
  destruct (convert_choices l) as (l' & r) eqn:E. destruct r as [r|]; [|discriminate]. destruct r.
  pose proof (choices_fix _ _ (choices_inv _ _ _ E)) as FX.
  assert (HK : forall k v (d0 : dict) w, lookup k d0 = Some v -> forall j, has_key j (set_key k w d0) = has_key j d0).
  { intros k v d0 w LK j. unfold has_key. rewrite lookup_set_key. destruct (String.eqb j k) eqn:J; [|reflexivity]. apply String.eqb_eq in J. subst j. rewrite LK. reflexivity. }
  set (d1 := set_key "choices" (VList l') d).
  assert (L1 : lookup "choices" d1 = Some (VList l')) by (unfold d1; rewrite lookup_set_key; reflexivity).
  assert (H1 : forall k, has_key k d1 = has_key k d) by (intros k; eapply HK; exact C). clearbody d1.
  destruct (lookup "default" d1) as [v|] eqn:DV.
  - destruct (is_str v || is_intv v || is_floatv v) eqn:T; [|discriminate]. destruct (convert_flagged v) as [w|] eqn:W; [|discriminate]. intros [= <- _].
    exists l'. split; [rewrite lookup_set_key; exact L1|]. split; [exact FX|]. split.
    + intros v'. rewrite lookup_set_key. cbn [String.eqb Ascii.eqb Bool.eqb]. intros [= <-]. split; [|eapply flagged_idem; exact W].
      unfold convert_flagged in W. destruct (convert v) as [[f [|]]|e]; [injection W as <-; reflexivity|injection W as <-; exact T|destruct e; try discriminate W; injection W as <-; exact T].
    + intros k. rewrite (HK _ _ _ _ DV). apply H1.
  - intros [= <- _]. exists l'. split; [exact L1|]. split; [exact FX|]. split; [rewrite DV; discriminate|exact H1].
Qed.

(** ** Formatting twice *)
Lemma int_fix d d' u : formatting_int d = (d', Ok u) -> formatting_int d' = (d', Ok tt) /\ deduce_param_type d' = (d', Ok "int").
Proof.
  intros H. destruct (int_inv _ _ _ H) as ((l & L & IL) & (w & U & IU) & D). unfold formatting_int, deduce_param_type, item. rewrite L, U, IL. cbn [andb]. rewrite IU. cbn [andb].
  split; [|reflexivity]. destruct (lookup "default" d') as [v|] eqn:DV; [|reflexivity]. rewrite (D v eq_refl). reflexivity.
Qed.
Lemma float_fix d d' u : formatting_float d = (d', Ok u) -> formatting_float d' = (d', Ok tt) /\ deduce_param_type d' = (d', Ok "float").
Proof.
  intros H. destruct (float_inv _ _ _ H) as ((f & L) & (g & U) & D). unfold formatting_float, deduce_param_type, item. rewrite L, U. cbn [is_floatv is_intv andb].
  split; [|reflexivity]. destruct (lookup "default" d') as [v|] eqn:DV; [|reflexivity]. rewrite (D v eq_refl). reflexivity.
Qed.
Lemma cat_fix d d' u : formatting_cat d = (d', Ok u) -> formatting_cat d' = (d', Ok tt) /\
  (has_key "lower" d' && has_key "upper" d' = false -> deduce_param_type d' = (d', Ok "categorical")).
Proof.
  intros H. destruct (cat_inv _ _ _ H) as (l & L & E & D & K). split.
  - unfold formatting_cat, item. rewrite L, E. rewrite (set_key_same _ _ _ L). destruct (lookup "default" d') as [v|] eqn:DV; [|reflexivity].
    destruct (D v eq_refl) as (T & W). rewrite T, W, (set_key_same _ _ _ DV). reflexivity.
  - intros B. unfold deduce_param_type. assert (C : has_key "choices" d' = true) by (unfold has_key; rewrite L; reflexivity). rewrite C.
    unfold has_key in B. destruct (lookup "lower" d'); [|reflexivity]. destruct (lookup "upper" d'); [discriminate|reflexivity].
Qed.
Lemma lookup_same {A} k k' (d d' : list (string * A)) : (forall j, has_key j d' = has_key j d) -> lookup k d = None -> k = k' -> lookup k' d' = None.
Proof. intros H L <-. specialize (H k). unfold has_key in H. rewrite L in H. destruct (lookup k d'); [discriminate|reflexivity]. Qed.

Lemma set_has {A} k (v : A) d j : has_key j (set_key k v d) = (String.eqb j k || has_key j d).
Proof. unfold has_key. rewrite lookup_set_key. destruct (String.eqb j k); reflexivity. Qed.
Lemma bounds_has d d' r k : convert_bounds d = (d', r) -> has_key k d' = has_key k d.
Proof.
  unfold convert_bounds, item. destruct (lookup "lower" d) as [l|] eqn:L; cbn [bind]; [|intros [= <- _]; reflexivity].
  destruct (convert l) as [[f b]|]; [|intros [= <- _]; reflexivity].
  assert (S1 : has_key k (set_key "lower" (VFloat f) d) = has_key k d).
  { rewrite set_has. destruct (String.eqb k "lower") eqn:E; [|reflexivity]. apply String.eqb_eq in E. subst k. unfold has_key. rewrite L. reflexivity. }
  set (d1 := set_key "lower" (VFloat f) d) in *. clearbody d1. destruct (lookup "upper" d1) as [u|] eqn:U; cbn [bind]; [|intros [= <- _]; exact S1].
  destruct (convert u) as [[g b']|]; [|intros [= <- _]; exact S1]. intros [= <- _]. rewrite set_has. destruct (String.eqb k "upper") eqn:E; [|exact S1].
  apply String.eqb_eq in E. subst k. rewrite <- S1. unfold has_key. rewrite U. reflexivity.
Qed.
Lemma default_has (d : dict) w k v : lookup "default" d = Some v -> has_key k (set_key "default" w d) = has_key k d.
Proof. intros L. rewrite set_has. destruct (String.eqb k "default") eqn:E; [|reflexivity]. apply String.eqb_eq in E. subst k. unfold has_key. rewrite L. reflexivity. Qed.
Lemma float_has d d' u k : formatting_float d = (d', Ok u) -> has_key k d' = has_key k d.
Proof.
  unfold formatting_float. destruct (item "lower" d) as [l|]; [|discriminate]. destruct (if is_floatv l then item "upper" d else Ok VNone) as [u0|]; [|discriminate].
  assert (FIN : forall d1, has_key k d1 = has_key k d -> match lookup "default" d1 with
          | None => (d1, Ok tt)
          | Some v => if is_floatv v then (d1, Ok tt)
              else match value_to_type (convert v) with Ok (f, _) => (set_key "default" (VFloat f) d1, Ok tt) | Err e => (d1, Err e) end
          end = (d', Ok u) -> has_key k d' = has_key k d).
  { intros d1 S. destruct (lookup "default" d1) as [v|] eqn:DV; [|intros [= <- _]; exact S]. destruct (is_floatv v); [intros [= <- _]; exact S|].
    destruct (value_to_type (convert v)) as [[f b]|]; [|discriminate]. intros [= <- _]. rewrite (default_has _ _ _ _ DV). exact S. }
  destruct (is_floatv l && is_floatv u0); [apply FIN; reflexivity|].
  destruct (convert_bounds d) as (d1 & r) eqn:CB. destruct r as [r|e]; [|destruct e; discriminate]. cbn [value_to_type bind]. apply FIN. eapply bounds_has, CB.
Qed.
Lemma int_has d d' u k : formatting_int d = (d', Ok u) -> has_key k d' = has_key k d.
Proof.
  unfold formatting_int, item. destruct (lookup "lower" d) as [l|] eqn:L; [|discriminate].
  assert (FIN : forall d1, has_key k d1 = has_key k d -> match lookup "default" d1 with
          | None => (d1, Ok tt)
          | Some v => if is_intv v then (d1, Ok tt)
              else match value_to_type (bind (convert v) (fun fb => exact_int (fst fb))) with Ok n => (set_key "default" (VInt n) d1, Ok tt) | Err e => (d1, Err e) end
          end = (d', Ok u) -> has_key k d' = has_key k d).
  { intros d1 S. destruct (lookup "default" d1) as [v|] eqn:DV; [|intros [= <- _]; exact S]. destruct (is_intv v); [intros [= <- _]; exact S|].
    destruct (value_to_type _) as [n|]; [|discriminate]. intros [= <- _]. rewrite (default_has _ _ _ _ DV). exact S. }
  assert (SET : forall n m w, lookup "upper" d = Some w -> has_key k (set_key "upper" (VInt m) (set_key "lower" (VInt n) d)) = has_key k d).
  { intros n m w U. rewrite !set_has. destruct (String.eqb k "upper") eqn:E.
    - apply String.eqb_eq in E. subst k. unfold has_key. rewrite U. reflexivity.
    - destruct (String.eqb k "lower") eqn:E'; [|reflexivity]. apply String.eqb_eq in E'. subst k. unfold has_key. rewrite L. reflexivity. }
  destruct (is_intv l).
  - destruct (lookup "upper" d) as [w|] eqn:U; [|discriminate]. cbn [andb]. destruct (is_intv w); [apply FIN; reflexivity|].
    destruct (value_to_type (int_bounds l w)) as [[n m]|]; [|discriminate]. apply FIN. eapply SET. reflexivity.
  - cbn [andb]. destruct (lookup "upper" d) as [w|] eqn:U.
    + destruct (value_to_type (int_bounds l w)) as [[n m]|]; [|discriminate]. apply FIN. eapply SET. reflexivity.
    + destruct (value_to_type (convert l)); discriminate.
Qed.
Lemma deduce_has d d' r k : deduce_param_type d = (d', r) -> has_key k d' = has_key k d.
Proof.
  unfold deduce_param_type. destruct (lookup "lower" d); [|destruct (has_key "choices" d); intros [= <- _]; reflexivity].
  destruct (lookup "upper" d); [|destruct (has_key "choices" d); intros [= <- _]; reflexivity].
  destruct (is_intv p && is_intv p0); [intros [= <- _]; reflexivity|]. destruct (is_floatv p && is_floatv p0); [intros [= <- _]; reflexivity|].
  destruct (convert_bounds d) as (d1 & r1) eqn:CB. intros [= <- _]. eapply bounds_has, CB.
Qed.

(** ** Words *)
Lemma letter_lower c d : same_letter c d -> lower_char d = d -> lower_char c = d.
Proof.
  intros [->|(n & N & -> & ->)] D; [exact D|].
  assert (F : Forall (fun n => lower_char (ascii_of_nat (65 + n)) = ascii_of_nat (97 + n)) (seq 0 26)) by (repeat constructor).
  rewrite Forall_forall in F. apply F, in_seq. lia.
Qed.
Lemma spells_lower s t : spells s t -> lower t = t -> lower s = t.
Proof.
  revert t. induction s as [|c s IH]; intros [|d t] S L; cbn [spells] in S; try contradiction; [reflexivity|].
  destruct S as (SL & S). unfold lower, str_list in *. cbn [list_ascii_of_string map string_of_list_ascii] in *. injection L as L1 L2.
  rewrite (letter_lower c d SL L1). f_equal. apply IH; assumption.
Qed.
Lemma type_deduced ts d : (forall t, In t ts -> lower t = t) -> type_is ts d -> exists t, In t ts /\ deduce_type (VDict d) = (VDict (remove_key "type" d), Ok t).
Proof. intros H (s & t & L & I & S). exists t. split; [exact I|]. cbn [deduce_type]. rewrite L, (spells_lower s t S (H t I)). reflexivity. Qed.
Lemma agree_type ks d d' : In "type" ks -> same_but ks (remove_key "type" d) d' -> agree ks d d'.
Proof.
  intros I (_ & S) k K. rewrite (S k K), lookup_remove_key. destruct (String.eqb k "type") eqn:E; [|reflexivity]. apply String.eqb_eq in E. subst k. contradiction.
Qed.
Lemma same_weaken ks ks' d d' : incl ks ks' -> same_but ks d d' -> same_but ks' d d'.
Proof. intros I (A & B). split; [exact A|]. intros k K. apply B. intros X. apply K, I, X. Qed.
Lemma same_agree ks d d' : same_but ks d d' -> agree ks d d'. Proof. intros (_ & S). exact S. Qed.
Lemma as_float_fun f g : as_float (VFloat f) g -> g = f. Proof. intros H. inversion H. reflexivity. Qed.
Lemma removed_type (d : dict) : lookup "type" (remove_key "type" d) = None. Proof. rewrite lookup_remove_key. reflexivity. Qed.
Lemma removed_other k (d : dict) : String.eqb k "type" = false -> lookup k (remove_key "type" d) = lookup k d. Proof. intros E. rewrite lookup_remove_key, E. reflexivity. Qed.
Lemma same_none ks k d d' : same_but ks d d' -> ~ In k ks -> lookup k d = None -> lookup k d' = None. Proof. intros (_ & S) K L. rewrite (S k K). exact L. Qed.

(** ** Which errors *)
Definition known (e : exn) : Prop := caught e \/ e = OverflowError \/ e = AssertionError.
Ltac known := unfold known, caught; auto 6.
Lemma convert_err v e : convert v = Err e -> known e.
Proof.
  unfold convert. destruct v; cbn [py_float bind]; try (intros [= <-]; known); try discriminate.
  - unfold float_of_int. destruct (dec_float _ _ 0); cbn [bind]; intros [= <-]; known.
  - destruct (float_of_string s) as [f|x] eqn:F; cbn [bind]; [discriminate|]. intros [= <-]. apply float_of_string_err in F. subst. known.
Qed.
Lemma v2t_err {A} (r : res A) e : (forall e, r = Err e -> known e) -> value_to_type r = Err e -> known e.
Proof. intros H E. destruct r as [a|x]; [discriminate|]. specialize (H x eq_refl). destruct x; cbn in E; injection E as <-; try exact H; known. Qed.
Lemma int_of_float_err f e : int_of_float f = Err e -> known e. Proof. destruct f; intros [= <-]; known. Qed.
Lemma bind_err {A B} (r : res A) (k : A -> res B) e : (forall e, r = Err e -> known e) -> (forall a, k a = Err e -> known e) -> bind r k = Err e -> known e.
Proof. intros H K. destruct r as [a|x]; cbn [bind]; [apply K|]. intros [= <-]. apply H. reflexivity. Qed.
Lemma item_err k d e : item k d = Err e -> known e. Proof. unfold item. destruct (lookup k d); intros [= <-]; known. Qed.
Lemma bounds_err d d' e : convert_bounds d = (d', Err e) -> known e.
Proof.
  unfold convert_bounds. destruct (bind (item "lower" d) convert) as [[f b]|x] eqn:E.
  - destruct (bind (item "upper" _) convert) as [[g b']|x] eqn:E'; [discriminate|]. intros [= _ <-]. eapply bind_err; [| |exact E']; [apply item_err|intros a; apply convert_err].
  - intros [= _ <-]. eapply bind_err; [| |exact E]; [apply item_err|intros a; apply convert_err].
Qed.
Lemma int_bounds_err l u e : int_bounds l u = Err e -> known e.
Proof.
  unfold int_bounds. apply bind_err; [apply convert_err|]. intros lf. apply bind_err; [apply convert_err|]. intros uf. destruct (snd lf || snd uf); [|intros [= <-]; known].
  apply bind_err; [apply int_of_float_err|]. intros n. destruct (fl_is_int _ _); [|intros [= <-]; known].
  apply bind_err; [apply int_of_float_err|]. intros m. destruct (fl_is_int _ _); [discriminate|intros [= <-]; known].
Qed.
Lemma exact_int_err f e : exact_int f = Err e -> known e.
Proof. unfold exact_int. apply bind_err; [apply int_of_float_err|]. intros n. destruct (fl_is_int f n); [discriminate|intros [= <-]; known]. Qed.
Lemma formatting_int_err d d' e : formatting_int d = (d', Err e) -> known e.
Proof.
  unfold formatting_int. destruct (item "lower" d) as [l|x] eqn:L; [|intros [= _ <-]; eapply item_err, L].
  destruct (if is_intv l then item "upper" d else Ok VNone) as [u0|x] eqn:U0; [|intros [= _ <-]; destruct (is_intv l); [eapply item_err, U0|discriminate]].
  cbv zeta. set (first := if is_intv l && is_intv u0 then _ else _). assert (F : first = first) by reflexivity. unfold first at 1 in F. clearbody first. destruct first as (d1 & [t|x]).
  - destruct (lookup "default" d1) as [v|]; [|discriminate]. destruct (is_intv v); [discriminate|].
    destruct (value_to_type (bind (convert v) (fun fb => exact_int (fst fb)))) as [n|x] eqn:V; [discriminate|]. intros [= _ <-]. eapply v2t_err; [|exact V].
    intros e0. apply bind_err; [apply convert_err|]. intros a. apply exact_int_err.
  - intros [= _ <-]. destruct (is_intv l && is_intv u0); [discriminate|]. destruct (item "upper" d) as [u|y] eqn:U.
    + destruct (value_to_type (int_bounds l u)) as [[n m]|y] eqn:V; [discriminate|]. injection F as _ <-. eapply v2t_err; [|exact V]. apply int_bounds_err.
    + injection F as _ F. destruct (value_to_type (convert l)) as [a|z] eqn:V; injection F as <-; [eapply item_err, U|]. eapply v2t_err; [|exact V]. apply convert_err.
Qed.
Lemma formatting_float_err d d' e : formatting_float d = (d', Err e) -> known e.
Proof.
  unfold formatting_float. destruct (item "lower" d) as [l|x] eqn:L; [|intros [= _ <-]; eapply item_err, L].
  destruct (if is_floatv l then item "upper" d else Ok VNone) as [u0|x] eqn:U0; [|intros [= _ <-]; destruct (is_floatv l); [eapply item_err, U0|discriminate]].
  cbv zeta. set (first := if is_floatv l && is_floatv u0 then _ else _). assert (F : first = first) by reflexivity. unfold first at 1 in F. clearbody first. destruct first as (d1 & [t|x]).
  - destruct (lookup "default" d1) as [v|]; [|discriminate]. destruct (is_floatv v); [discriminate|].
    destruct (value_to_type (convert v)) as [[f b]|x] eqn:V; [discriminate|]. intros [= _ <-]. eapply v2t_err; [|exact V]. apply convert_err.
  - intros [= _ <-]. destruct (is_floatv l && is_floatv u0); [discriminate|]. destruct (convert_bounds d) as (d2 & r) eqn:C. injection F as _ F.
    destruct (value_to_type r) as [a|y] eqn:V; [discriminate|]. injection F as <-. eapply v2t_err; [|exact V]. intros e0 ->. eapply bounds_err, C.
Qed.
Lemma convert_flagged_err v e : convert_flagged v = Err e -> known e.
Proof. unfold convert_flagged. destruct (convert v) as [[f [|]]|x] eqn:C; try discriminate. pose proof (convert_err _ _ C). destruct x; intros [= <-]; assumption. Qed.
Lemma choices_err l l' e : convert_choices l = (l', Err e) -> known e.
Proof.
  revert l'. induction l as [|v l IH]; intros l'; cbn [convert_choices]; [discriminate|]. destruct (convert_flagged v) as [w|x] eqn:W.
  - destruct (convert_choices l) as (m & r). intros [= _ ->]. eapply IH. reflexivity.
  - intros [= _ <-]. eapply convert_flagged_err, W.
Qed.
Lemma formatting_cat_err d d' e : formatting_cat d = (d', Err e) -> known e.
Proof.
  unfold formatting_cat. destruct (item "choices" d) as [c|x] eqn:C; [|intros [= _ <-]; eapply item_err, C].
  destruct c; try (intros [= _ <-]; known). destruct (convert_choices l) as (l' & r) eqn:L. destruct r as [t|x]; [|intros [= _ <-]; eapply choices_err, L].
  destruct (lookup "default" _) as [v|]; [|discriminate]. destruct (is_str v || is_intv v || is_floatv v); [|intros [= _ <-]; known].
  destruct (convert_flagged v) as [w|x] eqn:W; [discriminate|]. intros [= _ <-]. eapply convert_flagged_err, W.
Qed.
Lemma deduce_err v v' e : deduce_type v = (v', Err e) -> known e.
Proof.
  destruct v as [| | | | | | |d|]; cbn [deduce_type]; try discriminate; try (intros [= _ <-]; known).
  destruct (lookup "type" d) as [t|]; [destruct t; intros [= _ <-]; known|]. destruct (deduce_param_type d) as (d1 & r) eqn:D. intros [= _ ->].
  revert D. unfold deduce_param_type. destruct (lookup "lower" d) as [l|]; [|destruct (has_key "choices" d); intros [= _ <-]; known].
  destruct (lookup "upper" d) as [u|]; [|destruct (has_key "choices" d); intros [= _ <-]; known].
  destruct (is_intv l && is_intv u); [discriminate|]. destruct (is_floatv l && is_floatv u); [discriminate|].
  destruct (convert_bounds d) as (d2 & r) eqn:C. intros [= _ V]. revert V. apply bind_err; [intros e0; apply v2t_err; intros e1 ->; eapply bounds_err, C|].
  intros a. destruct (fst a || snd a); [discriminate|intros [= <-]; known].
Qed.

Section Load.
  Context {P : Type} (build : kind -> dict -> res P) (build_const : pyval -> res P).
  Notation parameter := (parameter build build_const).
  Hypothesis no_bounds : forall d p, build KCat d = Ok p -> has_key "lower" d && has_key "upper" d = false.

  Lemma parameter_again v v' p : parameter v = (v', Ok p) -> parameter v' = (v', Ok p).
  Proof.
    unfold Yam_model.parameter. destruct (deduce_type v) as (v1 & t) eqn:DT. destruct t as [t|]; [|discriminate].
    destruct (kind_of t) as [k|] eqn:K.
    - destruct v1 as [| | | | | | |d1|]; try discriminate.
      assert (NT : has_key "type" d1 = false).
      { destruct v as [| | | | | | |d|]; cbn [deduce_type] in DT; try (injection DT as ? ?; discriminate); try (injection DT as <- <-; discriminate).
        destruct (lookup "type" d) as [ty|] eqn:TY.
        - injection DT as <- _. unfold has_key. rewrite lookup_remove_key. reflexivity.
        - destruct (deduce_param_type d) as (d0 & r) eqn:DP. injection DT as <- _. rewrite (deduce_has _ _ _ "type" DP). unfold has_key. rewrite TY. reflexivity. }
      destruct k.
      + destruct (formatting_int d1) as (d2 & r) eqn:F. destruct r as [u|]; [|discriminate]. cbn [bind]. intros [= <- B].
        destruct (int_fix _ _ _ F) as (F2 & D2). cbn [deduce_type]. assert (T2 : lookup "type" d2 = None).
        { pose proof (int_has _ _ _ "type" F) as H. rewrite NT in H. unfold has_key in H. destruct (lookup "type" d2); [discriminate|reflexivity]. }
        rewrite T2, D2. cbn [kind_of smem existsb String.eqb Ascii.eqb Bool.eqb orb]. rewrite F2. cbn [bind]. rewrite B. reflexivity.
      + destruct (formatting_float d1) as (d2 & r) eqn:F. destruct r as [u|]; [|discriminate]. cbn [bind]. intros [= <- B].
        destruct (float_fix _ _ _ F) as (F2 & D2). cbn [deduce_type]. assert (T2 : lookup "type" d2 = None).
        { pose proof (float_has _ _ _ "type" F) as H. rewrite NT in H. unfold has_key in H. destruct (lookup "type" d2); [discriminate|reflexivity]. }
        rewrite T2, D2. cbn [kind_of smem existsb String.eqb Ascii.eqb Bool.eqb orb]. rewrite F2. cbn [bind]. rewrite B. reflexivity.
      + destruct (formatting_cat d1) as (d2 & r) eqn:F. destruct r as [u|]; [|discriminate]. cbn [bind]. intros [= <- B].
        destruct (cat_fix _ _ _ F) as (F2 & D2). cbn [deduce_type]. assert (T2 : lookup "type" d2 = None).
        { destruct (cat_inv _ _ _ F) as (_ & _ & _ & _ & H). specialize (H "type"). rewrite NT in H. unfold has_key in H. destruct (lookup "type" d2); [discriminate|reflexivity]. }
        rewrite T2, (D2 (no_bounds _ _ B)). cbn [kind_of smem existsb String.eqb Ascii.eqb Bool.eqb orb]. rewrite F2. cbn [bind]. rewrite B. reflexivity.
    - destruct (String.eqb t "const") eqn:TC; [|discriminate]. intros [= <- B]. apply String.eqb_eq in TC. subst t.
      assert (S : v1 = v /\ scalar v).
      { destruct v as [| | | | | | |d|]; cbn [deduce_type] in DT; try discriminate DT; try (injection DT as <-; split; [reflexivity|exact Logic.I]).
        - destruct (lookup "type" d) as [ty|].
          + injection DT as <- _. cbn in B. discriminate.
          + destruct (deduce_param_type d) as (d0 & r). injection DT as <- _. cbn in B. discriminate. }
      destruct S as (-> & S). assert (D : deduce_type v = (v, Ok "const")) by (destruct v; try contradiction; reflexivity). rewrite D.
      change (kind_of "const") with (@None kind). cbn [String.eqb Ascii.eqb Bool.eqb]. rewrite B. reflexivity.
  Qed.
  Lemma parameters_again d d' ps : parameters build build_const d = (d', Ok ps) -> parameters build build_const d' = (d', Ok ps).
  Proof.
    revert d' ps. induction d as [|(k, v) d IH]; intros d' ps H; cbn [parameters] in H; [injection H as <- <-; reflexivity|].
    destruct (parameter v) as (v' & r) eqn:PV. destruct r as [p|]; [|discriminate]. destruct (parameters build build_const d) as (d1 & r) eqn:PD.
    injection H as <- H. destruct r as [qs|]; [|discriminate]. cbn [bind] in H. injection H as <-. cbn [parameters]. rewrite (parameter_again _ _ _ PV), (IH _ _ eq_refl). reflexivity.
  Qed.
  Lemma parameters_names d d' ps : parameters build build_const d = (d', Ok ps) -> map fst ps = map fst d /\ map fst d' = map fst d.
  Proof.
    revert d' ps. induction d as [|(k, v) d IH]; intros d' ps H; cbn [parameters] in H; [injection H as <- <-; split; reflexivity|].
    destruct (parameter v) as (v' & r) eqn:PV. destruct r as [p|]; [|discriminate]. destruct (parameters build build_const d) as (d1 & r) eqn:PD.
    injection H as <- H. destruct r as [qs|]; [|discriminate]. cbn [bind] in H. injection H as <-. cbn [map fst]. destruct (IH _ _ eq_refl) as (-> & ->). split; reflexivity.
  Qed.
  Lemma parameters_each d d' ps : parameters build build_const d = (d', Ok ps) -> Forall2 (fun kv kp => fst kp = fst kv /\ snd (parameter (snd kv)) = Ok (snd kp)) d ps.
  Proof.
    revert d' ps. induction d as [|(k, v) d IH]; intros d' ps H; cbn [parameters] in H; [injection H as <- <-; constructor|].
    destruct (parameter v) as (v' & r) eqn:PV. destruct r as [p|]; [|discriminate]. destruct (parameters build build_const d) as (d1 & r) eqn:PD.
    injection H as <- H. destruct r as [qs|]; [|discriminate]. cbn [bind] in H. injection H as <-. constructor; [split; [reflexivity|cbn; rewrite PV; reflexivity]|eapply IH; reflexivity].
  Qed.

  Lemma const_read v : scalar v -> ~ huge v -> exists w, understood v w /\ parameter v = (v, build_const w).
  Proof.
    intros S H. destruct (flagged_total v S H) as (w & W). exists w. split; [apply flagged_understood, W|]. unfold Yam_model.parameter.
    assert (D : deduce_type v = (v, Ok "const")) by (destruct v; try contradiction; reflexivity). rewrite D.
    change (kind_of "const") with (@None kind). cbn [String.eqb Ascii.eqb Bool.eqb]. unfold formatting_const. rewrite W. reflexivity.
  Qed.
  Lemma parameter_typed ts k d : (forall t, In t ts -> lower t = t /\ kind_of t = Some k) -> type_is ts d ->
    parameter (VDict d) = (let (d', r) := match k with KInt => formatting_int | KFloat => formatting_float | KCat => formatting_cat end (remove_key "type" d) in
                           (VDict d', bind r (fun _ => build k d'))).
  Proof.
    intros H T. destruct (type_deduced ts d (fun t I => proj1 (H t I)) T) as (t & I & D). unfold Yam_model.parameter. rewrite D, (proj2 (H t I)). destruct k; reflexivity.
  Qed.
  Lemma parameter_untyped k t d d1 : lookup "type" d = None -> deduce_param_type d = (d1, Ok t) -> kind_of t = Some k ->
    parameter (VDict d) = (let (d', r) := match k with KInt => formatting_int | KFloat => formatting_float | KCat => formatting_cat end d1 in
                           (VDict d', bind r (fun _ => build k d'))).
  Proof. intros N D K. unfold Yam_model.parameter. cbn [deduce_type]. rewrite N, D, K. destruct k; reflexivity. Qed.
  Lemma cat_read d l : (type_is ["cat"; "categorical"] d \/ lookup "type" d = None /\ (lookup "lower" d = None \/ lookup "upper" d = None)) ->
    lookup "choices" d = Some (VList l) -> Forall (fun v => scalar v /\ ~ huge v) l -> (forall v, lookup "default" d = Some v -> scalar v /\ ~ huge v) ->
    exists d' l', parameter (VDict d) = (VDict d', build KCat d') /\ lookup "choices" d' = Some (VList l') /\ Forall2 understood l l' /\
      entry_rel understood "default" d d' /\ lookup "type" d' = None /\ agree ["choices"; "default"; "type"] d d' /\
      (forall v w, lookup "default" d = Some v -> lookup "default" d' = Some w -> existsb (py_eqb v) l = true -> existsb (py_eqb w) l' = true).
  Proof.
    intros T C L D.
    assert (X : exists d1, parameter (VDict d) = (let (d', r) := formatting_cat d1 in (VDict d', bind r (fun _ => build KCat d'))) /\
      lookup "type" d1 = None /\ (forall k, String.eqb k "type" = false -> lookup k d1 = lookup k d)).
    { destruct T as [T|(N & B)].
      - exists (remove_key "type" d). split; [|split; [apply removed_type|intros k; apply removed_other]].
        rewrite (parameter_typed ["cat"; "categorical"] KCat d) by (try exact T; intros t [<-|[<-|[]]]; split; reflexivity). reflexivity.
      - exists d. split; [|split; [exact N|reflexivity]]. rewrite (parameter_untyped KCat "categorical" d d N); [reflexivity| |reflexivity].
        unfold deduce_param_type, has_key. rewrite C. destruct B as [-> | ->]; [reflexivity|]. destruct (lookup "lower" d); reflexivity. }
    destruct X as (d1 & -> & N & AG).
    destruct (cat_ok d1 l) as (d' & l' & F & S & LC & F2 & U); [rewrite AG by reflexivity; exact C|exact L|intros v; rewrite AG by reflexivity; apply D|].
    rewrite F. cbn [bind]. exists d', l'. split; [reflexivity|]. split; [exact LC|].
    split; [clear -F2; induction F2; constructor; [apply flagged_understood; assumption|assumption]|].
    unfold entry_rel in U. rewrite AG in U by reflexivity.
    split; [unfold entry_rel; destruct (lookup "default" d), (lookup "default" d'); try contradiction; [apply flagged_understood, U|exact Logic.I]|].
    split; [eapply same_none; [exact S| |exact N]; intros [X|[X|[]]]; discriminate|].
    split.
    - intros k K. destruct S as (_ & S). rewrite S by (intros [<-|[<-|[]]]; apply K; cbn; auto). apply AG. apply String.eqb_neq. intros ->. apply K. cbn. auto.
    - intros v w LV LW. rewrite LV, LW in U. destruct (D v LV) as (SV & _). clear -SV U F2 L. revert L. induction F2 as [|x y l l' XY F2 IH]; intros L; [discriminate|].
      inversion L as [|? ? (SX & _) L' EQ]; subst. cbn [existsb]. intros E. apply orb_prop in E. apply orb_true_iff. destruct E as [E|E].
      + left. exact (flagged_eq v x w y E SV SX U XY).
      + right. apply IH; assumption.
  Qed.
  Lemma float_read_at d d1 l u : lookup "lower" d1 = Some l -> lookup "upper" d1 = Some u -> numeral l -> numeral u ->
    (forall v, lookup "default" d1 = Some v -> numeral v) -> lookup "type" d1 = None -> agree ["lower"; "upper"; "type"] d d1 ->
    exists d' f g, (let (d', r) := formatting_float d1 in (VDict d', bind r (fun _ => build KFloat d'))) = (VDict d', build KFloat d') /\
      lookup "lower" d' = Some (VFloat f) /\ lookup "upper" d' = Some (VFloat g) /\ as_float l f /\ as_float u g /\
      entry_rel float_of "default" d d' /\ lookup "type" d' = None /\ agree ["lower"; "upper"; "default"; "type"] d d'.
  Proof.
    intros L U NL NU D N AG. destruct (float_ok d1 l u L U NL NU D) as (d' & f & g & F & S & L' & U' & A & A' & DD). rewrite F. cbn [bind]. exists d', f, g.
    split; [reflexivity|]. split; [exact L'|]. split; [exact U'|]. split; [exact A|]. split; [exact A'|].
    split; [unfold entry_rel, float_of in *; rewrite AG in DD by (intros [X|[X|[X|[]]]]; discriminate); exact DD|].
    split; [eapply same_none; [exact S| |exact N]; intros [X|[X|[X|[]]]]; discriminate|].
    intros k K. destruct S as (_ & S). rewrite S by (intros [<-|[<-|[<-|[]]]]; apply K; cbn; auto). apply AG. intros [<-|[<-|[<-|[]]]]; apply K; cbn; auto.
  Qed.
  Lemma float_read d l u : lookup "lower" d = Some l -> lookup "upper" d = Some u -> numeral l -> numeral u ->
    (forall v, lookup "default" d = Some v -> numeral v) ->
    (type_is ["float"] d \/ lookup "type" d = None /\ (is_floatv l && is_floatv u = true \/ e_text l \/ e_text u)) ->
    exists d' f g, parameter (VDict d) = (VDict d', build KFloat d') /\
      lookup "lower" d' = Some (VFloat f) /\ lookup "upper" d' = Some (VFloat g) /\ as_float l f /\ as_float u g /\
      entry_rel float_of "default" d d' /\ lookup "type" d' = None /\ agree ["lower"; "upper"; "default"; "type"] d d'.
  Proof.
    intros L U NL NU D [T|(N & B)].
    - rewrite (parameter_typed ["float"] KFloat d) by (try exact T; intros t [<-|[]]; split; reflexivity).
      apply float_read_at; try assumption; try (rewrite removed_other by reflexivity; assumption).
      + apply removed_type.
      + intros k K. apply removed_other, String.eqb_neq. intros ->. apply K. cbn. auto.
    - destruct (is_floatv l && is_floatv u) eqn:FF.
      + rewrite (parameter_untyped KFloat "float" d d N); [|unfold deduce_param_type; rewrite L, U, FF; apply andb_prop in FF; destruct FF, l; try discriminate; reflexivity|reflexivity].
        apply float_read_at; try assumption. intros k K. reflexivity.
      + assert (E : e_text l \/ e_text u) by (destruct B as [B|B]; [discriminate|exact B]).
        destruct (bounds_ok d l u L U NL NU) as (d1 & f & g & bl & bu & CB & S & L1 & U1 & A & A' & FL).
        rewrite (parameter_untyped KFloat "float" d d1 N); [| |reflexivity].
        * destruct (float_read_at d d1 (VFloat f) (VFloat g)) as (d' & f' & g' & E1 & L2 & U2 & A2 & A2' & R); try assumption; try exact Logic.I.
          -- intros v. destruct S as (_ & S). rewrite S by (intros [X|[X|[]]]; discriminate). apply D.
          -- eapply same_none; [exact S| |exact N]. intros [X|[X|[]]]; discriminate.
          -- intros k K. destruct S as (_ & S). apply S. intros [<-|[<-|[]]]; apply K; cbn; auto.
          -- apply as_float_fun in A2, A2'. subst f' g'. exists d', f, g. split; [exact E1|]. split; [exact L2|]. split; [exact U2|]. split; [exact A|]. split; [exact A'|exact R].
        * unfold deduce_param_type. rewrite L, U, FF, CB. cbn [value_to_type bind fst snd]. apply FL in E. rewrite E.
          destruct (is_intv l && is_intv u) eqn:II; [|reflexivity]. exfalso. apply andb_prop in II. destruct II as (I1 & I2). apply FL in E.
          destruct E as [(s & c & -> & _)|(s & c & -> & _)]; discriminate.
  Qed.
  Lemma int_read d l u n m : lookup "lower" d = Some l -> lookup "upper" d = Some u -> says l n -> says u m ->
    (forall v, lookup "default" d = Some v -> exists k, says v k) ->
    (type_is ["int"; "integer"] d \/ lookup "type" d = None /\ is_intv l && is_intv u = true) ->
    exists d', parameter (VDict d) = (VDict d', build KInt d') /\
      lookup "lower" d' = Some (VInt n) /\ lookup "upper" d' = Some (VInt m) /\
      entry_rel int_of "default" d d' /\ lookup "type" d' = None /\ agree ["lower"; "upper"; "default"; "type"] d d'.
  Proof.
    intros L U SL SU D T.
    assert (X : exists d1, parameter (VDict d) = (let (d', r) := formatting_int d1 in (VDict d', bind r (fun _ => build KInt d'))) /\
      lookup "type" d1 = None /\ (forall k, String.eqb k "type" = false -> lookup k d1 = lookup k d)).
    { destruct T as [T|(N & B)].
      - exists (remove_key "type" d). split; [|split; [apply removed_type|intros k; apply removed_other]].
        rewrite (parameter_typed ["int"; "integer"] KInt d) by (try exact T; intros t [<-|[<-|[]]]; split; reflexivity). reflexivity.
      - exists d. split; [|split; [exact N|reflexivity]]. rewrite (parameter_untyped KInt "int" d d N); [reflexivity| |reflexivity].
        unfold deduce_param_type. rewrite L, U, B. reflexivity. }
    destruct X as (d1 & -> & N & AG).
    destruct (int_ok d1 l u n m) as (d' & F & S & L' & U' & DD); try assumption; try (rewrite AG by reflexivity; assumption).
    rewrite F. cbn [bind]. exists d'. split; [reflexivity|]. split; [exact L'|]. split; [exact U'|].
    split; [unfold entry_rel, int_of in *; rewrite AG in DD by reflexivity; exact DD|].
    split; [eapply same_none; [exact S| |exact N]; intros [X|[X|[X|[]]]]; discriminate|].
    intros k K. destruct S as (_ & S). rewrite S by (intros [<-|[<-|[<-|[]]]]; apply K; cbn; auto). apply AG. apply String.eqb_neq. intros ->. apply K. cbn. auto 6.
  Qed.
  (** what reaches the constructor of integers *)
  Hypothesis caught_build : forall k d e, build k d = Err e -> caught e.
  Hypothesis caught_const : forall v e, build_const v = Err e -> caught e.
  Lemma parameter_err v v' e : parameter v = (v', Err e) -> known e.
  Proof.
    unfold Yam_model.parameter. destruct (deduce_type v) as (v1 & t) eqn:D. destruct t as [t|x]; [|intros [= _ <-]; eapply deduce_err, D].
    destruct (kind_of t) as [k|].
    - destruct v1; try (intros [= _ <-]; known).
      destruct (match k with KInt => _ | KFloat => _ | KCat => _ end) as (d1 & r) eqn:F. intros [= _ E]. destruct r as [a|x]; cbn [bind] in E.
      + left. eapply caught_build, E.
      + injection E as <-. destruct k; [eapply formatting_int_err, F|eapply formatting_float_err, F|eapply formatting_cat_err, F].
    - destruct (String.eqb t "const"); [|intros [= _ <-]; known]. intros [= _ E]. revert E. apply bind_err; [apply convert_flagged_err|]. intros a E. left. eapply caught_const, E.
  Qed.
  Lemma parameters_err d d' e : parameters build build_const d = (d', Err e) -> known e.
  Proof.
    revert d'. induction d as [|(k, v) d IH]; intros d' H; cbn [parameters] in H; [discriminate|].
    destruct (parameter v) as (v' & r) eqn:PV. destruct r as [p|x]; [|injection H as _ <-; eapply parameter_err, PV].
    destruct (parameters build build_const d) as (d1 & r) eqn:PD. injection H as _ H. destruct r as [qs|x]; [discriminate|]. injection H as ->. eapply IH. reflexivity.
  Qed.
End Load.

Local Notation Space := Yam_model.Space.
Section Whole.
  Context {P : Type} (build : kind -> dict -> res P) (build_const : pyval -> res P).
  Notation space := (space_from_dict build build_const).
  Lemma space_wrapped d : space (wrapped d) = (let (d', r) := parameters build build_const d in (VDict (wrapped d'), wrap r)).
  Proof. unfold space_from_dict, wrapped. cbn [read_space length Nat.eqb has_key lookup String.eqb Ascii.eqb Bool.eqb andb]. destruct (parameters build build_const d). reflexivity. Qed.
  Lemma space_plain d : top_space d -> space d = (let (d', r) := parameters build build_const d in (VDict d', wrap r)).
  Proof.
    intros H. unfold space_from_dict. cbn [read_space]. destruct (Nat.eqb (length d) 1 && has_key "pipeline_space" d) eqn:E.
    - exfalso. apply andb_prop in E. destruct E as (E1 & E2). destruct d as [|(k, v) [|? ?]]; try discriminate. unfold has_key in E2. cbn [lookup] in E2.
      destruct (String.eqb "pipeline_space" k) eqn:K; [|discriminate]. apply String.eqb_eq in K. subst k. eapply H. reflexivity.
    - destruct (parameters build build_const d). reflexivity.
  Qed.
  Lemma wrap_inv (r : res (list (string * P))) ps : wrap r = Space ps <-> r = Ok ps.
  Proof. split; [|intros ->; reflexivity]. destruct r as [qs|e]; [intros [= ->]; reflexivity|destruct e; discriminate]. Qed.
  Lemma parts d ps : snd (parameters build build_const d) = Ok ps <->
    Forall2 (fun kv kp => snd (space (wrapped [kv])) = Space [kp]) d ps.
  Proof.
    assert (ONE : forall k v kp, snd (space (wrapped [(k, v)])) = Space [kp] <-> fst kp = k /\ snd (parameter build build_const v) = Ok (snd kp)).
    { intros k v (k', p). rewrite space_wrapped. cbn [parameters]. destruct (parameter build build_const v) as (v' & [q|e]); cbn [snd fst bind].
      - rewrite wrap_inv. split; [intros [= -> ->]; auto|intros (-> & [= ->]); reflexivity].
      - rewrite wrap_inv. split; [discriminate|intros (_ & X); discriminate]. }
    revert ps. induction d as [|(k, v) d IH]; intros ps; cbn [parameters].
    - cbn [snd]. split; [intros [= <-]; constructor|intros H; inversion H; reflexivity].
    - destruct (parameter build build_const v) as (v' & [p|e]) eqn:PV.
      + destruct (parameters build build_const d) as (d' & r) eqn:PD. cbn [snd] in *. split.
        * intros H. destruct r as [qs|]; [|discriminate]. injection H as <-. constructor; [apply ONE; rewrite PV; split; reflexivity|apply IH; reflexivity].
        * intros H. inversion H as [|? (k', q) ? qs A B]; subst. apply ONE in A. rewrite PV in A. destruct A as (A1 & A2). cbn in A1, A2. injection A2 as <-. subst k'.
          apply IH in B. rewrite B. reflexivity.
      + cbn [snd]. split; [discriminate|]. intros H. inversion H as [|? (k', q) ? qs A B]; subst. apply ONE in A. rewrite PV in A. destruct A as (_ & A). discriminate.
  Qed.
  Lemma parts_plain d ps : top_space d -> snd (space d) = Space ps <-> Forall2 (fun kv kp => snd (space (wrapped [kv])) = Space [kp]) d ps.
  Proof. intros H. rewrite <- parts, (space_plain d H). destruct (parameters build build_const d). cbn [snd]. apply wrap_inv. Qed.
  Lemma parts_wrapped d ps : snd (space (wrapped d)) = Space ps <-> Forall2 (fun kv kp => snd (space (wrapped [kv])) = Space [kp]) d ps.
  Proof. rewrite <- parts, space_wrapped. destruct (parameters build build_const d). cbn [snd]. apply wrap_inv. Qed.
  Lemma part_name k v kp : snd (space (wrapped [(k, v)])) = Space [kp] -> fst kp = k.
  Proof. rewrite space_wrapped. cbn [parameters]. destruct (parameter build build_const v) as (v' & [q|e]); cbn [snd bind]; rewrite wrap_inv; [intros [= <-]; reflexivity|discriminate]. Qed.
  Lemma part_param k v p : snd (space (wrapped [(k, v)])) = Space [(k, p)] <-> snd (parameter build build_const v) = Ok p.
  Proof.
    rewrite space_wrapped. cbn [parameters]. destruct (parameter build build_const v) as (v' & [q|e]); cbn [snd bind]; rewrite wrap_inv; [|split; discriminate].
    split; intros [= ->]; reflexivity.
  Qed.
  Lemma file_like_dict d : space_from_file build build_const (Ok (VDict d)) = snd (space d).
  Proof. unfold space_from_file, space_from_dict. cbn [bind]. destruct (read_space build build_const (VDict d)). reflexivity. Qed.
  Lemma again d v ps : (forall d p, build KCat d = Ok p -> has_key "lower" d && has_key "upper" d = false) ->
    space d = (v, Space ps) -> exists d', v = VDict d' /\ map fst d' = map fst d /\ space d' = (v, Space ps).
  Proof.
    intros NB H. destruct (Nat.eqb (length d) 1 && has_key "pipeline_space" d) eqn:E.
    - apply andb_prop in E. destruct E as (E1 & E2). destruct d as [|(k, x) [|? ?]]; try discriminate. unfold has_key in E2. cbn [lookup] in E2.
      destruct (String.eqb "pipeline_space" k) eqn:K; [|discriminate]. apply String.eqb_eq in K. subst k.
      destruct x as [| | | | | | |d|]; try discriminate H. fold (wrapped d) in *. rewrite space_wrapped in H. destruct (parameters build build_const d) as (d' & r) eqn:PD.
      injection H as <- R. apply wrap_inv in R. subst r. exists (wrapped d'). split; [reflexivity|]. split; [reflexivity|].
      rewrite space_wrapped, (parameters_again _ _ NB _ _ _ PD). reflexivity.
    - assert (PL : top_space d) by (intros x ->; discriminate E). rewrite (space_plain d PL) in H. destruct (parameters build build_const d) as (d' & r) eqn:PD.
      injection H as <- R. apply wrap_inv in R. subst r. exists d'. destruct (parameters_names _ _ _ _ _ PD) as (_ & N). split; [reflexivity|]. split; [exact N|].
      rewrite space_plain, (parameters_again _ _ NB _ _ _ PD); [reflexivity|]. intros x ->.
      destruct d as [|(k, y) [|? ?]]; try discriminate N. cbn in N. injection N as <-. eapply PL. reflexivity.
  Qed.
  Lemma raw_errors d v e : (forall k d e, build k d = Err e -> caught e) -> (forall v e, build_const v = Err e -> caught e) ->
    space d = (v, Raw e) -> e = OverflowError \/ e = AssertionError \/ (e = AttributeError /\ exists x, d = [("pipeline_space", x)] /\ forall p, x <> VDict p).
  Proof.
    intros CB CC H.
    assert (P1 : forall d d' r, parameters build build_const d = (d', r) -> wrap r = Raw e -> e = OverflowError \/ e = AssertionError).
    { intros d0 d' r PD W. destruct r as [ps|x]; [discriminate|]. assert (KN := parameters_err _ _ CB CC _ _ _ PD).
      destruct KN as [ [->|[->| ->]]|[->| ->]]; try discriminate W; injection W as <-; auto. }
    destruct (Nat.eqb (length d) 1 && has_key "pipeline_space" d) eqn:E.
    - apply andb_prop in E. destruct E as (E1 & E2). destruct d as [|(k, x) [|? ?]]; try discriminate. unfold has_key in E2. cbn [lookup] in E2.
      destruct (String.eqb "pipeline_space" k) eqn:K; [|discriminate]. apply String.eqb_eq in K. subst k.
      destruct x as [| | | | | | |d|]; try (injection H as _ <-; right; right; split; [reflexivity|]; eexists; split; [reflexivity|intros p X; discriminate X]).
      fold (wrapped d) in *. rewrite space_wrapped in H. destruct (parameters build build_const d) as (d' & r) eqn:PD. injection H as _ W. destruct (P1 _ _ _ PD W); auto.
    - assert (PL : top_space d) by (intros x ->; discriminate E). rewrite (space_plain d PL) in H. destruct (parameters build build_const d) as (d' & r) eqn:PD.
      injection H as _ W. destruct (P1 _ _ _ PD W); auto.
  Qed.
End Whole.
Lemma deduce_int d l u : lookup "type" d = None -> lookup "lower" d = Some l -> lookup "upper" d = Some u ->
  snd (deduce_type (VDict d)) = Ok "int" <-> is_intv l = true /\ is_intv u = true.
Proof.
  intros N L U. cbn [deduce_type]. rewrite N. unfold deduce_param_type. rewrite L, U. destruct (is_intv l && is_intv u) eqn:I.
  - apply andb_prop in I. cbn. tauto.
  - split; [|intros (A & B); rewrite A, B in I; discriminate]. destruct (is_floatv l && is_floatv u); [discriminate|].
    destruct (convert_bounds d) as (d1 & r). cbn [snd]. destruct (value_to_type r) as [fs|]; cbn [bind]; [|discriminate]. destruct (fst fs || snd fs); discriminate.
Qed.
Lemma right_types v v' k d : parameter (fun k d => Ok (Some (k, d))) (fun _ => Ok None) v = (v', Ok (Some (k, d))) ->
  match k with
  | KInt => (exists l, lookup "lower" d = Some l /\ is_intv l = true) /\ (exists u, lookup "upper" d = Some u /\ is_intv u = true) /\
      (forall w, lookup "default" d = Some w -> is_intv w = true)
  | KFloat => (exists l, lookup "lower" d = Some (VFloat l)) /\ (exists u, lookup "upper" d = Some (VFloat u)) /\
      (forall w, lookup "default" d = Some w -> exists f, w = VFloat f)
  | KCat => (exists l, lookup "choices" d = Some (VList l)) /\ (forall w, lookup "default" d = Some w -> scalar w)
  end.
Proof.
  unfold parameter. destruct (deduce_type v) as (v1 & t). destruct t as [t|]; [|discriminate]. destruct (kind_of t) as [k'|].
  - destruct v1; try discriminate.
    destruct (match k' with KInt => _ | KFloat => _ | KCat => _ end) as (d1 & r) eqn:F. destruct r as [u|]; [|discriminate]. cbn [bind]. intros [= _ -> ->]. destruct k.
    + exact (int_inv _ _ _ F).
    + destruct (float_inv _ _ _ F) as (A & B & C). split; [exact A|]. split; [exact B|]. intros w W. specialize (C w W). destruct w; try discriminate. eauto.
    + destruct (cat_inv _ _ _ F) as (l & A & _ & B & _). split; [eauto|]. intros w W. destruct (B w W) as (T & _). destruct w; try discriminate T; exact Logic.I.
  - destruct (String.eqb t "const"); [|discriminate]. destruct (formatting_const v1); discriminate.
Qed.
Lemma float_means v f b : numeral v -> convert v = Ok (f, b) -> as_float v f.
Proof. intros N C. destruct (numeral_convert v N) as (f' & b' & C' & A & _). rewrite C in C'. injection C' as <- _. exact A. Qed.
Lemma exact_means f n : int_of_float f = Ok n -> fl_is_int f n = true -> f = fl_of_Z n.
Proof. intros _. unfold fl_is_int, fl_of_Z. destruct f; cbn [fl_eqb]; try discriminate. intros E. apply Z.eqb_eq in E. subst. reflexivity. Qed.
Lemma kept_same v : is_intv v = true -> kept_int v v.
Proof. destruct v; try discriminate; intros _; [right; left|left]; eauto. Qed.
Lemma int_bounds_means l u n m : int_bounds l u = Ok (n, m) -> (numeral l -> as_float l (fl_of_Z n)) /\ (numeral u -> as_float u (fl_of_Z m)).
Proof.
  unfold int_bounds. destruct (convert l) as [[f b]|] eqn:CL; [|discriminate]. destruct (convert u) as [[g b']|] eqn:CU; [|discriminate]. cbn [bind fst snd].
  destruct (b || b'); [|discriminate]. destruct (int_of_float f) as [n'|] eqn:IF; [|discriminate]. cbn [bind]. destruct (fl_is_int f n') eqn:EF; [|discriminate].
  destruct (int_of_float g) as [m'|] eqn:IG; [|discriminate]. cbn [bind]. destruct (fl_is_int g m') eqn:EG; [|discriminate]. intros [= <- <-].
  rewrite <- (exact_means f n' IF EF), <- (exact_means g m' IG EG). split; intros N; eapply float_means; eassumption.
Qed.
Lemma int_kept d d' t : formatting_int d = (d', Ok t) -> forall k v, In k ["lower"; "upper"; "default"] -> lookup k d = Some v -> exists w, lookup k d' = Some w /\ kept_int v w.
Proof.
  intros H.
  assert (X : exists d1, lookup "default" d1 = lookup "default" d /\
    (forall k v, In k ["lower"; "upper"] -> lookup k d = Some v -> exists w, lookup k d1 = Some w /\ kept_int v w) /\
    (d', Ok t) = match lookup "default" d1 with
          | None => (d1, Ok tt)
          | Some v =>
              if is_intv v then (d1, Ok tt)
              else match value_to_type (bind (convert v) (fun fb => exact_int (fst fb))) with
                   | Ok n => (set_key "default" (VInt n) d1, Ok tt)
                   | Err e => (d1, Err e)
                   end
          end).
  { revert H. unfold formatting_int, item. destruct (lookup "lower" d) as [l|] eqn:L; [|discriminate].
    assert (CV : forall u, lookup "upper" d = Some u -> match
        match value_to_type (int_bounds l u) with
        | Ok (n, m) => (set_key "upper" (VInt m) (set_key "lower" (VInt n) d), Ok tt)
        | Err e => (d, Err e)
        end with
      | (d0, Ok _) => match lookup "default" d0 with
          | Some v => if is_intv v then (d0, Ok tt) else
              match value_to_type (bind (convert v) (fun fb => exact_int (fst fb))) with
              | Ok n => (set_key "default" (VInt n) d0, Ok tt) | Err e => (d0, Err e) end
          | None => (d0, Ok tt) end
      | (d0, Err e) => (d0, Err e) end = (d', Ok t) -> exists d1, lookup "default" d1 = lookup "default" d /\
        (forall k v, In k ["lower"; "upper"] -> lookup k d = Some v -> exists w, lookup k d1 = Some w /\ kept_int v w) /\
        (d', Ok t) = match lookup "default" d1 with
          | None => (d1, Ok tt)
          | Some v => if is_intv v then (d1, Ok tt)
              else match value_to_type (bind (convert v) (fun fb => exact_int (fst fb))) with
                   | Ok n => (set_key "default" (VInt n) d1, Ok tt) | Err e => (d1, Err e) end
          end).
    { intros u U. destruct (int_bounds l u) as [[n m]|e] eqn:IB; [|destruct e; discriminate]. cbn [value_to_type]. intros H.
      destruct (int_bounds_means l u n m IB) as (ML & MU). eexists. split; [|split; [|symmetry; exact H]]; [rewrite !lookup_set_key; reflexivity|].
      intros k v [<-|[<-|[]]] LV; rewrite !lookup_set_key; cbn [String.eqb Ascii.eqb Bool.eqb]; eexists; (split; [reflexivity|]); right; right; eexists; (split; [reflexivity|]);
        rewrite ?L, ?U in LV; injection LV as <-; assumption. }
    destruct (is_intv l) eqn:IL.
    - destruct (lookup "upper" d) as [u|] eqn:U; [|discriminate]. cbn [andb]. destruct (is_intv u) eqn:IU; [|exact (CV u eq_refl)].
      intros H. exists d. split; [reflexivity|]. split; [|symmetry; exact H]. intros k v [<-|[<-|[]]] LV; exists v; (split; [exact LV|]); apply kept_same; congruence.
    - cbn [andb]. destruct (lookup "upper" d) as [u|] eqn:U; [exact (CV u eq_refl)|]. destruct (value_to_type (convert l)); discriminate. }
  destruct X as (d1 & D & B & E). intros k v K LV. destruct (lookup "default" d1) as [w|] eqn:DV.
  - destruct (is_intv w) eqn:IW.
    + injection E as -> _. destruct K as [<-|[<-|[<-|[]]]]; [apply B; cbn; auto|apply B; cbn; auto|]. rewrite LV in D. injection D as <-. exists w. split; [exact DV|]. apply kept_same, IW.
    + destruct (value_to_type _) as [n|] eqn:V; [|discriminate]. injection E as -> _. destruct K as [<-|[<-|[<-|[]]]]; try (rewrite lookup_set_key; cbn [String.eqb Ascii.eqb Bool.eqb]; apply B; [cbn; auto|exact LV]).
      rewrite LV in D. injection D as <-. rewrite lookup_set_key. cbn [String.eqb Ascii.eqb Bool.eqb]. exists (VInt n). split; [reflexivity|]. right. right. exists n. split; [reflexivity|]. intros N.
      destruct (convert w) as [[f b]|e] eqn:C; [|destruct e; discriminate]. cbn [bind fst] in V. unfold exact_int in V. destruct (int_of_float f) as [n'|e] eqn:IF; [|destruct e; discriminate].
      cbn [bind] in V. destruct (fl_is_int f n') eqn:EF; [|discriminate]. injection V as <-. rewrite <- (exact_means _ _ IF EF). eapply float_means; eassumption.
  - injection E as -> _. destruct K as [<-|[<-|[<-|[]]]]; [apply B; cbn; auto|apply B; cbn; auto|]. congruence.
Qed.
Lemma parameter_int_kept d v' d' : parameter (fun k d => Ok (Some (k, d))) (fun _ => Ok None) (VDict d) = (v', Ok (Some (KInt, d'))) ->
  forall k v, In k ["lower"; "upper"; "default"] -> lookup k d = Some v -> exists w, lookup k d' = Some w /\ kept_int v w.
Proof.
  unfold parameter. intros H k v K LV.
  assert (X : exists d1 t, deduce_type (VDict d) = (VDict d1, Ok t) /\ (kind_of t = Some KInt -> lookup k d1 = lookup k d)).
  { revert H. cbn [deduce_type]. destruct (lookup "type" d) as [ty|] eqn:TY.
    - destruct ty; try discriminate. intros _. eexists _, _. split; [reflexivity|]. intros _. rewrite lookup_remove_key. destruct K as [<-|[<-|[<-|[]]]]; reflexivity.
    - destruct (deduce_param_type d) as (d1 & r) eqn:DP. destruct r as [t|]; [|discriminate]. intros _. exists d1, t. split; [reflexivity|]. intros KI.
      revert DP. unfold deduce_param_type. destruct (lookup "lower" d) as [l|]; [|destruct (has_key "choices" d); intros [= <- <-]; discriminate KI || reflexivity].
      destruct (lookup "upper" d) as [u|]; [|destruct (has_key "choices" d); intros [= <- <-]; discriminate KI || reflexivity].
      destruct (is_intv l && is_intv u); [intros [= <- _]; reflexivity|]. destruct (is_floatv l && is_floatv u); [intros [= <- _]; reflexivity|].
      destruct (convert_bounds d) as (d2 & r). intros [= <- V]. destruct (value_to_type r) as [fs|]; [|discriminate]. cbn [bind] in V.
      destruct (fst fs || snd fs); [|discriminate]. injection V as <-. discriminate KI. }
  destruct X as (d1 & t & D & KI). rewrite D in H. destruct (kind_of t) as [k'|].
  - destruct (match k' with KInt => _ | KFloat => _ | KCat => _ end) as (d2 & r) eqn:F. destruct r as [u|]; [|discriminate]. cbn [bind] in H. injection H as _ -> ->.
    eapply int_kept; [exact F|exact K|]. rewrite (KI eq_refl). exact LV.
  - destruct (String.eqb t "const"); [|discriminate]. destruct (formatting_const (VDict d1)); discriminate.
Qed.
