(** Strings that are numbers. *)
From Verif Require Import Py Yam_model Yam_spec Yam_round_proofs.
Local Notation length := List.length.

(** ** Digits *)
Lemma digit_char_ok d : (d < 10)%nat -> is_digit (digit_char d) = true /\ digit (digit_char d) = Z.of_nat d.
Proof. intros H. do 10 (destruct d as [|d]; [split; reflexivity|]). lia. Qed.
Lemma is_digit_char c : is_digit c = true -> exists d, (d < 10)%nat /\ c = digit_char d.
Proof.
  intros H. exists (code c - 48)%nat. revert H. destruct c as [[] [] [] [] [] [] [] []]; vm_compute; intros H; try discriminate H; split; (lia || reflexivity).
Qed.
Lemma digits_chars l : Forall (fun c => is_digit c = true) l -> exists ds, Forall (fun d => d < 10)%nat ds /\ l = map digit_char ds.
Proof.
  induction 1 as [|c l C _ (ds & D & ->)]; [exists []; split; [constructor|reflexivity]|].
  destruct (is_digit_char c C) as (d & L & ->). exists (d :: ds). split; [constructor; assumption|reflexivity].
Qed.
Lemma digit_not c : is_digit c = true -> is_space c = false /\ minus c = false /\ plus c = false /\ dot c = false /\ is_e c = false /\ underscore c = false /\ blank c = false.
Proof. intros H. destruct (is_digit_char c H) as (d & L & ->). do 10 (destruct d as [|d]; [repeat split; reflexivity|]). lia. Qed.

Definition not_digit_first (l : list ascii) : Prop := match l with c :: _ => is_digit c = false | [] => True end.
Lemma span_app ds r : Forall (fun d => d < 10)%nat ds -> not_digit_first r -> span_digits (map digit_char ds ++ r) = (map digit_char ds, r).
Proof.
  intros D N. induction D as [|d ds L _ IH]; cbn [map app].
  - destruct r as [|c r]; [reflexivity|]. cbn [not_digit_first span_digits] in *. rewrite N. reflexivity.
  - cbn [span_digits]. rewrite (proj1 (digit_char_ok d L)), IH. reflexivity.
Qed.
Lemma span_parts l d r : span_digits l = (d, r) -> l = d ++ r /\ Forall (fun c => is_digit c = true) d.
Proof.
  revert d r. induction l as [|c l IH]; cbn [span_digits]; intros d r H; [injection H as <- <-; split; [reflexivity|constructor]|].
  destruct (is_digit c) eqn:C; [|injection H as <- <-; split; [reflexivity|constructor]].
  destruct (span_digits l) as (d', r') eqn:E. injection H as <- <-. destruct (IH _ _ eq_refl) as (-> & F). split; [reflexivity|constructor; assumption].
Qed.
Lemma number_acc ds a : Forall (fun d => d < 10)%nat ds ->
  fold_left (fun n c => (n * 10 + digit c)%Z) (map digit_char ds) a = (a * 10 ^ Z.of_nat (length ds) + digits_value ds)%Z.
Proof.
  intros D. revert a. induction D as [|d ds L _ IH]; intros a; cbn [map fold_left digits_value length].
  - cbn. lia.
  - rewrite IH, (proj2 (digit_char_ok d L)). rewrite Nat2Z.inj_succ, Z.pow_succ_r by lia. ring.
Qed.
Lemma number_digits ds : Forall (fun d => d < 10)%nat ds -> number (map digit_char ds) = digits_value ds.
Proof. intros D. unfold number. rewrite number_acc by exact D. lia. Qed.
Lemma digits_nonneg ds : (0 <= digits_value ds)%Z.
Proof. induction ds as [|d ds IH]; cbn [digits_value]; [lia|]. pose proof (Z.pow_nonneg 10 (Z.of_nat (length ds)) ltac:(lia)). nia. Qed.

Lemma opt_parts f l o r : opt_char f l = (o, r) ->
  match o with Some c => l = c :: r /\ f c = true | None => l = r end.
Proof. destruct l as [|c l]; cbn; [intros [= <- <-]; reflexivity|]. destruct (f c) eqn:F; intros [= <- <-]; auto. Qed.

(** ** The parts of a text *)
Lemma sign_opt (f : ascii -> bool) s l : (forall c, f c = true -> c = "-"%char \/ c = "+"%char) ->
  match l with c :: _ => is_digit c = true \/ dot c = true | [] => False end ->
  match s with NoSign => True | Minus => f "-"%char = true | Plus => f "+"%char = true end ->
  opt_char f (sign_text s ++ l) = (match s with NoSign => None | Minus => Some "-"%char | Plus => Some "+"%char end, l).
Proof.
  intros F N S. destruct s; cbn; [|rewrite S; reflexivity|rewrite S; reflexivity].
  destruct l as [|c l]; [contradiction|]. cbn. destruct (f c) eqn:C; [|reflexivity]. exfalso.
  destruct (F c C) as [->| ->]; destruct N; discriminate.
Qed.
Definition sign_char (c : ascii) : bool := minus c || plus c.
Lemma char_of n c : is_char n c = true -> c = ascii_of_nat n.
Proof. intros H. apply Nat.eqb_eq in H. rewrite <- (ascii_nat_embedding c). unfold code in H. rewrite H. reflexivity. Qed.
Lemma minus_char c : minus c = true -> c = "-"%char. Proof. intros H. apply (char_of 45) in H. exact H. Qed.
Lemma sign_char_cases c : sign_char c = true -> c = "-"%char \/ c = "+"%char.
Proof. unfold sign_char. intros H. apply orb_prop in H. destruct H as [H|H]; [left; apply (char_of 45), H|right; apply (char_of 43), H]. Qed.
Lemma is_e_cases c : is_e c = true -> c = "E"%char \/ c = "e"%char.
Proof. unfold is_e. intros H. apply orb_prop in H. destruct H as [H|H]; [left; apply (char_of 69), H|right; apply (char_of 101), H]. Qed.

Definition e_char (b : bool) : ascii := if b then "E"%char else "e"%char.
Definition exp_part (c : sci) : list ascii := e_char (sc_big c) :: sign_text (sc_esign c) ++ map digit_char (sc_exp c).
Definition frac_part (c : sci) : list ascii := match sc_frac c with Some f => "."%char :: map digit_char f | None => [] end.
Definition body (c : sci) : list ascii := map digit_char (sc_int c) ++ frac_part c ++ exp_part c.
Lemma text_body c : text c = sign_text (sc_sign c) ++ body c. Proof. reflexivity. Qed.
Lemma body_first c : valid c -> match body c with x :: _ => is_digit x = true \/ dot x = true | [] => False end.
Proof.
  intros (I & F & _ & N & _). unfold body, frac_part. destruct (sc_int c) as [|d ds] eqn:E.
  - unfold frac_digits in *. destruct (sc_frac c) as [f|]; [right; reflexivity|contradiction].
  - cbn. left. inversion I; subst. apply digit_char_ok. assumption.
Qed.
Lemma exp_first c r : valid c -> match map digit_char (sc_exp c) ++ r with x :: _ => is_digit x = true \/ dot x = true | [] => False end.
Proof.
  intros (_ & _ & X & _ & N). destruct (sc_exp c) as [|d ds]; [contradiction|]. cbn. left. inversion X; subst. apply digit_char_ok. assumption.
Qed.

Section Parts.
  Variables (c : sci) (r : list ascii).
  Hypotheses (V : valid c) (R : not_digit_first r).
  Lemma int_span : span_digits (body c ++ r) = (map digit_char (sc_int c), frac_part c ++ exp_part c ++ r).
  Proof.
    destruct V as (I & _). unfold body. rewrite <- !app_assoc. apply span_app; [exact I|].
    unfold frac_part, exp_part. destruct (sc_frac c); [reflexivity|]. cbn. unfold e_char. destruct (sc_big c); reflexivity.
  Qed.
  Lemma frac_opt : exists p l, opt_char dot (frac_part c ++ exp_part c ++ r) = (p, l) /\
    (p = None <-> sc_frac c = None) /\
    match p with Some _ => span_digits l | None => ([], l) end = (map digit_char (frac_digits c), exp_part c ++ r).
  Proof.
    destruct V as (_ & F & _). unfold frac_part, frac_digits in *. destruct (sc_frac c) as [f|].
    - exists (Some "."%char), (map digit_char f ++ exp_part c ++ r). split; [reflexivity|]. split; [split; discriminate|].
      apply span_app; [exact F|]. unfold exp_part. cbn. unfold e_char. destruct (sc_big c); reflexivity.
    - exists None, (exp_part c ++ r). split; [unfold exp_part; cbn; unfold e_char; destruct (sc_big c); reflexivity|]. split; [split; reflexivity|reflexivity].
  Qed.
  Lemma exp_opt : opt_char is_e (exp_part c ++ r) = (Some (e_char (sc_big c)), sign_text (sc_esign c) ++ map digit_char (sc_exp c) ++ r).
  Proof. unfold exp_part. cbn. unfold e_char. rewrite <- app_assoc. destruct (sc_big c); reflexivity. Qed.
  Lemma exp_span : span_digits (map digit_char (sc_exp c) ++ r) = (map digit_char (sc_exp c), r).
  Proof. apply span_app; [apply V|exact R]. Qed.
End Parts.

Lemma map_length_0 (ds : list nat) : Nat.eqb (length (map digit_char ds)) 0 = true <-> ds = [].
Proof. rewrite map_length. destruct ds; cbn; split; (reflexivity || discriminate). Qed.

(** ** [float()] of a text *)
Definition neg_of (s : sign) : bool := match s with Minus => true | _ => false end.
Lemma unsigned_body neg c : valid c ->
  unsigned neg (body c) = Ok (dec_float neg (digits_value (sc_int c ++ frac_digits c))
    (signed (sc_esign c) (digits_value (sc_exp c)) - Z.of_nat (length (frac_digits c)))).
Proof.
  intros V. unfold unsigned. pose proof (int_span c [] V) as IS. rewrite !app_nil_r in IS. rewrite IS.
  destruct (frac_opt c [] V) as (p & l & FO & _ & FS). rewrite !app_nil_r in FO, FS. rewrite FO, FS.
  pose proof V as (I & F & X & N & NX).
  assert (NZ : Nat.eqb (length (map digit_char (sc_int c)) + length (map digit_char (frac_digits c))) 0 = false).
  { rewrite !map_length. apply Nat.eqb_neq. intros H. apply N. destruct (sc_int c); [|discriminate]. destruct (frac_digits c); [reflexivity|discriminate]. }
  rewrite NZ. pose proof (exp_opt c []) as EO. rewrite !app_nil_r in EO. rewrite EO.
  fold sign_char. pose proof (exp_first c [] V) as EF. pose proof (exp_span c [] V Logic.I) as ES. rewrite !app_nil_r in *.
  rewrite (sign_opt sign_char _ _ sign_char_cases EF); [|destruct (sc_esign c); reflexivity || exact Logic.I].
  rewrite ES. rewrite <- map_app, number_digits by (apply Forall_app; split; assumption). rewrite number_digits by exact X.
  destruct (sc_exp c) as [|d ds] eqn:E; [contradiction|]. cbn [map]. rewrite map_length. f_equal. f_equal. f_equal. destruct (sc_esign c); reflexivity.
Qed.

Definition plain (c : ascii) : Prop := is_space c = false /\ underscore c = false.
Lemma plain_digits ds : Forall (fun d => d < 10)%nat ds -> Forall plain (map digit_char ds).
Proof.
  intros D. apply Forall_map. eapply Forall_impl; [|exact D]. intros d L. destruct (digit_not _ (proj1 (digit_char_ok d L))) as (A & _ & _ & _ & _ & B & _). split; assumption.
Qed.
Lemma plain_sign s : Forall plain (sign_text s). Proof. destruct s; repeat constructor. Qed.
Lemma plain_text c : valid c -> Forall plain (text c).
Proof.
  intros (I & F & X & _). unfold text. apply Forall_app. split; [apply plain_sign|]. apply Forall_app. split; [apply plain_digits, I|].
  apply Forall_app. split.
  - unfold frac_digits in F. destruct (sc_frac c); [constructor; [split; reflexivity|apply plain_digits, F]|constructor].
  - constructor; [destruct (sc_big c); split; reflexivity|]. apply Forall_app. split; [apply plain_sign|apply plain_digits, X].
Qed.
Lemma text_nonempty c : text c <> [].
Proof.
  intros H. unfold text in H. apply app_eq_nil in H. destruct H as (_ & H). apply app_eq_nil in H. destruct H as (_ & H). apply app_eq_nil in H. destruct H as (_ & H). discriminate.
Qed.

Lemma no_underscores_plain l p : Forall plain l -> match p with Some c => underscore c = false | None => True end -> no_underscores p l = Some l.
Proof.
  intros F. revert p. induction F as [|c l (_ & C) _ IH]; intros p P; cbn [no_underscores].
  - destruct p; [rewrite P|]; reflexivity.
  - rewrite C. destruct p as [p|].
    + rewrite P. cbn [andb]. rewrite IH by exact C. reflexivity.
    + rewrite IH by exact C. reflexivity.
Qed.
Lemma drop_while_app f a b : Forall (fun c => f c = true) a -> (match b with c :: _ => f c = false | [] => True end) -> drop_while f (a ++ b) = b.
Proof.
  intros A B. induction A as [|c a C _ IH]; cbn; [|rewrite C; exact IH]. destruct b as [|c b]; [reflexivity|]. cbn. rewrite B. reflexivity.
Qed.
Lemma strip_app a t b : Forall (fun c => is_space c = true) a -> Forall (fun c => is_space c = true) b -> Forall plain t -> strip (a ++ t ++ b) = t.
Proof.
  intros A B T. destruct t as [|x t].
  - cbn. unfold strip. assert (X : drop_while is_space (a ++ b) = []).
    { rewrite <- (app_nil_r (a ++ b)). apply drop_while_app; [apply Forall_app; split; assumption|exact Logic.I]. }
    rewrite X. reflexivity.
  - unfold strip. rewrite drop_while_app; [|exact A|cbn; inversion T as [|? ? (X & _) ?]; exact X].
    rewrite rev_app_distr, drop_while_app; [apply rev_involutive|apply Forall_rev, B|].
    apply Forall_rev in T. destruct (rev (x :: t)) as [|y l]; [exact Logic.I|]. inversion T as [|? ? (X & _) ?]; exact X.
Qed.
Lemma spaces_space n : Forall (fun c => is_space c = true) (spaces n).
Proof. unfold spaces. induction n; cbn; constructor; [reflexivity|assumption]. Qed.
Lemma trailing_space w : trailing w -> Forall (fun c => is_space c = true) w.
Proof.
  intros [(j & ->)|(j & k & ->)]; [apply spaces_space|]. apply Forall_app. split; [apply spaces_space|]. constructor; [reflexivity|apply spaces_space].
Qed.
Lemma words_first c l s a : words (c :: l) (String a s) = true -> lower_char c = a.
Proof. unfold words. intros H. apply String.eqb_eq in H. cbn [map string_of_list_ascii] in H. injection H as H _. exact H. Qed.
Lemma body_not_word c a s : valid c -> (a = "i"%char \/ a = "n"%char) -> words (body c) (String a s) = false.
Proof.
  intros V A. destruct (words (body c) (String a s)) eqn:W; [|reflexivity]. exfalso. pose proof (body_first c V) as B.
  destruct (body c) as [|x l]; [contradiction|]. apply words_first in W. destruct B as [B|B].
  - destruct (is_digit_char x B) as (d & L & ->). do 10 (destruct d as [|d]; [cbn in W; subst a; destruct A; discriminate|]). lia.
  - apply (char_of 46) in B. subst x. cbn in W. subst a. destruct A; discriminate.
Qed.

Lemma float_of_text s c a b : valid c -> Forall (fun c => is_space c = true) a -> Forall (fun c => is_space c = true) b ->
  list_ascii_of_string s = a ++ text c ++ b ->
  exists f, float_of_string s = Ok f /\ nearest (fst (sci_value c)) (snd (sci_value c)) f.
Proof.
  intros V A B S. unfold float_of_string, str_list. rewrite S, strip_app by (try apply plain_text; assumption).
  rewrite no_underscores_plain by (try exact Logic.I; apply plain_text, V). rewrite text_body. fold sign_char.
  rewrite (sign_opt sign_char _ _ sign_char_cases (body_first c V)) by (destruct (sc_sign c); reflexivity || exact Logic.I).
  assert (N : match match sc_sign c with NoSign => None | Minus => Some "-"%char | Plus => Some "+"%char end with Some c0 => minus c0 | None => false end = neg_of (sc_sign c)).
  { destruct (sc_sign c); reflexivity. }
  rewrite N, !body_not_word by auto. cbn [orb]. rewrite unsigned_body by exact V. eexists. split; [reflexivity|].
  unfold sci_value. cbn [fst snd]. pose proof (dec_float_nearest (neg_of (sc_sign c)) (digits_value (sc_int c ++ frac_digits c))
    (signed (sc_esign c) (digits_value (sc_exp c)) - Z.of_nat (length (frac_digits c))) (digits_nonneg _)) as H.
  destruct (sc_sign c); exact H.
Qed.

(** ** The pattern *)
Lemma filter_spaces n : filter (fun c => negb (blank c)) (spaces n) = [].
Proof. induction n; [reflexivity|exact IHn]. Qed.
Lemma filter_plain l : Forall plain l -> filter (fun c => negb (blank c)) l = l.
Proof.
  induction 1 as [|c l (C & _) _ IH]; [reflexivity|]. cbn [filter]. destruct (blank c) eqn:B; [|cbn; rewrite IH; reflexivity].
  apply (char_of 32) in B. subst c. discriminate.
Qed.
Lemma filter_trailing w : trailing w -> filter (fun c => negb (blank c)) w = [] \/ filter (fun c => negb (blank c)) w = ["010"%char].
Proof.
  intros [(j & ->)|(j & k & ->)]; [left; apply filter_spaces|right]. rewrite filter_app. cbn. rewrite !filter_spaces. reflexivity.
Qed.
Lemma e_notation_text c w : valid c -> w = [] \/ w = ["010"%char] -> (e_notation (text c ++ w) = true <-> simple c).
Proof.
  intros V W. assert (R : not_digit_first w) by (destruct W as [->| ->]; [exact Logic.I|reflexivity]).
  unfold e_notation. rewrite text_body, <- app_assoc.
  assert (BF : match body c ++ w with x :: _ => is_digit x = true \/ dot x = true | [] => False end).
  { pose proof (body_first c V) as B. destruct (body c); [contradiction|exact B]. }
  assert (MC : forall x, minus x = true -> x = "-"%char \/ x = "+"%char) by (intros x M; left; apply minus_char, M).
  destruct (sc_sign c) eqn:SG.
  2:{ (* plus *) change (opt_char minus (sign_text Plus ++ body c ++ w)) with (@None ascii, "+"%char :: body c ++ w).
      change (span_digits ("+"%char :: body c ++ w)) with (@nil ascii, "+"%char :: body c ++ w).
      split; [|intros (H & _); congruence].
      change (opt_char dot ("+"%char :: body c ++ w)) with (@None ascii, "+"%char :: body c ++ w).
      change (opt_char is_e ("+"%char :: body c ++ w)) with (@None ascii, "+"%char :: body c ++ w). cbn. intros H. discriminate. }
  all: rewrite (sign_opt minus _ _ MC BF) by (exact Logic.I || reflexivity).
  all: rewrite (int_span c w V).
  all: destruct (frac_opt c w V) as (p & l & FO & FN & FS); rewrite FO, FS, (exp_opt c w).
  all: pose proof V as (I & F & X & N & NX).
  all: destruct (sc_esign c) eqn:SE.
  2,5: (change (opt_char minus (sign_text Plus ++ map digit_char (sc_exp c) ++ w)) with (@None ascii, "+"%char :: map digit_char (sc_exp c) ++ w);
        change (span_digits ("+"%char :: map digit_char (sc_exp c) ++ w)) with (@nil ascii, "+"%char :: map digit_char (sc_exp c) ++ w);
        split; [intros H; apply andb_prop in H; destruct H as (H & _); apply andb_prop in H; destruct H as (_ & H); discriminate H|intros (_ & H & _); congruence]).
  all: rewrite (sign_opt minus _ _ MC (exp_first c w V)) by (exact Logic.I || reflexivity).
  all: rewrite (exp_span c w V R).
  all: assert (T : match w with [] => true | [c0] => newline c0 | _ => false end = true) by (destruct W as [->| ->]; reflexivity).
  all: rewrite T, !andb_true_r.
  all: assert (XL : Nat.eqb (length (map digit_char (sc_exp c))) 0 = false) by (destruct (Nat.eqb _ 0) eqn:Z0; [apply map_length_0 in Z0; contradiction|reflexivity]).
  all: rewrite XL; cbn [negb]; rewrite !andb_true_r, andb_true_iff, negb_true_iff.
  all: assert (IL : Nat.eqb (length (map digit_char (sc_int c))) 0 = false <-> sc_int c <> []) by
         (rewrite <- not_true_iff_false, map_length_0; reflexivity).
  all: assert (FL : match p with Some _ => negb (Nat.eqb (length (map digit_char (frac_digits c))) 0) | None => true end = true <-> sc_frac c <> Some []).
  1,3,5,7: (destruct p as [p|];
      [rewrite negb_true_iff, <- not_true_iff_false, map_length_0; unfold frac_digits; destruct (sc_frac c) as [f|]; [|discriminate (proj2 FN eq_refl)];
       split; [intros H [= ->]; apply H; reflexivity|intros H ->; apply H; reflexivity]
      |split; [rewrite (proj1 FN eq_refl); discriminate|reflexivity]]).
  all: rewrite IL, FL; unfold simple; rewrite SG, SE; split; [intros (A & B); repeat split; (assumption || discriminate)|intros (_ & _ & A & B); split; assumption].
Qed.

Lemma e_notation_parts l : e_notation l = true -> exists c w, valid c /\ simple c /\ l = text c ++ w /\ (w = [] \/ w = ["010"%char]).
Proof.
  unfold e_notation. destruct (opt_char minus l) as (g & l1) eqn:E1. destruct (span_digits l1) as (i & l2) eqn:E2.
  destruct (opt_char dot l2) as (p & l3) eqn:E3.
  destruct (match p with Some _ => span_digits l3 | None => ([], l3) end) as (f & l4) eqn:E4.
  destruct (opt_char is_e l4) as (e & l5) eqn:E5. destruct (opt_char minus l5) as (g' & l6) eqn:E6. destruct (span_digits l6) as (x & l7) eqn:E7.
  intros H. apply andb_prop in H. destruct H as (H & T). apply andb_prop in H. destruct H as (H & HX). apply andb_prop in H. destruct H as (H & HE).
  apply andb_prop in H. destruct H as (HI & HF).
  apply opt_parts in E1, E3, E5, E6. apply span_parts in E2, E7. destruct E2 as (-> & DI). destruct E7 as (-> & DX).
  destruct (digits_chars i DI) as (is & VI & ->). destruct (digits_chars x DX) as (xs & VX & ->). clear DI DX.
  assert (NI : is <> []) by (intros ->; discriminate). assert (NXS : xs <> []) by (intros ->; discriminate). clear HI HX.
  destruct e as [e|]; [|discriminate]. clear HE. destruct E5 as (-> & EC).
  assert (exists b, e = e_char b) as (b & ->) by (destruct (is_e_cases e EC) as [->| ->]; [exists true|exists false]; reflexivity). clear EC.
  assert (G : exists s, s <> Plus /\ l = sign_text s ++ map digit_char is ++ l2).
  { destruct g as [g|]; [destruct E1 as (-> & G); apply minus_char in G; subst g; exists Minus|exists NoSign]; (split; [discriminate|]); [reflexivity|exact E1]. }
  assert (G' : exists s, s <> Plus /\ l5 = sign_text s ++ map digit_char xs ++ l7).
  { destruct g' as [g'|]; [destruct E6 as (-> & G'); apply minus_char in G'; subst g'; exists Minus|exists NoSign]; (split; [discriminate|]); [reflexivity|exact E6]. }
  destruct G as (s & S & ->). destruct G' as (s' & S' & ->). clear E1 E6.
  assert (FP : exists fr, fr <> Some [] /\ Forall (fun d => d < 10)%nat (match fr with Some f => f | None => [] end) /\
    l2 = match fr with Some f => "."%char :: map digit_char f | None => [] end ++ e_char b :: sign_text s' ++ map digit_char xs ++ l7).
  { destruct p as [p|].
    - apply span_parts in E4. destruct E4 as (-> & DF). destruct (digits_chars f DF) as (fs & VF & ->). destruct E3 as (-> & PC).
      apply (char_of 46) in PC. subst p. exists (Some fs). split; [intros [= ->]; discriminate|]. split; [exact VF|reflexivity].
    - injection E4 as <- <-. exists None. split; [discriminate|]. split; [constructor|]. exact E3. }
  destruct FP as (fr & FN & VF & ->). clear E3 E4 HF.
  exists (mkSci s is fr b s' xs), l7. split; [|split; [|split]].
  - unfold valid, frac_digits. cbn. split; [exact VI|]. split; [exact VF|]. split; [exact VX|]. split; [|exact NXS].
    intros Z0. apply app_eq_nil in Z0. destruct Z0. contradiction.
  - unfold simple. cbn. auto.
  - unfold text. cbn. unfold e_char. rewrite <- !app_assoc. f_equal. f_equal. f_equal. cbn. rewrite <- !app_assoc. reflexivity.
  - destruct l7 as [|y [|? ?]]; [left; reflexivity| |discriminate]. right. apply (char_of 10) in T. subst y. reflexivity.
Qed.

(** ** What [float()] accepts has no blanks inside *)
Definition solid (c : ascii) : Prop := is_space c = false.
Lemma solid_digits d : Forall (fun c => is_digit c = true) d -> Forall solid d.
Proof. apply Forall_impl. intros c C. apply digit_not, C. Qed.
Lemma unsigned_solid neg l f : unsigned neg l = Ok f -> Forall solid l.
Proof.
  unfold unsigned. destruct (span_digits l) as (i & l1) eqn:E1. destruct (opt_char dot l1) as (p & l2) eqn:E2.
  destruct (match p with Some _ => span_digits l2 | None => ([], l2) end) as (fr & l3) eqn:E3.
  destruct (Nat.eqb _ 0); [discriminate|]. destruct (opt_char is_e l3) as (e & l4) eqn:E4.
  apply span_parts in E1. destruct E1 as (-> & DI). apply solid_digits in DI. apply opt_parts in E2, E4. intros H. apply Forall_app. split; [exact DI|].
  assert (L4 : Forall solid l3).
  { destruct e as [e|].
    - destruct E4 as (-> & EC). fold sign_char in H. destruct (opt_char sign_char l4) as (s & l5) eqn:E5. destruct (span_digits l5) as (x & l6) eqn:E6.
      apply opt_parts in E5. apply span_parts in E6. destruct E6 as (-> & DX). apply solid_digits in DX.
      assert (l6 = []) as -> by (destruct x; [discriminate|destruct l6; [reflexivity|discriminate]]). rewrite app_nil_r in *.
      constructor; [destruct (is_e_cases e EC) as [->| ->]; reflexivity|].
      destruct s as [s|]; [destruct E5 as (-> & SC); constructor; [destruct (sign_char_cases s SC) as [->| ->]; reflexivity|exact DX]|subst l4; exact DX].
    - subst l3. destruct l4; [constructor|discriminate]. }
  destruct p as [p|].
  - destruct E2 as (-> & PC). apply (char_of 46) in PC. subst p. apply span_parts in E3. destruct E3 as (-> & DF). apply solid_digits in DF.
    constructor; [reflexivity|]. apply Forall_app. split; assumption.
  - subst l1. injection E3 as <- <-. exact L4.
Qed.
Lemma lower_solid c : solid (lower_char c) -> solid c.
Proof. unfold solid. destruct c as [[] [] [] [] [] [] [] []]; vm_compute; auto. Qed.
Lemma words_solid l s : words l s = true -> Forall solid (list_ascii_of_string s) -> Forall solid l.
Proof.
  unfold words. intros W. apply String.eqb_eq in W. rewrite <- W, list_ascii_of_string_of_list_ascii. intros F. apply (proj1 (Forall_map lower_char solid l)) in F.
  eapply Forall_impl; [|exact F]. intros c. apply lower_solid.
Qed.
Lemma no_underscores_solid p l m : no_underscores p l = Some m -> Forall solid m -> Forall solid l.
Proof.
  revert p m. induction l as [|c l IH]; intros p m H F; [constructor|]. cbn in H.
  destruct (underscore c) eqn:U.
  - apply (char_of 95) in U. subst c. constructor; [reflexivity|]. destruct p as [p|]; [|discriminate]. destruct (is_digit p); [|discriminate]. eapply IH; eassumption.
  - assert (X : option_map (cons c) (no_underscores (Some c) l) = Some m) by (destruct p as [p|]; [destruct (underscore p && negb (is_digit c)); [discriminate|exact H]|exact H]).
    destruct (no_underscores (Some c) l) as [m'|] eqn:E; [|discriminate]. injection X as <-. inversion F; subst. constructor; [assumption|]. eapply IH; eassumption.
Qed.
Lemma float_solid s f : float_of_string s = Ok f -> Forall solid (strip (str_list s)).
Proof.
  unfold float_of_string. destruct (no_underscores None (strip (str_list s))) as [l|] eqn:E; [|discriminate]. intros H.
  apply (no_underscores_solid _ _ _ E). fold sign_char in H. destruct (opt_char sign_char l) as (g & l1) eqn:E1. apply opt_parts in E1.
  assert (L1 : Forall solid l1).
  { destruct (words l1 "inf") eqn:W1; [apply (words_solid _ _ W1); repeat constructor|].
    destruct (words l1 "infinity") eqn:W2; [apply (words_solid _ _ W2); repeat constructor|].
    destruct (words l1 "nan") eqn:W3; [apply (words_solid _ _ W3); repeat constructor|].
    cbn [orb] in H. apply unsigned_solid in H. exact H. }
  destruct g as [g|]; [|subst l; exact L1]. destruct E1 as (-> & G). constructor; [destruct (sign_char_cases g G) as [->| ->]; reflexivity|exact L1].
Qed.

Lemma drop_while_split f l : exists a, l = a ++ drop_while f l /\ Forall (fun c => f c = true) a.
Proof.
  induction l as [|c l (a & E & F)]; [exists []; split; [reflexivity|constructor]|]. cbn. destruct (f c) eqn:C.
  - exists (c :: a). split; [cbn; rewrite <- E; reflexivity|constructor; assumption].
  - exists []. split; [reflexivity|constructor].
Qed.
Lemma strip_split l : exists a b, l = a ++ strip l ++ b /\ Forall (fun c => is_space c = true) a /\ Forall (fun c => is_space c = true) b.
Proof.
  unfold strip. destruct (drop_while_split is_space l) as (a & E & A). destruct (drop_while_split is_space (rev (drop_while is_space l))) as (b & E' & B).
  exists a, (rev b). split; [|split; [exact A|apply Forall_rev, B]].
  rewrite E at 1. f_equal. rewrite <- (rev_involutive (drop_while is_space l)) at 1. rewrite E' at 1. apply rev_app_distr.
Qed.
Lemma blanks_only a : Forall (fun c => is_space c = true) a -> filter (fun c => negb (blank c)) a = [] -> a = spaces (length a).
Proof.
  induction 1 as [|c a C _ IH]; intros E; [reflexivity|]. cbn in E. destruct (blank c) eqn:B; [|discriminate]. cbn in E.
  apply (char_of 32) in B. subst c. exact (f_equal (cons " "%char) (IH E)).
Qed.
Lemma filter_one a : Forall (fun c => is_space c = true) a -> filter (fun c => negb (blank c)) a = ["010"%char] -> exists j k, a = spaces j ++ "010"%char :: spaces k.
Proof.
  induction 1 as [|c a C A IH]; intros E; [discriminate|]. cbn in E. destruct (blank c) eqn:B; cbn in E.
  - destruct (IH E) as (j & k & ->). exists (S j), k. apply (char_of 32) in B. subst c. reflexivity.
  - injection E as -> E. exists 0%nat, (length a). cbn. f_equal. apply blanks_only; assumption.
Qed.

Lemma first_split (u v t w : list ascii) : u ++ v = t ++ w -> Forall (fun c => is_space c = true) u -> Forall solid t -> t <> [] -> u = [].
Proof.
  intros E U T N. destruct u as [|x u]; [reflexivity|]. destruct t as [|y t]; [contradiction|]. injection E as -> _. inversion U; subst. inversion T; subst.
  unfold solid in *. congruence.
Qed.
Lemma same_split (t w t' w' : list ascii) : t ++ w = t' ++ w' -> Forall solid t -> Forall solid t' -> Forall (fun c => is_space c = true) w -> Forall (fun c => is_space c = true) w' ->
  t = t' /\ w = w'.
Proof.
  revert t'. induction t as [|x t IH]; intros [|y t'] E T T' W W'; cbn in E.
  - auto.
  - subst w. inversion T'; inversion W; subst; unfold solid in *; congruence.
  - subst w'. inversion T; inversion W'; subst; unfold solid in *; congruence.
  - injection E as -> E. inversion T; inversion T'; subst. destruct (IH t' E) as (-> & ->); auto.
Qed.

(** A string is converted exactly if it is written in the simple form. *)
Lemma flagged_written s f : convert (VStr s) = Ok (f, true) -> exists c, valid c /\ simple c /\ written s c.
Proof.
  unfold convert. cbn [py_float flagged]. intros H. destruct (float_of_string s) as [f'|] eqn:E; [|discriminate]. injection H as _ FL.
  apply float_solid in E. destruct (strip_split (str_list s)) as (a & b & SP & A & B).
  apply e_notation_parts in FL. destruct FL as (c & w & V & S & EQ & W).
  rewrite SP, !filter_app in EQ. set (t := strip (str_list s)) in *. clearbody t.
  assert (FT : filter (fun c => negb (blank c)) t = t).
  { clear - E. induction E as [|x t X _ IH]; [reflexivity|]. cbn [filter]. destruct (blank x) eqn:BX; [apply (char_of 32) in BX; subst x; discriminate|]. cbn [negb]. rewrite IH. reflexivity. }
  rewrite FT in EQ.
  assert (FA : forall l, Forall (fun c => is_space c = true) l -> Forall (fun c => is_space c = true) (filter (fun c => negb (blank c)) l)).
  { intros l L. apply Forall_forall. intros x X. apply filter_In in X. destruct X as (X & _). rewrite Forall_forall in L. apply L, X. }
  assert (ST : Forall solid (text c)) by (eapply Forall_impl; [|apply plain_text, V]; intros x (X & _); exact X).
  pose proof (first_split _ _ _ _ EQ (FA a A) ST (text_nonempty c)) as A0. rewrite A0 in EQ. cbn [app] in EQ.
  assert (WS : Forall (fun c => is_space c = true) w) by (destruct W as [->| ->]; repeat constructor).
  destruct (same_split _ _ _ _ EQ E ST (FA b B) WS) as (-> & BW).
  exists c. split; [exact V|]. split; [exact S|]. exists (length a), b. split.
  - destruct W as [-> | ->].
    + left. exists (length b). apply blanks_only; assumption.
    + right. apply filter_one; assumption.
  - fold (str_list s). rewrite SP. f_equal. apply blanks_only; assumption.
Qed.
Lemma written_flag s c : valid c -> written s c -> (flagged (VStr s) = true <-> simple c).
Proof.
  intros V (i & w & W & S). cbn [flagged]. unfold str_list. rewrite S, !filter_app, filter_spaces. cbn [app].
  rewrite (filter_plain _ (plain_text c V)). apply e_notation_text; [exact V|apply filter_trailing, W].
Qed.
Lemma written_float s c : valid c -> written s c -> exists f, py_float (VStr s) = Ok f /\ nearest (fst (sci_value c)) (snd (sci_value c)) f.
Proof. intros V (i & w & W & S). cbn [py_float]. eapply float_of_text; [exact V|apply spaces_space|apply trailing_space, W|exact S]. Qed.
Lemma written_convert s c : valid c -> written s c -> exists f b, convert (VStr s) = Ok (f, b) /\ nearest (fst (sci_value c)) (snd (sci_value c)) f /\ (b = true <-> simple c).
Proof.
  intros V W. destruct (written_float s c V W) as (f & E & N). exists f, (flagged (VStr s)). unfold convert. rewrite E. split; [reflexivity|]. split; [exact N|].
  apply (written_flag s c V W).
Qed.
