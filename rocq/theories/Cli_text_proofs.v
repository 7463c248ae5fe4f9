(** Reading of options of the searcher. *)
From Coq Require Import Ascii String.
From Verif Require Import Py Py_proofs Set_model Set_flat_proofs Yam_model Yam_spec Yam_round_proofs Yam_text_proofs Yam_proofs Cli_model Cli_spec.
Local Open Scope string_scope.
Local Open Scope list_scope.
Local Notation length := List.length.
Local Notation plain := Yam_text_proofs.plain.

(** ** Words *)
Lemma lower_letter c d : lower_char c = d -> same_letter c d.
Proof.
  unfold lower_char. destruct ((65 <=? code c) && (code c <=? 90))%nat eqn:E; [|intros <-; left; reflexivity].
  intros <-. apply andb_true_iff in E. destruct E as (A & B). apply Nat.leb_le in A, B. right. exists (code c - 65)%nat. split; [lia|]. split.
  - replace (65 + (code c - 65))%nat with (code c) by lia. symmetry. apply ascii_nat_embedding.
  - f_equal. lia.
Qed.
Lemma lower_spells s t : lower s = t -> spells s t.
Proof.
  revert t. induction s as [|c s IH]; intros t <-; cbn; [exact Logic.I|]. split; [apply lower_letter; reflexivity|]. apply IH. reflexivity.
Qed.
Lemma spells_iff s t : lower t = t -> (String.eqb (lower s) t = true <-> spells s t).
Proof. intros L. rewrite String.eqb_eq. split; [apply lower_spells|]. intros H. apply spells_lower; assumption. Qed.
Lemma spells_in s t c : spells s t -> In c (str_list s) -> In (lower_char c) (str_list (lower t)).
Proof.
  revert t. induction s as [|a s IH]; intros [|b t] S I; cbn in S; try contradiction. destruct S as (A & S).
  destruct I as [->|I].
  - left. destruct A as [->|(n & N & -> & ->)]; [reflexivity|].
    assert (F : Forall (fun n => lower_char (ascii_of_nat (97 + n)) = lower_char (ascii_of_nat (65 + n))) (seq 0 26)) by (repeat constructor).
    rewrite Forall_forall in F. apply F, in_seq. lia.
  - right. exact (IH t S I).
Qed.
Lemma digit_no_word s t : digit_in s -> (t = "true" \/ t = "false") -> String.eqb (lower s) t = false.
Proof.
  intros (d & L & I) T. destruct (String.eqb (lower s) t) eqn:E; [|reflexivity]. exfalso. apply String.eqb_eq in E. apply lower_spells in E.
  apply (spells_in _ _ _ E) in I. do 10 (destruct d as [|d]; [destruct T as [->| ->]; cbn in I; repeat (destruct I as [I|I]; [discriminate I|]); exact I|]). lia.
Qed.

(** ** Integers *)
Lemma first_digit ds : digits ds -> match map digit_char ds with c :: _ => is_digit c = true \/ dot c = true | [] => False end.
Proof. intros (N & D). destruct D as [|d ds L D]; [contradiction|]. left. apply digit_char_ok, L. Qed.
Lemma all_digits ds : Forall (fun d => d < 10)%nat ds -> forallb is_digit (map digit_char ds) = true.
Proof. induction 1 as [|d ds L _ IH]; [reflexivity|]. cbn [map forallb]. rewrite (proj1 (digit_char_ok d L)). exact IH. Qed.
Lemma strip_plain t : Forall plain t -> strip t = t.
Proof. intros P. rewrite <- (app_nil_r t) at 1. apply (strip_app [] t []); try constructor. exact P. Qed.
Lemma int_read s z : int_text s z -> int_of_string s = Ok z.
Proof.
  intros (g & ds & D & S & ->). unfold int_of_string, str_list. rewrite S.
  rewrite strip_plain by (apply Forall_app; split; [apply plain_sign|apply plain_digits, D]). fold sign_char.
  rewrite (sign_opt sign_char _ _ sign_char_cases (first_digit ds D)) by (destruct g; reflexivity || exact Logic.I).
  rewrite no_underscores_plain by (try exact Logic.I; apply plain_digits, D). destruct D as (N & D). pose proof (all_digits ds D) as A.
  destruct ds as [|d ds]; [contradiction|]. cbn [map] in *. rewrite A. change (digit_char d :: map digit_char ds) with (map digit_char (d :: ds)).
  rewrite number_digits by exact D. destruct g; reflexivity.
Qed.
Lemma digits_not_in (f : ascii -> bool) g ds : Forall (fun d => d < 10)%nat ds -> f "-"%char = false -> f "+"%char = false ->
  (forall c, is_digit c = true -> f c = false) -> existsb f (sign_text g ++ map digit_char ds) = false.
Proof.
  intros D M P F. rewrite existsb_app. apply orb_false_iff. split; [destruct g; cbn; rewrite ?M, ?P; reflexivity|].
  induction D as [|d ds L _ IH]; [reflexivity|]. cbn. rewrite IH, F; [reflexivity|]. apply digit_char_ok, L.
Qed.
Lemma int_digit s z : int_text s z -> digit_in s.
Proof.
  intros (g & ds & (N & D) & S & _). destruct D as [|d ds L D]; [contradiction|]. exists d. split; [exact L|]. rewrite S. apply in_or_app. right. left. reflexivity.
Qed.

(** ** Numbers with a point *)
Lemma unsigned_point neg i f : digits (i ++ f) ->
  unsigned neg (map digit_char i ++ "."%char :: map digit_char f) = Ok (dec_float neg (digits_value (i ++ f)) (- Z.of_nat (length f))).
Proof.
  intros (N & D). pose proof D as D'. apply Forall_app in D'. destruct D' as (I & F). unfold unsigned. rewrite span_app by (try exact I; reflexivity).
  cbn [opt_char]. change (dot "."%char) with true. cbn iota. pose proof (span_app f [] F Logic.I) as SF. rewrite app_nil_r in SF. rewrite SF.
  assert (Z0 : Nat.eqb (length (map digit_char i) + length (map digit_char f)) 0 = false).
  { rewrite !map_length. apply Nat.eqb_neq. intros H. apply N. destruct i; [|discriminate]. destruct f; [reflexivity|discriminate]. }
  rewrite Z0. cbn [opt_char]. rewrite <- map_app, number_digits by exact D. rewrite map_length. reflexivity.
Qed.
Lemma point_first i f : digits (i ++ f) -> match map digit_char i ++ "."%char :: map digit_char f with c :: _ => is_digit c = true \/ dot c = true | [] => False end.
Proof. intros (_ & D). apply Forall_app in D. destruct D as (I & _). destruct I as [|d i L I]; [right; reflexivity|left; apply digit_char_ok, L]. Qed.
Lemma point_read s n d : point_text s n d -> exists f, float_of_string s = Ok f /\ nearest n d f.
Proof.
  intros (g & i & f & D & S & -> & ->). unfold float_of_string, str_list. rewrite S. pose proof D as (N & DD). apply Forall_app in DD. destruct DD as (I & F).
  assert (P : Forall plain (sign_text g ++ map digit_char i ++ "."%char :: map digit_char f)).
  { apply Forall_app. split; [apply plain_sign|]. apply Forall_app. split; [apply plain_digits, I|]. constructor; [split; reflexivity|apply plain_digits, F]. }
  rewrite strip_plain by exact P. rewrite no_underscores_plain by (try exact Logic.I; exact P). fold sign_char.
  rewrite (sign_opt sign_char _ _ sign_char_cases (point_first i f D)) by (destruct g; reflexivity || exact Logic.I).
  assert (NG : match match g with NoSign => None | Minus => Some "-"%char | Plus => Some "+"%char end with Some c0 => minus c0 | None => false end = neg_of g) by (destruct g; reflexivity).
  rewrite NG. assert (W : forall a w, (a = "i"%char \/ a = "n"%char) -> words (map digit_char i ++ "."%char :: map digit_char f) (String a w) = false).
  { intros a w A. destruct (words _ _) eqn:W; [|reflexivity]. exfalso. pose proof (point_first i f D) as B.
    destruct (map digit_char i ++ "."%char :: map digit_char f) as [|x l]; [contradiction|]. apply words_first in W. destruct B as [B|B].
    - destruct (is_digit_char x B) as (y & L & ->). do 10 (destruct y as [|y]; [cbn in W; subst a; destruct A; discriminate|]). lia.
    - apply (char_of 46) in B. subst x. cbn in W. subst a. destruct A; discriminate. }
  rewrite !W by auto. cbn [orb]. rewrite unsigned_point by exact D. eexists. split; [reflexivity|].
  pose proof (dec_float_nearest (neg_of g) (digits_value (i ++ f)) (- Z.of_nat (length f)) (digits_nonneg _)) as H.
  rewrite Z.max_l in H by lia. rewrite Z.opp_involutive, Z.max_r in H by lia. rewrite Z.pow_0_r, Z.mul_1_r in H. destruct g; exact H.
Qed.
Lemma point_digit s n d : point_text s n d -> digit_in s.
Proof.
  intros (g & i & f & (N & D) & S & _). rewrite Forall_app in D. destruct D as (I & F). unfold digit_in. setoid_rewrite S.
  destruct I as [|x i L I]; [destruct F as [|x f L F]; [contradiction|]|]; exists x; (split; [exact L|]); apply in_or_app; right; cbn; auto.
Qed.
Lemma exp_digit s n d : exp_text s n d -> digit_in s.
Proof.
  intros (c & V & S & _). pose proof V as (_ & _ & X & _ & NX). destruct (sc_exp c) as [|x l] eqn:E; [contradiction|]. exists x. inversion X; subst.
  split; [assumption|]. rewrite S. unfold text. rewrite E. apply in_or_app. right. apply in_or_app. right. apply in_or_app. right. right. apply in_or_app. right. left. reflexivity.
Qed.

(** ** Texts without digits *)
Lemma no_underscores_in p l m c : no_underscores p l = Some m -> In c m -> In c l.
Proof.
  revert p m. induction l as [|a l IH]; intros p m H I; cbn in H.
  - destruct p as [p|]; [destruct (underscore p); [discriminate|]|]; injection H as <-; destruct I.
  - destruct (underscore a).
    + destruct p as [p|]; [|discriminate]. destruct (is_digit p); [|discriminate]. right. eapply IH; eassumption.
    + assert (X : option_map (cons a) (no_underscores (Some a) l) = Some m) by (destruct p as [p|]; [destruct (underscore p && negb (is_digit a)); [discriminate|exact H]|exact H]).
      destruct (no_underscores (Some a) l) as [m'|] eqn:E; [|discriminate]. injection X as <-. destruct I as [->|I]; [left; reflexivity|right; eapply IH; eassumption].
Qed.
Lemma no_underscores_all (P : ascii -> Prop) p l m : P "_"%char -> no_underscores p l = Some m -> Forall P m -> Forall P l.
Proof.
  intros PU. revert p m. induction l as [|c l IH]; intros p m H F; [constructor|]. cbn in H.
  destruct (underscore c) eqn:U.
  - apply (char_of 95) in U. subst c. constructor; [exact PU|]. destruct p as [p|]; [|discriminate]. destruct (is_digit p); [|discriminate]. eapply IH; eassumption.
  - assert (X : option_map (cons c) (no_underscores (Some c) l) = Some m) by (destruct p as [p|]; [destruct (underscore p && negb (is_digit c)); [discriminate|exact H]|exact H]).
    destruct (no_underscores (Some c) l) as [m'|] eqn:E; [|discriminate]. injection X as <-. inversion F; subst. constructor; [assumption|]. eapply IH; eassumption.
Qed.
Lemma strip_in l c : In c (strip l) -> In c l.
Proof. intros I. destruct (strip_split l) as (a & b & E & _). rewrite E. apply in_or_app. right. apply in_or_app. left. exact I. Qed.
Lemma digit_of s c : is_digit c = true -> In c (str_list s) -> digit_in s.
Proof. intros D I. destruct (is_digit_char c D) as (d & L & ->). exists d. split; assumption. Qed.
Lemma unsigned_digit neg l f : unsigned neg l = Ok f -> exists c, is_digit c = true /\ In c l.
Proof.
  unfold unsigned. destruct (span_digits l) as (i & l1) eqn:E1. destruct (opt_char dot l1) as (p & l2) eqn:E2.
  destruct (match p with Some _ => span_digits l2 | None => ([], l2) end) as (fr & l3) eqn:E3.
  destruct (Nat.eqb _ 0) eqn:Z0; [discriminate|]. intros _. apply span_parts in E1. destruct E1 as (-> & DI). apply opt_parts in E2.
  destruct DI as [|c i C DI]; [|exists c; split; [exact C|left; reflexivity]].
  destruct p as [p|]; [|injection E3 as <- _; discriminate Z0]. destruct E2 as (-> & _). apply span_parts in E3. destruct E3 as (-> & DF).
  destruct DF as [|c fr C DF]; [discriminate Z0|]. exists c. split; [exact C|]. right. left. reflexivity.
Qed.
Definition quiet (c : ascii) : Prop := dot c = false /\ is_e c = false.
Lemma lower_quiet c : quiet (lower_char c) -> quiet c.
Proof. unfold quiet. destruct c as [[] [] [] [] [] [] [] []]; vm_compute; auto. Qed.
Lemma words_quiet l s : words l s = true -> Forall quiet (list_ascii_of_string s) -> Forall quiet l.
Proof.
  unfold words. intros W. apply String.eqb_eq in W. rewrite <- W, list_ascii_of_string_of_list_ascii. intros F. apply (proj1 (Forall_map lower_char quiet l)) in F.
  eapply Forall_impl; [|exact F]. intros c. apply lower_quiet.
Qed.
Lemma space_quiet c : is_space c = true -> quiet c.
Proof. unfold quiet. destruct c as [[] [] [] [] [] [] [] []]; vm_compute; intros H; try discriminate H; auto. Qed.
Lemma float_digit s f : float_of_string s = Ok f -> digit_in s \/ Forall quiet (str_list s).
Proof.
  unfold float_of_string. destruct (no_underscores None (strip (str_list s))) as [l|] eqn:E; [|discriminate]. intros H.
  fold sign_char in H. destruct (opt_char sign_char l) as (g & l1) eqn:E1. apply opt_parts in E1.
  assert (L1 : digit_in s \/ Forall quiet l1).
  { destruct (words l1 "inf") eqn:W1; [right; apply (words_quiet _ _ W1); repeat constructor|].
    destruct (words l1 "infinity") eqn:W2; [right; apply (words_quiet _ _ W2); repeat constructor|].
    destruct (words l1 "nan") eqn:W3; [right; apply (words_quiet _ _ W3); repeat constructor|].
    cbn [orb] in H. apply unsigned_digit in H. destruct H as (c & C & I). left. apply (digit_of s c C). apply strip_in. apply (no_underscores_in _ _ _ _ E).
    destruct g as [g|]; [destruct E1 as (-> & _); right; exact I|subst l; exact I]. }
  destruct L1 as [D|Q]; [left; exact D|right].
  assert (QL : Forall quiet l) by (destruct g as [g|]; [destruct E1 as (-> & G); constructor; [destruct (sign_char_cases g G) as [->| ->]; split; reflexivity|exact Q]|subst l; exact Q]).
  apply (no_underscores_all quiet _ _ _ ltac:(split; reflexivity) E) in QL. destruct (strip_split (str_list s)) as (a & b & ES & A & B). rewrite ES.
  apply Forall_app. split; [|apply Forall_app; split; [exact QL|]]; (eapply Forall_impl; [exact space_quiet|assumption]).
Qed.
Lemma int_digit_in s z : int_of_string s = Ok z -> digit_in s.
Proof.
  unfold int_of_string. fold sign_char. destruct (opt_char sign_char (strip (str_list s))) as (g & l) eqn:E. apply opt_parts in E.
  destruct (no_underscores None l) as [[|c d]|] eqn:U; try discriminate. destruct (forallb is_digit (c :: d)) eqn:F; [|discriminate]. intros _.
  cbn in F. apply andb_true_iff in F. destruct F as (F & _). apply (digit_of s c F), strip_in.
  assert (I : In c l) by (apply (no_underscores_in _ _ _ _ U); left; reflexivity). destruct g as [g|]; [destruct E as (-> & _); right; exact I|rewrite E; exact I].
Qed.
Lemma existsb_quiet (f : ascii -> bool) l : (forall c, quiet c -> f c = false) -> Forall quiet l -> existsb f l = false.
Proof. intros F. induction 1 as [|c l Q _ IH]; [reflexivity|]. cbn. rewrite F by exact Q. exact IH. Qed.

Lemma convert_reads s v : reads s v -> convert_value s = v.
Proof.
  intros R. unfold convert_value. destruct R as [s S|s S|s z Z0|s n d f P N|s n d f P N|s NT NF ND].
  - rewrite (proj2 (spells_iff s "true" eq_refl) S). reflexivity.
  - rewrite (proj2 (spells_iff s "false" eq_refl) S). destruct (String.eqb (lower s) "true") eqn:E; [|reflexivity]. apply String.eqb_eq in E.
    apply (spells_lower s "false") in S; [|reflexivity]. congruence.
  - rewrite !digit_no_word by (eauto using int_digit). cbn [orb]. pose proof Z0 as (g & ds & (_ & D) & S & _). unfold has_char, str_list. rewrite S.
    rewrite !digits_not_in by (try exact D; try reflexivity; intros c C; apply digit_not, C). cbn [orb]. rewrite (int_read s z Z0). reflexivity.
  - rewrite !digit_no_word by (eauto using point_digit). cbn [orb]. destruct (point_read s n d P) as (f' & E & N'). rewrite E.
    assert (H : has_char dot s = true).
    { destruct P as (g & i & fr & _ & S & _). unfold has_char, str_list. rewrite S. apply existsb_exists. exists "."%char. split; [|reflexivity].
      apply in_or_app. right. apply in_or_app. right. left. reflexivity. }
    rewrite H. cbn [orb]. f_equal. apply (nearest_unique n d); try assumption. destruct P as (? & ? & fr & _ & _ & _ & ->). apply Z.pow_pos_nonneg; lia.
  - rewrite !digit_no_word by (eauto using exp_digit). cbn [orb]. destruct P as (c & V & S & EQ).
    destruct (float_of_text s c [] [] V) as (f' & E & N'); [constructor|constructor|rewrite app_nil_r; exact S|]. rewrite E.
    assert (H : has_char is_e s = true).
    { unfold has_char, str_list. rewrite S. apply existsb_exists. exists (e_char (sc_big c)). split; [|destruct (sc_big c); reflexivity].
      unfold text. apply in_or_app. right. apply in_or_app. right. apply in_or_app. right. left. reflexivity. }
    rewrite H, orb_true_r. f_equal. rewrite <- EQ in N'. apply (nearest_unique n d); try assumption.
    unfold sci_value in EQ. injection EQ as _ ->. apply Z.pow_pos_nonneg; lia.
  - destruct (String.eqb (lower s) "true") eqn:E1; [exfalso; apply NT; apply spells_iff in E1; [exact E1|reflexivity]|].
    destruct (String.eqb (lower s) "false") eqn:E2; [exfalso; apply NF; apply spells_iff in E2; [exact E2|reflexivity]|]. cbn [orb].
    destruct (has_char dot s || has_char is_e s) eqn:H.
    + destruct (float_of_string s) as [f|] eqn:F; [|reflexivity]. exfalso. destruct (float_digit s f F) as [D|Q]; [exact (ND D)|].
      unfold has_char in H. rewrite !(existsb_quiet _ _) in H by (try exact Q; intros c (A & B); assumption). discriminate.
    + destruct (int_of_string s) as [z|] eqn:I; [|reflexivity]. exfalso. exact (ND (int_digit_in s z I)).
Qed.

(** ** key=value *)
Lemma split_eq_ok k v : no_eq k -> split_eq (k ++ String "=" v)%string = Some (k, v).
Proof.
  induction k as [|c k IH]; intros N; [reflexivity|]. cbn. destruct (Ascii.eqb_spec c "=").
  - exfalso. apply N. left. exact e.
  - rewrite IH; [reflexivity|]. intros I. apply N. right. exact I.
Qed.
Lemma split_eq_some i k v : split_eq i = Some (k, v) -> pair_text i k v.
Proof.
  revert k. induction i as [|c i IH]; intros k H; [discriminate|]. cbn in H. destruct (Ascii.eqb_spec c "=") as [->|NE].
  - injection H as <- <-. split; [intros []|reflexivity].
  - destruct (split_eq i) as [(k', v')|]; [|discriminate]. injection H as <- <-. destruct (IH _ eq_refl) as (N & E). split; [|cbn; rewrite E; reflexivity].
    intros [X|X]; [apply NE; exact X|exact (N X)].
Qed.
Lemma pair_split i k v : pair_text i k v <-> split_eq i = Some (k, v).
Proof. split; [intros (N & ->); apply split_eq_ok, N|apply split_eq_some]. Qed.
Lemma kv_ok items acc : (forall i, In i items -> exists k v, pair_text i k v) ->
  exists d, kv_loop items acc = Ok d /\ (NoDup (map fst acc) -> NoDup (map fst d)) /\
    forall k x, lookup k d = Some x <-> (exists v, last_for items k v /\ x = convert_value v) \/ (lookup k acc = Some x /\ forall i v, In i items -> ~ pair_text i k v).
Proof.
  revert acc. induction items as [|i items IH]; intros acc H.
  - exists acc. split; [reflexivity|]. split; [auto|]. intros k x. split; [intros L; right; split; [exact L|intros ? ? []]|].
    intros [(v & (l1 & i & l2 & E & _) & _)|(L & _)]; [destruct l1; discriminate|exact L].
  - destruct (H i (or_introl eq_refl)) as (k0 & v0 & P). cbn [kv_loop]. rewrite (proj1 (pair_split i k0 v0) P).
    destruct (IH (set_key k0 (convert_value v0) acc)) as (d & E & ND & L); [intros j J; apply H; right; exact J|].
    exists d. split; [exact E|]. split; [intros N; apply ND; apply Set_flat_proofs.set_key_nodup; exact N|]. intros k x. rewrite L, lookup_set_key. clear E ND L IH.
    split.
    + intros [(v & (l1 & j & l2 & -> & PJ & NL) & ->)|(LK & NI)].
      * left. exists v. split; [|reflexivity]. exists (i :: l1), j, l2. split; [reflexivity|]. split; assumption.
      * destruct (String.eqb_spec k k0) as [->|NE].
        -- injection LK as <-. left. exists v0. split; [|reflexivity]. exists [], i, items. split; [reflexivity|]. split; [exact P|]. intros j u J. apply NI, J.
        -- right. split; [exact LK|]. intros j v [<-|J]; [|apply NI, J]. intros Q. apply pair_split in P, Q. congruence.
    + intros [(v & (l1 & j & l2 & EQ & PJ & NL) & ->)|(LK & NI)].
      * destruct l1 as [|i' l1]; injection EQ as <- ->.
        -- right. apply pair_split in P, PJ. rewrite P in PJ. injection PJ as -> ->. rewrite String.eqb_refl. split; [reflexivity|exact NL].
        -- left. exists v. split; [|reflexivity]. exists l1, j, l2. auto.
      * right. destruct (String.eqb_spec k k0) as [->|NE]; [exfalso; exact (NI i v0 (or_introl eq_refl) P)|]. split; [exact LK|]. intros j v J. apply NI. right. exact J.
Qed.
Lemma kv_parsed items : (forall i, In i items -> exists k v, pair_text i k v) ->
  exists d, parse_kv_pairs items = Ok d /\ NoDup (map fst d) /\ forall k x, lookup k d = Some x <-> exists v, last_for items k v /\ x = convert_value v.
Proof.
  intros H. destruct (kv_ok items [] H) as (d & E & ND & L). exists d. split; [exact E|]. split; [apply ND; constructor|].
  intros k x. rewrite L. split; [intros [X|(X & _)]; [exact X|discriminate]|auto].
Qed.
Lemma kv_err items e : parse_kv_pairs items = Err e <-> e = ValueError /\ exists i, In i items /\ no_eq i.
Proof.
  unfold parse_kv_pairs. generalize (@nil (string * pyval)) as acc. induction items as [|i items IH]; intros acc; cbn.
  - split; [discriminate|]. intros (_ & i & [] & _).
  - destruct (split_eq i) as [(k, v)|] eqn:S.
    + rewrite IH. apply split_eq_some in S. split; [intros (-> & j & J & N); split; [reflexivity|exists j; split; [right; exact J|exact N]]|].
      intros (-> & j & [<-|J] & N); [|split; [reflexivity|exists j; auto]]. exfalso. destruct S as (_ & ->). apply N.
      clear. induction k as [|c k IH]; cbn; auto.
    + split; [intros [= <-]; split; [reflexivity|]; exists i; split; [left; reflexivity|]|intros (-> & _); reflexivity].
      clear IH. induction i as [|c i IH]; [intros []|]. cbn in S. destruct (Ascii.eqb_spec c "="); [discriminate|]. destruct (split_eq i) as [[]|] eqn:E; [discriminate|].
      intros [X|X]; [apply n; exact X|exact (IH eq_refl X)].
Qed.
