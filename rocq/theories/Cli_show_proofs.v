(** What info-config, status and results show. *)
From Coq Require Import Ascii String Sorting Permutation.
From Verif Require Import Py Py_proofs Trial_model Limit_spec Status_model Status_spec Status_proofs Set_model
  Yam_model Yam_spec Yam_text_proofs Cli_model Cli_spec Cli_text_proofs.
Local Open Scope string_scope.
Local Open Scope list_scope.
Local Notation length := List.length.

(** ** Sorting *)
Lemma insert_perm {A} le (x : A) l : Permutation (insert le x l) (x :: l).
Proof. induction l as [|y l IH]; [reflexivity|]. cbn. destruct (le x y); [reflexivity|]. rewrite IH. apply perm_swap. Qed.
Lemma sorted_perm {A} le (l : list A) : Permutation (sorted_by le l) l.
Proof. unfold sorted_by. induction l as [|x l IH]; [reflexivity|]. cbn. rewrite insert_perm, IH. reflexivity. Qed.
Section Sort.
  Context {A : Type} (D : A -> Prop) (le : A -> A -> bool).
  Hypothesis total : forall x y, D x -> D y -> le x y = false -> le y x = true.
  Hypothesis trans : forall x y z, D x -> D y -> D z -> le x y = true -> le y z = true -> le x z = true.
  Lemma insert_sorted x l : D x -> Forall D l -> StronglySorted (fun a b => le a b = true) l -> StronglySorted (fun a b => le a b = true) (insert le x l).
  Proof.
    intros DX DL S. induction S as [|y l S IH F]; [cbn; constructor; constructor|]. inversion DL; subst. cbn. destruct (le x y) eqn:E.
    - constructor; [constructor; assumption|]. constructor; [exact E|]. rewrite Forall_forall in *. intros z I. apply (trans x y z); auto.
    - constructor; [apply IH; assumption|]. eapply Permutation_Forall; [symmetry; apply insert_perm|]. constructor; [apply total; assumption|exact F].
  Qed.
  Lemma sorted_sorted l : Forall D l -> StronglySorted (fun a b => le a b = true) (sorted_by le l).
  Proof.
    induction 1 as [|x l DX DL IH]; [constructor|]. cbn. apply insert_sorted; [exact DX| |exact IH]. eapply Permutation_Forall; [symmetry; apply sorted_perm|exact DL].
  Qed.
End Sort.
Lemma strict_unique {A} (R : A -> A -> Prop) l l' : (forall x, ~ R x x) -> (forall x y, R x y -> R y x -> False) ->
  StronglySorted R l -> StronglySorted R l' -> (forall x, In x l <-> In x l') -> l = l'.
Proof.
  intros IR AS S. revert l'. induction S as [|x l S IH F]; intros l' S' E.
  - destruct l' as [|y l']; [reflexivity|]. exfalso. apply (proj2 (E y)). left. reflexivity.
  - destruct S' as [|y l' S' F']; [exfalso; apply (proj1 (E x)); left; reflexivity|]. rewrite Forall_forall in F, F'.
    assert (x = y) as <-.
    { destruct (proj1 (E x) (or_introl eq_refl)) as [->|I]; [reflexivity|]. destruct (proj2 (E y) (or_introl eq_refl)) as [->|J]; [reflexivity|].
      exfalso. exact (AS x y (F y J) (F' x I)). }
    f_equal. apply IH; [exact S'|]. intros z. split; intros I.
    + destruct (proj1 (E z) (or_intror I)) as [->|J]; [exfalso; exact (IR z (F z I))|exact J].
    + destruct (proj2 (E z) (or_intror I)) as [->|J]; [exfalso; exact (IR z (F' z I))|exact J].
Qed.
Lemma sorted_weaken {A} (R R' : A -> A -> Prop) l : (forall x y, In x l -> In y l -> R x y -> R' x y) -> StronglySorted R l -> StronglySorted R' l.
Proof.
  intros W S. induction S as [|x l S IH F]; [constructor|]. constructor.
  - apply IH. intros y z I J. apply W; right; assumption.
  - rewrite Forall_forall in *. intros y I. apply W; [left; reflexivity|right; exact I|apply F, I].
Qed.
Lemma sorted_map {A B} (f : A -> B) (R : B -> B -> Prop) l : StronglySorted (fun a b => R (f a) (f b)) l -> StronglySorted R (map f l).
Proof. induction 1 as [|x l S IH F]; [constructor|]. cbn. constructor; [exact IH|]. apply Forall_map. exact F. Qed.
Lemma sorted_filter {A} (R : A -> A -> Prop) p l : StronglySorted R l -> StronglySorted R (filter p l).
Proof.
  induction 1 as [|x l S IH F]; [constructor|]. cbn. destruct (p x); [|exact IH]. constructor; [exact IH|]. rewrite Forall_forall in *. intros y I. apply filter_In in I. apply F, I.
Qed.
Lemma sorted_app {A} (R : A -> A -> Prop) l r : StronglySorted R (l ++ r) -> StronglySorted R l /\ StronglySorted R r /\ forall x y, In x l -> In y r -> R x y.
Proof.
  induction l as [|x l IH]; cbn; intros S; [split; [constructor|split; [exact S|intros ? ? []]]|]. inversion S; subst. destruct (IH H1) as (A1 & A2 & A3).
  rewrite Forall_app in H2. destruct H2 as (F1 & F2). split; [constructor; assumption|]. split; [exact A2|]. intros a b [<-|I] J; [|apply A3; assumption]. rewrite Forall_forall in F2. apply F2, J.
Qed.
Lemma sorted_join {A} (R : A -> A -> Prop) l r : StronglySorted R l -> StronglySorted R r -> (forall x y, In x l -> In y r -> R x y) -> StronglySorted R (l ++ r).
Proof.
  intros S T H. induction S as [|x l S IH F]; [exact T|]. cbn. constructor; [apply IH; intros; apply H; [right|]; assumption|].
  apply Forall_app. split; [exact F|]. apply Forall_forall. intros y I. apply H; [left; reflexivity|exact I].
Qed.
Lemma sorted_rev {A} (R : A -> A -> Prop) l : StronglySorted R l -> StronglySorted (fun a b => R b a) (rev l).
Proof.
  induction 1 as [|x l S IH F]; [constructor|]. cbn. apply sorted_join; [exact IH|constructor; constructor|]. intros a b I [<-|[]]. rewrite Forall_forall in F. apply F, in_rev, I.
Qed.

(** ** Floats *)
Lemma ltb_iff a b : fl_ltb a b = true <-> fl_lt a b.
Proof.
  unfold fl_lt. split.
  - intros H. split; [destruct a, b; cbn in H; try discriminate; constructor; try discriminate; apply Z.ltb_lt in H; lia|].
    intros L. destruct L as [a b L|x N|x N]; destruct a || destruct x; cbn in H; try discriminate; try (apply Z.ltb_lt in H; lia).
    all: try (destruct x; discriminate). 
  - intros (L & N). destruct L as [a b L|x X|x X].
    + cbn. apply Z.ltb_lt. destruct (Z.eq_dec a b) as [->|]; [exfalso; apply N; constructor; lia|lia].
    + destruct x; try reflexivity; [contradiction|]. exfalso. apply N. constructor. discriminate.
    + destruct x; try reflexivity; [contradiction|]. exfalso. apply N. constructor. discriminate.
Qed.
Lemma lt_trans a b c : fl_lt a b -> fl_lt b c -> fl_lt a c.
Proof. rewrite <- !ltb_iff. destruct a, b, c; cbn; try discriminate; try reflexivity. rewrite !Z.ltb_lt. lia. Qed.
Lemma not_lt_cases a b : fl_ltb a b = false -> b <> FNaN -> a = FNaN \/ fl_le b a.
Proof.
  intros H N. destruct a, b; cbn in H; try discriminate; try contradiction; auto; right; try (constructor; discriminate).
  constructor. apply Z.ltb_ge in H. exact H.
Qed.
Lemma lt_le a b c : fl_lt a b -> fl_le b c -> fl_lt a c.
Proof.
  intros L. rewrite <- ltb_iff in *. destruct 1 as [b c B|c N|b N]; destruct a; cbn in *; try discriminate; try reflexivity.
  - apply Z.ltb_lt in L. apply Z.ltb_lt. lia.
  - destruct b; try discriminate; reflexivity.
Qed.

(** ** Identifiers *)
Lemma id_int t n : id_number t n -> int_of_string (t_id t) = Ok n.
Proof. intros (ds & D & S & ->). apply int_read. exists NoSign, ds. split; [exact D|]. split; [exact S|reflexivity]. Qed.
Lemma id_unique t n m : id_number t n -> id_number t m -> n = m.
Proof. intros H K. apply id_int in H, K. congruence. Qed.
Lemma later_iff a b n m : id_number a n -> id_number b m -> (later a b <-> (m < n)%Z).
Proof.
  intros A B. split; [intros (x & y & X & Y & L)|intros L; exists n, m; auto]. rewrite (id_unique _ _ _ A X), (id_unique _ _ _ B Y). exact L.
Qed.
Lemma mapM_ok {A B} (f : A -> res B) l l' : Forall2 (fun x y => f x = Ok y) l l' -> mapM f l = Ok l'.
Proof. induction 1 as [|x y l l' E _ IH]; [reflexivity|]. cbn. rewrite E. cbn [bind]. rewrite IH. reflexivity. Qed.
Lemma mapM_forall {A B} (f : A -> res B) l : (forall x, In x l -> exists y, f x = Ok y) -> exists l', mapM f l = Ok l' /\ Forall2 (fun x y => f x = Ok y) l l'.
Proof.
  induction l as [|x l IH]; intros H; [exists []; split; [reflexivity|constructor]|]. destruct (H x (or_introl eq_refl)) as (y & E).
  destruct IH as (l' & E' & F); [intros; apply H; right; assumption|]. exists (y :: l'). split; [cbn; rewrite E; cbn [bind]; rewrite E'; reflexivity|constructor; assumption].
Qed.

Lemma by_id_ok ts : numbered ts -> exists all, by_id ts = Ok all /\ Permutation all ts /\ StronglySorted (fun a b => later b a) all.
Proof.
  intros (N & U & ND). unfold by_id.
  destruct (mapM_forall (fun t => bind (int_of_string (t_id t)) (fun k => Ok (k, t))) ts) as (L & E & F).
  { intros t I. destruct (N t I) as (n & H). exists (n, t). rewrite (id_int t n H). reflexivity. }
  rewrite E. cbn [bind]. eexists. split; [reflexivity|].
  assert (K : map snd L = ts).
  { clear E. induction F as [|t x ts L H F IH]; [reflexivity|]. cbn. destruct (int_of_string (t_id t)) as [k|]; [|discriminate]. injection H as <-. cbn. f_equal. apply IH.
    - intros u I. apply N. right. exact I.
    - intros u v n I J. apply U; right; assumption.
    - inversion ND; assumption. }
  assert (P : forall x, In x L -> In (snd x) ts /\ id_number (snd x) (fst x)).
  { intros x I. clear K U ND E. induction F as [|t y ts L H F IH]; [destruct I|]. destruct I as [->|I].
    - destruct (N t (or_introl eq_refl)) as (n & T). rewrite (id_int t n T) in H. injection H as <-. split; [left; reflexivity|exact T].
    - destruct IH as (I1 & I2); [intros u J; apply N; right; exact J|exact I|]. split; [right; exact I1|exact I2]. }
  assert (SP : Permutation (sorted_by (fun a b => Z.leb (fst a) (fst b)) L) L) by apply sorted_perm.
  split.
  - rewrite <- K. apply Permutation_map. exact SP.
  - apply sorted_map. assert (S : StronglySorted (fun a b => Z.leb (fst a) (fst b) = true) (sorted_by (fun a b => Z.leb (fst a) (fst b)) L)).
    { apply (sorted_sorted (fun _ => True)); [intros x y _ _ H; apply Z.leb_gt in H; apply Z.leb_le; lia| |apply Forall_forall; intros; exact Logic.I].
      intros x y z _ _ _ A B. apply Z.leb_le in A, B. apply Z.leb_le. lia. }
    assert (NDS : NoDup (map t_id (map snd (sorted_by (fun a b => Z.leb (fst a) (fst b)) L)))).
    { eapply Permutation_NoDup; [|exact ND]. apply Permutation_map. rewrite <- K. apply Permutation_map. symmetry. exact SP. }
    assert (PS : forall x, In x (sorted_by (fun a b => Z.leb (fst a) (fst b)) L) -> In (snd x) ts /\ id_number (snd x) (fst x)).
    { intros x I. apply P. eapply Permutation_in; [exact SP|exact I]. }
    revert S NDS PS. generalize (sorted_by (fun a b => Z.leb (fst a) (fst b)) L) as M. induction 1 as [|x M S IH FS]; intros NDS PS; [constructor|]. cbn in NDS. inversion NDS; subst.
    constructor; [apply IH; [assumption|intros y I; apply PS; right; exact I]|]. rewrite Forall_forall in *. intros y I.
    destruct (PS x (or_introl eq_refl)) as (IX & NX). destruct (PS y (or_intror I)) as (IY & NY). apply (later_iff _ _ _ _ NY NX).
    specialize (FS y I). apply Z.leb_le in FS. destruct (Z.eq_dec (fst x) (fst y)) as [EQ|]; [|lia]. exfalso. rewrite EQ in NX.
    rewrite (U (snd x) (snd y) _ IX IY NX NY) in H1. apply H1. apply in_map, in_map, I.
Qed.

(** ** Incumbents *)
Definition before_ok (l : fl) (l1 : list trial) : Prop := forall u l', In u l1 -> has_loss u l' -> fl_lt l l' \/ l' = FNaN.
Lemma has_loss_fun t l l' : has_loss t l -> has_loss t l' -> l = l'.
Proof. intros (r & E & L) (r' & E' & L'). congruence. Qed.
Lemma incumbents_ok L : all_losses L -> forall best, best <> FNaN -> exists is, incumbents best L = Ok is /\
  (forall t, In t is <-> exists l1 l2 l, L = l1 ++ t :: l2 /\ has_loss t l /\ fl_lt l best /\ before_ok l l1) /\
  (forall R, StronglySorted R L -> StronglySorted R is).
Proof.
  induction L as [|x L IH]; intros AL best NB.
  - exists []. split; [reflexivity|]. split; [|intros; constructor]. intros t. split; [intros []|]. intros (l1 & l2 & l & E & _). destruct l1; discriminate.
  - assert (AL' : all_losses L) by (intros t r I; apply AL; right; exact I). cbn [incumbents].
    assert (SUB : forall b is, (forall t, In t is <-> exists l1 l2 l, L = l1 ++ t :: l2 /\ has_loss t l /\ fl_lt l b /\ before_ok l l1) -> incl is L).
    { intros b is H t I. apply H in I. destruct I as (l1 & l2 & l & -> & _). apply in_or_app. right. left. reflexivity. }
    destruct (t_report x) as [r|] eqn:TR.
    + destruct (AL x r (or_introl eq_refl) TR) as (lx & LX). rewrite LX. assert (HX : has_loss x lx) by (exists r; auto).
      destruct (fl_ltb lx best) eqn:LT.
      * assert (NX : lx <> FNaN) by (intros ->; discriminate LT).
        destruct (IH AL' lx NX) as (is & E & H & SS). rewrite E. cbn [bind]. exists (x :: is). split; [reflexivity|]. split.
        -- intros t. split.
           ++ intros [<-|I]; [exists [], L, lx; split; [reflexivity|]; split; [exact HX|]; split; [apply ltb_iff, LT|intros u l' []]|].
              apply H in I. destruct I as (l1 & l2 & l & -> & HL & LL & B). exists (x :: l1), l2, l. split; [reflexivity|]. split; [exact HL|].
              split; [eapply lt_trans; [exact LL|apply ltb_iff, LT]|]. intros u l' [<-|J] HU; [|apply (B u l' J HU)]. left. rewrite <- (has_loss_fun _ _ _ HX HU). exact LL.
           ++ intros (l1 & l2 & l & EQ & HL & LL & B). destruct l1 as [|y l1]; injection EQ as <- ->; [left; reflexivity|right]. apply H.
              exists l1, l2, l. split; [reflexivity|]. split; [exact HL|]. split; [|intros u l' J; apply B; right; exact J].
              destruct (B x lx (or_introl eq_refl) HX) as [Y|Y]; [exact Y|contradiction].
        -- intros R S. inversion S; subst. constructor; [apply SS; assumption|]. rewrite Forall_forall in *. intros t I. apply H3. apply (SUB _ _ H), I.
      * destruct (IH AL' best NB) as (is & E & H & SS). rewrite E. exists is. split; [reflexivity|]. split.
        -- intros t. rewrite H. split.
           ++ intros (l1 & l2 & l & -> & HL & LL & B). exists (x :: l1), l2, l. split; [reflexivity|]. split; [exact HL|]. split; [exact LL|].
              intros u l' [<-|J] HU; [|apply (B u l' J HU)]. rewrite <- (has_loss_fun _ _ _ HX HU).
              destruct (not_lt_cases _ _ LT NB) as [->|LE]; [right; reflexivity|left]. eapply lt_le; eassumption.
           ++ intros (l1 & l2 & l & EQ & HL & LL & B). destruct l1 as [|y l1]; injection EQ as <- ->.
              ** exfalso. rewrite (has_loss_fun _ _ _ HL HX) in LL. apply ltb_iff in LL. congruence.
              ** exists l1, l2, l. split; [reflexivity|]. split; [exact HL|]. split; [exact LL|]. intros u l' J. apply B. right. exact J.
        -- intros R S. inversion S; subst. apply SS. assumption.
    + destruct (IH AL' best NB) as (is & E & H & SS). rewrite E. exists is. split; [reflexivity|]. split.
      * intros t. rewrite H. split.
        -- intros (l1 & l2 & l & -> & HL & LL & B). exists (x :: l1), l2, l. split; [reflexivity|]. split; [exact HL|]. split; [exact LL|].
           intros u l' [<-|J] HU; [|apply (B u l' J HU)]. destruct HU as (r & E1 & _). congruence.
        -- intros (l1 & l2 & l & EQ & HL & LL & B). destruct l1 as [|y l1]; injection EQ as <- ->.
           ++ exfalso. destruct HL as (r & E1 & _). congruence.
           ++ exists l1, l2, l. split; [reflexivity|]. split; [exact HL|]. split; [exact LL|]. intros u l' J. apply B. right. exact J.
      * intros R S. inversion S; subst. apply SS. assumption.
Qed.
Lemma incumbents_spec ts : numbered ts -> all_losses ts -> exists all is, by_id ts = Ok all /\ incumbents FPInf all = Ok is /\
  Permutation all ts /\ StronglySorted (fun a b => later b a) all /\ (forall t, In t is <-> incumbent ts t) /\ StronglySorted (fun a b => later b a) is.
Proof.
  intros NB AL. destruct (by_id_ok ts NB) as (all & E & P & S). pose proof NB as (N & U & ND).
  destruct (incumbents_ok all) with (best := FPInf) as (is & EI & H & SS); [intros t r I; apply AL; eapply Permutation_in; eassumption|discriminate|].
  exists all, is. split; [exact E|]. split; [exact EI|]. split; [exact P|]. split; [exact S|]. split; [|apply SS, S].
  intros t. rewrite H. split.
  - intros (l1 & l2 & l & EQ & HL & LL & B). assert (IT : In t ts) by (eapply Permutation_in; [exact P|]; rewrite EQ; apply in_or_app; right; left; reflexivity).
    destruct (N t IT) as (n & NT). split; [exact IT|]. exists n, l. split; [exact NT|]. split; [exact HL|]. split; [exact LL|].
    intros u m l' IU NU LU HU. apply (B u l'); [|exact HU]. apply (Permutation_in u (Permutation_sym P)) in IU. rewrite EQ in IU, S. apply in_app_iff in IU.
    destruct IU as [IU|[<-|IU]]; [exact IU|rewrite (id_unique _ _ _ NU NT) in LU; lia|]. exfalso.
    apply sorted_app in S. destruct S as (_ & S & _). inversion S; subst. rewrite Forall_forall in *. specialize (H3 u IU). apply (later_iff _ _ _ _ NU NT) in H3. lia.
  - intros (IT & n & l & NT & HL & LL & B). pose proof IT as IT'. apply (Permutation_in t (Permutation_sym P)) in IT'. apply in_split in IT'. destruct IT' as (l1 & l2 & EQ).
    exists l1, l2, l. split; [exact EQ|]. split; [exact HL|]. split; [exact LL|]. intros u l' I HU.
    assert (IU : In u ts) by (eapply Permutation_in; [exact P|]; rewrite EQ; apply in_or_app; left; exact I).
    destruct (N u IU) as (m & NU). apply (B u m l' IU NU); [|exact HU]. rewrite EQ in S. apply sorted_app in S. destruct S as (_ & _ & S).
    specialize (S u t I (or_introl eq_refl)). apply (later_iff _ _ _ _ NT NU) in S. exact S.
Qed.
Lemma lines_rows is : (forall t, In t is -> exists l, has_loss t l) -> Forall2 row_for (rev is) (lines is).
Proof.
  intros H. unfold lines. assert (H' : forall t, In t (rev is) -> exists l, has_loss t l) by (intros t I; apply H, in_rev, I). revert H'. generalize (rev is) as L.
  induction L as [|t L IH]; intros H'; cbn; constructor.
  - destruct (H' t (or_introl eq_refl)) as (l & r & E & LL). rewrite E, LL. exists l. split; [reflexivity|]. exists r. auto.
  - apply IH. intros u I. apply H'. right. exact I.
Qed.
Lemma results_table ts : numbered ts -> all_losses ts -> exists rows is, show_results ts false = Ok (Table rows) /\
  Forall2 row_for is rows /\ (forall t, In t is <-> incumbent ts t) /\ StronglySorted later is.
Proof.
  intros NB AL. destruct (incumbents_spec ts NB AL) as (all & is & E & EI & P & S & H & SI). exists (lines is), (rev is).
  unfold show_results. rewrite E. cbn [bind]. rewrite EI. cbn [bind]. split; [reflexivity|]. split.
  - apply lines_rows. intros t I. apply H in I. destruct I as (_ & n & l & _ & L & _). exists l. exact L.
  - split; [intros t; rewrite <- in_rev; apply H|]. apply sorted_rev in SI. exact SI.
Qed.

(** ** The plot *)
Lemma number_perm P ts ts' n : Permutation ts ts' -> number_of P ts n -> number_of P ts' n.
Proof.
  intros E. revert n. induction E; intros n H; [exact H| | |auto].
  - inversion H; subst; constructor; auto.
  - inversion H; subst; match goal with X : number_of P (_ :: _) _ |- _ => inversion X; subst end; auto using no_yes, no_no.
Qed.
Lemma number_all (P : trial -> Prop) l n : (forall t, In t l -> P t) -> forall r, number_of P r n -> number_of P (l ++ r) (length l + n).
Proof. intros H r R. induction l as [|t l IH]; [exact R|]. cbn. constructor; [apply H; left; reflexivity|]. apply IH. intros u I. apply H. right. exact I. Qed.
Lemma number_none (P : trial -> Prop) l : (forall t, In t l -> ~ P t) -> number_of P l 0.
Proof. intros H. induction l as [|t l IH]; constructor; [apply H; left; reflexivity|]. apply IH. intros u I. apply H. right. exact I. Qed.
Lemma position_at id l1 t l2 n : t_id t = id -> ~ In id (map t_id l2) -> ~ In id (map t_id l1) -> position id (l1 ++ t :: l2) n = Some (n + length l1).
Proof.
  intros E N2. revert n. induction l1 as [|x l1 IH]; intros n N1.
  - cbn [app]. assert (X : forall m, position id l2 m = None).
    { clear -N2. induction l2 as [|y l2 IH]; intros m; [reflexivity|]. cbn. rewrite IH by (intros I; apply N2; right; exact I).
      destruct (String.eqb_spec (t_id y) id); [exfalso; apply N2; left; exact e|reflexivity]. }
    cbn [position]. rewrite X, E, String.eqb_refl. f_equal. cbn. lia.
  - cbn [app position]. rewrite IH by (intros I; apply N1; right; exact I). f_equal. cbn. lia.
Qed.
Lemma rank_at ts all t l1 l2 : numbered ts -> Permutation all ts -> StronglySorted (fun a b => later b a) all -> all = l1 ++ t :: l2 -> rank ts t (1 + length l1).
Proof.
  intros (N & U & ND) P S ->. assert (NT : forall u, In u (l1 ++ t :: l2) -> exists n, id_number u n) by (intros u I; apply N; eapply Permutation_in; eassumption).
  destruct (NT t (in_elt t l1 l2)) as (n & T). apply sorted_app in S. destruct S as (_ & S & X). inversion S; subst. rewrite Forall_forall in H2.
  apply (number_perm _ _ _ _ P). rewrite Nat.add_comm. apply number_all.
  - intros u I L. specialize (X u t I (or_introl eq_refl)). destruct (NT u (in_or_app _ _ _ (or_introl I))) as (m & M). apply (later_iff _ _ _ _ M T) in L. apply (later_iff _ _ _ _ T M) in X. lia.
  - constructor; [intros L; apply (later_iff _ _ _ _ T T) in L; lia|]. apply number_none. intros u I K. apply K, H2, I.
Qed.
Lemma results_plot ts : numbered ts -> all_losses ts -> exists xs ys is, show_results ts true = Ok (Plot xs ys) /\
  Forall2 (rank ts) is xs /\ Forall2 has_loss is ys /\ (forall t, In t is <-> incumbent ts t) /\ StronglySorted (fun a b => later b a) is.
Proof.
  intros NB AL. destruct (incumbents_spec ts NB AL) as (all & is & E & EI & P & S & H & SI).
  assert (SUB : forall t, In t is -> In t all) by (intros t I; eapply Permutation_in; [apply Permutation_sym, P|]; apply H in I; apply I).
  assert (ND : NoDup (map t_id all)) by (eapply Permutation_NoDup; [apply Permutation_map, Permutation_sym, P|apply NB]).
  assert (X : exists xs, plot_x all is = Ok xs /\ Forall2 (rank ts) is xs).
  { unfold plot_x. destruct (mapM_forall (fun t => match position (t_id t) all 1 with Some k => Ok k | None => Err KeyError end) is) as (xs & EX & F).
    - intros t I. apply SUB, in_split in I. destruct I as (l1 & l2 & ->). rewrite map_app in ND. cbn [map] in ND. apply NoDup_remove_2 in ND. rewrite in_app_iff in ND.
      rewrite (position_at (t_id t) l1 t l2 1) by (auto; reflexivity || tauto). eauto.
    - exists xs. split; [exact EX|]. clear EX. revert SUB. clear H SI EI. induction F as [|t k is xs Q F IH]; intros SUB; constructor; [|apply IH; intros; apply SUB; right; assumption].
      pose proof (SUB t (or_introl eq_refl)) as I. apply in_split in I. destruct I as (l1 & l2 & EQ). rewrite EQ in Q, ND. rewrite map_app in ND. cbn [map] in ND. apply NoDup_remove_2 in ND. rewrite in_app_iff in ND.
      rewrite (position_at (t_id t) l1 t l2 1) in Q by (auto; reflexivity || tauto). injection Q as <-. eapply rank_at; eassumption. }
  destruct X as (xs & EX & FX). exists xs, (plot_y is), is. unfold show_results. rewrite E. cbn [bind]. rewrite EI. cbn [bind]. rewrite EX. split; [reflexivity|].
  split; [exact FX|]. split; [|split; assumption]. assert (HL : forall t, In t is -> exists l, has_loss t l) by (intros t I; apply H in I; destruct I as (_ & n & l & _ & L & _); exists l; exact L).
  clear -HL. induction is as [|t is IH]; cbn; [constructor|]. destruct (HL t (or_introl eq_refl)) as (l & r & E & L). rewrite E, L. cbn. constructor; [exists r; auto|].
  apply IH. intros u I. apply HL. right. exact I.
Qed.
Lemma results_order ts ts' plot : numbered ts -> Permutation ts ts' -> show_results ts plot = show_results ts' plot.
Proof.
  intros NB P. assert (NB' : numbered ts').
  { destruct NB as (N & U & ND). split; [intros t I; apply N; eapply Permutation_in; [apply Permutation_sym, P|exact I]|]. split.
    - intros t u n I J. apply U; eapply Permutation_in; try (apply Permutation_sym, P); assumption.
    - eapply Permutation_NoDup; [apply Permutation_map, P|exact ND]. }
  destruct (by_id_ok ts NB) as (all & E & Q & S). destruct (by_id_ok ts' NB') as (all' & E' & Q' & S'). unfold show_results. rewrite E, E'. cbn [bind].
  assert (all = all') as ->; [|reflexivity]. apply (strict_unique (fun a b => later b a)); try assumption.
  - intros x (n & m & A & B & L). rewrite (id_unique _ _ _ A B) in L. lia.
  - intros x y (n & m & A & B & L) (n' & m' & A' & B' & L'). rewrite (id_unique _ _ _ A B') in L. rewrite (id_unique _ _ _ B A') in L. lia.
  - intros x. split; intros I.
    + eapply Permutation_in; [apply Permutation_sym, Q'|]. eapply Permutation_in; [exact P|]. eapply Permutation_in; eassumption.
    + eapply Permutation_in; [apply Permutation_sym, Q|]. eapply Permutation_in; [apply Permutation_sym, P|]. eapply Permutation_in; eassumption.
Qed.

(** ** Status *)
Lemma number_split ts : (forall t r, In t ts -> t_report t = Some r -> plain_report r) -> forall n e, number_of has_report ts n -> number_of erroneous ts e ->
  exists k, n = k + e /\ number_of (fun t => exists l, succeeded t l) ts k.
Proof.
  intros PL. induction ts as [|t ts IH]; intros n e N E.
  - inversion N; inversion E; subst. exists 0. split; [reflexivity|constructor].
  - assert (PL' : forall u r, In u ts -> t_report u = Some r -> plain_report r) by (intros u r I; apply PL; right; exact I).
    inversion N as [|u us k1 HY HN|u us k1 HY HN]; subst; inversion E as [|u us k2 EY EN|u us k2 EY EN]; subst.
    + destruct (IH PL' _ _ HN EN) as (k & -> & K). exists k. split; [lia|]. apply no_no; [|exact K].
      intros (l & r & R & S & _). destruct EY as (r' & R' & X). congruence.
    + destruct (IH PL' _ _ HN EN) as (k & -> & K). exists (S k). split; [lia|]. apply no_yes; [|exact K].
      unfold has_report in HY. destruct (t_report t) as [r|] eqn:R; [|contradiction].
      destruct (r_reported_as r) eqn:RA; try (exfalso; apply EY; exists r; split; [exact R|rewrite RA; discriminate]).
      destruct (PL t r (or_introl eq_refl) R RA) as (L & _). destruct (r_loss r) as [l|] eqn:RL; [|contradiction]. exists l, r. auto.
    + exfalso. apply HY. destruct EY as (r & R & _). unfold has_report. rewrite R. discriminate.
    + destruct (IH PL' _ _ HN EN) as (k & -> & K). exists k. split; [reflexivity|]. apply no_no; [|exact K].
      intros (l & r & R & _). apply HY. unfold has_report. rewrite R. discriminate.
Qed.
Lemma state_eqb_iff a b : tstate_eqb a b = true <-> a = b.
Proof. destruct a, b; cbn; split; intros H; try discriminate; reflexivity. Qed.
Lemma number_state x ts : number_of (fun t => t_state t = x) ts (length (filter (fun t => tstate_eqb (t_state t) x) ts)).
Proof.
  induction ts as [|t ts IH]; [constructor|]. cbn [filter]. destruct (tstate_eqb (t_state t) x) eqn:E.
  - cbn. apply no_yes; [apply state_eqb_iff, E|exact IH].
  - apply no_no; [|exact IH]. intros X. apply state_eqb_iff in X. congruence.
Qed.
Lemma newest_perm ts : Permutation (newest_first ts) ts.
Proof. apply sorted_perm. Qed.
Lemma newest_sorted ts : times ts -> StronglySorted (fun a b => ~ newer b a) (newest_first ts).
Proof.
  intros T. unfold newest_first. eapply sorted_weaken; [|apply (sorted_sorted (fun t => m_time_sampled (t_meta t) <> FNaN))].
  - intros x y _ _ H N. cbn in H. apply negb_true_iff in H. apply ltb_iff in N. congruence.
  - intros x y _ _ H. apply negb_false_iff in H. apply negb_true_iff. destruct (fl_ltb (m_time_sampled (t_meta y)) (m_time_sampled (t_meta x))) eqn:E; [|reflexivity].
    apply ltb_iff in H, E. pose proof (lt_trans _ _ _ H E) as (_ & X). exfalso. apply X. apply (lt_trans _ _ _ H E).
  - intros x y z DX DY DZ H K. apply negb_true_iff in H, K. apply negb_true_iff. destruct (fl_ltb (m_time_sampled (t_meta x)) (m_time_sampled (t_meta z))) eqn:E; [|reflexivity].
    apply ltb_iff in E. destruct (not_lt_cases _ _ H DY) as [X|X]; [contradiction|].
    destruct (not_lt_cases _ _ K DZ) as [Y|Y]; [contradiction|]. exfalso.
    assert (Z1 : fl_lt (m_time_sampled (t_meta x)) (m_time_sampled (t_meta y))) by (eapply lt_le; eassumption). apply ltb_iff in Z1. congruence.
  - apply Forall_forall. exact T.
Qed.
Lemma nodup_sub l ts : NoDup (map t_id ts) -> Permutation l ts -> forall p, NoDup (map t_id (filter p l)).
Proof.
  intros ND P p. assert (X : NoDup (map t_id l)) by (eapply Permutation_NoDup; [apply Permutation_map, Permutation_sym, P|exact ND]).
  clear -X. induction l as [|t l IH]; [constructor|]. cbn in *. inversion X; subst. destruct (p t); [|auto]. cbn. constructor; [|auto]. intros I. apply H1.
  apply in_map_iff in I. destruct I as (u & E & I). apply filter_In in I. apply in_map_iff. exists u. tauto.
Qed.
Lemma state_listed x ts : NoDup (map t_id ts) -> times ts -> all_in_state x ts (filter (fun t => tstate_eqb (t_state t) x) (newest_first ts)).
Proof.
  intros ND T. split; [eapply nodup_sub; [exact ND|apply newest_perm]|]. split; [|apply sorted_filter, newest_sorted, T].
  intros t. rewrite filter_In, state_eqb_iff. split; intros (I & S); split; auto; eapply Permutation_in; try exact I; [|apply Permutation_sym]; apply newest_perm.
Qed.
Lemma first_listed k ts : NoDup (map t_id ts) -> times ts -> newest_of k ts (firstn k (newest_first ts)).
Proof.
  intros ND T. pose proof (newest_sorted ts T) as S. pose proof (newest_perm ts) as P. rewrite <- (firstn_skipn k (newest_first ts)) in S. apply sorted_app in S. destruct S as (S & _ & X).
  split; [rewrite firstn_length, (Permutation_length P); reflexivity|]. split.
  - assert (Y : NoDup (map t_id (newest_first ts))) by (eapply Permutation_NoDup; [apply Permutation_map, Permutation_sym, P|exact ND]).
    rewrite <- (firstn_skipn k (newest_first ts)), map_app in Y. clear -Y. induction (map t_id (firstn k (newest_first ts))) as [|x l IH]; [constructor|]. cbn in Y. inversion Y; subst.
    constructor; [|auto]. intros I. apply H1. apply in_or_app. left. exact I.
  - split; [|split; [exact S|]].
    + intros t I. eapply Permutation_in; [exact P|]. rewrite <- (firstn_skipn k (newest_first ts)). apply in_or_app. left. exact I.
    + intros t u I J N. apply X; [exact I|]. apply (Permutation_in _ (Permutation_sym P)) in J. rewrite <- (firstn_skipn k (newest_first ts)) in J. apply in_app_iff in J. tauto.
Qed.
Lemma listed_ok a ts : NoDup (map t_id ts) -> times ts -> lists_as a ts (listed a ts).
Proof.
  intros ND T. unfold lists_as, listed. destruct (sa_pending a); [apply state_listed; assumption|]. destruct (sa_evaluating a); [apply state_listed; assumption|].
  destruct (sa_succeeded a); [apply state_listed; assumption|]. apply first_listed; assumption.
Qed.
Lemma listed_in a ts t : In t (listed a ts) -> In t ts.
Proof.
  intros I. eapply Permutation_in; [apply newest_perm|]. unfold listed in I. destruct (sa_pending a); [apply filter_In in I; apply I|]. destruct (sa_evaluating a); [apply filter_In in I; apply I|].
  destruct (sa_succeeded a); [apply filter_In in I; apply I|]. rewrite <- (firstn_skipn 7). apply in_or_app. left. exact I.
Qed.
Section Shown.
  Variables stamp duration since : fl -> res string.
  Variable pyfloat : pyval -> res fl.
  Local Notation writes := (writes stamp duration since).
  Lemma row_ok t : writable stamp (m_time_sampled (t_meta t)) -> writable since (m_time_sampled (t_meta t)) ->
    (forall d, m_evaluation_duration (t_meta t) = Some d -> writable duration d) ->
    exists r, row_of stamp duration since t = Ok r /\ shows stamp duration since t r.
  Proof.
    intros (a & A) (b & B) D. unfold row_of. rewrite A. cbn [bind].
    assert (HL : forall l, match t_report t with Some r => r_loss r | None => None end = Some l <-> has_loss t l).
    { intros l. unfold has_loss. destruct (t_report t) as [r|]; [|split; [discriminate|intros (r & X & _); discriminate]]. split; [eauto|]. intros (r' & [= <-] & L). exact L. }
    destruct (tstate_eqb (t_state t) PENDING || tstate_eqb (t_state t) EVALUATING) eqn:E.
    - rewrite B. cbn [bind]. eexists. split; [reflexivity|]. repeat (split; [first [reflexivity|exact A|exact HL|auto]|]). cbn. intros N1 N2. exfalso.
      apply orb_true_iff in E. destruct E as [E|E]; apply state_eqb_iff in E; contradiction.
    - assert (NP : t_state t <> PENDING /\ t_state t <> EVALUATING).
      { apply orb_false_iff in E. destruct E as [E1 E2]. split; intros X; apply state_eqb_iff in X; congruence. }
      destruct (m_evaluation_duration (t_meta t)) as [d|] eqn:ED.
      + destruct (D d eq_refl) as (c & C). destruct (fl_eqb d (FZ 0)) eqn:Z0.
        * cbn [bind]. eexists. split; [reflexivity|]. repeat (split; [first [reflexivity|exact A|exact HL|tauto]|]). cbn. intros _ _ d' EQ N. rewrite ED in EQ. injection EQ as <-. exfalso. apply N.
          destruct d; try discriminate. cbn in Z0. apply Z.eqb_eq in Z0. subst. reflexivity.
        * rewrite C. cbn [bind]. eexists. split; [reflexivity|]. repeat (split; [first [reflexivity|exact A|exact HL|tauto]|]). cbn. intros _ _ d' EQ _. rewrite ED in EQ. injection EQ as <-. exact C.
      + cbn [bind]. eexists. split; [reflexivity|]. repeat (split; [first [reflexivity|exact A|exact HL|tauto]|]). cbn. intros _ _ d' EQ. rewrite ED in EQ. discriminate EQ.
  Qed.
  Lemma rows_ok ts : writes ts -> exists rows, mapM (row_of stamp duration since) ts = Ok rows /\ Forall2 (shows stamp duration since) ts rows.
  Proof.
    intros W. destruct (mapM_forall (row_of stamp duration since) ts) as (rows & E & F).
    - intros t I. destruct (W t I) as (A & B & C). destruct (row_ok t A B C) as (r & R & _). eauto.
    - exists rows. split; [exact E|]. clear E. induction F as [|t r ts rows R F IH]; constructor; [|apply IH; intros u I; apply W; right; exact I].
      destruct (W t (or_introl eq_refl)) as (A & B & C). destruct (row_ok t A B C) as (r' & R' & S). congruence.
  Qed.
  Lemma status_ok : (forall f, pyfloat (VFloat f) = Ok f) -> forall s a alg options, plain_trials (st_trials s) -> times (st_trials s) -> writes (st_trials s) ->
    lookup "searcher_alg" (st_info s) = Some alg -> lookup "searcher_args" (st_info s) = Some (VDict options) ->
    exists o n l, show_status stamp duration since pyfloat s a = Ok o /\ ss_optimizer o = alg /\
      ss_succeeded o = Z.of_nat n /\ number_of (fun t => exists l, succeeded t l) (st_trials s) n /\
      number_of erroneous (st_trials s) (ss_failed o) /\ number_of (fun t => t_state t = EVALUATING) (st_trials s) (ss_active o) /\
      (forall t l, In t (st_trials s) -> succeeded t l -> l <> FNaN -> fl_le (ss_best_loss o) l) /\
      ((ss_best_loss o = FPInf /\ forall b, ss_best o = Some b -> b = None) \/
       (fl_lt (ss_best_loss o) FPInf /\ exists t, In t (st_trials s) /\ succeeded t (ss_best_loss o) /\
          forall b, ss_best o = Some b -> b = Some (t_id t, t_config t))) /\
      lists_as a (st_trials s) l /\ Forall2 (shows stamp duration since) l (ss_rows o) /\
      (a = mkSA false false false -> ss_best o <> None /\ ss_options o = Some options) /\
      ss_pending o = 0 /\ ss_with_worker o = 0.
  Proof.
    intros F s a alg options PL T W A O. destruct (summary_spec pyfloat F _ PL) as (sm & E & NH & NE & LE & B & _ & P0 & P1 & _).
    unfold show_status. rewrite E. cbn [bind]. rewrite A. cbn [bind].
    destruct (rows_ok (listed a (st_trials s))) as (rows & ER & FR); [intros t I; apply W; eapply listed_in, I|]. rewrite ER. cbn [bind]. rewrite O.
    destruct (number_split _ (proj2 PL) _ _ NH NE) as (n & NN & K).
    pose proof (listed_ok a (st_trials s) (proj1 PL) T) as LI. set (L := listed a (st_trials s)) in *. clearbody L.
    destruct a as [[] [] []]; cbn [sa_pending sa_evaluating sa_succeeded negb andb bind].
    all: eexists; exists n, L; split; [reflexivity|].
    all: cbn [ss_optimizer ss_succeeded ss_failed ss_active ss_best_loss ss_best ss_rows ss_options ss_pending ss_with_worker].
    all: split; [reflexivity|]; split; [lia|]; split; [exact K|]; split; [exact NE|]; split; [apply number_state|]; split; [exact LE|].
    all: split; [|split; [exact LI|]; split; [exact FR|]; split; [intros X; first [discriminate X|split; [discriminate|reflexivity]]|split; assumption]].
    all: destruct B as [(B1 & B2)|(B1 & t & I & S & B2)]; [left; split; [exact B1|intros b X; try discriminate X]|right; split; [exact B1|]; exists t; split; [exact I|]; split; [exact S|intros b X; try discriminate X]].
    all: rewrite B2 in X; injection X as <-; reflexivity.
  Qed.

  (** ** info-config *)
  Lemma find_ok id ts : NoDup (map t_id ts) -> (forall t, In t ts -> t_id t = id -> find_trial id ts = Some t) /\ (find_trial id ts = None <-> ~ In id (map t_id ts)).
  Proof.
    intros ND. unfold find_trial. induction ts as [|t ts IH]; [split; [intros ? []|cbn; tauto]|]. cbn in ND. inversion ND; subst. destruct (IH H2) as (IH1 & IH2). cbn [find map]. split.
    - intros u [<-|I] E; [rewrite E, String.eqb_refl; reflexivity|]. destruct (String.eqb_spec (t_id t) id) as [X|X]; [|apply IH1; assumption]. exfalso. apply H1. rewrite X, <- E. apply in_map, I.
    - destruct (String.eqb_spec (t_id t) id) as [X|X]; [split; [discriminate|intros N; exfalso; apply N; left; exact X]|]. rewrite IH2. cbn. tauto.
  Qed.
  Lemma show_ok t a b c d : stamp (m_time_sampled (t_meta t)) = Ok a -> of_time duration (m_evaluation_duration (t_meta t)) = Ok b ->
    of_time stamp (m_time_started (t_meta t)) = Ok c -> of_time stamp (m_time_end (t_meta t)) = Ok d ->
    exists x, show_trial stamp duration t = Ok x /\ sh_id x = t_id t /\ sh_state x = t_state t /\ sh_config x = t_config t /\ sh_location x = m_location (t_meta t) /\
      sh_previous x = m_previous_trial_id (t_meta t) /\ sh_sampler x = m_sampling_worker_id (t_meta t) /\ sh_evaluator x = m_evaluating_worker_id (t_meta t) /\
      sh_sampled x = a /\ sh_duration x = b /\ sh_started x = c /\ sh_end x = d /\
      sh_report x = option_map (fun r => (r_loss r, r_cost r, r_reported_as r)) (t_report t).
  Proof.
    intros A B C D. unfold show_trial. rewrite A. cbn [bind]. rewrite B. cbn [bind]. rewrite C. cbn [bind]. rewrite D. cbn [bind]. eexists. split; [reflexivity|]. cbn.
    repeat (split; [reflexivity|]). destruct (t_report t); reflexivity.
  Qed.
End Shown.

(** ** Directories *)
Lemma make_dirs_made p : made_by_run p -> make_dirs p = p.
Proof.
  intros M. unfold make_dirs. assert (X : forall l, incl l (pl_entries p) -> filter (fun d => negb (existsb (String.eqb d) (pl_entries p))) l = []).
  { induction l as [|d l IH]; intros S; [reflexivity|]. cbn [filter]. rewrite (proj2 (existsb_exists (String.eqb d) (pl_entries p))).
    - cbn [negb]. apply IH. intros y I. apply S. right. exact I.
    - exists d. split; [apply S; left; reflexivity|apply String.eqb_refl]. }
  rewrite X by exact M. rewrite app_nil_r. destruct p; reflexivity.
Qed.

(** ** Which directory *)
Lemma asked_ok w arg d : asked w arg d -> get_root_directory w arg = Ok d.
Proof.
  intros (N & [->|(-> & x & C & L)]); [destruct d; [contradiction|reflexivity]|]. cbn. rewrite C. cbn [bind]. rewrite L. cbn. destruct d; [contradiction|reflexivity].
Qed.
Lemma look_ok w arg d p s : asked w arg d -> lookup d (w_dirs w) = Some p -> pl_state p = Ok s -> snd (look w arg) = Ok (Loaded s).
Proof. intros A L S. unfold look. rewrite (asked_ok _ _ _ A), L, S. reflexivity. Qed.
Lemma snd_let {A B C} (x : A * B) (f : B -> C) : snd (let (a, b) := x in (a, f b)) = f (snd x).
Proof. destruct x. reflexivity. Qed.
Lemma fst_let {A B C} (x : A * B) (f : B -> C) : fst (let (a, b) := x in (a, f b)) = fst x.
Proof. destruct x. reflexivity. Qed.
(** what showing leaves as it was *)
Definition same_world (w w' : world) : Prop := w_config w' = w_config w /\ w_files w' = w_files w /\ forall d, lookup d (w_dirs w') = lookup d (w_dirs w).
Lemma look_same w arg : (forall d p, lookup d (w_dirs w) = Some p -> made_by_run p) -> same_world w (fst (look w arg)).
Proof.
  intros M. unfold look. destruct (get_root_directory w arg) as [d|e]; [|split; [|split]; reflexivity]. destruct (lookup d (w_dirs w)) as [p|] eqn:L; [|split; [|split]; reflexivity].
  split; [reflexivity|]. split; [reflexivity|]. intros x. cbn. rewrite lookup_set_key, (make_dirs_made p (M d p L)). destruct (String.eqb_spec x d) as [->|]; [symmetry; exact L|reflexivity].
Qed.
Lemma incumbents_none L : forall best, (exists t r, In t L /\ t_report t = Some r /\ r_loss r = None) -> incumbents best L = Err TypeError.
Proof.
  induction L as [|x L IH]; intros best (t & r & I & R & N); [destruct I|]. cbn [incumbents]. destruct I as [->|I]; [rewrite R, N; reflexivity|].
  assert (X : forall b, incumbents b L = Err TypeError) by (intros b; apply IH; exists t, r; auto).
  destruct (t_report x) as [rx|]; [|apply X]. destruct (r_loss rx) as [l|]; [|reflexivity]. rewrite !X. destruct (fl_ltb l best); reflexivity.
Qed.
Lemma results_none ts plot : numbered ts -> ((exists t r, In t ts /\ t_report t = Some r /\ r_loss r = None) <-> show_results ts plot = Err TypeError).
Proof.
  intros NB. split.
  - intros (t & r & I & R & N). destruct (by_id_ok ts NB) as (all & E & P & _). unfold show_results. rewrite E. cbn [bind]. rewrite incumbents_none; [reflexivity|].
    exists t, r. split; [eapply Permutation_in; [apply Permutation_sym, P|exact I]|auto].
  - intros H. destruct (existsb (fun t => match t_report t with Some r => match r_loss r with None => true | _ => false end | None => false end) ts) eqn:E.
    + apply existsb_exists in E. destruct E as (t & I & E). destruct (t_report t) as [r|] eqn:R; [|discriminate]. destruct (r_loss r) eqn:L; [discriminate|]. exists t, r. auto.
    + exfalso. assert (AL : all_losses ts).
      { intros t r I R. destruct (r_loss r) as [l|] eqn:L; [eauto|]. exfalso. assert (X : existsb (fun t => match t_report t with Some r => match r_loss r with None => true | _ => false end | None => false end) ts = true)
          by (apply existsb_exists; exists t; rewrite R, L; auto). congruence. }
      destruct plot; [destruct (results_plot ts NB AL) as (xs & ys & is & X & _)|destruct (results_table ts NB AL) as (rows & is & X & _)]; congruence.
Qed.
Lemma lookup_has {A} k (d : list (string * A)) v : lookup k d = Some v -> has_key k d = true.
Proof. unfold has_key. intros ->. reflexivity. Qed.
Section Commands.
  Variables stamp duration since : fl -> res string.
  Variable pyfloat : pyval -> res fl.
  Variable text_of : template -> string.
  Variable markdown : string.
  Local Notation main := (main stamp duration since pyfloat text_of markdown).
  Lemma init_keeps w path t m f :
    let w' := fst (main w (CmdInit path t m)) in
    w_dirs w' = w_dirs w /\ (forall x, lookup f (w_files w) = Some x -> f <> "cli.md" -> lookup f (w_files w') = Some x) /\
    (path = Some f -> f <> "" -> f <> "cli.md" -> lookup f (w_files w) = None -> lookup f (w_dirs w) = None -> lookup f (w_files w') = Some (text_of t)).
  Proof.
    unfold Cli_model.main. cbn [run_command fst]. unfold init_config. cbn [w_files w_dirs w_config].
    set (p := match path with Some (String c s) => String c s | _ => "run_config.yaml" end).
    destruct (has_key p (set_key "cli.md" markdown (w_files w)) || has_key p (w_dirs w)) eqn:E; cbn [w_files w_dirs].
    - split; [reflexivity|]. split.
      + intros x L N. rewrite lookup_set_key. destruct (String.eqb_spec f "cli.md"); [contradiction|exact L].
      + intros -> N1 N2 L1 L2. exfalso. assert (p = f) as -> by (subst p; destruct f; [contradiction|reflexivity]). apply orb_true_iff in E. unfold has_key in E.
        rewrite lookup_set_key, L1, L2 in E. destruct (String.eqb_spec f "cli.md"); [contradiction|]. destruct E; discriminate.
    - apply orb_false_iff in E. destruct E as (E1 & E2). split; [reflexivity|]. split.
      + intros x L N. rewrite lookup_set_key. destruct (String.eqb_spec f p) as [->|]; [|rewrite lookup_set_key; destruct (String.eqb_spec f "cli.md"); [contradiction|exact L]].
        exfalso. unfold has_key in E1. rewrite lookup_set_key in E1. destruct (String.eqb_spec p "cli.md"); [contradiction|]. rewrite L in E1. discriminate.
      + intros -> N1 N2 L1 L2. assert (p = f) as -> by (subst p; destruct f; [contradiction|reflexivity]). rewrite lookup_set_key, String.eqb_refl. reflexivity.
  Qed.
  Lemma commands_read w c : (forall d p, lookup d (w_dirs w) = Some p -> made_by_run p) -> (forall p t m, c <> CmdInit p t m) ->
    let w' := fst (main w c) in
    w_config w' = w_config w /\ (forall f, f <> "cli.md" -> lookup f (w_files w') = lookup f (w_files w)) /\
    forall d, match lookup d (w_dirs w) with
              | None => lookup d (w_dirs w') = None
              | Some p => exists p', lookup d (w_dirs w') = Some p' /\ pl_state p' = pl_state p /\ incl (pl_entries p) (pl_entries p') /\
                  forall e, In e (pl_entries p') -> In e (pl_entries p) \/ (e = "incumbents_evolution.png" /\ exists r, c = CmdResults r true)
              end.
  Proof.
    intros M NI. unfold Cli_model.main. set (w0 := mkWorld (w_config w) (set_key "cli.md" markdown (w_files w)) (w_dirs w)).
    assert (M0 : forall d p, lookup d (w_dirs w0) = Some p -> made_by_run p) by exact M.
    assert (K : forall w1, same_world w0 w1 -> w_config w1 = w_config w /\ (forall f, f <> "cli.md" -> lookup f (w_files w1) = lookup f (w_files w)) /\
      forall d, match lookup d (w_dirs w) with
                | None => lookup d (w_dirs w1) = None
                | Some p => exists p', lookup d (w_dirs w1) = Some p' /\ pl_state p' = pl_state p /\ incl (pl_entries p) (pl_entries p') /\
                    forall e, In e (pl_entries p') -> In e (pl_entries p) \/ (e = "incumbents_evolution.png" /\ exists r, c = CmdResults r true)
                end).
    { intros w1 (C & F & D). split; [exact C|]. split.
      - intros f N. rewrite F. cbn. rewrite lookup_set_key. destruct (String.eqb_spec f "cli.md"); [contradiction|reflexivity].
      - intros d. rewrite D. cbn [w0 w_dirs]. destruct (lookup d (w_dirs w)) as [p|]; [|reflexivity]. exists p. split; [reflexivity|]. split; [reflexivity|]. split; [apply incl_refl|auto]. }
    assert (FL : forall A B (x : world * res A) (f : res A -> B), fst (let (a, b) := x in (a, f b)) = fst x) by (intros A B [? ?] f; reflexivity).
    destruct c as [p t m|r id|r|r a|r plot|]; cbn [run_command].
    - exfalso. exact (NI p t m eq_refl).
    - rewrite FL. unfold info_config. rewrite FL. apply K, look_same, M0.
    - rewrite FL. unfold errors_command. rewrite FL. apply K, look_same, M0.
    - rewrite FL. unfold status. rewrite FL. apply K, look_same, M0.
    - pose proof (look_same w0 r M0) as S. assert (S' : same_world w0 (fst (results w0 r plot))) by (unfold results; rewrite FL; exact S).
      destruct (results w0 r plot) as (w1, o) eqn:R. cbn [fst] in *.
      destruct o as [[| |rows|xs ys]|e]; try (apply K, S'). assert (plot = true) as ->.
      { destruct plot; [reflexivity|exfalso]. unfold results in R. destruct (look w0 r) as (w2, q). injection R as _ R. destruct q as [[| |s]|]; cbn in R; try discriminate.
        unfold show_results in R. destruct (by_id (st_trials s)); cbn in R; [|discriminate]. destruct (incumbents FPInf a); cbn in R; discriminate. }
      destruct (get_root_directory w0 r) as [dir|e]; [|apply K, S']. unfold add_entry. destruct (lookup dir (w_dirs w1)) as [p1|] eqn:L1; [|apply K, S'].
      destruct (K w1 S') as (K1 & K2 & K3). split; [exact K1|]. split; [exact K2|]. intros d. cbn [w_dirs]. rewrite lookup_set_key. specialize (K3 d).
      destruct (String.eqb_spec d dir) as [->|]; [|exact K3]. destruct S' as (_ & _ & S'). specialize (S' dir). cbn [w0 w_dirs] in S'.
      rewrite L1 in S'. rewrite <- S'. eexists. split; [reflexivity|]. split; [reflexivity|]. cbn [pl_entries].
      destruct (existsb (String.eqb "incumbents_evolution.png") (pl_entries p1)).
      + split; [apply incl_refl|auto].
      + split; [apply incl_appl, incl_refl|]. intros e I. apply in_app_iff in I. destruct I as [I|[<-|[]]]; [auto|right]. split; [reflexivity|]. exists r. reflexivity.
    - apply K. split; [|split]; reflexivity.
  Qed.
End Commands.
