(** Lists, sorting and matrices for the encoder. *)
From Verif Require Import Enc_spec.
From Coq Require Import Permutation.
Open Scope nat_scope.
Local Notation length := List.length.

(** ** Strings *)
Lemma acompare_refl : forall a, Ascii.compare a a = Eq.
Proof. intros a. unfold Ascii.compare. apply N.compare_refl. Qed.
Lemma scompare_refl : forall a, String.compare a a = Eq.
Proof. induction a as [| x a IH]; cbn; [reflexivity |]. rewrite acompare_refl. exact IH. Qed.
Lemma ltb_trans : forall a b c, String.ltb a b = true -> String.ltb b c = true -> String.ltb a c = true.
Proof.
  induction a as [| x a IH]; intros [| y b] [| z c] H1 H2; try discriminate; try reflexivity.
  unfold String.ltb in *. cbn [String.compare] in *.
  destruct (Ascii.compare x y) eqn:E1; destruct (Ascii.compare y z) eqn:E2; try discriminate.
  - apply Ascii.compare_eq_iff in E1. apply Ascii.compare_eq_iff in E2. subst.
    rewrite acompare_refl.
    apply (IH b c); assumption.
  - apply Ascii.compare_eq_iff in E1. subst. rewrite E2. reflexivity.
  - apply Ascii.compare_eq_iff in E2. subst. rewrite E1. reflexivity.
  - unfold Ascii.compare in *. apply N.compare_lt_iff in E1. apply N.compare_lt_iff in E2.
    replace (N.compare (Ascii.N_of_ascii x) (Ascii.N_of_ascii z)) with Lt; [reflexivity |].
    symmetry. apply N.compare_lt_iff. eapply N.lt_trans; eassumption.
Qed.
Lemma ltb_irrefl : forall a, String.ltb a a = false.
Proof.
  intros a. unfold String.ltb. rewrite scompare_refl. reflexivity.
Qed.
Lemma ltb_total : forall a b, a <> b -> String.ltb a b = false -> String.ltb b a = true.
Proof.
  intros a b N H. unfold String.ltb in *. rewrite String.compare_antisym.
  destruct (String.compare a b) eqn:E; try discriminate; try reflexivity.
  apply String.compare_eq_iff in E. contradiction.
Qed.

(** ** Sorting *)
Section Sort.
  Context {A : Type}.
  Implicit Types l : list (string * A).

  Lemma insert_perm : forall k v l, Permutation ((k, v) :: l) (insert_name k v l).
  Proof.
    induction l as [| (k', v') l IH]; cbn [insert_name]; [apply Permutation_refl |].
    destruct (String.ltb k' k); [| apply Permutation_refl].
    eapply perm_trans; [apply perm_swap |]. apply perm_skip. exact IH.
  Qed.
  Lemma sort_perm : forall l, Permutation l (sort_names l).
  Proof.
    induction l as [| (k, v) l IH]; cbn [sort_names]; [apply Permutation_refl |].
    eapply perm_trans; [apply perm_skip; exact IH | apply insert_perm].
  Qed.

  Inductive ordered : list (string * A) -> Prop :=
  | ordered_nil : ordered []
  | ordered_cons k v l : (forall k' v', In (k', v') l -> String.ltb k k' = true) -> ordered l -> ordered ((k, v) :: l).

  Lemma insert_ordered : forall k v l, ~ In k (map fst l) -> ordered l -> ordered (insert_name k v l).
  Proof.
    intros k v l N O. induction O as [| k1 v1 l H O IH]; cbn [insert_name].
    - constructor; [intros ? ? [] | constructor].
    - destruct (String.ltb k1 k) eqn:E.
      + constructor.
        * intros k' v' I. apply (Permutation_in _ (Permutation_sym (insert_perm k v l))) in I.
          destruct I as [I | I]; [injection I as <- <-; exact E | eauto].
        * apply IH. intros I. apply N. right. exact I.
      + assert (L : String.ltb k k1 = true).
        { apply ltb_total; auto. intros ->. apply N. left. reflexivity. }
        constructor; [| constructor; assumption].
        intros k' v' [I | I]; [injection I as <- <-; exact L |]. eapply ltb_trans; eauto.
  Qed.
  Lemma sort_ordered : forall l, NoDup (map fst l) -> ordered (sort_names l).
  Proof.
    induction l as [| (k, v) l IH]; intros N; cbn [sort_names]; [constructor |].
    inversion N as [| ? ? N1 N2]; subst. apply insert_ordered; auto.
    intros I. apply N1. eapply Permutation_in; [| exact I].
    apply Permutation_map, Permutation_sym, sort_perm.
  Qed.
  Lemma ordered_unique : forall l, ordered l -> forall l', ordered l' -> Permutation l l' -> l = l'.
  Proof.
    intros l O. induction O as [| k v l H O IH]; intros l' O' P.
    - apply Permutation_nil in P. congruence.
    - destruct O' as [| k' v' l' H' O'].
      + apply Permutation_sym, Permutation_nil in P. discriminate.
      + assert (E : (k, v) = (k', v')).
        { assert (I : In (k, v) ((k', v') :: l')) by (eapply Permutation_in; [exact P | left; reflexivity]).
          assert (I' : In (k', v') ((k, v) :: l)) by (eapply Permutation_in; [apply Permutation_sym; exact P | left; reflexivity]).
          destruct I as [I | I]; [congruence |]. destruct I' as [I' | I']; [congruence |].
          apply H' in I. apply H in I'. assert (X := ltb_trans _ _ _ I I'). rewrite ltb_irrefl in X. discriminate. }
        injection E as <- <-. f_equal. apply IH; auto. eapply Permutation_cons_inv. exact P.
  Qed.
  Lemma ordered_id : forall l, ordered l -> sort_names l = l.
  Proof.
    intros l O. induction O as [| k v l H O IH]; cbn [sort_names]; [reflexivity |]. rewrite IH.
    destruct l as [| (k', v') l]; cbn [insert_name]; [reflexivity |].
    assert (L := H k' v' (or_introl eq_refl)).
    destruct (String.ltb k' k) eqn:E; [| reflexivity].
    assert (X := ltb_trans _ _ _ L E). rewrite ltb_irrefl in X. discriminate.
  Qed.
  Lemma sort_unique : forall l l', NoDup (map fst l) -> Permutation l l' -> sort_names l = sort_names l'.
  Proof.
    intros l l' N P. apply ordered_unique.
    - apply sort_ordered; auto.
    - apply sort_ordered. eapply Permutation_NoDup; [apply Permutation_map; exact P | exact N].
    - eapply perm_trans; [apply Permutation_sym, sort_perm |]. eapply perm_trans; [exact P | apply sort_perm].
  Qed.
  Lemma ordered_alphabetical : forall l, ordered l -> alphabetical (map fst l).
  Proof.
    intros l O. induction O as [| k v l H O IH]; intros i j a b L I J.
    - destruct i; discriminate.
    - destruct j as [| j]; [lia |]. cbn in J. destruct i as [| i].
      + cbn in I. injection I as <-. apply nth_error_In in J. apply in_map_iff in J.
        destruct J as ((k', v') & <- & J). eapply H; eauto.
      + cbn in I. apply (IH i j); auto. lia.
  Qed.
  Lemma ordered_nodup : forall l, ordered l -> NoDup (map fst l).
  Proof.
    intros l O. induction O as [| k v l H O IH]; cbn; constructor; auto.
    intros I. apply in_map_iff in I. destruct I as ((k', v') & E & I). cbn in E. subst k'.
    apply H in I. rewrite ltb_irrefl in I. discriminate.
  Qed.
End Sort.

Lemma insert_map : forall {A B} (f : string -> A -> B) k v l,
  insert_name k (f k v) (map (fun p => (fst p, f (fst p) (snd p))) l)
  = map (fun p => (fst p, f (fst p) (snd p))) (insert_name k v l).
Proof.
  intros A B f k v l. induction l as [| (k', v') l IH]; cbn; [reflexivity |].
  destruct (String.ltb k' k); cbn; [rewrite IH |]; reflexivity.
Qed.

(** ** mapM *)
Lemma mapM_ok {A B} (f : A -> res B) : forall l r, mapM f l = Ok r <-> Forall2 (fun x y => f x = Ok y) l r.
Proof.
  induction l as [| x l IH]; intros r; cbn [mapM].
  - split; [intros [= <-]; constructor | intros H; inversion H; reflexivity].
  - split.
    + destruct (f x) as [y |] eqn:E; [| discriminate]. cbn [bind].
      destruct (mapM f l) as [ys |] eqn:E'; [| discriminate]. intros [= <-]. constructor; [exact E |].
      apply IH. reflexivity.
    + intros H. inversion H as [| ? y ? ys E F]; subst. rewrite E. apply IH in F. cbn [bind]. rewrite F. reflexivity.
Qed.
Lemma mapM_total {A B} (f : A -> res B) : forall l, (forall x, In x l -> exists y, f x = Ok y) -> exists r, mapM f l = Ok r.
Proof.
  induction l as [| x l IH]; intros H; cbn [mapM]; [eexists; reflexivity |].
  destruct (H x (or_introl eq_refl)) as (y & ->). destruct IH as (r & ->); [intros; apply H; right; auto |].
  eexists. reflexivity.
Qed.
Lemma Forall2_len {A B} (R : A -> B -> Prop) : forall l r, Forall2 R l r -> length l = length r.
Proof. intros l r H. induction H; cbn; congruence. Qed.
Lemma Forall2_weaken {A B} (R S : A -> B -> Prop) : (forall x y, R x y -> S x y) -> forall l r, Forall2 R l r -> Forall2 S l r.
Proof. intros H l r F. induction F; constructor; auto. Qed.
Lemma Forall2_nth {A B} (R : A -> B -> Prop) : forall l r, Forall2 R l r <->
  length l = length r /\ forall i x y, nth_error l i = Some x -> nth_error r i = Some y -> R x y.
Proof.
  intros l r. split.
  - intros H. split; [eapply Forall2_len; eauto |]. induction H as [| x y l r H F IH]; intros [| i] a b Ha Hb; try discriminate.
    + injection Ha as <-. injection Hb as <-. exact H.
    + eapply IH; eauto.
  - revert r. induction l as [| x l IH]; intros [| y r] (L & H); try discriminate; constructor.
    + apply (H 0); reflexivity.
    + apply IH. split; [cbn in L; lia |]. intros i a b Ha Hb. apply (H (S i)); assumption.
Qed.
Lemma nth_some {A} : forall (l : list A) i, i < length l -> exists x, nth_error l i = Some x.
Proof.
  intros l i H. destruct (nth_error l i) eqn:E; [eauto |]. apply nth_error_None in E. lia.
Qed.
Lemma nth_map_seq {A} (f : nat -> A) : forall n k i, i < n -> nth_error (map f (seq k n)) i = Some (f (k + i)).
Proof.
  induction n as [| n IH]; intros k [| i] H; try lia; cbn.
  - f_equal. f_equal. lia.
  - rewrite IH by lia. f_equal. f_equal. lia.
Qed.

(** ** Rows and columns *)
Lemma pick_row {A B C} (R : A -> B -> C -> Prop) (confs : list A) : forall (ts : list B) (cols : list (list C)),
  Forall2 (fun t col => Forall2 (fun c y => R c t y) confs col) ts cols ->
  forall i c, nth_error confs i = Some c -> Forall2 (R c) ts (pick i cols).
Proof.
  intros ts cols H i c N. induction H as [| t col ts cols H F IH]; cbn [pick]; [constructor |].
  apply Forall2_nth in H. destruct H as (L & H).
  destruct (nth_some col i) as (y & Y). { rewrite <- L. apply nth_error_Some. congruence. }
  rewrite Y. constructor; [eapply H; eauto | exact IH].
Qed.
Lemma transpose {A B C} (R : A -> B -> C -> Prop) (confs : list A) (ts : list B) (cols : list (list C)) :
  Forall2 (fun t col => Forall2 (fun c y => R c t y) confs col) ts cols ->
  Forall2 (fun c row => Forall2 (R c) ts row) confs (map (fun i => pick i cols) (seq 0 (length confs))).
Proof.
  intros H. apply Forall2_nth. split; [rewrite map_length, seq_length; reflexivity |].
  intros i c row N M. rewrite nth_map_seq in M by (apply nth_error_Some; congruence).
  injection M as <-. eapply pick_row; eauto.
Qed.
Lemma Forall2_fun {A B} (R : A -> B -> Prop) : (forall x y z, R x y -> R x z -> y = z) ->
  forall l r r', Forall2 R l r -> Forall2 R l r' -> r = r'.
Proof.
  intros F l r r' H. revert r'. induction H as [| x y l r H G IH]; intros r' H'; inversion H'; subst; [reflexivity |].
  f_equal; eauto.
Qed.

Section Encode.
  Context {T : Type} (A : arith T) (heq : hval T -> hval T -> bool) (hashable : hval T -> bool).
  Notation encode := (encode A heq hashable).
  Notation encode_one := (encode_one A heq hashable).
  Notation decode := (decode A).
  Notation decode_one := (decode_one A).

  Definition cell (conf : list (string * hval T)) (nt : string * transformer (T := T)) (y : T) : Prop :=
    exists v, lookup (fst nt) conf = Some v /\ encode_one (snd nt) v = Ok y.

  Lemma getitem_ok : forall name (conf : list (string * hval T)) v, getitem name conf = Ok v <-> lookup name conf = Some v.
  Proof.
    intros name conf v. unfold getitem. destruct (lookup name conf); split; congruence.
  Qed.
  Lemma column_ok : forall nt confs col,
    bind (mapM (getitem (fst nt)) confs) (mapM (encode_one (snd nt))) = Ok col <-> Forall2 (fun c y => cell c nt y) confs col.
  Proof.
    intros nt confs. induction confs as [| c confs IH]; intros col; cbn [mapM bind].
    - split; [intros [= <-]; constructor | intros H; inversion H; reflexivity].
    - split.
      + destruct (getitem (fst nt) c) as [v |] eqn:G; [| discriminate]. cbn [bind].
        destruct (mapM (getitem (fst nt)) confs) as [vs |] eqn:M; [| discriminate]. cbn [bind mapM] in *.
        destruct (encode_one (snd nt) v) as [y |] eqn:E; [| discriminate]. cbn [bind].
        destruct (mapM (encode_one (snd nt)) vs) as [ys |]; [| discriminate]. intros [= <-].
        constructor; [exists v; split; [apply getitem_ok; exact G | exact E] | apply IH; reflexivity].
      + intros H. inversion H as [| ? y ? ys (v & L & E) F]; subst.
        apply IH in F. apply getitem_ok in L. rewrite L. cbn [bind].
        destruct (mapM (getitem (fst nt)) confs) as [vs |]; [| discriminate]. cbn [bind mapM] in *.
        rewrite E. cbn [bind]. rewrite F. reflexivity.
  Qed.
  Lemma cell_fun : forall c nt y z, cell c nt y -> cell c nt z -> y = z.
  Proof. intros c nt y z (v & L & E) (w & L' & E'). congruence. Qed.

  (** The tensor, row by row. *)
  Lemma encode_rows : forall e confs x, encode e confs = Ok x <->
    Forall2 (fun c row => Forall2 (cell c) (transformers e) row) confs x.
  Proof.
    intros e confs.
    assert (FW : forall x, encode e confs = Ok x -> Forall2 (fun c row => Forall2 (cell c) (transformers e) row) confs x).
    { intros x H. unfold Enc_model.encode in H.
      destruct (mapM _ (transformers e)) as [cols |] eqn:M; [| discriminate]. injection H as <-.
      apply transpose. apply mapM_ok in M.
      eapply Forall2_weaken; [| exact M]. intros nt col H. apply column_ok. exact H. }
    intros x. split; [apply FW |]. intros H.
    assert (O : exists cols, mapM (fun t => bind (mapM (getitem (fst t)) confs) (mapM (encode_one (snd t)))) (transformers e) = Ok cols).
    { apply mapM_total. intros nt I. apply In_nth_error in I. destruct I as (j & I).
      assert (X : exists col, Forall2 (fun c y => cell c nt y) confs col).
      { clear FW. induction H as [| c row confs x H F IH]; [exists []; constructor |].
        destruct IH as (col & IH). apply Forall2_nth in H. destruct H as (L & H).
        destruct (nth_some row j) as (y & Y). { rewrite <- L. apply nth_error_Some. congruence. }
        exists (y :: col). constructor; [eapply H; eauto | exact IH]. }
      destruct X as (col & X). exists col. apply column_ok. exact X. }
    destruct O as (cols & O). assert (E : encode e confs = Ok (map (fun i => pick i cols) (seq 0 (length confs)))).
    { unfold Enc_model.encode. rewrite O. reflexivity. }
    rewrite E. f_equal. apply FW in E. eapply Forall2_fun; [| exact E | exact H].
    intros c r r' R R'. eapply Forall2_fun; [| exact R | exact R']. intros. eapply cell_fun; eauto.
  Qed.

  (** ** Decoding *)
  Definition dcell (j : nat) (t : transformer (T := T)) (row : list T) (v : hval T) : Prop :=
    exists y, nth_error row j = Some y /\ decode_one t y = Ok v.

  Lemma dcolumn_ok : forall j t x vs,
    bind (mapM (fun row => match nth_error row j with Some v => Ok v | None => Err IndexError end) x)
         (mapM (decode_one t)) = Ok vs <-> Forall2 (dcell j t) x vs.
  Proof.
    intros j t x. induction x as [| row x IH]; intros vs; cbn [mapM bind].
    - split; [intros [= <-]; constructor | intros H; inversion H; reflexivity].
    - split.
      + destruct (nth_error row j) as [y |] eqn:N; [| discriminate]. cbn [bind].
        destruct (mapM _ x) as [ys |] eqn:M; [| discriminate]. cbn [bind mapM] in *.
        destruct (decode_one t y) as [v |] eqn:E; [| discriminate]. cbn [bind].
        destruct (mapM (decode_one t) ys) as [ws |]; [| discriminate]. intros [= <-].
        constructor; [exists y; auto | apply IH; reflexivity].
      + intros H. inversion H as [| ? v ? ws (y & N & E) F]; subst. rewrite N. cbn [bind].
        apply IH in F. destruct (mapM _ x) as [ys |]; [| discriminate]. cbn [bind mapM] in *.
        rewrite E. cbn [bind]. rewrite F. reflexivity.
  Qed.

  Definition dvals (j : nat) (ts : list (string * transformer (T := T))) (x : list (list T)) (vals : list (string * list (hval T))) : Prop :=
    length vals = length ts /\
    forall k name t, nth_error ts k = Some (name, t) ->
      exists vs, nth_error vals k = Some (name, vs) /\ Forall2 (dcell (j + k) t) x vs.
  Lemma decode_cols_ok : forall ts j x vals, decode_cols A j ts x = Ok vals <-> dvals j ts x vals.
  Proof.
    induction ts as [| (name, t) ts IH]; intros j x vals; cbn [decode_cols].
    - split.
      + intros [= <-]. split; [reflexivity |]. intros [| k] ? ? H; discriminate.
      + intros (L & _). destruct vals; [reflexivity | discriminate].
    - split.
      + destruct (mapM _ x) as [col |] eqn:M; [| discriminate]. cbn [bind].
        destruct (mapM (decode_one t) col) as [vs |] eqn:D; [| discriminate]. cbn [bind].
        destruct (decode_cols A (S j) ts x) as [rest |] eqn:R; [| discriminate]. intros [= <-].
        apply IH in R. destruct R as (L & R). split; [cbn; congruence |].
        intros [| k] n t' H.
        * cbn in H. injection H as <- <-. exists vs. split; [reflexivity |].
          apply dcolumn_ok. replace (j + 0) with j by lia. rewrite M. exact D.
        * cbn in H. apply R in H. destruct H as (ws & H & F). exists ws. split; [exact H |].
          replace (j + S k) with (S j + k) by lia. exact F.
      + intros (L & H). destruct vals as [| (n0, vs0) rest]; [discriminate |].
        destruct (H 0 name t eq_refl) as (vs & E & F). cbn in E. injection E as -> ->.
        replace (j + 0) with j in F by lia. apply dcolumn_ok in F.
        destruct (mapM _ x) as [col |]; [| discriminate]. cbn [bind] in *. rewrite F. cbn [bind].
        assert (R : decode_cols A (S j) ts x = Ok rest).
        { apply IH. split; [cbn in L; lia |]. intros k n t' N. destruct (H (S k) n t' N) as (ws & E & F').
          exists ws. split; [exact E |]. replace (S j + k) with (j + S k) by lia. exact F'. }
        rewrite R. reflexivity.
  Qed.

  Lemma set_key_new : forall {B} k (v : B) d, ~ In k (map fst d) -> set_key k v d = d ++ [(k, v)].
  Proof.
    intros B k v d. induction d as [| (k', v') d IH]; intros N; cbn [set_key]; [reflexivity |].
    destruct (String.eqb_spec k k') as [-> | _]; [elim N; left; reflexivity |].
    cbn. f_equal. apply IH. intros I. apply N. right. exact I.
  Qed.
  Lemma update_new : forall {B} (new d : list (string * B)),
    NoDup (map fst new) -> (forall k, In k (map fst new) -> ~ In k (map fst d)) -> update_dict d new = d ++ new.
  Proof.
    intros B new. unfold update_dict. induction new as [| (k, v) new IH]; intros d N H; cbn [fold_left].
    - rewrite app_nil_r. reflexivity.
    - inversion N as [| ? ? N1 N2]; subst. cbn [fst snd]. rewrite set_key_new by (apply H; left; reflexivity).
      rewrite IH.
      + rewrite <- app_assoc. reflexivity.
      + exact N2.
      + intros k' I J. rewrite map_app in J. apply in_app_or in J. destruct J as [J | [J | []]].
        * eapply H; [right; exact I | exact J].
        * cbn in J. subst k'. contradiction.
  Qed.

  (** A dictionary of columns, and the dictionary of one row. *)
  Lemma pick_lookup : forall (values : list (string * list (hval T))) i,
    Forall (fun kv => i < length (snd kv)) values -> forall name,
    lookup name (combine (map fst values) (pick i (map snd values)))
    = match lookup name values with Some vs => nth_error vs i | None => None end.
  Proof.
    intros values i H name. induction H as [| (k, vs) values L F IH]; cbn [map pick fst snd]; [reflexivity |].
    cbn [snd] in L. destruct (nth_some vs i L) as (v & V). rewrite V. cbn [combine lookup].
    destruct (String.eqb name k); [symmetry; exact V | exact IH].
  Qed.
  Lemma pick_keys : forall (values : list (string * list (hval T))) i,
    Forall (fun kv => i < length (snd kv)) values ->
    map fst (combine (map fst values) (pick i (map snd values))) = map fst values.
  Proof.
    intros values i H. induction H as [| (k, vs) values L F IH]; cbn [map pick fst snd]; [reflexivity |].
    cbn [snd] in L. destruct (nth_some vs i L) as (v & ->). cbn [combine map fst]. f_equal. exact IH.
  Qed.
  Lemma lookup_app : forall {B} name (a b : list (string * B)),
    lookup name (a ++ b) = match lookup name a with Some v => Some v | None => lookup name b end.
  Proof.
    intros B name a b. induction a as [| (k, v) a IH]; cbn; [reflexivity |].
    destruct (String.eqb name k); auto.
  Qed.
  Lemma lookup_none : forall {B} name (d : list (string * B)), ~ In name (map fst d) -> lookup name d = None.
  Proof.
    intros B name d. induction d as [| (k, v) d IH]; intros N; cbn; [reflexivity |].
    destruct (String.eqb_spec name k) as [-> | _]; [elim N; left; reflexivity |]. apply IH. intros I. apply N. right. exact I.
  Qed.
  Lemma lookup_nodup : forall {B} (d : list (string * B)) i name v,
    NoDup (map fst d) -> nth_error d i = Some (name, v) -> lookup name d = Some v.
  Proof.
    intros B d. induction d as [| (k, w) d IH]; intros [| i] name v N H; try discriminate; cbn.
    - cbn in H. injection H as <- <-. rewrite String.eqb_refl. reflexivity.
    - inversion N as [| ? ? N1 N2]; subst. destruct (String.eqb_spec name k) as [-> | _].
      + elim N1. apply in_map_iff. exists (k, v). split; [reflexivity |]. eapply nth_error_In. exact H.
      + eapply IH; eauto.
  Qed.
  Lemma lookup_in : forall {B} name (d : list (string * B)) v, lookup name d = Some v -> In (name, v) d.
  Proof.
    intros B name d v. induction d as [| (k, w) d IH]; cbn; [discriminate |].
    destruct (String.eqb_spec name k) as [-> | _]; [intros [= ->]; left; reflexivity | right; auto].
  Qed.
  Lemma lookup_map : forall {B C} (f : B -> C) name (d : list (string * B)),
    lookup name (map (fun kv => (fst kv, f (snd kv))) d) = option_map f (lookup name d).
  Proof.
    intros B C f name d. induction d as [| (k, w) d IH]; cbn; [reflexivity |].
    destruct (String.eqb name k); auto.
  Qed.

  (** Decoding, row by row. *)
  Lemma decode_rows : forall e x,
    NoDup (map fst (transformers e)) -> NoDup (map fst (constants e)) ->
    (forall k, In k (map fst (constants e)) -> ~ In k (map fst (transformers e))) ->
    (transformers e <> [] \/ constants e <> []) ->
    (forall row k name t, In row x -> nth_error (transformers e) k = Some (name, t) -> exists v, dcell k t row v) ->
    exists back, decode e x = Ok back /\
      Forall2 (fun row b =>
        map fst b = map fst (transformers e) ++ map fst (constants e) /\
        (forall k name t, nth_error (transformers e) k = Some (name, t) ->
           exists v, dcell k t row v /\ lookup name b = Some v) /\
        (forall name c, lookup name (constants e) = Some c -> lookup name b = Some c)) x back.
  Proof.
    intros e x NT NC D NE H.
    assert (V : exists vals, decode_cols A 0 (transformers e) x = Ok vals).
    { cut (forall ts j, (forall row k name t, In row x -> nth_error ts k = Some (name, t) -> exists v, dcell (j + k) t row v) ->
             exists vals, decode_cols A j ts x = Ok vals).
      { intros X. apply X. exact H. }
      induction ts as [| (name, t) ts IH]; intros j G; [eexists; reflexivity |].
      destruct (IH (S j)) as (rest & R).
      { intros row k n t' I N. replace (S j + k) with (j + S k) by lia. eapply G; eauto. }
      assert (C : exists vs, Forall2 (dcell j t) x vs).
      { assert (G0 : forall row, In row x -> exists v, dcell j t row v).
        { intros row I. destruct (G row 0 name t I eq_refl) as (v & ?). exists v.
          replace j with (j + 0) by lia. assumption. }
        clear - G0. induction x as [| row x IHx]; [exists []; constructor |].
        destruct IHx as (vs & IHx); [intros; apply G0; right; auto |].
        destruct (G0 row (or_introl eq_refl)) as (v & V). exists (v :: vs). constructor; auto. }
      destruct C as (vs & C). apply dcolumn_ok in C. cbn [decode_cols].
      destruct (mapM _ x) as [col |]; [| discriminate]. cbn [bind] in *. rewrite C. cbn [bind]. rewrite R.
      eexists. reflexivity. }
    destruct V as (vals & V). unfold Enc_model.decode. rewrite V. cbn [bind].
    apply decode_cols_ok in V. destruct V as (L & V).
    assert (KV : map fst vals = map fst (transformers e)).
    { apply nth_ext with (d := EmptyString) (d' := EmptyString); [rewrite !map_length; exact L |].
      intros k Hk. rewrite map_length in Hk.
      destruct (nth_some (transformers e) k) as ((name, t) & N); [lia |].
      destruct (V k name t N) as (vs & N' & _).
      rewrite (nth_error_nth (map fst vals) k EmptyString (x := name)) by (rewrite nth_error_map, N'; reflexivity).
      rewrite (nth_error_nth (map fst (transformers e)) k EmptyString (x := name)) by (rewrite nth_error_map, N; reflexivity).
      reflexivity. }
    set (cs := map (fun c => (fst c, repeat (snd c) (length x))) (constants e)).
    assert (KC : map fst cs = map fst (constants e)) by (unfold cs; rewrite map_map; reflexivity).
    rewrite update_new by (rewrite ?KC; auto; rewrite KV; auto).
    assert (LEN : forall i, i < length x -> Forall (fun kv => i < length (snd kv)) (vals ++ cs)).
    { intros i Hi. apply Forall_app. split.
      - apply Forall_forall. intros (n, vs) I. apply In_nth_error in I. destruct I as (k & I).
        destruct (nth_some (transformers e) k) as ((name, t) & N).
        { rewrite <- L. apply nth_error_Some. congruence. }
        destruct (V k name t N) as (ws & N' & F). rewrite I in N'. injection N' as -> ->.
        apply Forall2_len in F. cbn [snd]. lia.
      - apply Forall_forall. intros (n, vs) I. apply in_map_iff in I. destruct I as ((n', c) & E & I).
        injection E as <- <-. cbn [snd]. rewrite repeat_length. exact Hi. }
    assert (NN : vals ++ cs <> []).
    { intros E. apply app_eq_nil in E. destruct E as (E1 & E2). subst vals.
      destruct NE as [NE | NE]; apply NE.
      - destruct (transformers e); [reflexivity | discriminate L].
      - destruct (constants e); [reflexivity | discriminate E2]. }
    exists (map (fun i => combine (map fst (vals ++ cs)) (pick i (map snd (vals ++ cs)))) (seq 0 (length x))).
    split. { destruct (vals ++ cs); [contradiction | reflexivity]. }
    apply Forall2_nth. split; [rewrite map_length, seq_length; reflexivity |].
    intros i row b N M. assert (Hi : i < length x) by (apply nth_error_Some; congruence).
    rewrite nth_map_seq in M by exact Hi. injection M as <-. cbn [plus].
    split; [rewrite pick_keys by auto; rewrite map_app, KV, KC; reflexivity |]. split.
    - intros k name t E. rewrite pick_lookup by auto. destruct (V k name t E) as (vs & N' & F).
      apply Forall2_nth in F. destruct F as (LF & F).
      destruct (nth_some vs i) as (v & NV); [lia |]. exists v. split; [eapply F; eauto |].
      rewrite lookup_app, (lookup_nodup vals k name vs); [exact NV | rewrite KV; exact NT | exact N'].
    - intros name c E. rewrite pick_lookup by auto. rewrite lookup_app.
      assert (I : In name (map fst (constants e))).
      { apply lookup_in in E. apply in_map_iff. exists (name, c). auto. }
      rewrite (lookup_none name vals); [| rewrite KV; auto].
      unfold cs. rewrite (lookup_map (fun v => repeat v (length x))), E. cbn [option_map].
      apply nth_error_repeat. exact Hi.
  Qed.
End Encode.
