(** Flattening of the YAML file. *)
From Verif Require Import Set_spec Py_proofs.
Local Notation length := List.length.

Lemma has_key_iff {V} k (d : list (string * V)) : has_key k d = true <-> In k (map fst d).
Proof.
  unfold has_key. destruct (lookup k d) as [v|] eqn:L.
  - split; [|auto]. intros _. apply lookup_In in L. apply (in_map fst) in L. exact L.
  - apply lookup_None in L. split; [discriminate|]. intros; contradiction.
Qed.
Lemma set_key_keys {V} k (v : V) d j : In j (map fst (set_key k v d)) <-> j = k \/ In j (map fst d).
Proof.
  induction d as [|(k', v') d IH]; cbn [set_key map In fst]; [intuition|].
  destruct (String.eqb_spec k k') as [->|N]; cbn [map In fst]; [intuition|]. rewrite IH. intuition.
Qed.
Lemma set_key_nodup {V} k (v : V) d : NoDup (map fst d) -> NoDup (map fst (set_key k v d)).
Proof.
  induction d as [|(k', v') d IH]; cbn [set_key map fst]; intros N; [repeat constructor; intros []|].
  inversion N; subst. destruct (String.eqb_spec k k') as [->|NE]; cbn [map fst]; constructor; auto.
  rewrite set_key_keys. intros [->|I]; [congruence|contradiction].
Qed.
Lemma set_key_same {V} k (v : V) d : In k (map fst d) -> map fst (set_key k v d) = map fst d.
Proof.
  induction d as [|(k', v') d IH]; cbn [set_key map fst In]; [intros []|]. intros [->|I].
  - rewrite String.eqb_refl. reflexivity.
  - destruct (String.eqb k k'); [reflexivity|]. cbn [map fst]. f_equal. auto.
Qed.
Lemma update_nodup {V} (e d : list (string * V)) : NoDup (map fst d) -> NoDup (map fst (update d e)).
Proof. revert d. unfold update. induction e as [|(k, v) e IH]; intros d N; cbn [fold_left]; [exact N|]. apply IH, set_key_nodup, N. Qed.
Lemma lookup_update {V} (e d : list (string * V)) k : NoDup (map fst e) ->
  lookup k (update d e) = match lookup k e with Some v => Some v | None => lookup k d end.
Proof.
  revert d. unfold update. induction e as [|(k', v') e IH]; intros d N; cbn [fold_left lookup]; [reflexivity|].
  inversion N; subst. rewrite IH by auto. cbn [fst snd]. rewrite lookup_set_key. destruct (String.eqb_spec k k') as [->|NE]; [|reflexivity].
  assert (L : lookup k' e = None) by (apply lookup_None; auto). rewrite L. reflexivity.
Qed.

(** The loop of [extract], by itself. *)
Fixpoint loop (d leaf sp : dict) {struct d} : dict * dict :=
  match d with
  | [] => (leaf, sp)
  | (k, x) :: d' =>
      if has_key k sp && negb (is_None_str x) then loop d' leaf (set_key k x sp)
      else match x with
           | VDict _ => let '(nl, sp') := extract x sp in loop d' (update leaf nl) sp'
           | VNone => loop d' leaf sp
           | _ => if is_None_str x then loop d' leaf sp else loop d' (set_key k x leaf) sp
           end
  end.
Lemma extract_dict d sp : extract (VDict d) sp = loop d [] sp.
Proof. reflexivity. Qed.
Lemma None_str v : is_None_str v = true <-> v = VStr "None".
Proof.
  destruct v; cbn; split; intros H; try discriminate.
  - apply String.eqb_eq in H. congruence.
  - injection H as ->. reflexivity.
Qed.
Definition specials (sp : dict) : Prop := forall k, In k (map fst sp) <-> special_name k.
Lemma specials_set k v sp : specials sp -> special_name k -> specials (set_key k v sp).
Proof. intros S K j. rewrite set_key_keys, (S j). split; [intros [->|]; auto|auto]. Qed.

Definition flat_ok (d leaf sp leaf' sp' : dict) : Prop :=
  (NoDup (map fst leaf) -> NoDup (map fst leaf')) /\ specials sp' /\
  (forall k v, lookup k leaf' = Some v -> lookup k leaf = Some v \/ exists p, leaf_at d p k v) /\
  (forall k, lookup k leaf <> None -> lookup k leaf' <> None) /\
  (forall k v p, leaf_at d p k v -> lookup k leaf' <> None) /\
  (forall k v, lookup k sp' = Some v -> lookup k sp = Some v \/ exists p, special_at d p k v) /\
  (forall k, lookup k sp' = lookup k sp \/ exists p v, special_at d p k v /\ lookup k sp' = Some v) /\
  (forall k v p, special_at d p k v -> exists v' p', special_at d p' k v' /\ lookup k sp' = Some v').

Lemma leaf_cons kv d p k v : leaf_at d p k v -> leaf_at (kv :: d) p k v.
Proof. intros H. inversion H; subst; [apply leaf_here|eapply leaf_below]; eauto; right; auto. Qed.
Lemma special_cons kv d p k v : special_at d p k v -> special_at (kv :: d) p k v.
Proof. intros H. inversion H; subst; [apply special_here|eapply special_below]; eauto; right; auto. Qed.
Lemma leaf_uncons k0 x d p k v : leaf_at ((k0, x) :: d) p k v -> leaf_at d p k v \/
  (p = [] /\ k = k0 /\ v = x /\ ~ special_name k0 /\ (forall e, x <> VDict e) /\ ~ null x) \/
  (exists e q, x = VDict e /\ p = k0 :: q /\ ~ special_name k0 /\ leaf_at e q k v).
Proof.
  intros H. inversion H as [d0 k1 v1 I S D N|d0 g e q k1 v1 I S L]; subst.
  - destruct I as [[= <- <-]|I]; [right; left; repeat split; auto|left; apply leaf_here; auto].
  - destruct I as [[= <- ->]|I]; [right; right; exists e, q; auto|left; eapply leaf_below; eauto].
Qed.
Lemma special_uncons k0 x d p k v : special_at ((k0, x) :: d) p k v -> special_at d p k v \/
  (p = [] /\ k = k0 /\ v = x /\ special_name k0 /\ x <> VStr "None") \/
  (exists e q, x = VDict e /\ p = k0 :: q /\ ~ special_name k0 /\ special_at e q k v).
Proof.
  intros H. inversion H as [d0 k1 v1 I S D|d0 g e q k1 v1 I S L]; subst.
  - destruct I as [[= <- <-]|I]; [right; left; repeat split; auto|left; apply special_here; auto].
  - destruct I as [[= <- ->]|I]; [right; right; exists e, q; auto|left; eapply special_below; eauto].
Qed.

(** The rest of the loop, after a first item that changes nothing. *)
Lemma flat_skip k x d leaf sp leaf' sp' : flat_ok d leaf sp leaf' sp' -> (forall p j v, leaf_at ((k, x) :: d) p j v -> leaf_at d p j v) ->
  (forall p j v, special_at ((k, x) :: d) p j v -> special_at d p j v) -> flat_ok ((k, x) :: d) leaf sp leaf' sp'.
Proof.
  intros (H1 & H2 & H3 & H4 & H5 & H6 & H7 & H8) HL HS. split; [exact H1|]. split; [exact H2|]. split.
  { intros j v L. destruct (H3 j v L) as [?|(p & P)]; [auto|]. right. exists p. apply leaf_cons, P. }
  split; [exact H4|]. split; [intros j v p P; apply (H5 j v p), HL, P|]. split.
  { intros j v L. destruct (H6 j v L) as [?|(p & P)]; [auto|]. right. exists p. apply special_cons, P. }
  split.
  { intros j. destruct (H7 j) as [?|(p & v & P & L)]; [auto|]. right. exists p, v. split; [apply special_cons, P|exact L]. }
  intros j v p P. destruct (H8 j v p (HS p j v P)) as (v' & p' & P' & L). exists v', p'. split; [apply special_cons, P'|exact L].
Qed.

Lemma loop_ok d : Forall (fun kv => forall sp leaf' sp', specials sp -> extract (snd kv) sp = (leaf', sp') ->
    forall e, snd kv = VDict e -> flat_ok e [] sp leaf' sp') d ->
  forall leaf sp leaf' sp', specials sp -> loop d leaf sp = (leaf', sp') -> flat_ok d leaf sp leaf' sp'.
Proof.
  induction d as [|(k, x) d IH]; intros F leaf sp leaf' sp' S H.
  - injection H as <- <-. split; [auto|]. split; [exact S|]. split; [auto|]. split; [auto|].
    split; [intros k v p L; inversion L as [? ? ? I|? ? ? ? ? ? I]; destruct I|]. split; [auto|].
    split; [auto|]. intros k v p L; inversion L as [? ? ? I|? ? ? ? ? ? I]; destruct I.
  - inversion F as [|? ? FX FD]; subst. cbn [loop] in H. cbn [snd] in FX.
    destruct (has_key k sp && negb (is_None_str x))%bool eqn:B.
    + apply andb_true_iff in B. destruct B as (B1 & B2). apply has_key_iff in B1. apply (S k) in B1.
      assert (NX : x <> VStr "None") by (intros ->; discriminate).
      destruct (IH FD leaf (set_key k x sp) leaf' sp' (specials_set k x sp S B1) H) as (H1 & H2 & H3 & H4 & H5 & H6 & H7 & H8).
      split; [exact H1|]. split; [exact H2|]. split.
      { intros j v L. destruct (H3 j v L) as [?|(p & P)]; [auto|]. right. exists p. apply leaf_cons, P. }
      split; [exact H4|]. split.
      { intros j v p P. apply leaf_uncons in P. destruct P as [P|[(_ & _ & _ & N & _)|(e & q & _ & _ & N & _)]]; [eauto|contradiction|contradiction]. }
      split.
      { intros j v L. destruct (H6 j v L) as [L'|(p & P)]; [|right; exists p; apply special_cons, P].
        rewrite lookup_set_key in L'. destruct (String.eqb_spec j k) as [->|NE]; [|auto]. injection L' as <-. right. exists []. apply special_here; auto. left. reflexivity. }
      split.
      { intros j. destruct (H7 j) as [L'|(p & v & P & L)]; [|right; exists p, v; split; [apply special_cons, P|exact L]].
        rewrite lookup_set_key in L'. destruct (String.eqb j k) eqn:NE; [|left; exact L']. apply String.eqb_eq in NE. rewrite NE in *. right. exists [], x. split; [|exact L']. apply special_here; auto. left. reflexivity. }
      intros j v p P. apply special_uncons in P. destruct P as [P|[(-> & -> & -> & _)|(e & q & _ & _ & N & _)]]; [|(* it *)|contradiction].
      { destruct (H8 j v p P) as (v' & p' & P' & L). exists v', p'. split; [apply special_cons, P'|exact L]. }
      destruct (H7 k) as [L'|(p & v & P & L)].
      * rewrite lookup_set_key, String.eqb_refl in L'. exists x, []. split; [apply special_here; auto; left; reflexivity|exact L'].
      * exists v, p. split; [apply special_cons, P|exact L].
    + assert (NS : special_name k -> x = VStr "None").
      { intros SK. apply (S k) in SK. apply has_key_iff in SK. rewrite SK in B. cbn in B. apply None_str. destruct (is_None_str x); [reflexivity|discriminate]. }
      assert (SKIP : (forall e, x <> VDict e) -> null x -> loop d leaf sp = (leaf', sp') -> flat_ok ((k, x) :: d) leaf sp leaf' sp').
      { intros ND NU H'. apply flat_skip; [apply IH; auto| |].
        - intros p j v P. apply leaf_uncons in P. destruct P as [P|[(_ & _ & _ & _ & _ & N)|(e & q & -> & _)]]; [exact P|contradiction|]. exfalso. eapply ND; eauto.
        - intros p j v P. apply special_uncons in P. destruct P as [P|[(_ & _ & _ & SK & N)|(e & q & -> & _)]]; [exact P| |].
          + exfalso. apply N, NS, SK.
          + exfalso. eapply ND; eauto. }
      assert (SET : (forall e, x <> VDict e) -> ~ null x -> loop d (set_key k x leaf) sp = (leaf', sp') -> flat_ok ((k, x) :: d) leaf sp leaf' sp').
      { intros ND NN H'. assert (NSK : ~ special_name k) by (intros SK; apply NN; right; apply NS, SK).
        destruct (IH FD (set_key k x leaf) sp leaf' sp' S H') as (H1 & H2 & H3 & H4 & H5 & H6 & H7 & H8).
        split; [intros; apply H1, set_key_nodup; auto|]. split; [exact H2|]. split.
        { intros j v L. destruct (H3 j v L) as [L'|(p & P)]; [|right; exists p; apply leaf_cons, P].
          rewrite lookup_set_key in L'. destruct (String.eqb_spec j k) as [->|NE]; [|auto]. injection L' as <-. right. exists []. apply leaf_here; auto. left. reflexivity. }
        split; [intros j L; apply H4; rewrite lookup_set_key; destruct (String.eqb j k); [discriminate|exact L]|]. split.
        { intros j v p P. apply leaf_uncons in P. destruct P as [P|[(_ & -> & _)|(e & q & -> & _)]]; [eauto| |exfalso; eapply ND; eauto].
          apply H4. rewrite lookup_set_key, String.eqb_refl. discriminate. }
        split.
        { intros j v L. destruct (H6 j v L) as [?|(p & P)]; [auto|]. right. exists p. apply special_cons, P. }
        split.
        { intros j. destruct (H7 j) as [?|(p & v & P & L)]; [auto|]. right. exists p, v. split; [apply special_cons, P|exact L]. }
        intros j v p P. apply special_uncons in P. destruct P as [P|[(_ & _ & _ & SK & N)|(e & q & -> & _)]]; [|contradiction|exfalso; eapply ND; eauto].
        destruct (H8 j v p P) as (v' & p' & P' & L). exists v', p'. split; [apply special_cons, P'|exact L]. }
      destruct x as [|b|z|f|s|l|l|e|n]; try (apply SET; [discriminate|intros [X|X]; discriminate|exact H]).
      * apply SKIP; [discriminate|left; reflexivity|exact H].
      * cbn [is_None_str] in H. destruct (String.eqb_spec s "None") as [->|NE]; [apply SKIP; [discriminate|right; reflexivity|exact H]|].
        apply SET; [discriminate|intros [X|[= X]]; [discriminate|contradiction]|exact H].
      * destruct (extract (VDict e) sp) as (nl, sp1) eqn:X.
        destruct (FX sp nl sp1 S X e eq_refl) as (E1 & E2 & E3 & E4 & E5 & E6 & E7 & E8).
        assert (NSK : ~ special_name k) by (intros SK; apply NS in SK; discriminate).
        assert (NDN : NoDup (map fst nl)) by (apply E1; constructor).
        destruct (IH FD (update leaf nl) sp1 leaf' sp' E2 H) as (H1 & H2 & H3 & H4 & H5 & H6 & H7 & H8).
        split; [intros; apply H1, update_nodup; auto|]. split; [exact H2|]. split.
        { intros j v L. destruct (H3 j v L) as [L'|(p & P)]; [|right; exists p; apply leaf_cons, P].
          rewrite lookup_update in L' by exact NDN. destruct (lookup j nl) as [w|] eqn:LN; [|auto]. injection L' as <-.
          destruct (E3 j w LN) as [?|(p & P)]; [discriminate|]. right. exists (k :: p). eapply leaf_below; eauto. left. reflexivity. }
        split; [intros j L; apply H4; rewrite lookup_update by exact NDN; destruct (lookup j nl); [discriminate|exact L]|]. split.
        { intros j v p P. apply leaf_uncons in P. destruct P as [P|[(_ & _ & _ & _ & N & _)|(e' & q & [= <-] & -> & _ & P)]]; [eauto|exfalso; eapply N; reflexivity|].
          apply H4. rewrite lookup_update by exact NDN. specialize (E5 j v q P). destruct (lookup j nl); [discriminate|contradiction]. }
        split.
        { intros j v L. destruct (H6 j v L) as [L'|(p & P)]; [|right; exists p; apply special_cons, P].
          destruct (E6 j v L') as [?|(p & P)]; [auto|]. right. exists (k :: p). eapply special_below; eauto. left. reflexivity. }
        split.
        { intros j. destruct (H7 j) as [L'|(p & v & P & L)]; [|right; exists p, v; split; [apply special_cons, P|exact L]].
          destruct (E7 j) as [L''|(p & v & P & L)]; [left; congruence|]. right. exists (k :: p), v. split; [eapply special_below; eauto; left; reflexivity|congruence]. }
        intros j v p P. apply special_uncons in P. destruct P as [P|[(_ & _ & _ & SK & _)|(e' & q & [= <-] & -> & _ & P)]]; [|contradiction|].
        { destruct (H8 j v p P) as (v' & p' & P' & L). exists v', p'. split; [apply special_cons, P'|exact L]. }
        destruct (H7 j) as [L'|(p & w & P' & L)].
        { destruct (E8 j v q P) as (v' & p' & P' & L). exists v', (k :: p'). split; [eapply special_below; eauto; left; reflexivity|congruence]. }
        exists w, p. split; [apply special_cons, P'|exact L].
Qed.
Lemma extract_ok v : forall sp leaf' sp', specials sp -> extract v sp = (leaf', sp') -> forall d, v = VDict d -> flat_ok d [] sp leaf' sp'.
Proof.
  induction v as [|b|z|f|s|l IH|l IH|d IH|n] using pyval_ind'; try (intros; discriminate).
  intros sp leaf' sp' S H d' [= <-]. rewrite extract_dict in H. eapply loop_ok; eauto.
Qed.
Lemma no_special_ok : specials no_special.
Proof. intros k. unfold special_name. cbn. intuition. Qed.

(** In a well-formed dictionary a path leads to one leaf. *)
Lemma wf_lookup d k v w : wf_val (VDict d) -> In (k, v) d -> In (k, w) d -> v = w.
Proof. intros W I J. apply wf_dict in W. destruct W as (N & _). apply (In_lookup k d v N) in I. apply (In_lookup k d w N) in J. congruence. Qed.
Lemma wf_sub d k v : wf_val (VDict d) -> In (k, v) d -> wf_val v.
Proof. intros W I. apply wf_dict in W. destruct W as (_ & F). rewrite Forall_forall in F. exact (F _ I). Qed.
Lemma leaf_fun d p k v w : wf_val (VDict d) -> leaf_at d p k v -> leaf_at d p k w -> v = w.
Proof.
  intros W H. revert W w. induction H as [d k v I|d g e p k v I S L IH]; intros W w H'; inversion H' as [? ? ? I'|? ? e' ? ? ? I' S' L']; subst.
  - eapply wf_lookup; eauto.
  - assert (E : VDict e = VDict e') by (eapply wf_lookup; eauto). injection E as <-. apply IH; auto. eapply wf_sub; eauto.
Qed.
Lemma special_fun d p k v w : wf_val (VDict d) -> special_at d p k v -> special_at d p k w -> v = w.
Proof.
  intros W H. revert W w. induction H as [d k v I|d g e p k v I S L IH]; intros W w H'; inversion H' as [? ? ? I'|? ? e' ? ? ? I' S' L']; subst.
  - eapply wf_lookup; eauto.
  - assert (E : VDict e = VDict e') by (eapply wf_lookup; eauto). injection E as <-. apply IH; auto. eapply wf_sub; eauto.
Qed.

Lemma flatten_leaf_l d leaf sp : extract_leaf_keys (VDict d) = Ok (leaf, sp) ->
  NoDup (map fst leaf) /\ (forall k v, lookup k leaf = Some v -> exists p, leaf_at d p k v) /\
  (forall p k v, leaf_at d p k v -> exists w, lookup k leaf = Some w).
Proof.
  unfold extract_leaf_keys. intros H. injection H as H. destruct (extract_ok (VDict d) no_special leaf sp no_special_ok H d eq_refl) as (H1 & H2 & H3 & H4 & H5 & _).
  split; [apply H1; constructor|]. split.
  - intros k v L. destruct (H3 k v L) as [?|?]; [discriminate|auto].
  - intros p k v L. specialize (H5 k v p L). destruct (lookup k leaf); [eauto|contradiction].
Qed.
Lemma flatten_leaf_once d leaf sp : wf_val (VDict d) -> leaves_once d -> extract_leaf_keys (VDict d) = Ok (leaf, sp) ->
  forall k v, lookup k leaf = Some v <-> exists p, leaf_at d p k v.
Proof.
  intros W O H k v. destruct (flatten_leaf_l d leaf sp H) as (_ & H1 & H2). split; [apply H1|]. intros (p & P).
  destruct (H2 p k v P) as (w & L). destruct (H1 k w L) as (p' & P'). assert (p = p') as -> by (eapply O; eauto).
  rewrite (leaf_fun d p' k v w W P P'). exact L.
Qed.
Lemma no_special_lookup k : get_special k no_special = None.
Proof.
  unfold get_special. destruct (lookup k no_special) as [v|] eqn:L; [|reflexivity]. apply lookup_In in L. cbn in L.
  destruct L as [[= <- <-]|[[= <- <-]|[[= <- <-]|[[= <- <-]|[]]]]]; reflexivity.
Qed.
Lemma flatten_special_l d leaf sp : extract_leaf_keys (VDict d) = Ok (leaf, sp) ->
  (forall k v, get_special k sp = Some v -> exists p, special_at d p k v) /\
  (forall p k v, special_at d p k v -> exists p' w, special_at d p' k w /\ lookup k sp = Some w).
Proof.
  unfold extract_leaf_keys. intros H. injection H as H. destruct (extract_ok (VDict d) no_special leaf sp no_special_ok H d eq_refl) as (_ & _ & _ & _ & _ & H6 & _ & H8).
  split.
  - intros k v L. assert (L' : lookup k sp = Some v /\ v <> VNone).
    { unfold get_special in L. destruct (lookup k sp) as [[]|]; try discriminate; injection L as <-; split; congruence. }
    destruct L' as (L' & NV). destruct (H6 k v L') as [L0|?]; [|auto].
    assert (X := no_special_lookup k). unfold get_special in X. rewrite L0 in X. destruct v; try discriminate. contradiction.
  - intros p k v P. destruct (H8 k v p P) as (v' & p' & P' & L). eauto.
Qed.
Lemma flatten_special_once d leaf sp : wf_val (VDict d) -> specials_once d -> extract_leaf_keys (VDict d) = Ok (leaf, sp) ->
  forall k v, v <> VNone -> (get_special k sp = Some v <-> exists p, special_at d p k v).
Proof.
  intros W O H k v NV. destruct (flatten_special_l d leaf sp H) as (H1 & H2). split; [apply H1|]. intros (p & P).
  destruct (H2 p k v P) as (p' & w & P' & L). assert (p = p') as -> by (eapply O; eauto).
  rewrite (special_fun d p' k v w W P P'). unfold get_special. rewrite L. rewrite <- (special_fun d p' k v w W P P'). destruct v; try reflexivity. contradiction.
Qed.
